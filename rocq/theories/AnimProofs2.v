(** More proofs about saving and loading: names of files, and the files. *)
From Verif Require Import AnimModel AnimSpec XpSpec XpProofs SerProofs AnimProofs.
From Coq Require Import Lia ZifyN ZifyBool Permutation.
Local Open Scope N_scope.

(** ** Names of files *)

Lemma last_part_spec : forall x acc, ~ In 47 acc ->
  exists dir, rev acc ++ x = dir ++ last_part x acc /\ (dir = [] \/ exists d, dir = d ++ [47]) /\ ~ In 47 (last_part x acc).
Proof.
  induction x as [|c x IH]; intros acc H; cbn [last_part].
  - exists []. rewrite app_nil_r. split; [reflexivity|]. split; [now left|]. now rewrite <- in_rev.
  - destruct (c =? 47) eqn:E.
    + apply N.eqb_eq in E. subst c. destruct (IH [] (fun f => f)) as (d & A & B & C). cbn [rev app] in A.
      exists (rev acc ++ 47 :: d). rewrite <- app_assoc. cbn [app]. rewrite <- A. split; [reflexivity|]. split; [|exact C]. right.
      destruct B as [->|(d' & ->)]; [now exists (rev acc)|]. exists (rev acc ++ 47 :: d'). now rewrite <- app_assoc.
    + destruct (IH (c :: acc)) as (d & A & B & C); [intros [F|F]; [lia|auto]|]. exists d. split; [|auto]. rewrite <- A. cbn [rev]. now rewrite <- app_assoc.
Qed.
Lemma last_part_plain : forall x acc, ~ In 47 x -> last_part x acc = rev acc ++ x.
Proof.
  induction x as [|c x IH]; intros acc H; cbn [last_part]; [now rewrite app_nil_r|]. destruct (c =? 47) eqn:E; [exfalso; apply H; left; lia|].
  rewrite IH by (intros F; apply H; now right). cbn [rev]. now rewrite <- app_assoc.
Qed.
Lemma last_part_dir : forall d x acc, last_part (d ++ 47 :: x) acc = last_part x [].
Proof.
  induction d as [|c d IH]; intros x acc; cbn [app last_part]; [reflexivity|]. destruct (c =? 47); apply IH.
Qed.
Lemma span_stop f x c y : Forall (fun c => f c = true) x -> f c = false -> span f (x ++ c :: y) = (x, c :: y).
Proof.
  intros H Hc. induction H as [|d x Hd H IH]; cbn [app span]; [now rewrite Hc|]. now rewrite Hd, IH.
Qed.
Lemma span_spec f x : Forall (fun c => f c = true) (fst (span f x)) /\ x = fst (span f x) ++ snd (span f x) /\ match snd (span f x) with c :: _ => f c = false | [] => True end.
Proof.
  induction x as [|c x (A & B & C)]; cbn [span]; [repeat split; constructor|]. destruct (f c) eqn:E; [|cbn; auto].
  destruct (span f x) as [a b]. cbn [fst snd] in *. split; [now constructor|]. split; [now rewrite B|exact C].
Qed.

Lemma lower_back e c : In c e -> In (lower_char c) (lower e).
Proof. apply in_map. Qed.
Lemma ext_iff x e : e <> [] -> ~ In 46 e -> ~ In 47 e -> (has_extension x e <-> lower (split_ext x) = 46 :: e).
Proof.
  intros He Hd Hs. split.
  - intros (dir & stem & e' & -> & El & Dir & Hst & (c & Hc & Nc)). unfold split_ext.
    assert (E1 : ~ In 46 e') by (intros F; apply Hd; rewrite <- El; exact (lower_back e' 46 F)).
    assert (E2 : ~ In 47 e') by (intros F; apply Hs; rewrite <- El; exact (lower_back e' 47 F)).
    assert (L : last_part (dir ++ stem ++ 46 :: e') [] = stem ++ 46 :: e').
    { assert (P : last_part (stem ++ 46 :: e') [] = stem ++ 46 :: e').
      { apply last_part_plain. intros F. apply in_app_or in F as [F|[F|F]]; [auto|discriminate|auto]. }
      destruct Dir as [->|(d & ->)]; [exact P|]. rewrite <- app_assoc. cbn [app]. now rewrite last_part_dir. }
    rewrite L. rewrite rev_app_distr. cbn [rev]. rewrite <- app_assoc. cbn [app]. rewrite span_stop; [|apply Forall_rev; apply Forall_forall; intros z Hz; assert (z <> 46) by (intros ->; auto); lia|reflexivity].
    replace (forallb (fun c0 => c0 =? 46) (rev stem)) with false.
    { rewrite rev_involutive. cbn [lower map]. now rewrite <- El. }
    symmetry. apply not_true_iff_false. intros F. rewrite forallb_forall in F. specialize (F c). rewrite <- in_rev in F. specialize (F Hc). lia.
  - unfold split_ext. intros H. destruct (last_part_spec x [] (fun f => f)) as (dir & A & B & C). cbn [rev app] in A.
    set (p := last_part x []) in *. destruct (span (fun c => negb (c =? 46)) (rev p)) as [q d] eqn:E.
    pose proof (span_spec (fun c => negb (c =? 46)) (rev p)) as (S1 & S2 & S3). rewrite E in S1, S2, S3. cbn [fst snd] in *.
    destruct d as [|c d]; [discriminate|]. destruct (forallb (fun c => c =? 46) d) eqn:Ed; [discriminate|]. cbn [lower map] in H. injection H as H.
    assert (c = 46) by lia. subst c. assert (P : p = rev d ++ 46 :: rev q).
    { rewrite <- (rev_involutive p), S2, rev_app_distr. cbn [rev]. now rewrite <- app_assoc. }
    exists dir, (rev d), (rev q). split; [now rewrite <- P|]. split; [exact H|]. split; [exact B|]. split.
    + intros F. apply C. rewrite P. apply in_or_app. now left.
    + assert (X : exists c, In c d /\ (c =? 46) = false).
      { clear -Ed. induction d as [|c d IH]; [discriminate|]. cbn [forallb] in Ed. destruct (c =? 46) eqn:E; [|exists c; split; [now left|exact E]].
        destruct (IH Ed) as (z & A & B). exists z. split; [now right|exact B]. }
      destruct X as (c & X1 & X2). exists c. split; [now rewrite <- in_rev|lia].
Qed.

Ltac no_char := intros Hin; cbv in Hin; repeat destruct Hin as [Hin|Hin]; try discriminate Hin; exact Hin.
Lemma sif_iff x : has_extension x (s "sif") <-> lower (split_ext x) = 46 :: s "sif".
Proof. apply ext_iff; [discriminate|no_char|no_char]. Qed.
Lemma sifz_iff x : has_extension x (s "sifz") <-> lower (split_ext x) = 46 :: s "sifz".
Proof. apply ext_iff; [discriminate|no_char|no_char]. Qed.
Lemma sfg_iff x : has_extension x (s "sfg") <-> lower (split_ext x) = 46 :: s "sfg".
Proof. apply ext_iff; [discriminate|no_char|no_char]. Qed.

Lemma kind_sif x : has_extension x (s "sif") -> kind_by_name x = Ok FSif.
Proof. intros H. apply sif_iff in H. unfold kind_by_name. rewrite H. reflexivity. Qed.
Lemma kind_sifz x : has_extension x (s "sifz") -> kind_by_name x = Ok FSifz.
Proof. intros H. apply sifz_iff in H. unfold kind_by_name. rewrite H. reflexivity. Qed.
Lemma kind_sfg x : has_extension x (s "sfg") -> kind_by_name x = Ok FSfg.
Proof. intros H. apply sfg_iff in H. unfold kind_by_name. rewrite H. reflexivity. Qed.
Lemma kind_by_name_named x kd : kind_named x kd -> kind_by_name x = Ok kd.
Proof. intros [[-> H]|[-> H]]; [now apply kind_sif|now apply kind_sifz]. Qed.

Lemma split_ext_dot x : split_ext x = [] \/ exists e, split_ext x = 46 :: e.
Proof.
  unfold split_ext. destruct (span _ _) as [q d]. destruct d as [|c d]; [now left|]. destruct (forallb _ d); [now left|right; eauto].
Qed.
Lemma kind_cases x :
  (kind_by_name x = Ok FSif /\ has_extension x (s "sif")) \/ (kind_by_name x = Ok FSifz /\ has_extension x (s "sifz")) \/
  (kind_by_name x = Ok FSfg /\ has_extension x (s "sfg")) \/
  (kind_by_name x = Err ValueError /\ ~ has_extension x (s "sif") /\ ~ has_extension x (s "sifz") /\ ~ has_extension x (s "sfg")).
Proof.
  rewrite sif_iff, sifz_iff, sfg_iff. unfold kind_by_name. destruct (split_ext_dot x) as [->|(e & ->)].
  - right. right. right. split; [reflexivity|]. repeat split; discriminate.
  - change (lower (46 :: e)) with (46 :: lower e). cbv iota. destruct (pstr_eqb (lower e) (s "sif")) eqn:E1.
    { apply pstr_eqb_spec in E1. rewrite E1. auto. }
    destruct (pstr_eqb (lower e) (s "sifz")) eqn:E2. { apply pstr_eqb_spec in E2. rewrite E2. auto. }
    destruct (pstr_eqb (lower e) (s "sfg")) eqn:E3. { apply pstr_eqb_spec in E3. rewrite E3. auto. }
    right. right. right. split; [reflexivity|].
    assert (G : forall y, pstr_eqb (lower e) y = false -> 46 :: lower e <> 46 :: y) by (intros y Hy HH; injection HH as HH; rewrite HH, pstr_eqb_refl in Hy; discriminate).
    repeat split; apply G; assumption.
Qed.
Lemma kind_by_name_ok x kd : kind_by_name x = Ok kd -> kd = FSfg \/ kind_named x kd.
Proof.
  destruct (kind_cases x) as [[-> H]|[[-> H]|[[-> H]|[-> H]]]]; intros [= <-]; auto; right; [left|right]; auto.
Qed.

(** ** Writing *)

Lemma esc_good c : xml_char c = true -> good_text (esc c).
Proof.
  intros H. unfold esc. destruct (c =? 38); [repeat constructor|]. destruct (c =? 60); [repeat constructor|]. destruct (c =? 62); repeat constructor. exact H.
Qed.
Lemma text_good x : good_text x -> good_text (text_out x).
Proof. intros H. apply Forall_flat_map. eapply Forall_impl; [|exact H]. intros; now apply esc_good. Qed.
Lemma attr_good x : good_text x -> good_text (attr_out x).
Proof.
  intros H. unfold attr_out. assert (Q : forall q y, xml_char q = true -> good_text y -> good_text ([q] ++ y ++ [q])).
  { intros q y Hq Hy. constructor; [exact Hq|]. apply Forall_app; split; [exact Hy|]. now repeat constructor. }
  destruct (existsb (N.eqb 34) x); [destruct (existsb (N.eqb 39) x)|]; apply Q; try reflexivity; try now apply text_good.
  apply Forall_flat_map. eapply Forall_impl; [|exact H]. intros c Hc. cbv beta. destruct (c =? 34); [repeat constructor|now apply esc_good].
Qed.
Lemma name_good x : good_name x -> good_text x.
Proof. intros [_ H]. eapply Forall_impl; [|exact H]. cbv beta. tauto. Qed.
Lemma attrs_good a : good_attrs a -> good_text (attrs_out a).
Proof.
  intros H. destruct (good_sorted a H) as [G _]. unfold attrs_out. fold (sorted a). apply Forall_flat_map. eapply Forall_impl; [|exact G].
  intros [k v] [A B]. cbn [fst snd] in *. constructor; [reflexivity|]. apply Forall_app; split; [now apply name_good|]. constructor; [reflexivity|]. now apply attr_good.
Qed.
Lemma node_good void n : writable n -> good_text (node_out void n).
Proof.
  induction n as [x|nm a k IH] using node_ind'; intros W; [now apply text_good|]. apply writable_El in W as (Wn & Wa & Wk). cbn [node_out].
  constructor; [reflexivity|]. apply Forall_app; split; [now apply name_good|]. apply Forall_app; split; [now apply attrs_good|].
  assert (T : good_text ([60; 47] ++ nm ++ [62])).
  { constructor; [reflexivity|]. constructor; [reflexivity|]. apply Forall_app; split; [now apply name_good|]. now repeat constructor. }
  assert (K : good_text ([62] ++ flat_map (node_out void) k ++ [60; 47] ++ nm ++ [62])).
  { constructor; [reflexivity|]. apply Forall_app; split; [|exact T]. apply Forall_flat_map. unfold all_writable in Wk. rewrite Forall_forall in *. intros c Hc. apply IH; auto. }
  destruct k; [|exact K]. destruct (void nm a); [repeat constructor|]. constructor; [reflexivity|exact T].
Qed.
Lemma decl_good : good_text decl.
Proof. unfold good_text. apply Forall_forall. intros c Hc. apply (proj1 (forallb_forall xml_char decl) eq_refl c Hc). Qed.

Lemma doc_encodes void n : writable n -> exists b, utf8_out (doc_out void n) = Some b.
Proof. intros W. apply utf8_out_xml. apply Forall_app; split; [exact decl_good|now apply node_good]. Qed.

Lemma aget_aset_same {V} k (v : V) d : aget k (aset k v d) = Some v.
Proof. induction d as [|[k' v'] d IH]; cbn [aset aget]; [now rewrite pstr_eqb_refl|]. destruct (pstr_eqb k k') eqn:E; cbn [aget]; [now rewrite pstr_eqb_refl|]. now rewrite E, IH. Qed.
Lemma aget_aset_other {V} k j (v : V) d : j <> k -> aget j (aset k v d) = aget j d.
Proof.
  intros H. assert (N : pstr_eqb j k = false) by (apply not_true_iff_false; intros E; apply pstr_eqb_spec in E; auto).
  induction d as [|[k' v'] d IH]; cbn [aset aget]; [now rewrite N|]. destruct (pstr_eqb k k') eqn:E; cbn [aget].
  - apply pstr_eqb_spec in E. subst k'. now rewrite N.
  - now rewrite IH.
Qed.
Lemma only_aset x f fs : only_changes x fs (aset x f fs).
Proof. intros y Hy. now apply aget_aset_other. Qed.

Section Files.
  Context (void : pstr -> attrs -> bool) (can : pstr -> bool).

  Lemma save_as_writes fs a x kd : kind_named x kd -> can x = true -> writable (am_root a) ->
    exists b, utf8_out (doc_out void (am_root a)) = Some b /\
      save void can fs a (Some x) = (aset x (in_format kd b) fs, mkAnim (am_root a) kd (Some x), Ok tt).
  Proof.
    intros Hk Hc W. destruct (doc_encodes void _ W) as [b Hb]. exists b. split; [exact Hb|]. unfold save. rewrite (kind_by_name_named x kd Hk).
    unfold format_save, write_doc. cbn [am_kind am_file am_root]. rewrite Hc, Hb. destruct Hk as [[-> _]|[-> _]]; reflexivity.
  Qed.
  Lemma save_writes fs a x kd : am_kind a = kd -> kd = FSif \/ kd = FSifz -> am_file a = Some x -> can x = true -> writable (am_root a) ->
    exists b, utf8_out (doc_out void (am_root a)) = Some b /\ save void can fs a None = (aset x (in_format kd b) fs, a, Ok tt).
  Proof.
    intros Hk Hk2 Hf Hc W. destruct (doc_encodes void _ W) as [b Hb]. exists b. split; [exact Hb|]. unfold save, format_save, write_doc. rewrite Hk, Hf, Hc, Hb.
    destruct Hk2; subst; rewrite H; reflexivity.
  Qed.

  Lemma written_magic n b : utf8_out (doc_out void n) = Some b -> firstn 2 b = s "<?".
  Proof.
    unfold doc_out. rewrite utf8_out_app. assert (utf8_out decl = Some decl) as -> by (vm_compute; reflexivity).
    destruct (utf8_out (node_out void n)); [|discriminate]. intros [= <-]. reflexivity.
  Qed.
  Lemma load_written fs x kd n b : kd = FSif \/ kd = FSifz -> aget x fs = Some (in_format kd b) -> writable n -> is_tag n = true ->
    utf8_out (doc_out void n) = Some b -> load fs x = Ok (mkAnim (reload n) kd (Some x)).
  Proof.
    intros Hk Hx W Ht Hb. unfold load. rewrite Hx. destruct n as [|nm a k]; [discriminate|].
    assert (P : forall e, parse_bytes e b = Ok (reload (El nm a k))).
    { intros e. unfold parse_bytes. rewrite (decode_out _ _ Hb). unfold parse_doc. now rewrite doc_in_out. }
    destruct Hk; subst kd; cbn [in_format].
    - unfold kind_by_magic, magic. rewrite (written_magic _ _ Hb). change (match s "<?" with [] => Err ValueError | _ => _ end) with (Ok FSif). cbn [bind main_file]. now rewrite P.
    - change (kind_by_magic (Gz b)) with (Ok FSifz). cbn [bind main_file]. now rewrite P.
  Qed.

  Lemma load_is fs x a : load fs x = Ok a -> am_file a = Some x /\ writable (am_root a) /\ settled (am_root a) /\ is_tag (am_root a) = true /\
    (am_kind a = FSif /\ (exists b, aget x fs = Some (Raw b)) \/ am_kind a = FSifz /\ (exists b, aget x fs = Some (Gz b))).
  Proof.
    unfold load. destruct (aget x fs) as [f|]; [|discriminate]. destruct (kind_by_magic f) as [kd|]; [|discriminate]. cbn [bind].
    destruct (main_file kd f) as [n|] eqn:E; [|discriminate]. intros [= <-]. cbn [am_file am_root am_kind]. split; [reflexivity|].
    assert (P : forall e b, parse_bytes e b = Ok n -> writable n /\ settled n /\ is_tag n = true).
    { intros e b. unfold parse_bytes, parse_doc. destruct (decode b) as [y|]; [|discriminate]. destruct (doc_in y) as [m|] eqn:Ed; [|discriminate]. intros [= <-]. now apply doc_in_ok in Ed. }
    destruct kd, f as [b|b]; try discriminate; cbn [main_file] in E; destruct (P _ b E) as (P1 & P2 & P3); repeat (split; [assumption|]); [left|right]; split; eauto.
  Qed.

  (** ** What is written, in any case *)

  Lemma write_doc_only fs kd x n : only_changes x fs (fst (write_doc void can fs kd x n)).
  Proof.
    unfold write_doc. destruct (can x); [|intros y _; reflexivity]. destruct (utf8_out (doc_out void n)); apply only_aset.
  Qed.
  Lemma write_states_only fs kd x n fs' : In fs' (write_states void can fs kd x n) -> only_changes x fs fs'.
  Proof.
    unfold write_states. intros [<-|H]; [intros y _; reflexivity|]. destruct (can x); [|destruct H]. destruct (utf8_out (doc_out void n)).
    - destruct kd; try (apply in_map_iff in H as (i & <- & _); apply only_aset). repeat destruct H as [<-|H]; try apply only_aset. destruct H.
    - repeat destruct H as [<-|H]; try apply only_aset. destruct H.
  Qed.
End Files.
