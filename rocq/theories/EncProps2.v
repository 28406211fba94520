(** C174: saving and loading again and again in a locale that isn't UTF-8. *)
From Verif Require Import AnimModel XpSpec XpProofs SerProofs AnimSpec AnimProofs AnimProofs2 AnimProofs3 AnimProofs5 AnimProps EncModel EncSpec EncProofs EncProps.
From Coq Require Import Lia Permutation.
Local Open Scope N_scope.

(** How many characters outside ASCII there are in a document *)
Definition outside (x : pstr) : nat := length (filter (fun c => 128 <=? c) x).
Fixpoint outsiders (n : node) : nat :=
  match n with
  | Txt x => outside x
  | El nm a k => outside nm + list_sum (map (fun kv => outside (fst kv) + outside (aval_str (snd kv))) a) + list_sum (map outsiders k)
  end%nat.
(** Saving the animation in its file and loading that, [k] times *)
Inductive rounds (dec : list N -> option pstr) (void : pstr -> attrs -> bool) (can : pstr -> bool) (x : pstr) : nat -> files -> anim -> files -> anim -> Prop :=
| rounds_none fs a : rounds dec void can x 0 fs a fs a
| rounds_more k fs a fs1 a1 a2 fs' a' : save void can fs a None = (fs1, a1, Ok tt) -> load_in dec fs1 x = Ok a2 -> rounds dec void can x k fs1 a2 fs' a' ->
    rounds dec void can x (S k) fs a fs' a'.

Lemma outside_app x y : outside (x ++ y) = (outside x + outside y)%nat.
Proof. unfold outside. now rewrite filter_app, app_length. Qed.
Lemma ascii_outside x : ascii x -> outside x = 0%nat.
Proof. induction 1 as [|c x H _ IH]; [reflexivity|]. unfold outside in *. cbn [filter]. replace (128 <=? c) with false by (symmetry; apply N.leb_gt; exact H). exact IH. Qed.
Lemma all_outside x : Forall (fun c => 128 <= c /\ xml_char c = true) x -> outside x = length x.
Proof. induction 1 as [|c x [H _] _ IH]; [reflexivity|]. unfold outside in *. cbn [filter]. replace (128 <=? c) with true by (symmetry; apply N.leb_le; exact H). cbn [length]. now rewrite IH. Qed.
Lemma same_outsiders n : forall m, same_doc n m -> outsiders n = outsiders m.
Proof.
  induction n as [x|nm a k IH] using node_ind'; intros m H; inversion H as [|? ? a' ? k' Pa Fk]; subst; [reflexivity|]. cbn [outsiders].
  assert (A : forall b, list_sum (map (fun kv => outside (fst kv) + outside (aval_str (snd kv))) b)%nat = list_sum (map (fun kv => outside (fst kv) + outside (snd kv))%nat (attr_strings b))) by (intros b; unfold attr_strings; now rewrite map_map).
  rewrite !A. assert (B : forall u v : list (pstr * pstr), Permutation u v -> list_sum (map (fun kv => outside (fst kv) + outside (snd kv))%nat u) = list_sum (map (fun kv => outside (fst kv) + outside (snd kv))%nat v)).
  { induction 1; cbn [map list_sum fold_right] in *; unfold list_sum in *; cbn [fold_right]; lia. }
  rewrite (B _ _ Pa). f_equal. clear -IH Fk. revert IH. induction Fk as [|c c' k k' Hc _ IHk]; intros IH; [reflexivity|]. inversion_clear IH as [|? ? H1 H2]. cbn [map]. unfold list_sum in *. cbn [fold_right]. rewrite (H1 c' Hc), (IHk H2). reflexivity.
Qed.
Section Page.
  Context (page : N -> option N) (Hp : good_page page).
  Lemma outside_garble x : good x -> (2 * outside x <= outside (garble page x))%nat.
  Proof.
    induction 1 as [|c x Hc _ IH]; [constructor|]. change (garble page (c :: x)) with (garble_char page c ++ garble page x). rewrite outside_app. change (c :: x) with ([c] ++ x) at 1. rewrite outside_app.
    enough (2 * outside [c] <= outside (garble_char page c))%nat by lia. destruct (N.lt_ge_cases c 128) as [L|L].
    - rewrite ascii_outside; [lia|now repeat constructor].
    - rewrite (all_outside (garble_char page c)) by now apply (high_char page Hp c). destruct (utf8_xml c Hc) as [b Eb]. unfold garble_char. rewrite Eb, map_length. apply utf8_high in Eb as [Eb _]; [|exact L]. unfold outside. cbn [filter]. destruct (128 <=? c); cbn [length]; lia.
  Qed.
  Lemma outsiders_garbled n : writable n -> (2 * outsiders n <= outsiders (garbled page n))%nat.
  Proof.
    induction n as [x|nm a k IH] using node_ind'; intros W; [now apply outside_garble|]. apply writable_El in W as (W1 & [_ W2] & W3). cbn [garbled outsiders]. pose proof (outside_garble nm (name_good nm W1)) as A.
    assert (B : (2 * list_sum (map (fun kv => outside (fst kv) + outside (aval_str (snd kv))) a) <= list_sum (map (fun kv => outside (fst kv) + outside (aval_str (snd kv))) (map (garble_attr page) a)))%nat).
    { clear -W2 Hp. induction W2 as [|[key v] a [Hk Hv] _ IH]; [constructor|].
      assert (X : (2 * (outside key + outside (aval_str v)) <= outside (fst (garble_attr page (key, v))) + outside (aval_str (snd (garble_attr page (key, v)))))%nat).
      { unfold garble_attr. cbn [fst snd] in *. pose proof (outside_garble key (name_good key Hk)). destruct v as [y|q|z|t]; [cbn [aval_str] in *; pose proof (outside_garble y Hv); lia| | |].
        - rewrite (ascii_outside (aval_str (AFlo q))) by now apply value_ascii. lia.
        - rewrite (ascii_outside (aval_str (AInt z))) by now apply value_ascii. lia.
        - rewrite (ascii_outside (aval_str (ATime t))) by now apply value_ascii. lia. }
      cbn [map]. unfold list_sum in *. cbn [fold_right]. cbn [fst snd] in X |- *. lia. }
    assert (C : (2 * list_sum (map outsiders k) <= list_sum (map outsiders (map (garbled page) k)))%nat).
    { unfold all_writable in W3. clear -IH W3. revert W3. induction IH as [|c k Hc _ IHk]; intros W3; [constructor|]. inversion_clear W3 as [|? ? V1 V2]. cbn [map]. unfold list_sum in *. cbn [fold_right]. specialize (Hc V1). specialize (IHk V2). lia. }
    lia.
  Qed.
End Page.

Lemma load_in_is dec fs x a : load_in dec fs x = Ok a -> am_kind a = FSif -> am_file a = Some x /\ writable (am_root a) /\ settled (am_root a) /\ is_tag (am_root a) = true.
Proof.
  unfold load_in. destruct (aget x fs) as [f|]; [|discriminate]. destruct (kind_by_magic f) as [kd|]; [|discriminate]. cbn [bind].
  destruct (main_file_in dec kd f) as [n|] eqn:M; [|discriminate]. cbn [bind]. intros [= <-]. cbn [am_kind am_file am_root]. intros ->. split; [reflexivity|]. cbn [main_file_in] in M. destruct f as [b|b]; [|discriminate M]. destruct (dec b) as [y|]; [|discriminate].
  unfold parse_doc in M. destruct (doc_in y) as [m|] eqn:D; [|discriminate]. injection M as ->. now apply doc_in_ok in D.
Qed.

Section Rounds.
  Context (page : N -> option N) (Hp : good_page page) (void : pstr -> attrs -> bool) (can : pstr -> bool) (x : pstr).
  (** One round *)
  Lemma round_once fs a fs1 a1 : am_file a = Some x -> am_kind a = FSif -> writable (am_root a) -> is_tag (am_root a) = true -> save void can fs a None = (fs1, a1, Ok tt) ->
    load fs1 x = Ok (mkAnim (reload (am_root a)) FSif (Some x)) /\ exists b, aget x fs1 = Some (Raw b).
  Proof.
    intros F K W G E. destruct (can x) eqn:C.
    - destruct (save_target void can fs a None x FSif (conj F (conj K (or_introl eq_refl))) C W) as (b & Eb & E1). rewrite E in E1. injection E1 as -> _.
      assert (B : aget x (aset x (in_format FSif b) fs) = Some (Raw b)) by apply aget_aset_same. split; [|eauto]. apply (load_written void) with (b := b); auto.
    - exfalso. unfold save, format_save, write_doc in E. rewrite K, F, C in E. discriminate.
  Qed.
  Lemma rounds_grow k fs a fs' a' : rounds (decode_by page) void can x k fs a fs' a' -> am_file a = Some x -> am_kind a = FSif -> writable (am_root a) -> settled (am_root a) -> is_tag (am_root a) = true ->
    am_kind a' = FSif /\ (2 ^ k * outsiders (am_root a) <= outsiders (am_root a'))%nat.
  Proof.
    induction 1 as [fs a|k fs a fs1 a1 a2 fs' a' S L _ IH]; intros F K W St G; [split; [exact K|cbn; lia]|].
    destruct (round_once fs a fs1 a1 F K W G S) as [L1 [b B]].
    destruct (C174_page page fs1 x _ b Hp L1 B) as [[_ E]|(_ & E & _)]; rewrite L in E; [discriminate|]. injection E as ->. cbn [am_root] in *.
    destruct (load_in_is _ _ _ _ L eq_refl) as (F2 & W2 & St2 & G2). destruct (IH F2 eq_refl W2 St2 G2) as [K' IH']. split; [exact K'|]. cbn [am_root] in IH'.
    assert (X : (2 * outsiders (am_root a) <= outsiders (garbled page (reload (am_root a))))%nat).
    { rewrite (same_outsiders _ _ (reload_same _ W St)). apply outsiders_garbled; [exact Hp|]. now apply reload_ok. }
    rewrite Nat.pow_succ_r'. nia.
  Qed.
End Rounds.

(** C174: in such a locale, each time the document is saved and loaded again, there are at least twice as many characters outside ASCII in it as before. *)
Theorem C174_grows : forall page void can x k fs a fs' a', good_page page -> load_in (decode_by page) fs x = Ok a -> am_kind a = FSif ->
  rounds (decode_by page) void can x k fs a fs' a' -> (2 ^ k * outsiders (am_root a) <= outsiders (am_root a'))%nat.
Proof. intros page void can x k fs a fs' a' Hp L K R. destruct (load_in_is _ _ _ _ L K) as (F & W & St & G). eapply rounds_grow; eauto. Qed.
Print Assumptions C174_grows.
(** With ISO-8859-1 nothing ever stops this. *)
Theorem C174_goes_on : forall void can x k fs a, can x = true -> load_in (decode_by latin1) fs x = Ok a -> am_kind a = FSif ->
  exists fs' a', rounds (decode_by latin1) void can x k fs a fs' a'.
Proof.
  intros void can x k. induction k as [|k IH]; intros fs a C L K; [exists fs, a; constructor|]. destruct (load_in_is _ _ _ _ L K) as (F & W & St & G).
  destruct (save_target void can fs a None x FSif (conj F (conj K (or_introl eq_refl))) C W) as (b & Eb & E1).
  destruct (round_once void can x fs a _ _ F K W G E1) as [L1 _]. destruct (C174_latin1 _ _ _ L1 eq_refl) as [L2 _]. destruct (IH _ _ C L2 eq_refl) as (fs' & a' & R). exists fs', a'. econstructor; eauto.
Qed.
Print Assumptions C174_goes_on.
(** The two encodings of the model are such ones. In ISO-8859-1 every byte is a character, and in windows-1252 all but five, and it differs from ISO-8859-1 only from 128 to 159. *)
Theorem C174_encodings : good_page latin1 /\ good_page cp1252 /\
  (forall c, c < 256 -> latin1 c = Some c) /\
  (forall c, c < 256 -> (cp1252 c = None <-> In c [129; 141; 143; 144; 157])) /\
  (forall c, c < 256 -> (cp1252 c = latin1 c <-> c < 128 \/ 160 <= c)).
Proof.
  split; [exact latin1_good|]. split; [exact cp1252_good|]. split; [|split].
  - intros c H. unfold latin1. apply N.ltb_lt in H. now rewrite H.
  - intros c H. apply in_bytes in H. revert c H. apply Forall_forall. unfold all_bytes. cbv [map seq]. repeat (constructor; [vm_compute; split; [try discriminate; auto 10|intuition discriminate]|]). constructor.
  - assert (X : forallb (fun c => Bool.eqb match cp1252 c, latin1 c with Some d, Some e => d =? e | _, _ => false end ((c <? 128) || (160 <=? c))) all_bytes = true) by (vm_compute; reflexivity).
    rewrite forallb_forall in X. intros c H. apply in_bytes in H. specialize (X c H). apply Bool.eqb_prop in X. rewrite <- N.ltb_lt, <- N.leb_le. rewrite <- orb_true_iff, <- X.
    assert (Y : latin1 c <> None). { apply in_map_iff in H as (i & <- & Hi). apply in_seq in Hi. unfold latin1. replace (N.of_nat i <? 256) with true by (symmetry; apply N.ltb_lt; lia). discriminate. }
    destruct (cp1252 c) as [d|], (latin1 c) as [e|]; try congruence; [rewrite N.eqb_eq|]; split; congruence.
Qed.
Print Assumptions C174_encodings.

Definition xname : pstr := Eval vm_compute in s "a.sif".
Definition xfiles : files := match utf8_out (doc_out (fun _ _ => false) (xnamed [233])) with Some b => [(xname, Raw b)] | None => [] end.
(** An e with an acute accent: after three rounds in ISO-8859-1 there are sixteen characters where there was one *)
Example C174_grows_nonvacuous : exists a fs' a', good_page latin1 /\ load_in (decode_by latin1) xfiles xname = Ok a /\ am_kind a = FSif /\ rounds (decode_by latin1) (fun _ _ => false) (fun _ => true) xname 3 xfiles a fs' a' /\
  outsiders (xnamed [233]) = 1%nat /\ outsiders (am_root a) = 2%nat /\ (16 <= outsiders (am_root a'))%nat.
Proof.
  assert (L : load_in (decode_by latin1) xfiles xname = Ok (mkAnim (xnamed [195; 169]) FSif (Some xname))) by (vm_compute; reflexivity).
  destruct (C174_goes_on (fun _ _ => false) (fun _ => true) xname 3 xfiles _ eq_refl L eq_refl) as (fs' & a' & R). exists (mkAnim (xnamed [195; 169]) FSif (Some xname)), fs', a'.
  split; [exact latin1_good|]. split; [exact L|]. split; [reflexivity|]. split; [exact R|]. split; [reflexivity|]. split; [reflexivity|].
  exact (C174_grows latin1 _ _ _ _ _ _ _ _ latin1_good L eq_refl R).
Qed.
