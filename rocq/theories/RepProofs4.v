(** Proofs about the replacer: names seen, files written, and the disk at every moment. *)
From Verif Require Import PyFmtProofs AnimProofs2 SerProofs XpProofs TimeProofs2 TlProofs4 RepModel RepSpec RepProofs RepProofs2 RepProofs3.
From Coq Require Import Lia Permutation.
Local Open Scope N_scope.

(** ** Text *)

Lemma decode_spec b y : decode b = Some y <-> utf8_out y = Some b.
Proof.
  unfold decode. split.
  - destruct (utf8_in b) as [x|]; [|discriminate]. destruct (utf8_out x) as [b'|] eqn:E; [|discriminate]. destruct (pstr_eqb b b') eqn:Eb; [|discriminate]. intros H. apply Some_is in H. subst x.
    apply pstr_eqb_spec in Eb. now subst b'.
  - intros H. rewrite (utf8_in_out y b H), H. pose proof (pstr_eqb_refl b) as R. now rewrite R.
Qed.
Definition okc (c : N) : Prop := utf8_char c <> None.
Lemma encodable_spec x : encodable x <-> Forall okc x.
Proof.
  split.
  - induction x as [|c x IH]; intros [b H]; [constructor|]. cbn [utf8_out] in H. destruct (utf8_char c) eqn:E; [|discriminate]. destruct (utf8_out x) eqn:E2; [|discriminate]. constructor; [unfold okc; congruence|apply IH; unfold encodable; eauto].
  - induction 1 as [|c x Hc H [b IH]]; [now exists []|]. unfold encodable. cbn [utf8_out]. unfold okc in Hc. destruct (utf8_char c); [|contradiction]. rewrite IH. eauto.
Qed.
Lemma norm_eol_Forall (P : N -> Prop) x : P 10 -> Forall P x -> Forall P (norm_eol x).
Proof.
  intros H10. remember (length x) as n eqn:En. assert (Hn : (length x <= n)%nat) by lia. clear En. revert x Hn. induction n as [|n IH]; intros [|c x] Hn Hx; cbn [length] in Hn; try lia; [constructor|constructor|].
  inversion Hx as [|? ? Hc Hx']; subst. destruct (N.eq_dec c 13) as [->|H13]; [|rewrite norm_eol_cons by exact H13; constructor; [exact Hc|apply IH; [lia|exact Hx']]].
  destruct x as [|d x]; [cbn; now repeat constructor|]. inversion Hx' as [|? ? Hd Hx'']; subst. cbn [length] in Hn.
  assert (E : norm_eol (13 :: d :: x) = 10 :: norm_eol (d :: x) \/ norm_eol (13 :: d :: x) = 10 :: norm_eol x). { cbn [norm_eol]. destruct d as [|p]; [now left|]. destruct p; try (now left). destruct p; try (now left). destruct p; try (now left). destruct p; try (now left). now right. }
  destruct E as [->| ->]; constructor; try exact H10; apply IH; auto; cbn [length]; lia.
Qed.
Lemma norm_eol_no13 x : Forall (fun c => c <> 13) (norm_eol x).
Proof.
  remember (length x) as n eqn:En. assert (Hn : (length x <= n)%nat) by lia. clear En. revert x Hn. induction n as [|n IH]; intros [|c x] Hn; cbn [length] in Hn; try lia; [constructor|constructor|].
  destruct (N.eq_dec c 13) as [->|H13]; [|rewrite norm_eol_cons by exact H13; constructor; [exact H13|apply IH; lia]].
  destruct x as [|d x]; [cbn; constructor; [discriminate|constructor]|]. cbn [length] in Hn.
  assert (E : norm_eol (13 :: d :: x) = 10 :: norm_eol (d :: x) \/ norm_eol (13 :: d :: x) = 10 :: norm_eol x). { cbn [norm_eol]. destruct d as [|p]; [now left|]. destruct p; try (now left). destruct p; try (now left). destruct p; try (now left). destruct p; try (now left). now right. }
  destruct E as [->| ->]; (constructor; [discriminate|]); apply IH; auto; cbn [length]; lia.
Qed.
Lemma lines_Forall (P : N -> Prop) x ls : lines_of x ls -> Forall P x -> Forall (Forall P) ls.
Proof. intros H Hx. apply lines_concat in H. subst x. apply Forall_concat in Hx. exact Hx. Qed.
Lemma join_Forall (P : N -> Prop) sep ls : Forall P sep -> (Forall P (join sep ls) <-> Forall (Forall P) ls).
Proof.
  intros Hs. induction ls as [|x ls IH]; [split; constructor|]. cbn [join]. destruct ls as [|y ls]; [split; [intros H; now repeat constructor|intros H; now inversion H]|].
  rewrite !Forall_app. rewrite IH. split; [intros (A & B & C); now constructor|intros H; inversion H; subst; now repeat split].
Qed.
Lemma rstrip_Forall (P : N -> Prop) x : Forall P x -> Forall P (rstrip x).
Proof. intros H. unfold rstrip. apply Forall_rev, lstrip_Forall, Forall_rev, H. Qed.
Lemma repeat_Forall (P : N -> Prop) c n : P c -> Forall P (repeat c n).
Proof. intros H. induction n; [constructor|]. cbn [repeat]. now constructor. Qed.
Lemma outs_Forall (P : N -> Prop) fs : P 10 -> P 32 -> (forall k v, aget k fs = Some v -> Forall P v) -> forall ps pre os, pieces_out fs pre ps os -> Forall (Forall P) (flat_map piece_lines ps) -> Forall (Forall P) os.
Proof.
  intros H10 H32 Hf. induction 1 as [pre|pre p ps o os Hp Hps IH]; intros HF; [constructor|]. cbn [flat_map] in HF. apply Forall_app in HF as [H1 H2]. apply Forall_app. split; [|now apply IH]. clear IH H2 Hps.
  assert (G : forall i c, Forall P c -> Forall P (repeat 32 i ++ strip c ++ [10])). { intros i c Hc. apply Forall_app. split; [now apply repeat_Forall|]. apply Forall_app. split; [now apply strip_Forall|now repeat constructor]. }
  destruct Hp as [l|a b c i nm x Hs Hn Ha|a b c i nm x v new Hs Hn Ha Hv]; cbn [piece_lines] in H1; [exact H1| |].
  - inversion H1 as [|? ? Ha' H1']; subst. apply Forall_app in H1' as [Hb Hc]. constructor; [exact Ha'|]. apply Forall_app. split; [exact Hb|]. constructor; [|constructor]. apply G. now inversion Hc.
  - inversion H1 as [|? ? Ha' H1']; subst. apply Forall_app in H1' as [Hb Hc]. constructor; [exact Ha'|]. apply Forall_app. split; [|constructor; [|constructor]; apply G; now inversion Hc].
    destruct Hv as (ls & (_ & _ & Ev) & ->). apply Hf in Ha. rewrite Ev in Ha. apply join_Forall in Ha; [|now repeat constructor]. apply Forall_map. apply Forall_impl with (2 := Ha). intros l Hl.
    apply Forall_app. split; [|now repeat constructor]. apply rstrip_Forall, Forall_app. split; [now apply repeat_Forall|exact Hl].
Qed.

(** ** What was seen *)

Lemma named_latest pre a x : block_named pre a x <-> exists i nm, start_re a = Some (i, nm) /\ if nm then latest pre = Some x else x = nm.
Proof.
  split.
  - intros [[Hn (i & Hs)]|[(i & Hs) Hc]].
    + exists i, x. split; [now apply start_re_spec|]. destruct x; [contradiction|reflexivity].
    + exists i, []. split; [now apply start_re_spec|]. now apply latest_spec.
  - intros (i & nm & Hs & Hx). apply start_re_spec in Hs. destruct nm as [|c nm].
    + right. split; [eauto|]. now apply latest_spec.
    + left. subst x. split; [discriminate|eauto].
Qed.
Definition hits (fs : fields) (x : pstr) : bool := match aget x fs with Some _ => true | None => false end.
Lemma step_seen fs pre st l st' : follows pre st -> r_line fs st l = (st', Ok tt) ->
  (forall x, In x (r_seen st') <-> In x (r_seen st) \/ block_named pre l x) /\
  (r_changed st' = true <-> r_changed st = true \/ exists x v, block_named pre l x /\ aget x fs = Some v).
Proof.
  intros [_ F2]. unfold r_line. destruct (start_re l) as [[i nm]|] eqn:Es.
  - assert (Hc : class_re l = None). { apply class_none. intros c Hc. apply class_not_marker in Hc. apply Hc. left. apply start_re_spec in Es. eauto. } rewrite Hc.
    assert (G : forall b, (if nm then latest pre = Some b else b = nm) -> forall y, block_named pre l y <-> y = b).
    { intros b Hb y. rewrite named_latest. split; [intros (i' & nm' & E & Hy)|intros ->; exists i, nm; now split]. rewrite Es in E. injection E as <- <-. destruct nm; congruence. }
    assert (K : forall b cl, (if nm then latest pre = Some b else b = nm) -> (let result := r_result st ++ l in let seen := b :: r_seen st in
      match aget b fs with None => (mkR result cl (Some (b, i)) (r_changed st) false seen, Ok tt) | Some v => (mkR (result ++ indented i v) cl (Some (b, i)) true true seen, Ok tt) end) = (st', Ok tt) ->
      (forall x, In x (r_seen st') <-> In x (r_seen st) \/ block_named pre l x) /\ (r_changed st' = true <-> r_changed st = true \/ exists x v, block_named pre l x /\ aget x fs = Some v)).
    { intros b cl Hb E. cbv zeta in E. specialize (G b Hb). destruct (aget b fs) as [v|] eqn:Ev; injection E as <-; cbn [r_seen r_changed]; split.
      - intros x. rewrite G. cbn [In]. split; intros [H|H]; auto.
      - split; [|auto]. intros _. right. exists b, v. split; [now apply G|exact Ev].
      - intros x. rewrite G. cbn [In]. split; intros [H|H]; auto.
      - split; [auto|]. intros [H|(x & v & H & H')]; [exact H|]. apply G in H. subst x. congruence. }
    destruct nm as [|c nm].
    + rewrite F2. destruct (latest pre) as [b|] eqn:El; [|discriminate]. apply K. reflexivity.
    + apply K. reflexivity.
  - assert (G : forall x, ~ block_named pre l x). { intros x H. apply named_latest in H as (i & nm & E & _). congruence. }
    assert (K : r_seen st' = r_seen st /\ r_changed st' = r_changed st -> (forall x, In x (r_seen st') <-> In x (r_seen st) \/ block_named pre l x) /\ (r_changed st' = true <-> r_changed st = true \/ exists x v, block_named pre l x /\ aget x fs = Some v)).
    { intros [-> ->]. split; [intros x|]; (split; [auto|]); [intros [H|H]; [exact H|now apply G in H]|intros [H|(x & v & H & _)]; [exact H|now apply G in H]]. }
    destruct (end_re l); [destruct (r_block st) as [[]|]; [|discriminate]|]; intros E; injection E as <-; apply K; now split.
Qed.
Lemma run_seen fs : forall ls pre st st', follows pre st -> r_lines fs st ls = (st', Ok tt) ->
  (forall x, In x (r_seen st') <-> In x (r_seen st) \/ exists p a q, ls = p ++ a :: q /\ block_named (pre ++ p) a x) /\
  (r_changed st' = true <-> r_changed st = true \/ exists p a q x v, ls = p ++ a :: q /\ block_named (pre ++ p) a x /\ aget x fs = Some v).
Proof.
  induction ls as [|l ls IH]; intros pre st st' Hf; cbn [r_lines].
  - destruct (r_block st); [discriminate|]. intros E. injection E as <-. split; [intros x|]; (split; [auto|]); intros [H|(p & a & q & H)]; auto; [destruct H as [H _]|destruct H as (x & v & H & _)]; destruct p; discriminate H.
  - pose proof (step_follows fs pre st l Hf) as Hs. pose proof (step_seen fs pre st l) as Hk. destruct (r_line fs st l) as [st1 [[]|e]]; [|discriminate]. intros E. specialize (Hk st1 Hf eq_refl) as [K1 K2].
    destruct (IH (pre ++ [l]) st1 st' Hs E) as [I1 I2]. split.
    + intros x. rewrite I1, K1. split.
      * intros [[H|H]|(p & a & q & -> & H)]; [now left| |]; right; [exists [], l, ls; rewrite app_nil_r; now split|]. exists (l :: p), a, q. rewrite <- app_assoc in H. now split.
      * intros [H|([|l0 p] & a & q & El & H)]; [auto| |]; cbn [app] in El; injection El as -> El; [rewrite app_nil_r in H; auto|]. right. exists p, a, q. rewrite <- app_assoc. now split.
    + rewrite I2, K2. split.
      * intros [[H|(x & v & H & Hv)]|(p & a & q & x & v & -> & H & Hv)]; [now left| |]; right; [exists [], l, ls, x, v; rewrite app_nil_r; now repeat split|]. exists (l :: p), a, q, x, v. rewrite <- app_assoc in H. now repeat split.
      * intros [H|([|l0 p] & a & q & x & v & El & H & Hv)]; [auto| |]; cbn [app] in El; injection El as -> El; [rewrite app_nil_r in H; left; right; eauto|]. right. exists p, a, q, x, v. rewrite <- app_assoc. now repeat split.
Qed.
Lemma run_whole fs ls st : r_lines fs r_start ls = (st, Ok tt) -> (forall x, In x (r_seen st) <-> block_in ls x) /\ (r_changed st = true <-> replaces fs ls).
Proof.
  intros E. destruct (run_seen fs ls [] r_start st follows_start E) as [H1 H2]. cbn [r_start r_seen r_changed app] in *. split.
  - intros x. rewrite H1. split; [intros [[]|H]; exact H|intros H; now right].
  - rewrite H2. split.
    + intros [H|(p & a & q & x & v & El & H & Hv)]; [discriminate H|]. exists x, v. split; [|exact Hv]. exists p, a, q. now split.
    + intros (x & v & (p & a & q & El & H) & Hv). right. exists p, a, q, x, v. now repeat split.
Qed.

(** ** The disk *)

Lemma temp_other name : temp_name name <> name.
Proof. intros E. apply (f_equal (@length N)) in E. unfold temp_name in E. rewrite app_length in E. cbn in E. lia. Qed.
Lemma aget_filter {V} k x (d : list (pstr * V)) : aget k (filter (fun kv => negb (pstr_eqb x (fst kv))) d) = if pstr_eqb x k then None else aget k d.
Proof.
  induction d as [|[j v] d IH]; cbn [filter aget fst]; [now destruct (pstr_eqb x k)|]. destruct (pstr_eqb x j) eqn:Ej; cbn [negb aget].
  - rewrite IH. apply pstr_eqb_spec in Ej. subst j. destruct (pstr_eqb x k) eqn:Ek; [reflexivity|]. destruct (pstr_eqb k x) eqn:Ek2; [|reflexivity]. apply pstr_eqb_spec in Ek2. subst k. now rewrite pstr_eqb_refl in Ek.
  - destruct (pstr_eqb k j) eqn:Ek; [|exact IH]. apply pstr_eqb_spec in Ek. subst k. now rewrite Ej.
Qed.
Lemma rename_get d name b n : aget n (rename (aset (temp_name name) b d) (temp_name name) name) =
  if pstr_eqb n name then Some b else if pstr_eqb n (temp_name name) then None else aget n d.
Proof.
  unfold rename. rewrite aget_aset_same. destruct (pstr_eqb n name) eqn:En; [apply pstr_eqb_spec in En; subst n; apply aget_aset_same|].
  assert (Hn : n <> name) by (intros ->; now rewrite pstr_eqb_refl in En). rewrite aget_aset_other by exact Hn. rewrite aget_filter. destruct (pstr_eqb n (temp_name name)) eqn:Et.
  - apply pstr_eqb_spec in Et. subst n. now rewrite pstr_eqb_refl.
  - assert (Ht : n <> temp_name name) by (intros ->; now rewrite pstr_eqb_refl in Et). destruct (pstr_eqb (temp_name name) n) eqn:E2; [apply pstr_eqb_spec in E2; congruence|]. now apply aget_aset_other.
Qed.
Lemma neqb (a b : pstr) : a <> b -> pstr_eqb a b = false.
Proof. intros H. destruct (pstr_eqb a b) eqn:E; [|reflexivity]. apply pstr_eqb_spec in E. contradiction. Qed.

Definition others_same (name : pstr) (d d' : disk) : Prop := forall n, n <> name -> n <> temp_name name -> same_file d d' n.
Lemma write_states_old d name text d' : In d' (write_states d name text) ->
  (same_file d d' name \/ fst (write_to d name text) = d') /\ others_same name d d'.
Proof.
  assert (A : forall b, same_file d (aset (temp_name name) b d) name /\ others_same name d (aset (temp_name name) b d)).
  { intros b. split; [|intros n _ Ht]; unfold same_file; symmetry; apply aget_aset_other; [intros E; now apply (temp_other name)|exact Ht]. }
  unfold write_states, write_to. intros [<-|H]; [split; [now left|intros n _ _; reflexivity]|]. destruct (utf8_out text) as [b|]; cbn [fst].
  - apply in_app_iff in H as [H|[<-|[]]].
    + apply in_map_iff in H as (i & <- & _). destruct (A (firstn i b)). split; [now left|assumption].
    + split; [now right|]. intros n Hn Ht. unfold same_file. rewrite rename_get, !neqb by assumption. reflexivity.
  - destruct H as [<-|[]]. destruct (A []). split; [now left|assumption].
Qed.
Lemma write_last d name text : In d (write_states d name text) /\ In (fst (write_to d name text)) (write_states d name text).
Proof.
  unfold write_states, write_to. split; [now left|]. right. destruct (utf8_out text) as [b|]; cbn [fst]; [|now left]. apply in_app_iff. right. now left.
Qed.
Lemma handle_states_spec fs d name d' : In d' (handle_states fs d name) ->
  (same_file d d' name \/ same_file (o_disk (handle fs d name)) d' name) /\ others_same name d d'.
Proof.
  assert (Z : forall o, In d' [d] -> (same_file d d' name \/ same_file o d' name) /\ others_same name d d') by (intros o [<-|[]]; split; [now left|intros n _ _; reflexivity]).
  unfold handle_states, handle. destruct fs as [|f fs]; [apply Z|]. destruct (aget name d) as [b|]; [|apply Z]. destruct (decode b) as [x|]; [|apply Z].
  destruct (r_lines (f :: fs) r_start (lines (norm_eol x))) as [st [[]|e]]; [|apply Z]. destruct (r_changed st); [|apply Z].
  intros H. apply write_states_old in H as [[H|H] O]; (split; [|exact O]); [now left|]. right. subst d'. destruct (write_to d name (r_result st)) as [d2 [[]|e]]; reflexivity.
Qed.
Lemma handle_states_ends fs d name : In d (handle_states fs d name) /\ In (o_disk (handle fs d name)) (handle_states fs d name).
Proof.
  assert (Z : In d [d] /\ In d [d]) by (split; now left).
  unfold handle_states, handle. destruct fs as [|f fs]; [exact Z|]. destruct (aget name d) as [b|]; [|exact Z]. destruct (decode b) as [x|]; [|exact Z].
  destruct (r_lines (f :: fs) r_start (lines (norm_eol x))) as [st [[]|e]]; [|exact Z]. destruct (r_changed st); [|exact Z].
  pose proof (write_last d name (r_result st)) as [H1 H2]. destruct (write_to d name (r_result st)) as [d2 [[]|e]]; now split.
Qed.
Lemma handle_others fs d name : others_same name d (o_disk (handle fs d name)).
Proof. exact (proj2 (handle_states_spec _ _ _ _ (proj2 (handle_states_ends fs d name)))). Qed.
(** ... whose result depends only on the file itself *)
Lemma handle_local fs d d' name : same_file d d' name ->
  same_file (o_disk (handle fs d name)) (o_disk (handle fs d' name)) name /\ o_res (handle fs d name) = o_res (handle fs d' name) /\
  o_seen (handle fs d name) = o_seen (handle fs d' name) /\ o_written (handle fs d name) = o_written (handle fs d' name).
Proof.
  intros S. unfold handle. destruct fs as [|f fs]; [now repeat split|]. assert (S' : aget name d = aget name d') by exact S. rewrite <- S'. destruct (aget name d) as [b|] eqn:Eb; [|cbn [o_disk]; now repeat split].
  destruct (decode b) as [x|]; [|cbn [o_disk]; now repeat split]. destruct (r_lines (f :: fs) r_start (lines (norm_eol x))) as [st [[]|e]]; [|cbn [o_disk]; now repeat split]. destruct (r_changed st); [|cbn [o_disk]; now repeat split].
  unfold write_to. destruct (utf8_out (r_result st)) as [b'|]; cbn [o_disk o_res o_seen o_written]; (split; [|now repeat split]); unfold same_file.
  - rewrite !rename_get, pstr_eqb_refl. reflexivity.
  - rewrite !aget_aset_other by (intros E; now apply (temp_other name)). rewrite Eb. exact S'.
Qed.
(** An error leaves the file alone. *)
Lemma handle_error fs d name e : o_res (handle fs d name) = Err e -> same_file d (o_disk (handle fs d name)) name /\ o_written (handle fs d name) = [].
Proof.
  unfold handle. destruct fs as [|f fs]; [discriminate|]. destruct (aget name d) as [b|]; [|now split]. destruct (decode b) as [x|]; [|now split].
  destruct (r_lines (f :: fs) r_start (lines (norm_eol x))) as [st [[]|e']]; [|now split]. destruct (r_changed st); [|now split]. unfold write_to. destruct (utf8_out (r_result st)); [discriminate|].
  cbn [o_res o_disk o_written]. intros _. split; [|reflexivity]. unfold same_file. symmetry. apply aget_aset_other. intros E. now apply (temp_other name).
Qed.

(** ** One file *)

Lemma handle_run fs d name x : fs <> [] -> file_text d name x -> handle fs d name =
  match r_lines fs r_start (lines x) with
  | (st, Err e) => mkO d (r_seen st) [] (Err e)
  | (st, Ok _) => if r_changed st then match write_to d name (r_result st) with (d', Ok _) => mkO d' (r_seen st) [name] (Ok tt) | (d', Err e) => mkO d' (r_seen st) [] (Err e) end
                  else mkO d (r_seen st) [] (Ok tt)
  end.
Proof. intros Hf (y & (b & Ha & Hb) & ->). apply decode_spec in Hb. unfold handle. rewrite Ha, Hb. destruct fs; [contradiction|reflexivity]. Qed.
Lemma handle_malformed fs d name x ls : fs <> [] -> file_text d name x -> lines_of x ls -> malformed ls -> o_disk (handle fs d name) = d /\ o_res (handle fs d name) = Err ValueError.
Proof.
  intros Hf Ht Hl Hm. rewrite (handle_run fs d name x Hf Ht). apply lines_spec in Hl. rewrite Hl. destruct (run_result fs ls) as [(st & _ & H)|(st & -> & _)]; [contradiction|]. now split.
Qed.
Lemma file_encodable d name x : file_text d name x -> Forall okc x /\ Forall (fun c => c <> 13) x.
Proof.
  intros (y & (b & _ & Hb) & ->). split; [|apply norm_eol_no13]. apply norm_eol_Forall; [discriminate|]. apply encodable_spec. now exists b.
Qed.
Lemma settled_start : settled_state [] r_start.
Proof. repeat split. Qed.
Lemma outs_encodable fs d name x ps out : fields_encodable fs -> file_text d name x -> lines_of x (flat_map piece_lines ps) -> pieces_out fs [] ps out -> Forall okc (concat out).
Proof.
  intros Hf Ht Hl Ho. destruct (file_encodable d name x Ht) as [Hx _]. apply Forall_concat. apply (outs_Forall okc fs) with (ps := ps) (pre := []); auto; try discriminate.
  - intros k v Hv. apply encodable_spec. now apply (Hf k v).
  - now apply lines_Forall with (x := x).
Qed.
Lemma handle_pieces fs d name x ps out : fs <> [] -> fields_encodable fs -> file_text d name x -> lines_of x (flat_map piece_lines ps) -> Forall piece_ok ps -> pieces_out fs [] ps out ->
  let o := handle fs d name in
  o_res o = Ok tt /\ (forall y, In y (o_seen o) <-> block_in (flat_map piece_lines ps) y) /\
  (replaces fs (flat_map piece_lines ps) /\ o_written o = [name] /\ contains (o_disk o) name (concat out) /\ aget (temp_name name) (o_disk o) = None \/
   ~ replaces fs (flat_map piece_lines ps) /\ o_written o = [] /\ o_disk o = d).
Proof.
  intros Hf Hfe Ht Hl Hok Ho. cbv zeta. rewrite (handle_run fs d name x Hf Ht). pose proof Hl as Hl'. apply lines_spec in Hl. rewrite Hl. clear Hl.
  destruct (pieces_run fs ps [] out Ho Hok r_start settled_start) as (st & E & R & _). rewrite E. destruct (run_whole fs _ st E) as [W1 W2]. cbn [r_start r_result app] in R.
  pose proof (outs_encodable fs d name x ps out Hfe Ht Hl' Ho) as He. apply encodable_spec in He as [b Hb]. unfold write_to. rewrite R, Hb.
  destruct (r_changed st) eqn:Ec; cbn [o_res o_seen o_written o_disk]; (split; [reflexivity|]); (split; [exact W1|]).
  - left. split; [now apply W2|]. split; [reflexivity|]. split.
    + exists b. split; [|exact Hb]. rewrite rename_get, pstr_eqb_refl. reflexivity.
    + rewrite rename_get, (neqb (temp_name name) name), pstr_eqb_refl by apply temp_other. reflexivity.
  - right. split; [|now split]. rewrite <- W2. discriminate.
Qed.
