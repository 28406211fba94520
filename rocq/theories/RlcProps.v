(** C176: the template replacer in every locale. *)
From Coq Require Import Lia.
From Verif Require Import AnimModel RepModel RepSpec RepProofs RepProofs2 RepProofs3 RepProofs4 RepProofs5 RepProps RlcModel EncModel EncSpec EncProofs.
Local Open Scope N_scope.

(** What is decoded is encoded as it was. *)
Definition codec (dec : list N -> option pstr) (ch : N -> option (list N)) : Prop := forall b y, dec b = Some y -> encode_by ch y = Some b.
(** These lines are these bytes, one by one. *)
Definition bytes_of (ch : N -> option (list N)) : list pstr -> list (list N) -> Prop := Forall2 (fun l w => encode_by ch l = Some w).

Lemma encode_some ch x : encode_by ch x <> None <-> Forall (fun c => ch c <> None) x.
Proof.
  induction x as [|c x IH]; [split; [constructor|discriminate]|]. cbn [encode_by]. split.
  - intros H. destruct (ch c) as [b|] eqn:E; [|now destruct H]. destruct (encode_by ch x); [|now destruct H]. constructor; [congruence|]. apply IH. discriminate.
  - intros H. inversion_clear H as [|? ? H1 H2]. destruct (ch c); [|contradiction]. apply IH in H2. destruct (encode_by ch x); [discriminate|contradiction].
Qed.
Lemma encode_app ch x y : encode_by ch (x ++ y) = match encode_by ch x, encode_by ch y with Some a, Some b => Some (a ++ b) | _, _ => None end.
Proof.
  induction x as [|c x IH]; cbn [encode_by app]; [now destruct (encode_by ch y)|]. rewrite IH. destruct (ch c); [|reflexivity]. destruct (encode_by ch x); [|reflexivity]. destruct (encode_by ch y); [|reflexivity]. now rewrite app_assoc.
Qed.
Lemma encode_lines ch ls b : encode_by ch (concat ls) = Some b -> exists bs, bytes_of ch ls bs /\ b = concat bs.
Proof.
  revert b. induction ls as [|l ls IH]; intros b E; [injection E as <-; exists []; split; [constructor|reflexivity]|]. cbn [concat] in E. rewrite encode_app in E.
  destruct (encode_by ch l) as [w|] eqn:El; [|discriminate]. destruct (encode_by ch (concat ls)) as [r|]; [|discriminate]. injection E as <-. destruct (IH r eq_refl) as (bs & H & ->). exists (w :: bs). split; [now constructor|reflexivity].
Qed.
Lemma handle_in_run dec ch fs d name b y : fs <> [] -> aget name d = Some b -> dec b = Some y -> handle_in dec ch fs d name =
  match r_lines fs r_start (lines (norm_eol y)) with
  | (st, Err e) => mkO d (r_seen st) [] (Err e)
  | (st, Ok _) => if r_changed st then match write_in ch d name (r_result st) with (d', Ok _) => mkO d' (r_seen st) [name] (Ok tt) | (d', Err e) => mkO d' (r_seen st) [] (Err e) end
                  else mkO d (r_seen st) [] (Ok tt)
  end.
Proof. intros Hf Ha Hb. unfold handle_in. rewrite Ha, Hb. destruct fs; [contradiction|reflexivity]. Qed.

(** If the locale has all characters of the fields, the new file has exactly these lines, each encoded as the locale says: lines outside of
    blocks have the bytes that they had. *)
Theorem C176_partial : forall dec ch fs d name b y ps out, codec dec ch -> ch 10 <> None -> ch 32 <> None -> fs <> [] ->
  (forall k v, aget k fs = Some v -> encode_by ch v <> None) ->
  aget name d = Some b -> dec b = Some y -> lines_of (norm_eol y) (flat_map piece_lines ps) -> Forall piece_ok ps -> pieces_out fs [] ps out ->
  let o := handle_in dec ch fs d name in
  o_res o = Ok tt /\
  (replaces fs (flat_map piece_lines ps) ->
     (exists bs, bytes_of ch out bs /\ aget name (o_disk o) = Some (concat bs)) /\ o_written o = [name] /\ aget (temp_name name) (o_disk o) = None) /\
  (~ replaces fs (flat_map piece_lines ps) -> o_disk o = d /\ o_written o = []) /\
  (forall n, n <> name -> n <> temp_name name -> same_file d (o_disk o) n).
Proof.
  intros dec ch fs d name b y ps out Hc H10 H32 Hf Hfe Ha Hb Hl Hok Ho. cbv zeta. rewrite (handle_in_run dec ch fs d name b y Hf Ha Hb). pose proof Hl as Hl'. apply lines_spec in Hl. rewrite Hl. clear Hl.
  destruct (pieces_run fs ps [] out Ho Hok r_start settled_start) as (st & E & R & _). rewrite E. destruct (run_whole fs _ st E) as [_ W2]. cbn [r_start r_result app] in R.
  assert (He : encode_by ch (concat out) <> None).
  { apply encode_some. apply Forall_concat. apply (outs_Forall (fun c => ch c <> None) fs) with (ps := ps) (pre := []); auto.
    - intros k v Hv. apply encode_some. now apply (Hfe k v).
    - apply lines_Forall with (x := norm_eol y); [exact Hl'|]. apply norm_eol_Forall; [exact H10|]. apply encode_some. rewrite (Hc b y Hb). discriminate. }
  destruct (encode_by ch (concat out)) as [w|] eqn:Ew; [|contradiction]. unfold write_in. rewrite R, Ew.
  destruct (r_changed st) eqn:Ec; cbn [o_res o_seen o_written o_disk]; (split; [reflexivity|]).
  - split; [|split].
    + intros _. destruct (encode_lines ch out w Ew) as (bs & B1 & B2). split; [exists bs; split; [exact B1|rewrite rename_get, pstr_eqb_refl; now subst]|]. split; [reflexivity|]. rewrite rename_get, (neqb (temp_name name) name), pstr_eqb_refl by apply temp_other. reflexivity.
    + intros H. exfalso. apply H. now apply W2.
    + intros n H1 H2. unfold same_file. rewrite rename_get, (neqb n name), (neqb n (temp_name name)) by assumption. reflexivity.
  - split; [|split; [now split|reflexivity]]. intros H. apply W2 in H. discriminate H.
Qed.
Print Assumptions C176_partial.
(** If a line to be written has a character that the locale hasn't got, nothing is replaced, and an empty file stays behind. *)
Theorem C176_refuted : forall dec ch fs d name b y ps out, fs <> [] ->
  aget name d = Some b -> dec b = Some y -> lines_of (norm_eol y) (flat_map piece_lines ps) -> Forall piece_ok ps -> pieces_out fs [] ps out ->
  replaces fs (flat_map piece_lines ps) -> (exists l c, In l out /\ In c l /\ ch c = None) ->
  let o := handle_in dec ch fs d name in
  o_res o = Err ValueError /\ same_file d (o_disk o) name /\ o_written o = [] /\ aget (temp_name name) (o_disk o) = Some [].
Proof.
  intros dec ch fs d name b y ps out Hf Ha Hb Hl Hok Ho Hr (l & c & H1 & H2 & H3). cbv zeta. rewrite (handle_in_run dec ch fs d name b y Hf Ha Hb). apply lines_spec in Hl. rewrite Hl. clear Hl.
  destruct (pieces_run fs ps [] out Ho Hok r_start settled_start) as (st & E & R & _). rewrite E. destruct (run_whole fs _ st E) as [_ W2]. cbn [r_start r_result app] in R. apply W2 in Hr. rewrite Hr.
  assert (He : encode_by ch (concat out) = None).
  { destruct (encode_by ch (concat out)) as [w|] eqn:Ew; [exfalso|reflexivity]. assert (F : encode_by ch (concat out) <> None) by congruence. apply encode_some in F. rewrite Forall_forall in F. apply (F c); [|exact H3]. apply in_concat. eauto. }
  unfold write_in. rewrite R, He. cbn [o_res o_disk o_written]. split; [reflexivity|]. split; [unfold same_file; rewrite AnimProofs2.aget_aset_other; [reflexivity|intros X; now apply (temp_other name)]|]. split; [reflexivity|apply AnimProofs2.aget_aset_same].
Qed.
Print Assumptions C176_refuted.

(** ** Encodings *)

(** With UTF-8 it's the replacer of RepModel.v. *)
Lemma encode_utf8 x : encode_by utf8_char x = utf8_out x.
Proof. induction x as [|c x IH]; [reflexivity|]. cbn [encode_by utf8_out]. now rewrite IH. Qed.
Theorem C176_utf8 : codec decode utf8_char /\ forall fs d name, handle_in decode utf8_char fs d name = handle fs d name.
Proof.
  split; [intros b y H; rewrite encode_utf8; now apply decode_spec|]. intros fs d name. unfold handle_in, handle, write_in, write_to. destruct fs as [|f fs]; [reflexivity|]. destruct (aget name d) as [b|]; [|reflexivity]. destruct (decode b) as [y|]; [|reflexivity].
  destruct (r_lines _ r_start (lines (norm_eol y))) as [st [[]|]]; [|reflexivity]. now rewrite encode_utf8.
Qed.
Print Assumptions C176_utf8.

(** The encoding of a [page] *)
Definition page_char (page : N -> option N) (c : N) : option (list N) :=
  match find (fun b => match page b with Some d => d =? c | None => false end) all_bytes with Some b => Some [b] | None => None end.
Lemma page_char_ok page b c : good_page page -> b < 256 -> page b = Some c -> page_char page c = Some [b].
Proof.
  intros Hp Hb E. unfold page_char. destruct (find _ all_bytes) as [b'|] eqn:F.
  - apply find_some in F as [_ F]. destruct (page b') as [d|] eqn:E'; [|discriminate]. apply N.eqb_eq in F. subst d. f_equal. f_equal. exact (proj2 (proj2 Hp) b' b c E' E).
  - exfalso. pose proof (find_none _ _ F b (in_bytes b Hb)) as X. cbv beta in X. rewrite E, N.eqb_refl in X. discriminate.
Qed.
(** Each of these is a [codec]. *)
Theorem C176_page : forall page, good_page page -> (forall b, 256 <= b -> page b = None) -> codec (decode_by page) (page_char page).
Proof.
  intros page Hp Hn b. induction b as [|c b IH]; intros y E; [injection E as <-; reflexivity|]. cbn [decode_by] in E. destruct (page c) as [d|] eqn:Ec; [|discriminate]. destruct (decode_by page b) as [r|]; [|discriminate]. injection E as <-.
  cbn [encode_by]. rewrite (page_char_ok page c d Hp), (IH r eq_refl); [reflexivity| |exact Ec]. destruct (N.lt_ge_cases c 256) as [L|L]; [exact L|]. rewrite (Hn c L) in Ec. discriminate.
Qed.
Print Assumptions C176_page.

(** In a locale that isn't UTF-8, a source file in UTF-8 may be no such file any more: a field is written as the locale says, and the rest stays UTF-8. *)
Theorem C176_mixed_refuted : exists fs d name b b', aget name d = Some b /\ decode b <> None /\
  let o := handle_in (decode_by latin1) (page_char latin1) fs d name in
  o_res o = Ok tt /\ o_written o = [name] /\ aget name (o_disk o) = Some b' /\ decode b' = None.
Proof.
  exists [(s "Tag", [233])], [(xa, [195; 169; 10] ++ text [s "### {{{ Tag"; s "### }}}"])], xa, ([195; 169; 10] ++ text [s "### {{{ Tag"; s "### }}}"]), ([195; 169; 10] ++ text [s "### {{{ Tag"; [233]; s "### }}}"]).
  split; [reflexivity|]. split; [vm_compute; discriminate|]. cbv zeta. split; [vm_compute; reflexivity|]. split; [vm_compute; reflexivity|]. split; [vm_compute; reflexivity|]. vm_compute. reflexivity.
Qed.
Print Assumptions C176_mixed_refuted.

(** The example of RepProps.v, in windows-1252 *)
Example C176_nonvacuous : codec (decode_by cp1252) (page_char cp1252) /\ page_char cp1252 10 <> None /\ page_char cp1252 32 <> None /\ (forall k v, aget k xfields = Some v -> encode_by (page_char cp1252) v <> None) /\
  aget xa xdisk = Some xtext /\ decode_by cp1252 xtext = Some xtext /\ lines_of (norm_eol xtext) (flat_map piece_lines xpieces) /\ Forall piece_ok xpieces /\ pieces_out xfields [] xpieces xout /\
  replaces xfields (flat_map piece_lines xpieces) /\ page_char cp1252 8364 = Some [128] /\ page_char cp1252 960 = None.
Proof.
  split; [apply C176_page; [exact cp1252_good|]|].
  { intros c H. unfold cp1252. replace (c <? 128) with false by (symmetry; apply N.ltb_ge; lia). replace (c <? 160) with false by (symmetry; apply N.ltb_ge; lia). now replace (c <? 256) with false by (symmetry; apply N.ltb_ge; lia). }
  split; [vm_compute; discriminate|]. split; [vm_compute; discriminate|]. split.
  { intros k v. unfold xfields. cbn [aget]. destruct (pstr_eqb k (s "Tag")); [|discriminate]. intros H. injection H as <-. vm_compute. discriminate. }
  split; [reflexivity|]. split; [vm_compute; reflexivity|]. split; [replace (norm_eol xtext) with xtext by (vm_compute; reflexivity); exact xlines|]. split; [exact xok|]. split; [exact xouts|]. split.
  { exists (s "Tag"), (s "new = 2" ++ lf ++ lf ++ s "more = 3  "). split; [|reflexivity]. eexists [_; _], _, _. split; [reflexivity|]. right. split; [exists 4%nat; apply start_re_spec; vm_compute; reflexivity|]. apply latest_spec. vm_compute. reflexivity. }
  split; vm_compute; reflexivity.
Qed.
