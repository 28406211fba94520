(** Properties of the replacer, /repo/sangfroid/template/replacer.py. *)
From Coq Require Import Lia Permutation Sorted.
From Verif Require Import PyFmtProofs AnimProofs2 SerProofs XpProofs TimeProofs2 TlProofs4 RepModel RepSpec RepProofs RepProofs2 RepProofs3 RepProofs4 RepProofs5.
Local Open Scope N_scope.

(** ** An example *)

Definition lf : pstr := [10].
Definition text (l : list pstr) : pstr := flat_map (fun x => x ++ lf) l.
Definition xa : pstr := s "a.py".
Definition xb : pstr := s "b.py".
Definition xtext : pstr := text [s "# head"; s "class Tag:"; s "    ### {{{"; s "    old = 1"; s "    ### }}}"; s "    def f(self):"; s "        pass"; s "### {{{ other"; s "x"; s "### }}}"].
Definition xfields : fields := [(s "Tag", s "new = 2" ++ lf ++ lf ++ s "more = 3  ")].
Definition xdisk : disk := [(xa, xtext); (xb, text [s "nothing"])].
Definition xpieces : list piece :=
  [Outside (s "# head" ++ lf); Outside (s "class Tag:" ++ lf); Block (s "    ### {{{" ++ lf) [s "    old = 1" ++ lf] (s "    ### }}}" ++ lf);
   Outside (s "    def f(self):" ++ lf); Outside (s "        pass" ++ lf); Block (s "### {{{ other" ++ lf) [s "x" ++ lf] (s "### }}}" ++ lf)].
Definition xout : list pstr :=
  map (fun x => x ++ lf) [s "# head"; s "class Tag:"; s "    ### {{{"; s "    new = 2"; []; s "    more = 3"; s "    ### }}}"; s "    def f(self):"; s "        pass"; s "### {{{ other"; s "x"; s "### }}}"].
Lemma xfile : file_text xdisk xa xtext.
Proof. exists xtext. split; [exists xtext; split; reflexivity|reflexivity]. Qed.
Lemma plain_file x : utf8_out x = Some x -> norm_eol x = x -> file_text [(xa, x)] xa x.
Proof. intros H1 H2. exists x. split; [exists x; split; [reflexivity|exact H1]|now symmetry]. Qed.
Lemma xlines : lines_of xtext (flat_map piece_lines xpieces).
Proof. apply lines_spec. vm_compute. reflexivity. Qed.
Lemma xenc : fields_encodable xfields.
Proof. intros k v. unfold xfields. cbn [aget]. destruct (pstr_eqb k (s "Tag")); [|discriminate]. intros H. apply Some_is in H. subst v. eexists. vm_compute. reflexivity. Qed.
Ltac marker_no := apply no_marker; split; vm_compute; reflexivity.
Ltac start_yes := match goal with |- exists i nm, is_start _ i nm => do 2 eexists; apply start_re_spec; vm_compute; reflexivity end.
Lemma xok : Forall piece_ok xpieces.
Proof.
  assert (B : forall a b c, (exists i nm, is_start a i nm) -> ~ is_marker b -> is_end c -> piece_ok (Block a [b] c)) by (intros; repeat split; auto).
  repeat apply Forall_cons; [marker_no|marker_no| |marker_no|marker_no| |constructor]; (apply B; [start_yes|marker_no|apply end_re_spec; vm_compute; reflexivity]).
Qed.
Lemma xvalue : value_in 4 (s "new = 2" ++ lf ++ lf ++ s "more = 3  ") [s "    new = 2" ++ lf; lf; s "    more = 3" ++ lf].
Proof. exists [s "new = 2"; []; s "more = 3  "]. split; [|vm_compute; reflexivity]. assert (X := split_lines_spec (s "new = 2" ++ lf ++ lf ++ s "more = 3  ")). exact X. Qed.
Lemma xouts : pieces_out xfields [] xpieces xout.
Proof.
  unfold xpieces, xout. cbn [map].
  apply (pieces_more _ _ _ _ [_]); [constructor|]. apply (pieces_more _ _ _ _ [_]); [constructor|].
  apply (pieces_more _ _ _ _ [_; _; _; _; _]).
  { apply (out_replaced _ _ _ _ (s "    ### }}}" ++ lf) 4 [] (s "Tag") (s "new = 2" ++ lf ++ lf ++ s "more = 3  ") [_; _; _]); [apply start_re_spec; vm_compute; reflexivity| |reflexivity|exact xvalue].
    right. split; [exists 4%nat; apply start_re_spec; vm_compute; reflexivity|]. apply latest_spec. vm_compute. reflexivity. }
  apply (pieces_more _ _ _ _ [_]); [constructor|]. apply (pieces_more _ _ _ _ [_]); [constructor|].
  apply (pieces_more _ _ _ _ [_; _; _] []); [|constructor].
  apply (out_kept _ _ _ [_] (s "### }}}" ++ lf) 0 (s "other") (s "other")); [apply start_re_spec; vm_compute; reflexivity| |reflexivity].
  left. split; [discriminate|]. exists 0%nat. apply start_re_spec. vm_compute. reflexivity.
Qed.

(** ** C66: what becomes of a file *)

(** Every file where blocks end and don't begin in others is made of pieces, and what becomes of these is decided. *)
Theorem C66_every_file : forall fs ls, ~ malformed ls -> ~ start_in_block ls ->
  exists ps out, ls = flat_map piece_lines ps /\ Forall piece_ok ps /\ pieces_out fs [] ps out.
Proof. exact well_formed_pieces. Qed.
Print Assumptions C66_every_file.

(** The new file has exactly these lines: those outside of blocks and those in blocks without a field are
    the same (cf. [piece_out]). Nothing else on the disk changes, and the temporary file is gone. *)
Theorem C66_partial : forall fs d name x ps out, fs <> [] -> fields_encodable fs -> file_text d name x ->
  lines_of x (flat_map piece_lines ps) -> Forall piece_ok ps -> pieces_out fs [] ps out ->
  let o := handle fs d name in
  o_res o = Ok tt /\
  (replaces fs (flat_map piece_lines ps) -> contains (o_disk o) name (concat out) /\ o_written o = [name] /\ aget (temp_name name) (o_disk o) = None) /\
  (~ replaces fs (flat_map piece_lines ps) -> o_disk o = d /\ o_written o = []) /\
  (forall n, n <> name -> n <> temp_name name -> same_file d (o_disk o) n).
Proof.
  intros fs d name x ps out Hf He Ht Hl Hok Ho. cbv zeta. destruct (handle_pieces fs d name x ps out Hf He Ht Hl Hok Ho) as (R1 & _ & [(R2 & R3 & R4 & R5)|(R2 & R3 & R4)]);
    (split; [exact R1|]); (split; [|split; [|apply handle_others]]); intros; try contradiction; now repeat split.
Qed.
Print Assumptions C66_partial.
Example C66_nonvacuous : file_text xdisk xa xtext /\ lines_of xtext (flat_map piece_lines xpieces) /\ Forall piece_ok xpieces /\ pieces_out xfields [] xpieces xout /\ fields_encodable xfields /\
  contains (o_disk (handle xfields xdisk xa)) xa (concat xout) /\ ~ malformed (lines xtext) /\ ~ start_in_block (lines xtext).
Proof.
  split; [exact xfile|]. split; [exact xlines|]. split; [exact xok|]. split; [exact xouts|]. split; [exact xenc|]. split.
  - assert (R : replaces xfields (flat_map piece_lines xpieces)).
    { assert (E : r_changed (fst (r_lines xfields r_start (flat_map piece_lines xpieces))) = true) by (vm_compute; reflexivity). destruct (run_result xfields (flat_map piece_lines xpieces)) as [(st & H & _)|(st & H & _)].
      - rewrite H in E. now apply (run_whole xfields _ st H).
      - exfalso. assert (X : snd (r_lines xfields r_start (flat_map piece_lines xpieces)) = Ok tt) by (vm_compute; reflexivity). rewrite H in X. discriminate X. }
    apply (C66_partial xfields xdisk xa xtext xpieces xout ltac:(discriminate) xenc xfile xlines xok xouts). exact R.
  - split.
    + destruct (run_result xfields (lines xtext)) as [(st & _ & H)|(st & H & _)]; [exact H|]. exfalso. assert (X : snd (r_lines xfields r_start (lines xtext)) = Ok tt) by (vm_compute; reflexivity). rewrite H in X. discriminate X.
    + intros (pre & l & post & i & nm & E & Hs & Ho). apply start_re_spec in Hs. apply opens_spec in Ho. revert E Hs Ho.
      assert (G : forall ls, forallb (fun k => match start_re (nth k ls []) with Some _ => negb (opens (firstn k ls)) | None => true end) (seq 0 (length ls)) = true -> ls = pre ++ l :: post -> start_re l = Some (i, nm) -> opens pre = true -> False).
      { intros ls Hb E Hs Ho. rewrite forallb_forall in Hb. specialize (Hb (length pre)). subst ls. rewrite app_nth2, Nat.sub_diag, firstn_app, Nat.sub_diag, firstn_all in Hb by lia. cbn [nth firstn] in Hb. rewrite app_nil_r, Hs, Ho in Hb.
        discriminate Hb. apply in_seq. rewrite app_length. cbn [length]. lia. }
      apply G. vm_compute. reflexivity.
Qed.

(** It isn't so byte by byte: the ends of lines become newlines everywhere *)
Theorem C66_line_ends_refuted : exists fs d name pre post, contains d name (pre ++ post) /\ quiet pre /\ o_res (handle fs d name) = Ok tt /\
  forall post', ~ contains (o_disk (handle fs d name)) name (pre ++ post').
Proof.
  exists xfields, [(xa, s "# head" ++ [13; 10] ++ s "### {{{ Tag" ++ lf ++ s "### }}}" ++ lf)], xa, (s "# head" ++ [13; 10]), (s "### {{{ Tag" ++ lf ++ s "### }}}" ++ lf).
  split; [eexists; split; vm_compute; reflexivity|]. split; [split; [marker_no|apply class_none; vm_compute; reflexivity]|]. split; [vm_compute; reflexivity|].
  intros post' (b & Hb & Hu). vm_compute in Hb. apply Some_is in Hb. subst b. rewrite !utf8_out_app in Hu. destruct (utf8_out post'); [|discriminate Hu]. vm_compute in Hu. discriminate Hu.
Qed.
Print Assumptions C66_line_ends_refuted.
(** ... and the end of a block that has no field gets another indentation. *)
Theorem C66_end_refuted : exists fs d name pre post, contains d name (pre ++ post) /\ ~ replaces fs (lines pre) /\
  o_res (handle fs d name) = Ok tt /\ forall post', ~ contains (o_disk (handle fs d name)) name (pre ++ post').
Proof.
  exists xfields, [(xa, s "### {{{ other" ++ lf ++ s "  ### }}}  " ++ lf ++ s "### {{{ Tag" ++ lf ++ s "### }}}" ++ lf)], xa, (s "### {{{ other" ++ lf ++ s "  ### }}}  " ++ lf), (s "### {{{ Tag" ++ lf ++ s "### }}}" ++ lf).
  split; [eexists; split; vm_compute; reflexivity|]. split.
  { intros H. destruct (run_result xfields (lines (s "### {{{ other" ++ lf ++ s "  ### }}}  " ++ lf))) as [(st & E & _)|(st & E & _)]; [|vm_compute in E; discriminate E].
    apply (run_whole _ _ _ E) in H. vm_compute in E. injection E as E. subst st. discriminate H. }
  split; [vm_compute; reflexivity|]. intros post' (b & Hb & Hu). vm_compute in Hb. apply Some_is in Hb. subst b. rewrite !utf8_out_app in Hu. destruct (utf8_out post'); [|discriminate Hu]. vm_compute in Hu. discriminate Hu.
Qed.
Print Assumptions C66_end_refuted.

(** ** C67: running it twice *)

Theorem C67_partial : forall fs d name x ps, fs <> [] -> fields_encodable fs -> (forall k v, aget k fs = Some v -> ~ In 13 v) -> field_quiet fs ->
  file_text d name x -> lines_of x (flat_map piece_lines ps) -> ~ malformed (flat_map piece_lines ps) -> Forall piece_ok ps ->
  (forall a b c, In (Block a b c) ps -> Forall (fun l => forall y, ~ is_class l y) b) ->
  let d1 := o_disk (handle fs d name) in
  let o2 := handle fs d1 name in o_res o2 = Ok tt /\ forall n, same_file d1 (o_disk o2) n.
Proof.
  intros fs d name x ps Hf He H13 Hq Ht Hl Hm Hok Hb. destruct (pieces_ex fs ps [] Hok) as (out & Ho).
  { intros p l q i E Hs Hc. apply Hm. right. left. exists p, l, q, i. now repeat split. }
  exact (twice fs d name x ps out Hf He H13 Hq Ht Hl Hok Ho Hb).
Qed.
Print Assumptions C67_partial.
Example C67_nonvacuous : field_quiet xfields /\ (forall k v, aget k xfields = Some v -> ~ In 13 v) /\ ~ malformed (flat_map piece_lines xpieces) /\
  (forall a b c, In (Block a b c) xpieces -> Forall (fun l => forall y, ~ is_class l y) b) /\
  o_disk (handle xfields xdisk xa) <> xdisk.
Proof.
  assert (A : forall k v, aget k xfields = Some v -> v = s "new = 2" ++ lf ++ lf ++ s "more = 3  ") by (intros k v; unfold xfields; cbn [aget]; destruct (pstr_eqb k (s "Tag")); [intros H; apply Some_is in H; now subst v|discriminate]).
  split; [|split; [|split; [|split]]].
  - intros k v ls Hv Hl. apply A in Hv. subst v. rewrite (value_lines_unique _ _ Hl _ (split_lines_spec _)). change (split_lines (s "new = 2" ++ lf ++ lf ++ s "more = 3  ")) with [s "new = 2"; []; s "more = 3  "].
    repeat (apply Forall_cons; [split; [marker_no|apply class_none; vm_compute; reflexivity]|]). constructor.
  - intros k v Hv H. apply A in Hv. subst v. vm_compute in H. repeat (destruct H as [H|H]; [discriminate H|]). exact H.
  - destruct (run_result xfields (flat_map piece_lines xpieces)) as [(st & _ & H)|(st & H & _)]; [exact H|]. exfalso. assert (X : snd (r_lines xfields r_start (flat_map piece_lines xpieces)) = Ok tt) by (vm_compute; reflexivity). rewrite H in X. discriminate X.
  - intros a b c H. assert (C : b = [s "    old = 1" ++ lf] \/ b = [s "x" ++ lf]). { unfold xpieces in H. cbn [In] in H. repeat (destruct H as [H|H]; [try discriminate H; injection H as _ <- _; auto|]). destruct H. }
    destruct C as [->| ->]; (apply Forall_cons; [apply class_none; vm_compute; reflexivity|constructor]).
  - intros H. apply (f_equal (aget xa)) in H. vm_compute in H. discriminate H.
Qed.
(** With a marker in the field, the second run raises; with the beginning of a class in the old text of a
    block, it changes the file again. *)
Theorem C67_marker_refuted : exists fs d name, o_res (handle fs d name) = Ok tt /\ o_res (handle fs (o_disk (handle fs d name)) name) = Err ValueError.
Proof. exists [(s "Tag", s "### }}}")], [(xa, text [s "### {{{ Tag"; s "### }}}"])], xa. split; vm_compute; reflexivity. Qed.
Print Assumptions C67_marker_refuted.
Theorem C67_class_refuted : exists fs d name, field_quiet fs /\ o_res (handle fs d name) = Ok tt /\ o_res (handle fs (o_disk (handle fs d name)) name) = Ok tt /\
  ~ same_file (o_disk (handle fs d name)) (o_disk (handle fs (o_disk (handle fs d name)) name)) name.
Proof.
  exists [(s "A", s "x"); (s "B", s "y"); (s "C", s "z")], [(xa, text [s "class C"; s "### {{{ A"; s "class B"; s "### }}}"; s "### {{{"; s "### }}}"])], xa. split.
  { intros k v ls Ha Hl. assert (C : v = s "x" \/ v = s "y" \/ v = s "z"). { cbn [aget] in Ha. destruct (pstr_eqb k (s "A")); [apply Some_is in Ha; auto|]. destruct (pstr_eqb k (s "B")); [apply Some_is in Ha; auto|]. destruct (pstr_eqb k (s "C")); [apply Some_is in Ha; auto|discriminate Ha]. }
    rewrite (value_lines_unique _ _ Hl _ (split_lines_spec _)). destruct C as [->|[->| ->]]; (apply Forall_cons; [split; [marker_no|apply class_none; vm_compute; reflexivity]|constructor]). }
  split; [vm_compute; reflexivity|]. split; [vm_compute; reflexivity|]. intros H. vm_compute in H. discriminate H.
Qed.
Print Assumptions C67_class_refuted.

(** ** C68: errors *)

(** The error is raised for exactly the files with an end before a beginning, a block without a name or a
    block without an end; nothing is written then. *)
Theorem C68_partial : forall fs d name x ls, fs <> [] -> fields_encodable fs -> file_text d name x -> lines_of x ls ->
  (malformed ls -> o_res (handle fs d name) = Err ValueError /\ o_disk (handle fs d name) = d /\ o_written (handle fs d name) = []) /\
  (~ malformed ls -> ~ start_in_block ls -> o_res (handle fs d name) = Ok tt).
Proof.
  intros fs d name x ls Hf He Ht Hl. split.
  - intros Hm. destruct (handle_malformed fs d name x ls Hf Ht Hl Hm) as [H1 H2]. split; [exact H2|]. split; [exact H1|]. now apply handle_error with (e := ValueError).
  - intros H1 H2. destruct (well_formed_pieces fs ls H1 H2) as (ps & out & -> & Hok & Ho). now apply (handle_pieces fs d name x ps out).
Qed.
Print Assumptions C68_partial.
(** Whatever is raised, the file is the same as before. *)
Theorem C68_any_error : forall fs d name e, o_res (handle fs d name) = Err e -> same_file d (o_disk (handle fs d name)) name /\ o_written (handle fs d name) = [].
Proof. exact handle_error. Qed.
Print Assumptions C68_any_error.
(** A file that is missing, or that isn't UTF-8 *)
Theorem C68_unreadable : forall fs d name, fs <> [] -> (forall x, ~ file_text d name x) ->
  exists e, handle fs d name = mkO d [] [] (Err e) /\ e = match aget name d with None => FileNotFoundError | Some _ => ValueError end.
Proof.
  intros fs d name Hf H. unfold handle. destruct fs as [|f fs]; [contradiction|]. destruct (aget name d) as [b|] eqn:E; [|eauto]. destruct (decode b) as [x|] eqn:Ed; [|eauto]. apply decode_spec in Ed.
  destruct (H (norm_eol x)). exists x. split; [exists b; auto|reflexivity].
Qed.
Print Assumptions C68_unreadable.
Example C68_unreadable_nonvacuous : (forall x, ~ file_text [] xa x) /\ forall x, ~ file_text [(xa, [255])] xa x.
Proof.
  split; [intros x (y & (b & H & _) & _); discriminate H|]. intros x (y & (b & H & Hy) & _). change (Some [255] = Some b) in H. apply Some_is in H. subst b. apply decode_spec in Hy. vm_compute in Hy. discriminate Hy.
Qed.
Example C68_nonvacuous :
  malformed [s "class A" ++ lf; s "### {{{" ++ lf] /\ malformed [s "### }}}"] /\ malformed [s "### {{{"; s "### }}}"] /\
  (forall l, In l [[s "class A" ++ lf; s "### {{{" ++ lf]; [s "### }}}"]] -> exists x d, file_text d xa x /\ lines_of x l /\ o_res (handle xfields d xa) = Err ValueError).
Proof.
  assert (G : forall ls, snd (r_lines xfields r_start ls) = Err ValueError -> malformed ls). { intros ls H. destruct (run_result xfields ls) as [(st & E & _)|(st & _ & E)]; [rewrite E in H; discriminate H|exact E]. }
  split; [apply G; vm_compute; reflexivity|]. split; [apply G; vm_compute; reflexivity|]. split; [apply G; vm_compute; reflexivity|].
  intros l [<-|[<-|[]]].
  - exists (s "class A" ++ lf ++ s "### {{{" ++ lf), [(xa, s "class A" ++ lf ++ s "### {{{" ++ lf)]. split; [apply plain_file; vm_compute; reflexivity|]. split; [apply lines_spec; reflexivity|vm_compute; reflexivity].
  - exists (s "### }}}"), [(xa, s "### }}}")]. split; [apply plain_file; vm_compute; reflexivity|]. split; [apply lines_spec; reflexivity|vm_compute; reflexivity].
Qed.
(** A block that begins before the one before it has ended, and was never closed, is not an error: the
    new value and the line that begins the next block are glued together. *)
Theorem C68_nested_refuted : exists fs d name x ls, file_text d name x /\ lines_of x ls /\ start_in_block ls /\ o_res (handle fs d name) = Ok tt /\
  contains (o_disk (handle fs d name)) name (s "### {{{ Tag" ++ lf ++ s "v### {{{ other" ++ lf ++ s "x" ++ lf ++ s "### }}}" ++ lf).
Proof.
  set (y := text [s "### {{{ Tag"; s "### {{{ other"; s "x"; s "### }}}"]).
  exists [(s "Tag", s "v")], [(xa, y)], xa, y, (lines y). split; [exists y; split; [exists y; split; reflexivity|reflexivity]|]. split; [apply lines_of_lines|]. split.
  - exists [s "### {{{ Tag" ++ lf], (s "### {{{ other" ++ lf), [s "x" ++ lf; s "### }}}" ++ lf], 0%nat, (s "other"). split; [reflexivity|]. split; [apply start_re_spec; vm_compute; reflexivity|]. apply opens_spec. vm_compute. reflexivity.
  - split; [vm_compute; reflexivity|]. eexists. split; vm_compute; reflexivity.
Qed.
Print Assumptions C68_nested_refuted.
(** A block with a name is no error anywhere, not even outside of all classes. *)
Theorem C68_no_class_refuted : exists fs d name x ls, file_text d name x /\ lines_of x ls /\ Forall (fun l => forall c, ~ is_class l c) ls /\ (exists y, block_in ls y) /\
  o_res (handle fs d name) = Ok tt.
Proof.
  set (y := text [s "### {{{ Tag"; s "### }}}"]).
  exists [(s "Tag", s "v")], [(xa, y)], xa, y, (lines y). split; [exists y; split; [exists y; split; reflexivity|reflexivity]|]. split; [apply lines_of_lines|]. split.
  - change (lines y) with [s "### {{{ Tag" ++ lf; s "### }}}" ++ lf]. repeat (apply Forall_cons; [apply class_none; vm_compute; reflexivity|]). constructor.
  - split; [|vm_compute; reflexivity]. exists (s "Tag"), [], (s "### {{{ Tag" ++ lf), [s "### }}}" ++ lf]. split; [reflexivity|]. left. split; [discriminate|]. exists 0%nat. apply start_re_spec. vm_compute. reflexivity.
Qed.
Print Assumptions C68_no_class_refuted.

(** ** C69: crashes *)

(** At every moment, the file is the old one or the new one, and all other files but the temporary one are as
    they were. The first and the last moment are among those considered. *)
Theorem C69_crash : forall fs d name d', In d' (handle_states fs d name) ->
  (same_file d d' name \/ same_file (o_disk (handle fs d name)) d' name) /\
  (forall n, n <> name -> n <> temp_name name -> same_file d d' n).
Proof. exact handle_states_spec. Qed.
Print Assumptions C69_crash.
Theorem C69_all_moments : forall fs d name, In d (handle_states fs d name) /\ In (o_disk (handle fs d name)) (handle_states fs d name).
Proof. exact handle_states_ends. Qed.
Print Assumptions C69_all_moments.
(** The new one is complete. *)
Theorem C69_complete : forall fs d name x ps out d', fs <> [] -> fields_encodable fs -> file_text d name x ->
  lines_of x (flat_map piece_lines ps) -> Forall piece_ok ps -> pieces_out fs [] ps out -> In d' (handle_states fs d name) ->
  same_file d d' name \/ contains d' name (concat out).
Proof.
  intros fs d name x ps out d' Hf He Ht Hl Hok Ho Hd. destruct (handle_states_spec fs d name d' Hd) as [[H|H] _]; [now left|].
  destruct (handle_pieces fs d name x ps out Hf He Ht Hl Hok Ho) as (_ & _ & [(_ & _ & R4 & _)|(_ & _ & R4)]); [|left; now rewrite R4 in H].
  right. destruct R4 as (b & Ha & Hb). exists b. split; [|exact Hb]. unfold same_file in H. congruence.
Qed.
Print Assumptions C69_complete.
Example C69_nonvacuous : exists d', In d' (handle_states xfields xdisk xa) /\ aget (temp_name xa) d' = Some (s "# hea") /\ same_file xdisk d' xa.
Proof.
  exists (aset (temp_name xa) (firstn 5 (concat xout)) xdisk). split; [|split; vm_compute; reflexivity]. unfold handle_states.
  assert (E : exists st, r_lines xfields r_start (lines (norm_eol xtext)) = (st, Ok tt) /\ r_changed st = true /\ r_result st = concat xout) by (eexists; split; [vm_compute; reflexivity|]; split; vm_compute; reflexivity). destruct E as (st & E1 & E2 & E3).
  change (aget xa xdisk) with (Some xtext). assert (D : decode xtext = Some xtext) by (vm_compute; reflexivity). cbv iota beta delta [xfields]. rewrite D. fold xfields. rewrite E1, E2, E3. right.
  assert (U : utf8_out (concat xout) = Some (concat xout)) by (vm_compute; reflexivity). rewrite U. apply in_app_iff. left. apply in_map_iff. exists 5%nat. split; [reflexivity|]. apply in_seq. split; [lia|]. assert (L : (length (concat xout) = 122)%nat) by (vm_compute; reflexivity). rewrite L. lia.
Qed.

(** ** C110: all files *)

(** Handling all files is handling each of them alone, up to the first that raises. *)
Theorem C110_all : forall fs d names, fs <> [] -> NoDup names -> (forall n, In n names -> exists r, n = r ++ s ".py") ->
  let o := handle_all fs d names in
  let done n := o_res (handle fs d n) = Ok tt /\ same_file (o_disk (handle fs d n)) (o_disk o) n in
  (o_res o = Ok tt /\ Forall done names /\ o_written o = flat_map (fun n => o_written (handle fs d n)) names) \/
  (exists a n b e, names = a ++ n :: b /\ Forall done a /\ o_res (handle fs d n) = Err e /\ o_res o = Err e /\
     Forall (same_file d (o_disk o)) (n :: b) /\ o_written o = flat_map (fun n => o_written (handle fs d n)) a).
Proof.
  intros fs d names Hf Hn Hp. cbv zeta. destruct (all_result fs Hf names d Hn (py_apart names Hp)) as [(H1 & H2 & H3 & _)|H]; [left; now repeat split|right; exact H].
Qed.
Print Assumptions C110_all.
(** If the process dies meanwhile, every file is either the old or the new one. *)
Theorem C110_crash : forall fs d names d', NoDup names -> (forall n, In n names -> exists r, n = r ++ s ".py") -> In d' (handle_all_states fs d names) ->
  (forall n, In n names -> same_file d d' n \/ same_file (o_disk (handle fs d n)) d' n) /\
  (forall n, ~ In n names -> (forall m, In m names -> n <> temp_name m) -> same_file d d' n).
Proof. intros fs d names d' Hn Hp. apply all_states; [exact Hn|now apply py_apart]. Qed.
Print Assumptions C110_crash.
(** No moment is forgotten: these are the beginning, the end, and every moment of handling each file. *)
Theorem C110_moments : forall fs d names, fs <> [] ->
  In d (handle_all_states fs d names) /\ In (o_disk (handle_all fs d names)) (handle_all_states fs d names) /\
  forall a n b d', names = a ++ n :: b -> o_res (handle_all fs d a) = Ok tt -> In d' (handle_states fs (o_disk (handle_all fs d a)) n) -> In d' (handle_all_states fs d names).
Proof.
  intros fs d names Hf. destruct fs as [|f fs]; [contradiction|]. clear Hf. set (F := f :: fs). assert (A : forall d n l, handle_all F d (n :: l) = match o_res (handle F d n) with Err e => handle F d n | Ok _ => let o' := handle_all F (o_disk (handle F d n)) l in mkO (o_disk o') (o_seen o' ++ o_seen (handle F d n)) (o_written (handle F d n) ++ o_written o') (o_res o') end) by reflexivity.
  assert (Z : forall d, handle_all F d [] = mkO d [] [] (Ok tt)) by reflexivity.
  revert d. induction names as [|n names IH]; intros d.
  - rewrite Z. cbn [handle_all_states o_disk]. split; [now left|]. split; [now left|]. intros a n b d' E. destruct a; discriminate.
  - cbn [handle_all_states]. destruct (C69_all_moments F d n) as [M1 M2]. split; [apply in_or_app; now left|]. rewrite A. destruct (o_res (handle F d n)) as [u|e] eqn:E.
    + destruct (IH (o_disk (handle F d n))) as (I1 & I2 & I3). cbn zeta. cbn [o_disk]. split; [apply in_or_app; now right|]. intros a n' b d' El Hr Hd. apply in_or_app. destruct a as [|m a]; cbn [app] in El; injection El as <- El.
      * left. rewrite Z in Hd. exact Hd.
      * right. rewrite A, E in Hr, Hd. cbn zeta in Hr, Hd. cbn [o_res o_disk] in Hr, Hd. exact (I3 a n' b d' El Hr Hd).
    + split; [apply in_or_app; now left|]. intros a n' b d' El Hr Hd. apply in_or_app. left. destruct a as [|m a]; cbn [app] in El; injection El as <- El; [rewrite Z in Hd; exact Hd|]. rewrite A, E in Hr. congruence.
Qed.
Print Assumptions C110_moments.
Theorem C110_no_fields : forall d names, handle_all [] d names = mkO d [] [] (Ok tt).
Proof. intros d names. now destruct names. Qed.
Print Assumptions C110_no_fields.
Example C110_nonvacuous : NoDup [xa; xb] /\ (forall n, In n [xa; xb] -> exists r, n = r ++ s ".py") /\ o_res (handle_all xfields xdisk [xa; xb]) = Ok tt /\ o_written (handle_all xfields xdisk [xa; xb]) = [xa] /\
  contains (o_disk (handle_all xfields xdisk [xa; xb])) xa (concat xout).
Proof.
  split; [constructor; [intros [H|[]]; discriminate H|constructor; [intros []|constructor]]|]. split; [intros n [<-|[<-|[]]]; [exists (s "a")|exists (s "b")]; reflexivity|].
  split; [vm_compute; reflexivity|]. split; [vm_compute; reflexivity|]. exists (concat xout). split; vm_compute; reflexivity.
Qed.

(** ** C111: fields without a block *)

(** check_everything_was_seen() names, in order, exactly the fields for which no file has a block. *)
Theorem C111_unseen : forall fs d names, fs <> [] -> NoDup names -> (forall n, In n names -> exists r, n = r ++ s ".py") ->
  (forall n, In n names -> exists x, file_text d n x) -> o_res (handle_all fs d names) = Ok tt ->
  let u := unseen fs (o_seen (handle_all fs d names)) in
  StronglySorted not_after u /\
  forall k, In k u <-> In k (map fst fs) /\ ~ exists n x ls, In n names /\ file_text d n x /\ lines_of x ls /\ block_in ls k.
Proof.
  intros fs d names Hf Hn Hp Ht Hr. cbv zeta. split; [apply unseen_sorted|]. intros k. rewrite unseen_In. split; intros [H1 H2]; (split; [exact H1|]).
  - intros (n & x & ls & Hi & Hx & Hl & Hb). apply H2. destruct (all_result fs Hf names d Hn (py_apart names Hp)) as [(_ & A2 & _ & A4)|(a & m & b & e & _ & _ & _ & A & _)]; [|rewrite Hr in A; discriminate A].
    apply A4. exists n. split; [exact Hi|]. rewrite Forall_forall in A2. apply (handle_seen fs d n x ls Hf Hx Hl); [|exact Hb]. now apply A2.
  - intros H. apply H2. destruct (all_result fs Hf names d Hn (py_apart names Hp)) as [(_ & A2 & _ & A4)|(a & m & b & e & _ & _ & _ & A & _)]; [|rewrite Hr in A; discriminate A].
    apply A4 in H as (n & Hi & H). destruct (Ht n Hi) as (x & Hx). exists n, x, (lines x). split; [exact Hi|]. split; [exact Hx|]. split; [apply lines_of_lines|]. rewrite Forall_forall in A2. apply (handle_seen fs d n x (lines x) Hf Hx (lines_of_lines x)); [|exact H]. now apply A2.
Qed.
Print Assumptions C111_unseen.
Example C111_nonvacuous : unseen (xfields ++ [(s "B", []); (s "A", [])]) (o_seen (handle_all (xfields ++ [(s "B", []); (s "A", [])]) xdisk [xa; xb])) = [s "A"; s "B"] /\
  o_res (handle_all (xfields ++ [(s "B", []); (s "A", [])]) xdisk [xa; xb]) = Ok tt.
Proof. split; vm_compute; reflexivity. Qed.

(** ** C112: what is written *)

(** A file is written if and only if it has a block with the name of a field, and "Written:" is said of
    exactly those files. *)
Theorem C112_written : forall fs d name x ls, fs <> [] -> file_text d name x -> lines_of x ls -> o_res (handle fs d name) = Ok tt ->
  (replaces fs ls -> o_written (handle fs d name) = [name]) /\
  (~ replaces fs ls -> o_written (handle fs d name) = [] /\ o_disk (handle fs d name) = d).
Proof.
  intros fs d name x ls Hf Ht Hl. rewrite (handle_run fs d name x Hf Ht). apply lines_spec in Hl. rewrite Hl. destruct (r_lines fs r_start ls) as [st [[]|e]] eqn:E; [|discriminate].
  destruct (run_whole fs ls st E) as [_ W]. destruct (r_changed st).
  - unfold write_to. destruct (utf8_out (r_result st)); [|discriminate]. intros _. split; [reflexivity|]. intros H. exfalso. now apply H, W.
  - intros _. split; [|now split]. intros H. apply W in H. discriminate H.
Qed.
Print Assumptions C112_written.
Example C112_nonvacuous : replaces xfields (lines xtext) /\ ~ replaces xfields (lines (text [s "nothing"])) /\ o_written (handle xfields xdisk xa) = [xa] /\ o_written (handle xfields xdisk xb) = [].
Proof.
  split; [|split; [|split; vm_compute; reflexivity]].
  - destruct (run_result xfields (lines xtext)) as [(st & E & _)|(st & E & _)].
    + apply (run_whole _ _ _ E). vm_compute in E. injection E as E. subst st. reflexivity.
    + vm_compute in E. discriminate E.
  - intros H. destruct (run_result xfields (lines (text [s "nothing"]))) as [(st & E & _)|(st & E & _)].
    + apply (run_whole _ _ _ E) in H. vm_compute in E. injection E as E. subst st. discriminate H.
    + vm_compute in E. discriminate E.
Qed.
