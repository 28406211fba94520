(** Proofs about lines and markers of source files. *)
From Verif Require Import RepModel RepSpec PyFmtProofs AnimProofs2 SerProofs XpProofs.
From Coq Require Import Lia ZifyN ZifyBool ZifyNat.
Local Open Scope N_scope.

Lemma word_char_spec c : word_char c = true <-> In c letters_etc.
Proof.
  unfold word_char. split.
  - intros H. assert (E : 48 <= c <= 122) by lia. assert (E2 : exists k, (k < 75)%nat /\ c = 48 + N.of_nat k) by (exists (N.to_nat (c - 48)); lia).
    destruct E2 as (k & Hk & ->). revert H. do 75 (destruct k as [|k]; [vm_compute; intros H; first [discriminate H | tauto]|]). lia.
  - intros H. revert H. unfold letters_etc. cbn. intros H. repeat (destruct H as [<-|H]; [reflexivity|]). destruct H.
Qed.
Lemma word_spec x : word x <-> Forall (fun c => word_char c = true) x.
Proof. unfold word. split; apply Forall_impl; intros c; apply word_char_spec. Qed.
Lemma after_spec p x r : after p x = Some r <-> x = p ++ r.
Proof.
  unfold after. split.
  - destruct (pstr_eqb (firstn (length p) x) p) eqn:E; [|discriminate]. apply pstr_eqb_spec in E. intros [= <-]. rewrite <- E at 1. now rewrite firstn_skipn.
  - intros ->. rewrite firstn_app, Nat.sub_diag, firstn_all, firstn_O, app_nil_r, pstr_eqb_refl. f_equal. rewrite skipn_app, Nat.sub_diag, skipn_all. reflexivity.
Qed.
(** [span] splits in the only way possible. *)
Lemma span_unique f x a b : Forall (fun c => f c = true) a -> ~ begins (fun c => f c = true) b -> x = a ++ b -> span f x = (a, b).
Proof.
  intros Ha Hb ->. destruct b as [|c b]; [rewrite app_nil_r|].
  - induction Ha as [|c a Hc _ IH]; [reflexivity|]. cbn [span]. now rewrite Hc, IH.
  - apply span_stop; [exact Ha|]. cbn [begins] in Hb. now destruct (f c).
Qed.
Lemma span_splits f x : Forall (fun c => f c = true) (fst (span f x)) /\ x = fst (span f x) ++ snd (span f x) /\ ~ begins (fun c => f c = true) (snd (span f x)).
Proof. destruct (span_spec f x) as (A & B & C). split; [exact A|]. split; [exact B|]. destruct (snd (span f x)); cbn [begins]; [auto|congruence]. Qed.
Lemma begins_word r : ~ begins (fun d => In d letters_etc) r <-> ~ begins (fun c => word_char c = true) r.
Proof. destruct r as [|c r]; cbn [begins]; [tauto|]. now rewrite word_char_spec. Qed.
Lemma begins_blank r : ~ begins (eq 32) r <-> ~ begins (fun c => (32 =? c) = true) r.
Proof. destruct r as [|c r]; cbn [begins]; [tauto|]. now rewrite N.eqb_eq. Qed.
Lemma blanks_span i r : ~ begins (eq 32) r -> span (N.eqb 32) (repeat 32 i ++ r) = (repeat 32 i, r).
Proof. intros H. apply span_unique; [|now apply begins_blank|reflexivity]. induction i; constructor; auto. Qed.
Lemma all_blanks b : Forall (fun c => (32 =? c) = true) b -> b = repeat 32 (length b).
Proof. induction 1 as [|c b H _ IH]; [reflexivity|]. cbn [length repeat]. apply N.eqb_eq in H. now rewrite <- H, <- IH. Qed.

Lemma class_re_spec l c : class_re l = Some c <-> is_class l c.
Proof.
  unfold class_re, is_class. split.
  - destruct (after (s "class ") l) as [r|] eqn:E; [|discriminate]. apply after_spec in E. destruct (span_splits word_char r) as (A & B & C).
    destruct (fst (span word_char r)) as [|w ws] eqn:Ew; [discriminate|]. intros [= <-]. exists (snd (span word_char r)). split; [rewrite E; f_equal; exact B|]. split; [discriminate|]. split; [now apply word_spec|now apply begins_word].
  - intros (r & -> & Hne & Hw & Hb). assert (E : after (s "class ") (s "class " ++ c ++ r) = Some (c ++ r)) by now apply after_spec. rewrite E.
    assert (E2 : span word_char (c ++ r) = (c, r)) by (apply span_unique; [now apply word_spec|now apply begins_word|reflexivity]). rewrite E2. cbn [fst]. destruct c; [contradiction|reflexivity].
Qed.
Lemma start_re_spec l i nm : start_re l = Some (i, nm) <-> is_start l i nm.
Proof.
  unfold start_re, is_start. split.
  - pose proof (span_splits (N.eqb 32) l) as (A & B & _). destruct (span (N.eqb 32) l) as [b r]. cbn [fst snd] in *.
    destruct (after (s "### {{{") r) as [r'|] eqn:E; [|discriminate]. apply after_spec in E. intros [= <- <-].
    pose proof (span_splits (N.eqb 32) r') as (A' & B' & C'). destruct (span (N.eqb 32) r') as [b' r'']. cbn [fst snd] in *.
    pose proof (span_splits word_char r'') as (A'' & B'' & C''). destruct (span word_char r'') as [nm r3]. cbn [fst snd] in *.
    exists (length b'), r3. rewrite <- (all_blanks b A), <- (all_blanks b' A'). split; [rewrite B, E, B', B''; reflexivity|]. split; [now apply word_spec|]. split; [now apply begins_word|].
    intros ->. cbn [app] in B''. subst r''. now apply begins_blank.
  - intros (j & r & -> & Hw & Hb & Hn). rewrite blanks_span by (cbn; discriminate).
    assert (E : after (s "### {{{") (s "### {{{" ++ repeat 32 j ++ nm ++ r) = Some (repeat 32 j ++ nm ++ r)) by now apply after_spec. rewrite E, repeat_length.
    rewrite blanks_span. 2:{ destruct nm as [|c nm]; [now apply Hn|]. cbn [app begins]. intros <-. inversion Hw as [|? ? Hc _]; subst. apply word_char_spec in Hc. discriminate Hc. }
    cbn [snd]. assert (E2 : span word_char (nm ++ r) = (nm, r)) by (apply span_unique; [now apply word_spec|now apply begins_word|reflexivity]). now rewrite E2.
Qed.
Lemma end_re_spec l : end_re l = true <-> is_end l.
Proof.
  unfold end_re, is_end. split.
  - pose proof (span_splits (N.eqb 32) l) as (A & B & _). destruct (span (N.eqb 32) l) as [b r]. cbn [fst snd] in *. destruct (after (s "### }}}") r) as [r'|] eqn:E; [|discriminate].
    apply after_spec in E. intros _. exists (length b), r'. rewrite <- (all_blanks b A). now rewrite B, E.
  - intros (i & r & ->). rewrite blanks_span by (cbn; discriminate). cbn [snd]. assert (E : after (s "### }}}") (s "### }}}" ++ r) = Some r) by now apply after_spec. now rewrite E.
Qed.
Lemma start_none l : start_re l = None <-> forall i nm, ~ is_start l i nm.
Proof.
  split.
  - intros E i nm H. apply start_re_spec in H. congruence.
  - intros H. destruct (start_re l) as [[i nm]|] eqn:E; [|reflexivity]. apply start_re_spec in E. now destruct (H i nm).
Qed.
Lemma class_none l : class_re l = None <-> forall c, ~ is_class l c.
Proof.
  split.
  - intros E c H. apply class_re_spec in H. congruence.
  - intros H. destruct (class_re l) as [c|] eqn:E; [|reflexivity]. apply class_re_spec in E. now destruct (H c).
Qed.
Lemma end_none l : end_re l = false <-> ~ is_end l.
Proof. rewrite <- end_re_spec. destruct (end_re l); split; congruence. Qed.
Lemma no_marker l : ~ is_marker l <-> start_re l = None /\ end_re l = false.
Proof.
  rewrite start_none, end_none. unfold is_marker. split.
  - intros H. split; [intros i nm Hs; apply H; eauto|tauto].
  - intros [A B] [(i & nm & Hs)|H]; [exact (A i nm Hs)|exact (B H)].
Qed.
Lemma start_not_end l i nm : is_start l i nm -> ~ is_end l.
Proof.
  intros (j & r & -> & _) (i' & r' & E). assert (A : span (N.eqb 32) (repeat 32 i ++ s "### {{{" ++ repeat 32 j ++ nm ++ r) = (repeat 32 i, s "### {{{" ++ repeat 32 j ++ nm ++ r)) by (apply blanks_span; cbn; discriminate).
  rewrite E, blanks_span in A by (cbn; discriminate). apply (f_equal (fun z => nth 4 (snd z) 0)) in A. discriminate A.
Qed.
Lemma class_not_marker l c : is_class l c -> ~ is_marker l.
Proof.
  intros (r & -> & _) H. destruct H as [(i & nm & j & r' & E & _)|(i & r' & E)]; destruct i; discriminate E.
Qed.

(** ** Lines *)

Lemma lines_of_lines x : lines_of x (lines x).
Proof.
  assert (G : forall n x, (length x <= n)%nat -> lines_of x (lines x)); [|now apply (G (length x))].
  induction n as [|n IH]; intros [|c y] Hn; try (cbn in Hn; lia); try constructor. clear x.
  (* the first line *)
  pose proof (span_splits (fun c => negb (c =? 10)) (c :: y)) as (A & B & C).
  destruct (span (fun c => negb (c =? 10)) (c :: y)) as [a b]. cbn [fst snd] in *. rewrite B.
  assert (Ha : ~ In 10 a). { intros Hi. rewrite Forall_forall in A. apply A in Hi. discriminate Hi. }
  assert (L : forall r, lines (a ++ 10 :: r) = (a ++ [10]) :: lines r).
  { clear -Ha. intros r. induction a as [|d a IHa]; [reflexivity|]. cbn [app lines]. destruct (N.eqb_spec d 10) as [->|_]; [destruct Ha; now left|]. rewrite IHa by (intros Hi; apply Ha; now right). reflexivity. }
  assert (L0 : a <> [] -> lines a = [a]).
  { clear -Ha. induction a as [|d a IHa]; [contradiction|]. intros _. cbn [lines]. destruct (N.eqb_spec d 10) as [->|_]; [destruct Ha; now left|]. destruct a as [|e a]; [reflexivity|]. rewrite IHa; [reflexivity| |discriminate]. intros Hi. apply Ha. now right. }
  destruct b as [|d b].
  - rewrite app_nil_r in *. subst a. rewrite L0 by discriminate. apply lines_last; [discriminate|exact Ha].
  - assert (d = 10). { cbn [begins] in C. destruct (N.eqb_spec d 10); [assumption|exfalso; now apply C]. } subst d. rewrite L.
    assert (El : a ++ 10 :: b = (a ++ [10]) ++ b) by now rewrite <- app_assoc. rewrite El. apply lines_more; [exists a; now split|]. apply IH.
    assert (length (c :: y) = length (a ++ 10 :: b)) as El2 by now rewrite B. rewrite app_length in El2. cbn [length] in *. lia.
Qed.
Lemma app_cut (a : pstr) : forall b c d, ~ In 10 a -> ~ In 10 c -> a ++ 10 :: b = c ++ 10 :: d -> a = c /\ b = d.
Proof.
  induction a as [|x a IH]; intros b [|y c] d Ha Hc E; cbn [app] in *; inversion E; subst.
  - auto.
  - destruct Hc. now left.
  - destruct Ha. now left.
  - destruct (IH b c d) as [-> ->]; auto; intros Hi; [apply Ha|apply Hc]; now right.
Qed.
Lemma lines_unique x ls : lines_of x ls -> forall ls', lines_of x ls' -> ls = ls'.
Proof.
  induction 1 as [|x Hne Hx|l x ls (a & -> & Ha) H IH]; intros ls' H'.
  - inversion H' as [|? Hne Hn E|l y ls2 (a & -> & Ha) H2 E]; subst; auto; [contradiction|]. destruct a; discriminate E.
  - inversion H' as [E|? ? ? |l y ls2 (a & -> & Ha) H2 E]; subst; auto; [contradiction|]. exfalso. apply Hx. apply in_or_app. left. apply in_or_app. right. now left.
  - inversion H' as [E|? ? Hn E|l y ls2 (c & -> & Hc) H2 E]; subst.
    + destruct a; discriminate.
    + exfalso. apply Hn. apply in_or_app. left. apply in_or_app. right. now left.
    + rewrite <- !app_assoc in E. cbn [app] in E. apply app_cut in E as [-> ->]; auto. f_equal. now apply IH.
Qed.
Lemma lines_spec x ls : lines_of x ls <-> lines x = ls.
Proof. split; [intros H; apply (lines_unique x); [apply lines_of_lines|exact H]|intros <-; apply lines_of_lines]. Qed.
Lemma lines_concat x ls : lines_of x ls -> x = concat ls.
Proof. induction 1 as [|x|l x ls _ _ IH]; cbn [concat]; [reflexivity|now rewrite app_nil_r|now rewrite IH]. Qed.
Lemma lines_full ls : Forall full_line ls -> lines_of (concat ls) ls.
Proof. induction 1 as [|l ls Hl _ IH]; cbn [concat]; constructor; auto. Qed.
Lemma lines_cut x a b : lines_of x (a ++ b) -> b <> [] -> Forall full_line a.
Proof.
  revert x. induction a as [|l a IH]; intros x H Hb; [constructor|]. cbn [app] in H. remember (l :: a ++ b) as ls eqn:E. destruct H as [|x H1 H2|l' x ls Hl H].
  - discriminate E.
  - injection E as _ E. symmetry in E. apply app_eq_nil in E as [_ E]. contradiction.
  - injection E as -> ->. constructor; [exact Hl|]. now apply (IH x).
Qed.

Lemma split_lines_spec v : value_lines v (split_lines v).
Proof.
  induction v as [|c v (A & B & C)].
  - split; [discriminate|]. split; [repeat constructor; intros []|reflexivity].
  - cbn [split_lines]. destruct (N.eqb_spec c 10) as [->|Hc].
    + split; [discriminate|]. split; [constructor; [intros []|exact B]|]. cbn [join]. destruct (split_lines v) as [|l ls]; [contradiction|]. cbn [app]. now rewrite C.
    + destruct (split_lines v) as [|l ls]; [contradiction|]. split; [discriminate|]. inversion B as [|? ? Bl Bls]; subst. split; [constructor; [intros [Hi|Hi]; auto|exact Bls]|].
      cbn [join]. destruct ls; reflexivity.
Qed.
Lemma value_lines_unique v a : value_lines v a -> forall b, value_lines v b -> a = b.
Proof.
  intros (A1 & A2 & A3) b (B1 & B2 & B3). revert v b A1 A3 B1 B2 B3. induction A2 as [|x a Hx A2 IH]; intros v b A1 A3 B1 B2 B3; [contradiction|]. destruct b as [|y b]; [contradiction|].
  inversion B2 as [|? ? Hy B2']; subst. destruct a as [|x' a], b as [|y' b]; cbn [join] in B3.
  - now subst.
  - exfalso. apply Hx. rewrite B3. apply in_or_app. right. now left.
  - exfalso. apply Hy. rewrite <- B3. apply in_or_app. right. now left.
  - cbn [app] in B3. apply app_cut in B3 as [-> E]; auto. f_equal. apply (IH (join [10] (x' :: a))); auto; discriminate.
Qed.
Lemma indented_value i v new : value_in i v new -> indented i v ++ [10] = concat new.
Proof.
  intros (ls & Hl & ->). rewrite (value_lines_unique _ _ Hl _ (split_lines_spec v)). unfold indented, blanks_of. destruct (split_lines_spec v) as (A & _).
  induction (split_lines v) as [|l l' IH]; [contradiction|]. cbn [map concat]. destruct l' as [|l2 l']; [cbn; now rewrite app_nil_r|].
  cbn [map join]. cbn [map] in IH. rewrite <- IH by discriminate. now rewrite <- !app_assoc.
Qed.
Lemma value_in_ex i v : exists new, value_in i v new.
Proof. eexists. exists (split_lines v). split; [apply split_lines_spec|reflexivity]. Qed.
