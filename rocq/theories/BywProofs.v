(** Words and their texts. *)
From Verif Require Import PyBase BywModel BywSpec.
From Coq Require Import Lia Sorting.Sorted Permutation.
Local Open Scope nat_scope.

(** ** Splitting *)

Lemma is_blank_iff c : is_blank c = true <-> blank_char c.
Proof.
  unfold is_blank, blank_char. cbn [In]. rewrite !Bool.orb_true_iff, !N.eqb_eq. intuition congruence.
Qed.
Lemma is_blank_not c : is_blank c = false <-> ~ blank_char c.
Proof. rewrite <- is_blank_iff. destruct (is_blank c); intuition congruence. Qed.

Lemma nonempty_filter l : Forall (fun w => w <> []) (filter (fun w => negb (pstr_eqb w [])) l).
Proof. apply Forall_forall. intros w H. apply filter_In in H as [_ H]. intros ->. discriminate. Qed.
Lemma concat_filter (l : list pstr) : concat (filter (fun w => negb (pstr_eqb w [])) l) = concat l.
Proof. induction l as [|[|c w] l IH]; auto. cbn [filter]. cbn. now rewrite IH. Qed.

Lemma split_blanks_concat x : forall run acc, concat (split_blanks x run acc) = rev acc ++ x.
Proof.
  induction x as [|c x IH]; intros run acc.
  - destruct run; cbn; now rewrite ?app_nil_r.
  - cbn [split_blanks]. destruct (Bool.eqb (is_blank c) run).
    + rewrite IH. cbn [rev]. now rewrite <- app_assoc.
    + cbn [concat]. now rewrite IH.
Qed.
Lemma split_letters_concat x : concat (split_letters x) = x.
Proof.
  unfold split_letters. cbn. induction x as [|c x IH]; auto. cbn. now rewrite IH.
Qed.
Lemma split_words_concat letter x : concat (split_words letter x) = x.
Proof.
  unfold split_words. rewrite concat_filter. destruct letter; [apply split_letters_concat|].
  now rewrite split_blanks_concat.
Qed.
Lemma split_words_nonempty letter x : Forall (fun w => w <> []) (split_words letter x).
Proof. apply nonempty_filter. Qed.
Lemma split_letters_words x : split_words true x = map (fun c => [c]) x.
Proof.
  unfold split_words, split_letters. cbn [app filter negb pstr_eqb]. induction x as [|c x IH]; auto.
  cbn [flat_map app filter pstr_eqb negb map]. now rewrite IH.
Qed.

(** ** The ends of the words *)

Lemma word_ends_cons i w rest : word_ends i (w :: rest) =
  (i + length w) :: match rest with
                    | next :: rest' => if pstr_eqb (strip next) [] then word_ends (i + length w + length next) rest' else word_ends (i + length w) rest
                    | [] => []
                    end.
Proof. reflexivity. Qed.

(** Going through a list one or two at a time *)
Lemma pairs_ind {A} (P : list A -> Prop) : P [] -> (forall a l, P l -> (forall b l', l = b :: l' -> P l') -> P (a :: l)) -> forall l, P l.
Proof.
  intros H0 H1 l. enough (P l /\ forall b l', l = b :: l' -> P l') by tauto.
  induction l as [|a l [IH1 IH2]]; split; auto; [discriminate|]. intros b l' [= -> ->]. exact IH1.
Qed.

Lemma len_pos (w : pstr) : w <> [] -> 0 < length w.
Proof. destruct w; [congruence|cbn; lia]. Qed.

Lemma word_ends_range ws : Forall (fun w => w <> []) ws -> forall i e, In e (word_ends i ws) -> i < e <= i + length (concat ws).
Proof.
  induction ws as [|w rest IH1 IH2] using pairs_ind; intros Hn i e; [contradiction|]. apply Forall_cons_iff in Hn as [Hw Hr].
  apply len_pos in Hw. rewrite word_ends_cons. cbn [concat]. rewrite app_length. intros [<-|H]; [lia|].
  destruct rest as [|next rest']; [contradiction|]. destruct (pstr_eqb _ _).
  - apply (IH2 next rest' eq_refl) in H; [|now inversion Hr]. cbn [concat]. rewrite app_length. lia.
  - apply IH1 in H; auto. lia.
Qed.

Lemma word_ends_sorted ws : Forall (fun w => w <> []) ws -> forall i, StronglySorted lt (word_ends i ws).
Proof.
  induction ws as [|w rest IH1 IH2] using pairs_ind; intros Hn i; [constructor|]. apply Forall_cons_iff in Hn as [Hw Hr].
  rewrite word_ends_cons. destruct rest as [|next rest']; [repeat constructor|]. destruct (pstr_eqb _ _).
  - constructor; [apply (IH2 next rest' eq_refl); now inversion Hr|]. apply Forall_forall. intros e He.
    apply word_ends_range in He; [lia|now inversion Hr].
  - constructor; [now apply IH1|]. apply Forall_forall. intros e He. apply word_ends_range in He; [lia|auto].
Qed.

Lemma word_ends_last ws w : Forall (fun w => w <> []) (ws ++ [w]) -> strip w <> [] -> forall i d,
  last (word_ends i (ws ++ [w])) d = i + length (concat (ws ++ [w])).
Proof.
  intros Hn Hs. induction ws as [|a rest IH1 IH2] using pairs_ind; intros i d.
  - cbn. now rewrite app_nil_r.
  - cbn [app] in *. apply Forall_cons_iff in Hn as [Ha Hr]. specialize (IH1 Hr).
    rewrite word_ends_cons. cbn [concat]. rewrite app_length.
    assert (forall (x : nat) l d', l <> [] -> last (x :: l) d' = last l d') as HL by (intros x l d'; destruct l; [congruence|reflexivity]).
    destruct rest as [|b rest'].
    + cbn [app]. destruct (pstr_eqb (strip w) []) eqn:E; [now apply pstr_eqb_spec in E|].
      rewrite HL by discriminate. cbn. rewrite app_nil_r. lia.
    + cbn [app]. destruct (pstr_eqb (strip b) []).
      * rewrite HL.
        2:{ destruct rest'; discriminate. }
        cbn [app] in Hr. rewrite (IH2 b rest' eq_refl) by now inversion Hr. cbn [concat]. rewrite app_length. lia.
      * rewrite HL by discriminate. change (b :: rest' ++ [w]) with ((b :: rest') ++ [w]). rewrite IH1. lia.
Qed.

Lemma word_ends_nil ws : forall i, word_ends i ws = [] -> ws = [].
Proof. intros i. destruct ws; [auto|discriminate]. Qed.

(** ** The texts *)

Lemma word_texts_prefix letter d p : In p (word_texts letter d) -> p <> [] /\ prefix p d.
Proof.
  unfold word_texts. intros H. apply in_map_iff in H as (e & <- & He).
  apply word_ends_range in He; [|apply split_words_nonempty]. rewrite split_words_concat in He.
  split; [|exists (skipn e d); now rewrite firstn_skipn].
  intros E. apply (f_equal (@length N)) in E. rewrite firstn_length in E. cbn in E. lia.
Qed.

Lemma sorted_growing d l : StronglySorted lt l -> Forall (fun e => e <= length d) l -> growing (map (fun i => firstn i d) l).
Proof.
  induction l as [|a l IH]; intros Hs Hf; [exact I|]. apply StronglySorted_inv in Hs as [Hs Ha]. apply Forall_cons_iff in Hf as [H1 Hf].
  destruct l as [|b l]; [exact I|]. cbn [map growing]. split; [|now apply IH]. apply Forall_cons_iff in Ha as [Ha _]. apply Forall_cons_iff in Hf as [H2 _].
  rewrite !firstn_length. lia.
Qed.
Lemma word_texts_growing letter d : growing (word_texts letter d).
Proof.
  unfold word_texts. apply sorted_growing; [apply word_ends_sorted, split_words_nonempty|].
  apply Forall_forall. intros e He. apply word_ends_range in He; [|apply split_words_nonempty]. rewrite split_words_concat in He. lia.
Qed.

Lemma lstrip_nil x : lstrip x = [] <-> Forall (fun c => is_space c = true) x.
Proof.
  induction x as [|c x IH]; [cbn; intuition|]. cbn [lstrip]. rewrite Forall_cons_iff. destruct (is_space c); [rewrite IH; intuition|]. intuition discriminate.
Qed.
Lemma strip_nil x : strip x = [] <-> Forall (fun c => is_space c = true) x.
Proof.
  unfold strip, rstrip. rewrite <- lstrip_nil. split; [|intros ->; reflexivity].
  intros H. apply (f_equal (@rev N)) in H. rewrite rev_involutive in H. cbn in H. apply (proj1 (lstrip_nil _)) in H.
  destruct (lstrip x) as [|c y] eqn:E; auto. exfalso.
  assert (is_space c = false). { revert E. induction x as [|a x IH]; [discriminate|]. cbn [lstrip]. destruct (is_space a) eqn:Ea; auto. intros [= -> _]; auto. }
  rewrite Forall_forall in H. rewrite H in H0; [discriminate|]. rewrite <- in_rev. now left.
Qed.

Lemma concat_last (ws : list pstr) d c : Forall (fun w => w <> []) ws -> concat ws = d ++ [c] -> exists ws' w, ws = ws' ++ [w ++ [c]].
Proof.
  intros Hn H. destruct ws as [|w0 ws0]; [destruct d; discriminate|].
  destruct (exists_last (l := w0 :: ws0)) as (ws' & w & E); [discriminate|]. rewrite E in *. exists ws'.
  apply Forall_app in Hn as [_ Hw]. inversion Hw as [|? ? Hw' _]; subst. destruct (exists_last Hw') as (w1 & c' & ->).
  rewrite concat_app in H. cbn in H. rewrite app_nil_r, app_assoc in H. apply app_inj_tail in H as [_ ->]. eauto.
Qed.

Lemma word_texts_last letter q c : is_space c = false -> last (word_texts letter (q ++ [c])) [] = q ++ [c].
Proof.
  intros Hc. unfold word_texts. destruct (concat_last (split_words letter (q ++ [c])) q c (split_words_nonempty _ _) (split_words_concat _ _)) as (ws & w & E).
  pose proof (split_words_nonempty letter (q ++ [c])) as Hn. pose proof (split_words_concat letter (q ++ [c])) as Hk. rewrite E in *.
  assert (HL : last (word_ends 0 (ws ++ [w ++ [c]])) 0 = length (q ++ [c])).
  { rewrite word_ends_last; auto; [now rewrite Hk|]. intros X. apply strip_nil in X. apply Forall_app in X as [_ X]. inversion X; congruence. }
  destruct (word_ends 0 (ws ++ [w ++ [c]])) as [|e l] eqn:El.
  { apply word_ends_nil in El. destruct ws; discriminate. }
  rewrite <- El in *. destruct (exists_last (l := word_ends 0 (ws ++ [w ++ [c]]))) as (l' & e' & E'); [rewrite El; discriminate|].
  rewrite E' in *. rewrite last_last in HL. rewrite map_app, HL. cbn [map]. rewrite last_last. now rewrite firstn_all.
Qed.

(** ** Which prefixes *)

(** Pieces that are by turns without blanks and only blanks *)
Fixpoint alternating (b : bool) (l : list pstr) : Prop :=
  match l with
  | [] => True
  | w :: l' => w <> [] /\ Forall (fun c => is_blank c = b) w /\ alternating (negb b) l'
  end.
Lemma split_alternating x : forall run acc, acc <> [] -> Forall (fun c => is_blank c = run) acc ->
  alternating run (filter (fun w => negb (pstr_eqb w [])) (split_blanks x run acc)).
Proof.
  assert (R : forall acc run, acc <> [] -> Forall (fun c => is_blank c = run) acc -> negb (pstr_eqb (rev acc) []) = true /\ rev acc <> [] /\ Forall (fun c => is_blank c = run) (rev acc)).
  { intros acc run H F. assert (rev acc <> []) as Hr. { intros E. apply H. apply (f_equal (@rev N)) in E. now rewrite rev_involutive in E. }
    split; [|split; auto; now apply Forall_rev]. destruct (rev acc); [congruence|reflexivity]. }
  induction x as [|c x IH]; intros run acc Ha Hf; destruct (R acc run Ha Hf) as (H1 & H2 & H3); cbn [split_blanks].
  - destruct run; cbn [filter]; rewrite H1; cbn; auto.
  - destruct (Bool.eqb (is_blank c) run) eqn:E.
    + apply Bool.eqb_prop in E. apply IH; [discriminate|]. now constructor.
    + cbn [filter]. rewrite H1. cbn [alternating]. split; [auto|]. split; [auto|].
      replace (negb run) with (is_blank c) by (destruct (is_blank c), run; cbn in *; congruence).
      apply IH; [discriminate|]. now repeat constructor.
Qed.
Lemma words_alternating x : (forall c r, x = c :: r -> ~ blank_char c) -> alternating false (split_words false x).
Proof.
  intros H. unfold split_words. destruct x as [|c x]; [exact I|]. cbn [split_blanks].
  assert (E : is_blank c = false) by (apply is_blank_not; now apply (H c x)). rewrite E. cbn [Bool.eqb].
  apply split_alternating; [discriminate|]. now repeat constructor.
Qed.

Lemma up_to_word_app w x p : Forall (fun c => is_blank c = false) w -> w <> [] -> x = [] \/ (exists b r, x = b :: r /\ is_blank b = true) ->
  up_to_word (w ++ x) p <-> p = w \/ exists q, p = w ++ q /\ q <> [] /\ up_to_word x q.
Proof.
  intros Hw Hn Hx. split.
  - intros (q & c & r & -> & Hc & E & Hr).
    destruct (le_lt_dec (length (q ++ [c])) (length w)) as [L|L].
    + left. assert (Hp : q ++ [c] = firstn (length (q ++ [c])) w).
      { apply (f_equal (firstn (length (q ++ [c])))) in E. rewrite firstn_app in E. replace (length (q ++ [c]) - length w) with 0 in E by lia.
        rewrite firstn_O, app_nil_r in E. rewrite E. rewrite firstn_app, Nat.sub_diag, firstn_O, app_nil_r. now rewrite firstn_all. }
      assert (Hs : skipn (length (q ++ [c])) w ++ x = r).
      { apply (f_equal (skipn (length (q ++ [c])))) in E. clear Hp. remember (q ++ [c]) as p0. clear Heqp0. revert E L. generalize p0 as p. clear. intros p E L. replace (length p) with (length p) in * by auto. rewrite !skipn_app in E. replace (length p - length w) with 0 in E by lia.
        cbn [skipn] in E. rewrite E. rewrite Nat.sub_diag, skipn_all. reflexivity. }
      destruct (skipn (length (q ++ [c])) w) as [|a y] eqn:Es.
      * rewrite Hp. rewrite <- (firstn_skipn (length (q ++ [c])) w) at 2. now rewrite Es, app_nil_r.
      * exfalso. destruct Hr as [->|(b & r' & -> & Hb)]; [discriminate|]. injection Hs as -> _.
        apply is_blank_iff in Hb. rewrite Forall_forall in Hw. rewrite Hw in Hb; [discriminate|].
        rewrite <- (firstn_skipn (length (q ++ [c])) w). rewrite Es. apply in_or_app. right. now left.
    + right. assert (Hp : q ++ [c] = w ++ firstn (length (q ++ [c]) - length w) x).
      { apply (f_equal (firstn (length (q ++ [c])))) in E. revert E L. generalize (q ++ [c]) as p. clear. intros p E L.
        rewrite !firstn_app, Nat.sub_diag, firstn_O, app_nil_r, firstn_all in E. rewrite firstn_all2 in E by lia. auto. }
      set (q' := firstn (length (q ++ [c]) - length w) x) in *. exists q'. split; [auto|].
      assert (Hq' : q' <> []). { intros Z. rewrite Z, app_nil_r in Hp. rewrite Hp in L. lia. }
      split; [auto|]. destruct (exists_last Hq') as (q2 & c2 & E2). exists q2, c2, r. rewrite E2 in Hp. rewrite app_assoc in Hp.
      apply app_inj_tail in Hp as [Hq ->]. split; [auto|]. split; [auto|]. split; [|auto].
      rewrite Hq in E. rewrite <- !app_assoc in E. apply app_inv_head in E. rewrite E, E2. now rewrite <- app_assoc.
  - intros [->|(q & -> & Hq & q2 & c & r & -> & Hc & -> & Hr)].
    + destruct (exists_last Hn) as (w' & c & ->). exists w', c, x. split; [auto|]. apply Forall_app in Hw as [_ Hw]. inversion Hw; subst.
      split; [now apply is_blank_not|]. split; [auto|]. destruct Hx as [->|(b & r & -> & Hb)]; [now left|right]. exists b, r. split; auto. now apply is_blank_iff.
    + exists (w ++ q2), c, r. rewrite !app_assoc. auto.
Qed.
Lemma up_to_word_blank w x p : Forall (fun c => is_blank c = true) w -> up_to_word (w ++ x) p <-> exists q, p = w ++ q /\ q <> [] /\ up_to_word x q.
Proof.
  intros Hw. revert p. induction w as [|b w IH]; intros p.
  - cbn. split; [|intros (q & -> & _ & H); auto]. intros H. exists p. split; [auto|]. split; [|auto]. destruct H as (q & c & r & -> & _). destruct q; discriminate.
  - apply Forall_cons_iff in Hw as [Hb Hw]. specialize (IH Hw). split.
    + intros (q & c & r & -> & Hc & E & Hr). destruct q as [|a q].
      * injection E as <- _. now apply is_blank_iff in Hb.
      * injection E as <- E. destruct (proj1 (IH (q ++ [c]))) as (q' & E' & Hq' & Hu).
        { exists q, c, r. auto. }
        exists q'. cbn [app]. rewrite E'. auto.
    + intros (q' & -> & Hq' & q & c & r & -> & Hc & -> & Hr). exists ((b :: w) ++ q), c, r. rewrite !app_assoc. auto.
Qed.

Lemma word_ends_up ws : alternating false ws -> (forall c, In c (concat ws) -> is_space c = true -> is_blank c = true) ->
  forall i e, In e (word_ends i ws) <-> exists p, up_to_word (concat ws) p /\ e = i + length p.
Proof.
  induction ws as [|w rest _ IH] using pairs_ind; intros Ha Hs i e.
  - cbn. split; [contradiction|]. intros (p & (q & c & r & -> & _ & E & _) & _). destruct q; discriminate.
  - cbn [alternating negb] in Ha. destruct Ha as (Hn & Hb & Ha). rewrite word_ends_cons. cbn [concat] in *.
    destruct rest as [|next rest'].
    + cbn [concat]. cbn [In]. split.
      * intros [<-|[]]. exists w. split; [|auto]. apply up_to_word_app; auto.
      * intros (p & Hp & ->). apply up_to_word_app in Hp; auto. destruct Hp as [->|(q & -> & Hq & Hu)]; [auto|].
        exfalso. destruct Hu as (q1 & c & r & -> & _ & E & _). destruct q1; discriminate.
    + cbn [alternating negb] in Ha. destruct Ha as (Hn2 & Hb2 & Ha). cbn [concat] in *.
      assert (Hx : pstr_eqb (strip next) [] = true).
      { apply pstr_eqb_spec. apply strip_nil. apply Forall_impl with (2 := Hb2). intros c Hc. apply is_blank_iff in Hc. unfold blank_char in Hc. cbn [In] in Hc.
        intuition subst; reflexivity. }
      rewrite Hx. cbn [In]. rewrite (IH next rest' eq_refl) by (auto; intros c Hc; apply Hs; rewrite !in_app_iff; auto).
      assert (X : next ++ concat rest' = [] \/ exists b r, next ++ concat rest' = b :: r /\ is_blank b = true).
      { right. destruct next as [|b y]; [congruence|]. inversion Hb2; subst. exists b, (y ++ concat rest'). auto. }
      split.
      * intros [<-|(p & Hp & ->)].
        -- exists w. split; [|auto]. apply up_to_word_app; auto.
        -- exists (w ++ next ++ p). split; [|rewrite !app_length; lia]. apply up_to_word_app; auto. right. exists (next ++ p). split; [auto|].
           split; [destruct next; [congruence|discriminate]|]. apply up_to_word_blank; auto. exists p. split; [auto|]. split; [|auto].
           destruct Hp as (q & c & r & -> & _). destruct q; discriminate.
      * intros (p & Hp & ->). apply up_to_word_app in Hp; auto. destruct Hp as [->|(q & -> & Hq & Hu)]; [auto|]. right.
        apply up_to_word_blank in Hu; auto. destruct Hu as (q2 & -> & _ & Hu). exists q2. split; [auto|]. rewrite !app_length. lia.
Qed.

Lemma word_texts_words d : plain_words d -> forall p, In p (word_texts false d) <-> up_to_word d p.
Proof.
  intros [H1 H2] p. unfold word_texts.
  assert (E : forall e, In e (word_ends 0 (split_words false d)) <-> exists p, up_to_word d p /\ e = length p).
  { intros e. rewrite word_ends_up; [now rewrite split_words_concat|now apply words_alternating|].
    rewrite split_words_concat. intros c Hc Hs. apply is_blank_iff. auto. }
  rewrite in_map_iff. split.
  - intros (e & <- & He). apply E in He as (p & Hp & ->). destruct Hp as (q & c & r & -> & Hc & -> & Hr).
    rewrite firstn_app, Nat.sub_diag, firstn_O, app_nil_r, firstn_all. exists q, c, r. auto.
  - intros Hp. exists (length p). split.
    + destruct Hp as (q & c & r & -> & Hc & -> & Hr). now rewrite firstn_app, Nat.sub_diag, firstn_O, app_nil_r, firstn_all.
    + apply E. eauto.
Qed.

(** Letters *)
Lemma letter_ends x : single_spaces x -> forall i e, In e (word_ends i (map (fun c => [c]) x)) <-> exists p, up_to_letter x p /\ e = i + length p.
Proof.
  induction x as [|a x IH1 IH2] using pairs_ind; intros [S1 S2] i e.
  - cbn. split; [contradiction|]. intros (p & (q & c & r & -> & _ & E) & _). destruct q; discriminate.
  - pose proof (S1 a x eq_refl) as Ha. cbn [map]. rewrite word_ends_cons.
    assert (U1 : up_to_letter (a :: x) [a]) by (exists [], a, x; auto).
    assert (UC : forall p, up_to_letter (a :: x) p -> p = [a] \/ exists q, p = a :: q /\ up_to_letter x q).
    { intros p (q & c & r & -> & Hc & E). destruct q as [|b q]; injection E as <- E; [now left|right].
      exists (q ++ [c]). split; [auto|]. exists q, c, r. auto. }
    assert (UD : forall p, up_to_letter x p -> up_to_letter (a :: x) (a :: p)).
    { intros p (q & c & r & -> & Hc & ->). exists (a :: q), c, r. auto. }
    destruct x as [|b x].
    + cbn [map]. cbn [In length]. split.
      * intros [<-|[]]. exists [a]. auto.
      * intros (p & Hp & ->). destruct (UC p Hp) as [->|(q & -> & q1 & c & r & -> & _ & E)]; [auto|]. destruct q1; discriminate.
    + cbn [map]. assert (Hb : pstr_eqb (strip [b]) [] = is_space b).
      { destruct (is_space b) eqn:E; [apply pstr_eqb_spec, strip_nil; auto|].
        destruct (pstr_eqb (strip [b]) []) eqn:E2; auto. apply pstr_eqb_spec, strip_nil in E2. inversion E2; congruence. }
      rewrite Hb. destruct (is_space b) eqn:E.
      * assert (S' : single_spaces x).
        { split; [|intros q a' b' r ->; apply (S2 (a :: b :: q) a' b' r); reflexivity].
          intros c r ->. destruct (S2 [a] b c r eq_refl); congruence. }
        cbn [In length]. rewrite (IH2 b x eq_refl S').
        assert (UE : forall p, up_to_letter (b :: x) p <-> exists q, p = b :: q /\ up_to_letter x q).
        { intros p. split.
          - intros (q & c & r & -> & Hc & E'). destruct q as [|b' q]; injection E' as <- E'; [congruence|]. exists (q ++ [c]). split; [auto|]. exists q, c, r. auto.
          - intros (q & -> & q1 & c & r & -> & Hc & ->). exists (b :: q1), c, r. auto. }
        split.
        -- intros [<-|(p & Hp & ->)]; [exists [a]; auto|]. exists (a :: b :: p). split; [|cbn; lia]. apply UD, UE. eauto.
        -- intros (p & Hp & ->). destruct (UC p Hp) as [->|(q & -> & Hq)]; [auto|]. apply UE in Hq as (q' & -> & Hq). right. exists q'. split; [auto|]. cbn; lia.
      * assert (S' : single_spaces (b :: x)).
        { split; [intros c r [= -> ->]; auto|]. intros q a' b' r E'. apply (S2 (a :: q) a' b' r). cbn [app]. now rewrite E'. }
        change ([b] :: map (fun c => [c]) x) with (map (fun c : N => [c]) (b :: x)). cbn [In length]. rewrite (IH1 S'). split.
        -- intros [<-|(p & Hp & ->)]; [exists [a]; auto|]. exists (a :: p). split; [auto|]. cbn; lia.
        -- intros (p & Hp & ->). destruct (UC p Hp) as [->|(q & -> & Hq)]; [auto|]. right. exists q. split; [auto|]. cbn; lia.
Qed.
Lemma word_texts_letters d : single_spaces d -> forall p, In p (word_texts true d) <-> up_to_letter d p.
Proof.
  intros H p. unfold word_texts. rewrite split_letters_words, in_map_iff. split.
  - intros (e & <- & He). apply letter_ends in He as (p & Hp & ->); auto. destruct Hp as (q & c & r & -> & Hc & ->).
    cbn [Nat.add]. rewrite firstn_app, Nat.sub_diag, firstn_O, app_nil_r, firstn_all. exists q, c, r. auto.
  - intros Hp. exists (length p). split.
    + destruct Hp as (q & c & r & -> & Hc & ->). now rewrite firstn_app, Nat.sub_diag, firstn_O, app_nil_r, firstn_all.
    + apply letter_ends; eauto.
Qed.
