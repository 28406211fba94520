(** Lines, groups, and the words found. *)
From Coq Require Import Lqa Permutation Sorting.Sorted.
From Verif Require Import PyFloatProofs SerProofs.
From Verif Require Import BywModel BywSpec BywProofs BywProofs2.

Lemma timed_some start duration l : match timed start duration l with Ok [] => False | _ => True end.
Proof. unfold timed. destruct l as [|w l]; [exact I|]. destruct (_ =? 0)%Z; exact I. Qed.

Lemma try_groups_is letter F gs start duration text : try_groups letter F gs (start, duration, text) =
  match group_for gs text with
  | None => (F, Ok [])
  | Some g => match unanimate_all F (bg_texts g) with
              | (F1, Err e) => (F1, Err e)
              | (F1, Ok _) => (F1, timed start duration (shown letter g))
              end
  end.
Proof.
  unfold group_for. induction gs as [|g gs IH]; [reflexivity|]. cbn [try_groups find]. unfold group_matches.
  destruct (pstr_eqb text (full_text g)); cbn [negb]; [|exact IH].
  destruct (unanimate_all F (bg_texts g)) as [F1 [u|e]]; [|reflexivity]. fold (shown letter g).
  pose proof (timed_some start duration (shown letter g)) as H. destruct (timed start duration (shown letter g)) as [[|]|]; [contradiction|reflexivity..].
Qed.

Lemma try_groups_ok letter F gs line F1 r : try_groups letter F gs line = (F1, Ok r) ->
  r = line_words letter gs line /\ (r = [] <-> group_for gs (snd line) = None).
Proof.
  destruct line as [[start duration] text]. rewrite try_groups_is. unfold line_words. cbn [snd].
  destruct (group_for gs text) as [g|]; [|intros [= <- <-]; tauto].
  destruct (unanimate_all F (bg_texts g)) as [F2 [u|e]]; [|discriminate]. intros [= <- E].
  pose proof (timed_some start duration (shown letter g)) as H. rewrite E in H |- *. split; [reflexivity|]. destruct r; [contradiction|]. split; discriminate.
Qed.


Lemma run_lines_ok letter gs lines : forall F d no F1 d' no', run_lines letter F gs lines d no = (F1, Ok (d', no')) ->
  d' = put_words (flat_map (line_words letter gs) lines) d /\ no' = no ++ map snd (filter (unmatched gs) lines).
Proof.
  induction lines as [|line lines IH]; intros F d no F1 d' no' H; cbn [run_lines] in H.
  - injection H as <- <- <-. split; [reflexivity|]. cbn. now rewrite app_nil_r.
  - destruct (try_groups letter F gs line) as [F2 [r|e]] eqn:E; [|discriminate]. pose proof (try_groups_ok _ _ _ _ _ _ E) as [-> Hr].
    cbn [flat_map filter map]. unfold put_words. rewrite fold_left_app. fold (put_words (line_words letter gs line) d).
    unfold unmatched at 1. destruct (line_words letter gs line) as [|w ws] eqn:Ew.
    + rewrite (proj1 Hr eq_refl). apply IH in H as [-> ->]. split; [reflexivity|]. cbn [map]. now rewrite <- app_assoc.
    + apply IH in H as [-> ->]. split; [reflexivity|]. destruct (group_for gs (snd line)); [reflexivity|]. exfalso. discriminate (proj2 Hr eq_refl).
Qed.

(** ** The dict *)

Definition distinct_times (l : list word) : Prop := ForallOrdPairs (fun v w => ~ (wd_time v == wd_time w)%Q) l.

Lemma put_word_In w d v : distinct_times d -> (In v (put_word w d) <-> v = w \/ (In v d /\ ~ (wd_time v == wd_time w)%Q)).
Proof.
  induction d as [|u d IH]; intros D.
  - cbn. intuition congruence.
  - inversion D as [|? ? F D']; subst. cbn [put_word]. destruct (Qeq_bool (wd_time u) (wd_time w)) eqn:E.
    + apply Qeq_bool_iff in E. cbn [In]. rewrite Forall_forall in F. split.
      * intros [<-|H]; [now left|]. right. split; [now right|]. intros X. apply (F v H). rewrite E. now symmetry.
      * intros [->|[[->|H] X]]; [now left|contradiction|now right].
    + apply Qeq_bool_false in E. cbn [In]. rewrite (IH D'). split.
      * intros [<-|[->|[H X]]]; [right; split; [now left|assumption]|now left|]. right. split; [now right|assumption].
      * intros [->|[[->|H] X]]; [right; now left|now left|]. right. now right.
Qed.
Lemma put_word_distinct w d : distinct_times d -> distinct_times (put_word w d).
Proof.
  induction d as [|u d IH]; intros D.
  - constructor; constructor.
  - inversion D as [|? ? F D']; subst. cbn [put_word]. destruct (Qeq_bool (wd_time u) (wd_time w)) eqn:E.
    + apply Qeq_bool_iff in E. constructor; [|assumption]. rewrite Forall_forall in F |- *. intros v Hv. rewrite <- E. now apply F.
    + apply Qeq_bool_false in E. constructor; [|now apply IH]. apply Forall_forall. intros v Hv. apply (put_word_In w d v D') in Hv as [->|[Hv _]]; [assumption|].
      rewrite Forall_forall in F. now apply F.
Qed.

Lemma put_words_distinct ws : forall d, distinct_times d -> distinct_times (put_words ws d).
Proof. induction ws as [|w ws IH]; intros d D; [exact D|]. apply IH. now apply put_word_distinct. Qed.
Lemma put_words_In ws : forall d v, distinct_times d ->
  (In v (put_words ws d) <-> last_at ws v \/ (In v d /\ Forall (fun w => ~ (wd_time w == wd_time v)%Q) ws)).
Proof.
  induction ws as [|w ws IH]; intros d v D; cbn [put_words fold_left].
  - split; [intros H; right; split; [assumption|constructor]|]. intros [(l1 & l2 & E & _)|[H _]]; [destruct l1; discriminate|assumption].
  - fold (put_words ws (put_word w d)). rewrite (IH _ _ (put_word_distinct w d D)), (put_word_In w d v D). rewrite Forall_cons_iff. split.
    + intros [(l1 & l2 & -> & F)|[[->|[H X]] F]].
      * left. exists (w :: l1), l2. auto.
      * left. exists [], ws. auto.
      * right. split; [assumption|]. split; [|assumption]. intros Y. apply X. now symmetry.
    + intros [(l1 & l2 & E & F)|[H [X F]]].
      * destruct l1 as [|u l1]; cbn [app] in E; injection E as <- ->; [right; split; [now left|assumption]|]. left. exists l1, l2. auto.
      * right. split; [|assumption]. right. split; [assumption|]. intros Y. apply X. now symmetry.
Qed.

(** ** The words in order *)

Lemma sort_words_sorted l : distinct_times l -> StronglySorted (fun a b => (wd_time a < wd_time b)%Q) (sort_words l).
Proof.
  unfold sort_words, sort. set (le := fun a b => Qle_bool (wd_time a) (wd_time b)).
  assert (P : forall l, Permutation (fold_right (ins le) [] l) l) by (intros; apply (sort_perm le)).
  induction l as [|w l IH]; intros D; [constructor|]. inversion D as [|? ? F D']; subst. specialize (IH D'). cbn [fold_right].
  assert (F' : Forall (fun v => ~ (wd_time w == wd_time v)%Q) (fold_right (ins le) [] l)).
  { rewrite Forall_forall in F |- *. intros v Hv. apply F. now apply (Permutation_in v (P l)). }
  clear F D D'. induction IH as [|y m S IH' Fy]; [repeat constructor|]. cbn [ins]. inversion F' as [|? ? Fw Fm]; subst.
  unfold le at 1. destruct (Qle_bool (wd_time w) (wd_time y)) eqn:E.
  - apply Qle_bool_iff in E. assert (wd_time w < wd_time y)%Q. { destruct (Qlt_le_dec (wd_time w) (wd_time y)); [assumption|]. exfalso. apply Fw. lra. }
    constructor; [now constructor|]. constructor; [assumption|]. rewrite Forall_forall in Fy |- *. intros v Hv. specialize (Fy v Hv). cbv beta in Fy. lra.
  - apply Qle_bool_false in E. constructor; [now apply IH'|]. apply Forall_forall. intros v Hv.
    assert (Q : Permutation (ins le w m) (w :: m)).
    { clear. induction m as [|y m IH]; [reflexivity|]. cbn [ins]. destruct (le w y); [reflexivity|]. rewrite IH. apply perm_swap. }
    apply (Permutation_in v Q) in Hv as [<-|Hv]; [assumption|]. rewrite Forall_forall in Fy. now apply Fy.
Qed.

Lemma bywords_ok st letter F root srt F1 words no : bywords st letter F root srt = (F1, Ok (words, no)) ->
  exists gs, bywords_groups st F root = Ok gs /\
    no = map snd (filter (unmatched gs) (map tidy_line srt)) /\
    StronglySorted (fun a b => (wd_time a < wd_time b)%Q) words /\
    forall w, In w words <-> last_at (flat_map (line_words letter gs) (map tidy_line srt)) w.
Proof.
  unfold bywords. destruct (bywords_groups st F root) as [gs|e]; [|discriminate].
  destruct (run_lines letter F gs (map tidy_line srt) [] []) as [F2 [[d no']|e]] eqn:E; [|discriminate]. intros [= <- <- <-].
  apply run_lines_ok in E as [-> ->]. exists gs. split; [reflexivity|]. split; [reflexivity|].
  assert (D : distinct_times (put_words (flat_map (line_words letter gs) (map tidy_line srt)) [])) by (apply put_words_distinct; constructor).
  split; [now apply sort_words_sorted|]. intros w.
  assert (P : forall l, In w (sort_words l) <-> In w l).
  { intros l. pose proof (sort_perm (fun a b => Qle_bool (wd_time a) (wd_time b)) l) as P. split; apply Permutation_in; [exact P|now symmetry]. }
  rewrite P. rewrite put_words_In by constructor. cbn [In]. tauto.
Qed.

Lemma last_at_distinct ws : distinct_times ws -> forall w, last_at ws w <-> In w ws.
Proof.
  intros D w. split; [intros (l1 & l2 & -> & _); apply in_or_app; right; now left|].
  intros H. apply in_split in H as (l1 & l2 & ->). exists l1, l2. split; [reflexivity|].
  clear -D. induction l1 as [|u l1 IH]; inversion D as [|? ? F D']; subst; [|auto].
  rewrite Forall_forall in F |- *. intros v Hv X. apply (F v Hv). now symmetry.
Qed.
