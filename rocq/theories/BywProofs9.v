(** Subtitles that don't overlap: no word is lost. *)
From Coq Require Import Lqa Qabs ZifyBool ZifyN ZifyNat Sorting.Sorted.
From Verif Require Import PyFloatProofs PyRoundProofs TlSpec TlProofs.
From Verif Require Import BywModel BywSpec BywProofs BywProofs2 BywProofs3 BywProofs4 BywProofs5 BywProofs7 BywProofs8.
Local Open Scope Q_scope.

Lemma timed_facts start duration l r : timed start duration l = Ok r -> map wd_text r = map wd_text l /\ total_length (map wd_text l) <> 0%Z.
Proof.
  intros H. unfold timed in H. rewrite letters_total in H. destruct (_ =? 0)%Z eqn:E0; [discriminate|]. injection H as <-. apply Z.eqb_neq in E0.
  split; [apply set_times_texts|assumption].
Qed.
Lemma timed_at start duration l r v : timed start duration l = Ok r -> In v r -> exists l1 w l2, l = l1 ++ w :: l2 /\ nth_error r (length l1) = Some v.
Proof.
  intros H Hv. destruct (timed_facts _ _ _ _ H) as [HR _]. apply In_nth_error in Hv as [i Hi].
  assert (Li : (i < length l)%nat). { rewrite <- (map_length wd_text l), <- HR, map_length. apply nth_error_Some. congruence. }
  destruct (nth_error l i) as [w|] eqn:Ew; [|apply nth_error_None in Ew; lia].
  apply nth_error_split in Ew as (l1 & l2 & E & L1). exists l1, w, l2. split; [exact E|]. now rewrite L1.
Qed.

Lemma timed_gap start duration l r : sane_line start duration (map wd_text l) ->
  (Z.of_nat (length l + 1) * total_length (map wd_text l) <= 2 ^ 18 * duration)%Z ->
  timed start duration l = Ok r -> Forall (fun v => 1000 * wd_time v + pow2 (-18) <= inject_Z (start + duration)) r.
Proof.
  intros Sl Hn H. pose proof Sl as ((H1 & H2 & H3) & Hf & Ht). destruct (timed_facts _ _ _ _ H) as [HR HT].
  apply Forall_forall. intros v Hv. destruct (timed_at _ _ _ _ _ H Hv) as (l1 & w & l2 & E & Hi).
  destruct (timed_close start duration l r Sl H l1 w l2 E) as (v' & V & _ & _ & _ & C). rewrite Hi in V. injection V as <-.
  apply Qabs_Qle_condition in C as [_ C]. unfold ideal in C. rewrite E in C. rewrite map_app, total_app in C. cbn [map] in C. rewrite total_cons in C.
  rewrite E in Hn, HT, Hf. rewrite map_app, total_app in Hn, HT. cbn [map] in Hn, HT. rewrite total_cons in Hn, HT. rewrite app_length in Hn. cbn [length] in Hn.
  rewrite map_app in Hf. apply Forall_app in Hf as [_ Hf]. cbn [map] in Hf. apply Forall_inv in Hf.
  pose proof (total_nonneg (map wd_text l1)) as A0. pose proof (total_nonneg (map wd_text l2)) as A2.
  assert (A1 : (1 <= Z.of_nat (length (wd_text w)))%Z) by (destruct (wd_text w); [contradiction|cbn [length]; lia]).
  set (a := total_length (map wd_text l1)) in *. set (L := (a + _)%Z) in *. assert (HL : (a + 1 <= L)%Z) by lia.
  assert (P : 0 < inject_Z L) by (change 0 with (inject_Z 0); apply inject_Z_lt; lia).
  assert (EI : inject_Z duration * (inject_Z a / inject_Z L) == inject_Z duration - inject_Z duration * inject_Z (L - a) / inject_Z L).
  { unfold Zminus. rewrite inject_Z_plus, inject_Z_opp. field. lra. }
  rewrite EI in C.
  assert (D : inject_Z (Z.of_nat (length l1) + 2) * pow2 (-18) <= inject_Z duration * inject_Z (L - a) / inject_Z L).
  { apply Qle_shift_div_l; [assumption|]. change (pow2 (-18)) with (/ inject_Z (2 ^ 18)).
    assert (B : inject_Z (Z.of_nat (length l1) + 2) * inject_Z L <= inject_Z duration * inject_Z (L - a) * inject_Z (2 ^ 18)).
    { rewrite <- !inject_Z_mult. apply inject_Z_le. nia. }
    apply (Qmult_le_r _ _ (inject_Z (2 ^ 18))); [reflexivity|].
    assert (E3 : inject_Z (Z.of_nat (length l1) + 2) * / inject_Z (2 ^ 18) * inject_Z L * inject_Z (2 ^ 18) == inject_Z (Z.of_nat (length l1) + 2) * inject_Z L).
    { field. intros X. discriminate X. }
    rewrite E3. exact B. }
  rewrite !inject_Z_plus in *. change (inject_Z 1) with 1 in *. change (inject_Z 2) with 2 in *.
  set (p := pow2 (-18)) in *. clearbody p. set (e := inject_Z duration * inject_Z (L - a) / inject_Z L) in *. clearbody e. lra.
Qed.

Lemma ascending_head a l : ascending (a :: l) -> Forall (fun q => a <= q) l.
Proof.
  revert a. induction l as [|b l IH]; intros a H; [constructor|]. cbn [ascending] in H. destruct H as [H1 H2]. constructor; [exact H1|].
  apply (Forall_impl _ (P := fun q => b <= q)); [intros q Hq; lra|]. now apply IH.
Qed.

Lemma start_range start : (0 <= start <= 2 ^ 32)%Z -> Qabs (rnd64 (inject_Z start / 1000) - inject_Z start / 1000) <= pow2 (-30).
Proof.
  intros H. apply (rnd64_err_below _ 24); [lia|]. pose proof (inject_Z_le 0 start ltac:(lia)) as A. pose proof (inject_Z_le start (2 ^ 32) ltac:(lia)) as B.
  change (inject_Z 0) with 0 in A. change (inject_Z (2 ^ 32)) with (4294967296 # 1) in B. change (pow2 24) with (16777216 # 1).
  unfold Qdiv. change (/ 1000) with (1 # 1000). rewrite Qabs_pos; lra.
Qed.

(** Not before the start *)
Lemma timed_after_start start duration l r : sane_line start duration (map wd_text l) -> timed start duration l = Ok r ->
  Forall (fun v => rnd64 (inject_Z start / 1000) <= wd_time v) r.
Proof.
  intros Sl H. pose proof Sl as ((H1 & H2 & H3) & Hf & Ht). pose proof (timed_ascending start duration l r ltac:(lia) H2 H) as A.
  destruct l as [|w l]; [discriminate|]. destruct (timed_first _ _ _ _ _ H) as (v & r' & -> & E). cbn [map] in A. apply ascending_head in A.
  rewrite E in A. constructor; [rewrite E; apply Qle_refl|]. rewrite Forall_map in A. exact A.
Qed.

Lemma paced_plain start duration l r : paced start duration (map wd_text l) -> timed start duration l = Ok r ->
  Forall (fun v => plain_time (wd_time v) /\ (0 <= wd_time v <= 4294968)) r.
Proof.
  intros (Sl & Hg & Hs) H. pose proof Sl as ((H1 & H2 & H3) & Hf & Ht). rewrite map_length in Hg.
  pose proof (timed_gap start duration l r Sl Hg H) as G. pose proof (timed_after_start start duration l r Sl H) as A. destruct (timed_facts _ _ _ _ H) as [HR HT].
  rewrite Forall_forall in *. intros v Hv. specialize (G v Hv). specialize (A v Hv).
  pose proof (inject_Z_le (start + duration) (2 ^ 32) ltac:(lia)) as U. change (inject_Z (2 ^ 32)) with (4294967296 # 1) in U. pose proof (pow2_pos (-18)) as P18.
  pose proof (start_range start ltac:(lia)) as SR. apply Qabs_Qle_condition in SR. change (pow2 (-30)) with (1 # 1073741824) in SR. unfold Qdiv in SR. change (/ 1000) with (1 # 1000) in SR.
  fold (inject_Z start / 1000) in SR. unfold Qdiv in A. change (/ 1000) with (1 # 1000) in A.
  assert (S0 : 0 <= inject_Z start) by (change 0 with (inject_Z 0); apply inject_Z_le; lia).
  assert (Z0 : 0 <= rnd64 (inject_Z start * (1 # 1000))) by (apply rnd64_nonneg; lra).
  set (z := rnd64 (inject_Z start * (1 # 1000))) in *. 
  split; [|split; [lra|lra]]. destruct (Z_le_gt_dec 1 start) as [S1|S1].
  - right. pose proof (inject_Z_le 1 start S1) as S2. change (inject_Z 1) with 1 in S2. change (1000000000000000) with (1000000000000000 # 1). clearbody z. split; lra.
  - assert (start = 0%Z) as E0 by lia. destruct Hs as [Hs|Hs]; [lia|].
    destruct (timed_at _ _ _ _ _ H Hv) as (l1 & w & l2 & E & Hi). destruct l1 as [|w1 l1].
    + left. destruct l as [|w0 l]; [discriminate|]. destruct (timed_first _ _ _ _ _ H) as (v' & r' & E1 & E2). rewrite E1 in Hi. cbn [length nth_error] in Hi. injection Hi as <-.
      rewrite E2. rewrite rnd64_0; [reflexivity|]. rewrite E0. reflexivity.
    + right. destruct (timed_close start duration l r Sl H (w1 :: l1) w l2 E) as (v' & V & _ & _ & _ & C). rewrite Hi in V. injection V as <-.
      apply Qabs_Qle_condition in C as [C _]. unfold ideal in C. rewrite E0 in C. change (inject_Z 0) with 0 in C.
      set (a := total_length (map wd_text (w1 :: l1))) in *. set (L := total_length (map wd_text l)) in *.
      assert (Ha : (Z.of_nat (length (w1 :: l1)) <= a)%Z).
      { unfold a. rewrite <- (map_length wd_text (w1 :: l1)). apply total_count. apply Forall_forall. intros x Hx. rewrite E, map_app in Hf. apply Hf, in_or_app. now left. }
      set (k := Z.of_nat (length (w1 :: l1))) in *. assert (Hk : (1 <= k)%Z) by (unfold k; cbn [length]; lia).
      pose proof (total_nonneg (map wd_text l)) as L0. fold L in L0.
      assert (PL : 0 < inject_Z L) by (change 0 with (inject_Z 0); apply inject_Z_lt; lia).
      assert (DL : (1 # 2) * inject_Z a <= inject_Z duration * (inject_Z a / inject_Z L)).
      { unfold Qdiv. rewrite Qmult_assoc. apply Qle_shift_div_l; [exact PL|]. pose proof (inject_Z_le L (2 * duration) Hs) as Q1. rewrite inject_Z_mult in Q1. change (inject_Z 2) with 2 in Q1.
        pose proof (inject_Z_le 0 a ltac:(lia)) as Q2. change (inject_Z 0) with 0 in Q2. nra. }
      pose proof (inject_Z_le k a Ha) as K1. pose proof (inject_Z_le 1 k Hk) as K2. change (inject_Z 1) with 1 in K2.
      rewrite inject_Z_plus in C. change (inject_Z 1) with 1 in C. change (pow2 (-18)) with (1 # 262144) in *. change (1000000000000000) with (1000000000000000 # 1).
      set (y := inject_Z duration * (inject_Z a / inject_Z L)) in *. clearbody y. split; lra.
Qed.

(** ** All the lines *)

Definition gap (p q : Q) : Prop := p + pow2 (-29) <= q.
Lemma fop_app {A} (R : A -> A -> Prop) l l' : ForallOrdPairs R l -> ForallOrdPairs R l' -> (forall a b, In a l -> In b l' -> R a b) -> ForallOrdPairs R (l ++ l').
Proof.
  induction 1 as [|a l H _ IH]; intros H' HR; [exact H'|]. cbn [app]. constructor.
  - apply Forall_app. split; [exact H|]. apply Forall_forall. intros b Hb. apply HR; [now left|exact Hb].
  - apply IH; auto. intros x y Hx Hy. apply HR; [now right|exact Hy].
Qed.
Lemma fop_impl {A} (R R' : A -> A -> Prop) l : (forall a b, R a b -> R' a b) -> ForallOrdPairs R l -> ForallOrdPairs R' l.
Proof. intros H. induction 1 as [|a l H1 _ IH]; constructor; auto. eapply Forall_impl; [|exact H1]. auto. Qed.
Lemma fop_map {A B} (g : A -> B) (R : B -> B -> Prop) l : ForallOrdPairs R (map g l) <-> ForallOrdPairs (fun a b => R (g a) (g b)) l.
Proof.
  induction l as [|a l IH]; cbn [map]; split; intros H; try constructor; inversion H; subst.
  - now rewrite Forall_map in H2.
  - now apply IH.
  - now rewrite Forall_map.
  - now apply IH.
Qed.

Lemma paced_words letter gs a b x : line_paced letter gs (a, b, x) ->
  ForallOrdPairs (fun v w => gap (wd_time v) (wd_time w)) (line_words letter gs (a, b, x)) /\
  Forall (fun v => plain_time (wd_time v) /\ (0 <= wd_time v <= 4294968) /\ rnd64 (inject_Z a / 1000) <= wd_time v /\ 1000 * wd_time v + pow2 (-18) <= inject_Z (a + b)) (line_words letter gs (a, b, x)).
Proof.
  intros H. unfold line_words. cbn [line_paced] in H. destruct (group_for gs x) as [g|]; [|split; constructor]. specialize (H g eq_refl).
  destruct (timed a b (shown letter g)) as [r|] eqn:E; [|split; constructor]. pose proof H as (Sl & Hg & Hs). pose proof Sl as ((H1 & H2 & H3) & Hf & Ht). rewrite map_length in Hg.
  split.
  - apply fop_map. apply (fop_impl (fun p q => p + pow2 (-28) <= q)); [unfold gap; intros p q; change (pow2 (-28)) with (1 # 268435456); change (pow2 (-29)) with (1 # 536870912); intros; lra|].
    apply (timed_forward a b (shown letter g)); auto. destruct (shown letter g) as [|w0 l0]; [discriminate|]. cbn [length] in Hg. pose proof (total_nonneg (map wd_text (w0 :: l0))). nia.
  - pose proof (paced_plain _ _ _ _ H E) as P. pose proof (timed_after_start _ _ _ _ Sl E) as A. pose proof (timed_gap _ _ _ _ Sl Hg E) as G.
    rewrite Forall_forall in *. intros v Hv. specialize (P v Hv). specialize (A v Hv). specialize (G v Hv). tauto.
Qed.

Lemma all_forward letter gs lines : Forall (line_paced letter gs) lines -> no_overlap lines ->
  ForallOrdPairs (fun v w => gap (wd_time v) (wd_time w)) (flat_map (line_words letter gs) lines).
Proof.
  induction lines as [|[[a b] x] lines IH]; intros P O; [constructor|]. apply Forall_cons_iff in P as [P1 P2]. inversion O as [|? ? O1 O2]; subst. cbn [flat_map].
  destruct (paced_words letter gs a b x P1) as [W1 W2]. apply fop_app; [exact W1|now apply IH|].
  intros v w Hv Hw. apply in_flat_map in Hw as ([[a' b'] x'] & Hl & Hw). rewrite Forall_forall in *. specialize (O1 _ Hl). cbn [fst snd] in O1.
  destruct (paced_words letter gs a' b' x' (P2 _ Hl)) as [_ W3]. rewrite Forall_forall in W3. destruct (W3 w Hw) as (_ & T0 & T1 & T2). destruct (W2 v Hv) as (_ & _ & V1 & V2).
  assert (R : (0 <= a' <= 2 ^ 32)%Z).
  { assert (D : exists g, group_for gs x' = Some g) by (unfold line_words in Hw; destruct (group_for gs x') as [g|]; [eauto|contradiction]). destruct D as [g D].
    specialize (P2 _ Hl). cbn [line_paced] in P2. destruct (P2 g D) as (((Q1 & Q2 & Q3) & _) & _). lia. }
  pose proof (start_range a' R) as SR. apply Qabs_Qle_condition in SR. pose proof (inject_Z_le _ _ O1) as U.
  unfold gap. change (pow2 (-29)) with (1 # 536870912). change (pow2 (-30)) with (1 # 1073741824) in SR. change (pow2 (-18)) with (1 # 262144) in *.
  unfold Qdiv in *. change (/ 1000) with (1 # 1000) in *. set (z := rnd64 (inject_Z a' * (1 # 1000))) in *. clearbody z. lra.
Qed.

(** ** Frames *)

Lemma frames_apart p q f : (1 # 1000) <= f -> 0 <= p -> gap p q -> q <= 4294968 -> rnd64 (p * f) < rnd64 (q * f).
Proof.
  intros Hf Hp G Hq. unfold gap in G. change (pow2 (-29)) with (1 # 536870912) in G.
  assert (R : forall y, pow2 (-1022) <= y -> Qabs (rnd64 y - y) <= y * (1 # 9007199254740992)).
  { intros y Hy. pose proof (pow2_pos (-1022)) as P. assert (A : Qabs y == y) by (apply Qabs_pos; lra). change (1 # 9007199254740992) with (pow2 (-53)).
    eapply Qle_trans; [apply rnd64_rel|rewrite A; apply Qle_refl]. now rewrite A. }
  assert (Hy : (1 # 1152921504606846976) <= q * f) by nra.
  assert (Small : pow2 (-1022) <= (1 # 1152921504606846976)) by (change (1 # 1152921504606846976) with (pow2 (-60)); apply pow2_mono; lia).
  assert (Rq := R (q * f) ltac:(lra)). apply Qabs_Qle_condition in Rq.
  assert (D : (p + (1 # 536870912)) * f <= q * f) by nra. assert (E : (p + (1 # 536870912)) * f == p * f + (1 # 536870912) * f) by ring. rewrite E in D.
  assert (Y : q * f <= 4294968 * f) by nra. assert (X0 : 0 <= p * f) by nra.
  destruct (Qlt_le_dec (p * f) (pow2 (-1022))) as [C|C].
  - assert (M : rnd64 (p * f) <= rnd64 (pow2 (-70))) by (apply rnd64_mono; assert (pow2 (-1022) <= pow2 (-70)) by (apply pow2_mono; lia); lra).
    change (rnd64 (pow2 (-70))) with (pow2 (-70)) in M. change (pow2 (-70)) with (1 # 1180591620717411303424) in M.
    set (a := rnd64 (p * f)) in *. set (b := rnd64 (q * f)) in *. clearbody a b. clear R. set (y := q * f) in *. clearbody y. lra.
  - assert (Rp := R (p * f) C). apply Qabs_Qle_condition in Rp. set (a := rnd64 (p * f)) in *. set (b := rnd64 (q * f)) in *. clearbody a b. clear R C Small.
    set (x := p * f) in *. set (y := q * f) in *. clearbody x y. lra.
Qed.

(** ** The timeline of a text *)

Definition frame_of (f : Q) (w : word) : Q := rnd64 (wd_time w * f).
Definition showing_word (f : Q) (w : word) : wp := shows f (frame_of f w) (wd_text w).

Lemma showing_first f ws : showing f ws = put_all (map (showing_word f) ws) [shows f 0 []].
Proof. reflexivity. Qed.
Lemma showing_members f ws v : ForallOrdPairs (fun a b => ~ frame_of f a == frame_of f b) ws ->
  In v (showing f ws) <-> (exists w, In w ws /\ v = showing_word f w) \/ (v = shows f 0 [] /\ Forall (fun w => ~ frame_of f w == 0) ws).
Proof.
  intros D. rewrite showing_first, put_all_members; [|apply fop_map; exact D]. rewrite in_map_iff. split.
  - intros [(w & <- & Hw)|[[<-|[]] H]]; [left; eauto|]. right. split; [reflexivity|]. rewrite Forall_map in H. eapply Forall_impl; [|exact H]. intros w Hw C. apply Hw. symmetry. exact C.
  - intros [(w & Hw & ->)|[-> H]]; [left; eauto|]. right. split; [now left|]. rewrite Forall_map. eapply Forall_impl; [|exact H]. intros w Hw C. apply Hw. symmetry. exact C.
Qed.

Lemma in_order_map f ws : StronglySorted (fun a b => frame_of f a < frame_of f b) ws -> in_order (map (showing_word f) ws).
Proof.
  induction 1 as [|w ws _ IH H]; [exact I|]. cbn [map in_order]. split; [|exact IH]. intros v Hv. apply in_map_iff in Hv as (u & <- & Hu). rewrite Forall_forall in H. now apply H.
Qed.
Lemma sorted_pairs {A} (R : A -> A -> Prop) l : StronglySorted R l <-> ForallOrdPairs R l.
Proof. split; induction 1; constructor; auto. Qed.
Lemma showing_order f ws : in_order (showing f ws).
Proof. rewrite showing_first. apply put_all_order. split; [intros ? []|exact I]. Qed.
(** The words in the order of their times, after an empty text unless one begins at zero *)
Lemma showing_exact f ws : StronglySorted (fun a b => frame_of f a < frame_of f b) ws -> Forall (fun w => 0 <= frame_of f w) ws ->
  showing f ws = (match ws with w :: _ => if Qeq_bool (frame_of f w) 0 then [] else [shows f 0 []] | [] => [shows f 0 []] end) ++ map (showing_word f) ws.
Proof.
  intros Hs H0. destruct ws as [|w ws]; [reflexivity|]. inversion Hs as [|? ? Hs' Hw]; subst. inversion H0 as [|? ? W0 H0']; subst. rewrite Forall_forall in Hw.
  assert (D : ForallOrdPairs (fun a b => ~ frame_of f a == frame_of f b) (w :: ws)).
  { apply (fop_impl (fun a b => frame_of f a < frame_of f b)); [intros a b Hab C; rewrite C in Hab; now apply Qlt_irrefl in Hab|]. now apply sorted_pairs. }
  apply in_order_ext; [apply showing_order| |].
  - destruct (Qeq_bool (frame_of f w) 0) eqn:E; cbn [app]; [now apply in_order_map|]. apply Qeq_bool_neq in E.
    assert (P : 0 < frame_of f w) by (destruct (Qlt_le_dec 0 (frame_of f w)); [assumption|exfalso; apply E; apply Qle_antisym; assumption]).
    split; [|now apply in_order_map]. intros v Hv. apply in_map_iff in Hv as (u & <- & [<-|Hu]); cbn [at_ w_time frames shows showing_word]; [exact P|].
    specialize (Hw u Hu). unfold at_. cbn. fold (frame_of f u). lra.
  - intros v. rewrite showing_members by exact D. rewrite in_app_iff, in_map_iff. destruct (Qeq_bool (frame_of f w) 0) eqn:E.
    + apply Qeq_bool_eq in E. split.
      * intros [(u & Hu & ->)|[_ C]]; [right; eauto|]. inversion C; contradiction.
      * intros [[]|(u & <- & Hu)]. left. eauto.
    + apply Qeq_bool_neq in E. split.
      * intros [(u & Hu & ->)|[-> _]]; [right; eauto|left; now left].
      * intros [[<-|[]]|(u & <- & Hu)]; [|left; eauto]. right. split; [reflexivity|]. constructor; [exact E|]. apply Forall_forall. intros u Hu C. specialize (Hw u Hu). lra.
Qed.

(** ** The words kept *)

Lemma gap_lt p q : gap p q -> p < q.
Proof. unfold gap. pose proof (pow2_pos (-29)). lra. Qed.
Lemma put_word_new w d : Forall (fun v => ~ wd_time v == wd_time w) d -> put_word w d = d ++ [w].
Proof.
  induction 1 as [|v d H _ IH]; [reflexivity|]. cbn [put_word app]. rewrite IH. destruct (Qeq_bool (wd_time v) (wd_time w)) eqn:E; [|reflexivity]. apply Qeq_bool_eq in E. contradiction.
Qed.
Lemma put_words_new ws : forall d, ForallOrdPairs (fun v w => ~ wd_time v == wd_time w) (d ++ ws) -> put_words ws d = d ++ ws.
Proof.
  induction ws as [|w ws IH]; intros d H; [now rewrite app_nil_r|]. cbn [put_words fold_left]. rewrite put_word_new.
  - change (put_words ws (d ++ [w]) = d ++ w :: ws). rewrite IH; [now rewrite <- app_assoc|]. now rewrite <- app_assoc.
  - clear IH. induction d as [|v d IHd]; [constructor|]. cbn [app] in H. inversion H as [|? ? H1 H2]; subst. constructor; [|auto].
    rewrite Forall_forall in H1. apply H1. apply in_or_app. right. now left.
Qed.
Lemma sort_words_id l : StronglySorted (fun a b => wd_time a < wd_time b) l -> sort_words l = l.
Proof.
  unfold sort_words. induction 1 as [|w l _ IH H]; [reflexivity|]. cbn [sort fold_right]. etransitivity; [apply f_equal; exact IH|]. destruct l as [|v l]; [reflexivity|]. cbn [ins].
  apply Forall_inv in H. assert (Qle_bool (wd_time w) (wd_time v) = true) as -> by (apply Qle_bool_iff; now apply Qlt_le_weak). reflexivity.
Qed.
Lemma fop_distinct ws : ForallOrdPairs (fun v w => gap (wd_time v) (wd_time w)) ws -> ForallOrdPairs (fun v w => ~ wd_time v == wd_time w) ws.
Proof. apply fop_impl. intros a b H C. apply gap_lt in H. lra. Qed.

Lemma paced_bywords st letter F root srt gs F1 words no : bywords_groups st F root = Ok gs -> bywords st letter F root srt = (F1, Ok (words, no)) ->
  Forall (line_paced letter gs) (map tidy_line srt) -> no_overlap (map tidy_line srt) -> words = flat_map (line_words letter gs) (map tidy_line srt).
Proof.
  intros G H P O. unfold bywords in H. rewrite G in H. destruct (run_lines letter F gs (map tidy_line srt) [] []) as [F2 [[d n]|]] eqn:E; [|discriminate]. injection H as _ <- _.
  apply run_lines_ok in E as [-> _]. pose proof (all_forward letter gs _ P O) as A. rewrite (put_words_new _ []) by (now apply fop_distinct). cbn [app].
  apply sort_words_id. apply sorted_pairs. revert A. apply fop_impl. intros a b. apply gap_lt.
Qed.

Lemma frames_sorted letter gs lines f : (1 # 1000) <= f -> Forall (line_paced letter gs) lines -> no_overlap lines ->
  StronglySorted (fun a b => frame_of f a < frame_of f b) (flat_map (line_words letter gs) lines) /\ Forall (fun w => 0 <= frame_of f w) (flat_map (line_words letter gs) lines).
Proof.
  intros Hf P O. pose proof (all_forward letter gs _ P O) as A.
  assert (B : Forall (fun w => 0 <= wd_time w <= 4294968) (flat_map (line_words letter gs) lines)).
  { apply Forall_forall. intros w Hw. apply in_flat_map in Hw as ([[a b] x] & Hl & Hw). rewrite Forall_forall in P. destruct (paced_words letter gs a b x (P _ Hl)) as [_ W].
    rewrite Forall_forall in W. now apply W. }
  split.
  - apply sorted_pairs. induction A as [|w ws H A IH]; constructor.
    + apply Forall_cons_iff in B as [B1 B2]. rewrite Forall_forall in *. intros v Hv. specialize (B2 v Hv). apply frames_apart; try tauto. now apply H.
    + apply IH. now apply Forall_cons_iff in B.
  - eapply Forall_impl; [|exact B]. intros w [W _]. apply rnd64_nonneg. cbn. nra.
Qed.

Lemma filter_sorted {A} (R : A -> A -> Prop) p l : StronglySorted R l -> StronglySorted R (filter p l).
Proof.
  induction 1 as [|a l _ IH H]; [constructor|]. cbn [filter]. destruct (p a); [|exact IH]. constructor; [exact IH|]. apply Forall_forall. intros x Hx. apply filter_In in Hx as [Hx _].
  rewrite Forall_forall in H. now apply H.
Qed.
Lemma filter_forall {A} (P : A -> Prop) p l : Forall P l -> Forall P (filter p l).
Proof. intros H. apply Forall_forall. intros x Hx. apply filter_In in Hx as [Hx _]. rewrite Forall_forall in H. now apply H. Qed.

(** The words of one layer in a line *)
Lemma filter_set_times u ms : forall l time, map wd_text (filter (fun w => (wd_layer w =? u)%N) (set_times ms time l)) = map wd_text (filter (fun w => (wd_layer w =? u)%N) l).
Proof. induction l as [|w l IH]; intros time; [reflexivity|]. cbn [set_times filter wd_layer]. destruct (wd_layer w =? u)%N; cbn [map wd_text]; now rewrite IH. Qed.
Lemma filter_texts letter u ts t : NoDup (map bt_layer ts) -> In t ts -> bt_layer t = u ->
  map wd_text (filter (fun w => (wd_layer w =? u)%N) (flat_map (text_words letter) ts)) = word_texts letter (bt_desc t).
Proof.
  intros N Ht <-. 
  assert (Y : forall a, bt_layer a <> bt_layer t -> filter (fun w => (wd_layer w =? bt_layer t)%N) (text_words letter a) = []).
  { intros a Ha. unfold text_words. induction (word_texts letter (bt_desc a)) as [|x l IH]; [reflexivity|]. cbn [map filter wd_layer]. apply N.eqb_neq in Ha. now rewrite Ha. }
  assert (X : map wd_text (filter (fun w => (wd_layer w =? bt_layer t)%N) (text_words letter t)) = word_texts letter (bt_desc t)).
  { unfold text_words. induction (word_texts letter (bt_desc t)) as [|x l IH]; [reflexivity|]. cbn [map filter wd_layer]. rewrite N.eqb_refl. cbn [map wd_text]. now rewrite IH. }
  induction ts as [|a ts IH]; [contradiction|]. cbn [map flat_map] in *. apply NoDup_cons_iff in N as [N1 N2]. rewrite filter_app, map_app. destruct Ht as [->|Ht].
  - rewrite X. assert (filter (fun w => (wd_layer w =? bt_layer t)%N) (flat_map (text_words letter) ts) = []) as ->; [|now rewrite app_nil_r].
    clear IH. induction ts as [|b ts IHt]; [reflexivity|]. cbn [flat_map map] in *. rewrite filter_app, Y, IHt; auto.
    + intros Hi. apply N1. now right.
    + now apply NoDup_cons_iff in N2.
    + intros C. apply N1. now left.
  - rewrite Y, IH; auto. intros C. apply N1. rewrite C. now apply in_map.
Qed.
Lemma line_texts letter gs start duration text g t : NoDup (map bt_layer (all_texts gs)) -> group_for gs text = Some g -> letters (shown letter g) <> 0%Z -> In t (bg_texts g) ->
  map wd_text (filter (fun w => (wd_layer w =? bt_layer t)%N) (line_words letter gs (start, duration, text))) = word_texts letter (bt_desc t).
Proof.
  intros N G L Ht. unfold line_words. rewrite G. unfold timed. destruct (letters (shown letter g) =? 0)%Z eqn:E; [lia|]. rewrite filter_set_times. apply filter_texts; auto.
  apply group_for_In in G. apply in_split in G as (g1 & g2 & ->). unfold all_texts in N. rewrite flat_map_app, map_app in N. cbn [flat_map] in N. rewrite map_app in N.
  apply DocProofs.NoDup_app_parts in N as (_ & N & _). now apply DocProofs.NoDup_app_parts in N.
Qed.
