(** Facts about [rnd64]: it is the nearest binary64 number, monotone,
    idempotent, odd, exact on integers up to 2^53, with the usual error bounds. *)
From Verif Require Import PyFloat.
From Coq Require Import Lqa Qfield.
Local Open Scope Q_scope.

(** ** Small facts on Q *)

Lemma Qred_id_eq a b : a == b -> Qred a = a -> Qred b = b -> a = b.
Proof. intros H Ha Hb. rewrite <- Ha, <- Hb. now apply Qred_complete. Qed.

Lemma inject_Z_le a b : (a <= b)%Z -> inject_Z a <= inject_Z b.
Proof. now rewrite <- Zle_Qle. Qed.
Lemma inject_Z_lt a b : (a < b)%Z -> inject_Z a < inject_Z b.
Proof. now rewrite <- Zlt_Qlt. Qed.
Lemma inject_Z_le_inv a b : inject_Z a <= inject_Z b -> (a <= b)%Z.
Proof. now rewrite <- Zle_Qle. Qed.
Lemma inject_Z_lt_inv a b : inject_Z a < inject_Z b -> (a < b)%Z.
Proof. now rewrite <- Zlt_Qlt. Qed.

Lemma Qabs_cases x : (0 <= x /\ Qabs x == x) \/ (x <= 0 /\ Qabs x == - x).
Proof.
  destruct (Qlt_le_dec x 0) as [H|H].
  - right. split; [lra|]. apply Qabs_neg. lra.
  - left. split; [lra|]. now apply Qabs_pos.
Qed.

Ltac qabs x := let H := fresh "Habs" in destruct (Qabs_cases x) as [[? H]|[? H]]; rewrite ?H in *.

Lemma Qred_inject_Z n : Qred (inject_Z n) = inject_Z n.
Proof.
  unfold Qred, inject_Z. 
  pose proof (Z.ggcd_correct_divisors n 1) as HC.
  pose proof (Z.ggcd_gcd n 1) as HG.
  destruct (Z.ggcd n 1) as [g [a b]]. cbn [fst snd] in *.
  rewrite Z.gcd_1_r in HG. subst g. destruct HC as [H1 H2].
  replace a with n by lia. replace b with 1%Z by lia. reflexivity.
Qed.

Lemma Qred_opp_id q : Qred q = q -> Qred (- q) = - q.
Proof. intros H. rewrite Qred_opp. now rewrite H. Qed.

Lemma Qred_idem q : Qred (Qred q) = Qred q.
Proof. apply Qred_complete, Qred_correct. Qed.

(** ** floor and round_he *)

Lemma Qfloor_spec q : inject_Z (Qfloor q) <= q < inject_Z (Qfloor q) + 1.
Proof.
  split; [apply Qfloor_le|]. pose proof (Qlt_floor q) as H.
  rewrite inject_Z_plus in H. exact H.
Qed.

Lemma Qfloor_unique q n : inject_Z n <= q < inject_Z n + 1 -> Qfloor q = n.
Proof.
  intros [H1 H2]. pose proof (Qfloor_spec q) as [H3 H4].
  assert (Ha : inject_Z n < inject_Z (Qfloor q + 1)) by (rewrite inject_Z_plus; change (inject_Z 1) with 1; lra).
  assert (Hb : inject_Z (Qfloor q) < inject_Z (n + 1)) by (rewrite inject_Z_plus; change (inject_Z 1) with 1; lra).
  rewrite <- Zlt_Qlt in Ha, Hb. lia.
Qed.

Lemma round_he_alt q :
  round_he q = match Qcompare (2 * (q - inject_Z (Qfloor q))) 1 with
               | Lt => Qfloor q
               | Gt => (Qfloor q + 1)%Z
               | Eq => if Z.even (Qfloor q) then Qfloor q else (Qfloor q + 1)%Z
               end.
Proof.
  destruct q as [n d]. unfold round_he. cbn [Qnum Qden].
  change (Qfloor (n # d)) with (n / Zpos d)%Z.
  replace (Qcompare (2 * ((n # d) - inject_Z (n / Zpos d))) 1) with ((2 * (n mod Zpos d)) ?= Zpos d)%Z; [reflexivity|].
  set (f := (n / Zpos d)%Z).
  assert (Hm : (n mod Zpos d = n - Zpos d * f)%Z) by (unfold f; pose proof (Z.div_mod n (Zpos d)); lia).
  rewrite Hm. unfold Qcompare, inject_Z, Qminus, Qplus, Qopp, Qmult. cbn [Qnum Qden].
  rewrite !Pos.mul_1_r, !Z.mul_1_r, Z.mul_1_l. change (Pos.mul 1 d) with d. f_equal. lia.
Qed.

Lemma round_he_comp q r : q == r -> round_he q = round_he r.
Proof.
  intros H. rewrite !round_he_alt. rewrite (Qfloor_comp q r H).
  assert (HE : 2 * (q - inject_Z (Qfloor r)) == 2 * (r - inject_Z (Qfloor r))) by (rewrite H; reflexivity).
  now rewrite HE.
Qed.

Lemma round_he_half q : Qabs (inject_Z (round_he q) - q) <= 1#2.
Proof.
  rewrite round_he_alt. pose proof (Qfloor_spec q) as [H1 H2].
  set (f := Qfloor q) in *.
  assert (HP : inject_Z (f + 1) == inject_Z f + 1) by (rewrite inject_Z_plus; reflexivity).
  destruct (Qcompare_spec (2 * (q - inject_Z f)) 1) as [E|E|E].
  - destruct (Z.even f); apply Qabs_Qle_condition; rewrite ?HP; lra.
  - apply Qabs_Qle_condition; lra.
  - apply Qabs_Qle_condition; rewrite ?HP; lra.
Qed.

Lemma round_he_nearest q z : Qabs (inject_Z (round_he q) - q) <= Qabs (inject_Z z - q).
Proof.
  destruct (Z.eq_dec z (round_he q)) as [->|Hne]; [apply Qle_refl|].
  pose proof (round_he_half q) as H. 
  set (m := round_he q) in *.
  assert (HZ : (z <= m - 1)%Z \/ (m + 1 <= z)%Z) by lia.
  apply Qabs_Qle_condition in H.
  apply Qle_trans with (1#2).
  { apply Qabs_Qle_condition. lra. }
  destruct HZ as [HZ|HZ]; rewrite Zle_Qle in HZ.
  - unfold Zminus in HZ. rewrite inject_Z_plus in HZ. change (inject_Z (- (1))) with (- (1)) in HZ.
    rewrite Qabs_neg by lra. lra.
  - rewrite inject_Z_plus in HZ. change (inject_Z 1) with 1 in HZ.
    rewrite Qabs_pos by lra. lra.
Qed.

Lemma round_he_Z n : round_he (inject_Z n) = n.
Proof.
  pose proof (round_he_half (inject_Z n)) as H. apply Qabs_Qle_condition in H.
  set (m := round_he (inject_Z n)) in *. destruct H as [H1 H2].
  assert (Ha : inject_Z n < inject_Z (m + 1)) by (rewrite inject_Z_plus; change (inject_Z 1) with 1; lra).
  assert (Hb : inject_Z m < inject_Z (n + 1)) by (rewrite inject_Z_plus; change (inject_Z 1) with 1; lra).
  rewrite <- Zlt_Qlt in Ha, Hb. lia.
Qed.

Lemma Qfloor_opp_frac q : inject_Z (Qfloor q) < q -> Qfloor (- q) = (- Qfloor q - 1)%Z.
Proof.
  intros H. pose proof (Qfloor_spec q) as [_ H2]. apply Qfloor_unique.
  unfold Zminus. rewrite inject_Z_plus, inject_Z_opp. change (inject_Z (- (1))) with (- (1)). lra.
Qed.

Lemma round_he_opp q : round_he (- q) = (- round_he q)%Z.
Proof.
  pose proof (Qfloor_spec q) as [H1 H2].
  destruct (Qlt_le_dec (inject_Z (Qfloor q)) q) as [Hf|Hf].
  - rewrite !round_he_alt. rewrite (Qfloor_opp_frac q Hf).
    set (f := Qfloor q) in *.
    assert (HE : 2 * (- q - inject_Z (- f - 1)) == 2 - 2 * (q - inject_Z f)).
    { unfold Zminus. rewrite inject_Z_plus, inject_Z_opp. change (inject_Z (- (1))) with (- (1)). lra. }
    rewrite HE.
    destruct (Qcompare_spec (2 * (q - inject_Z f)) 1) as [E|E|E].
    + replace (Qcompare (2 - 2 * (q - inject_Z f)) 1) with Eq.
      * replace (Z.even (- f - 1)) with (negb (Z.even f)).
        { destruct (Z.even f); simpl; lia. }
        replace (- f - 1)%Z with (- (Z.succ f))%Z by lia. 
        rewrite Z.even_opp, Z.even_succ. now rewrite <- Z.negb_even.
      * symmetry. apply Qeq_alt. rewrite E. reflexivity.
    + replace (Qcompare (2 - 2 * (q - inject_Z f)) 1) with Gt; [lia|].
      symmetry. apply Qgt_alt. clear HE. lra.
    + replace (Qcompare (2 - 2 * (q - inject_Z f)) 1) with Lt; [lia|].
      symmetry. apply (proj1 (Qlt_alt _ _)). clear HE. lra.
  - assert (HE : q == inject_Z (Qfloor q)) by lra.
    rewrite (round_he_comp _ _ HE). rewrite round_he_Z.
    assert (HE2 : - q == inject_Z (- Qfloor q)) by (rewrite inject_Z_opp; lra).
    rewrite (round_he_comp _ _ HE2). now rewrite round_he_Z.
Qed.

Lemma round_he_mono q r : q <= r -> (round_he q <= round_he r)%Z.
Proof.
  intros H. destruct (Qeq_dec q r) as [E|E]; [rewrite (round_he_comp _ _ E); lia|].
  destruct (Z_le_gt_dec (round_he q) (round_he r)) as [|Hg]; [assumption|exfalso].
  pose proof (round_he_nearest q (round_he r)) as N1.
  pose proof (round_he_nearest r (round_he q)) as N2.
  assert (Hlt : inject_Z (round_he r) < inject_Z (round_he q)) by (apply inject_Z_lt; lia).
  assert (Hqr : q < r) by (destruct (Qle_lt_or_eq _ _ H); [assumption|contradiction]).
  set (a := inject_Z (round_he q)) in *. set (b := inject_Z (round_he r)) in *.
  destruct (Qabs_cases (a - q)) as [[X1 Y1]|[X1 Y1]];
  destruct (Qabs_cases (b - q)) as [[X2 Y2]|[X2 Y2]];
  destruct (Qabs_cases (a - r)) as [[X3 Y3]|[X3 Y3]];
  destruct (Qabs_cases (b - r)) as [[X4 Y4]|[X4 Y4]];
  rewrite Y1, Y2 in N1; rewrite Y3, Y4 in N2; lra.
Qed.

(** ** Powers of two *)

Lemma pow2_pos e : 0 < pow2 e.
Proof. apply Qpower_0_lt. reflexivity. Qed.

Lemma pow2_nz e : ~ pow2 e == 0.
Proof. pose proof (pow2_pos e). lra. Qed.

Lemma pow2_add a b : pow2 (a + b) == pow2 a * pow2 b.
Proof. unfold pow2. apply Qpower_plus. discriminate. Qed.

Lemma pow2_opp_l e : pow2 (- e) * pow2 e == 1.
Proof. rewrite <- pow2_add. replace (- e + e)%Z with 0%Z by lia. reflexivity. Qed.

Lemma pow2_Z n : (0 <= n)%Z -> pow2 n == inject_Z (2 ^ n).
Proof.
  intros H. unfold pow2. rewrite (Zpower_Qpower 2 n H). reflexivity.
Qed.

Lemma pow2_ge1 n : (0 <= n)%Z -> 1 <= pow2 n.
Proof.
  intros H. rewrite pow2_Z by assumption. change 1 with (inject_Z 1). apply inject_Z_le.
  pose proof (Z.pow_pos_nonneg 2 n). lia.
Qed.

Lemma pow2_mono a b : (a <= b)%Z -> pow2 a <= pow2 b.
Proof.
  intros H. replace b with (a + (b - a))%Z by lia. rewrite pow2_add.
  pose proof (pow2_ge1 (b - a) ltac:(lia)) as H1. pose proof (pow2_pos a) as H2. nra.
Qed.

Lemma pow2_lt a b : (a < b)%Z -> pow2 a < pow2 b.
Proof.
  intros H. pose proof (pow2_mono (a + 1) b ltac:(lia)) as H1. rewrite pow2_add in H1.
  change (pow2 1) with 2 in H1. pose proof (pow2_pos a). lra.
Qed.

Lemma pow2_lt_inv a b : pow2 a < pow2 b -> (a < b)%Z.
Proof.
  intros H. destruct (Z_lt_le_dec a b); auto. pose proof (pow2_mono b a ltac:(lia)). lra.
Qed.

Lemma pow2_succ e : pow2 (e + 1) == 2 * pow2 e.
Proof. rewrite pow2_add. change (pow2 1) with 2. ring. Qed.

(** ** flog2 *)

Lemma flog2_spec q : 0 < q -> pow2 (flog2 q) <= q /\ q < pow2 (flog2 q + 1).
Proof.
  intros Hq. unfold flog2.
  set (ln := Z.log2 (Qnum q)). set (ld := Z.log2 (Zpos (Qden q))).
  assert (Hn : (0 < Qnum q)%Z).
  { destruct q as [n d]. unfold Qlt in Hq. simpl in *. lia. }
  pose proof (Z.log2_spec (Qnum q) Hn) as [Ha Hb]. fold ln in Ha, Hb.
  pose proof (Z.log2_spec (Zpos (Qden q)) eq_refl) as [Hc Hd]. fold ld in Hc, Hd.
  assert (Hln : (0 <= ln)%Z) by apply Z.log2_nonneg.
  assert (Hld : (0 <= ld)%Z) by apply Z.log2_nonneg.
  assert (Hq2 : q * inject_Z (Zpos (Qden q)) == inject_Z (Qnum q)).
  { destruct q as [n d]. unfold Qeq, inject_Z. simpl. lia. }
  rewrite Zle_Qle in Ha. rewrite Zlt_Qlt in Hb. rewrite Zle_Qle in Hc. rewrite Zlt_Qlt in Hd.
  rewrite <- pow2_Z in Ha by lia. rewrite <- pow2_Z in Hb by lia.
  rewrite <- pow2_Z in Hc by lia. rewrite <- pow2_Z in Hd by lia.
  replace (Z.succ ln) with (ln + 1)%Z in Hb by lia. replace (Z.succ ld) with (ld + 1)%Z in Hd by lia.
  rewrite pow2_succ in Hb, Hd.
  set (N := inject_Z (Qnum q)) in *. set (D := inject_Z (Zpos (Qden q))) in *.
  assert (HP : pow2 (ln - ld) * pow2 ld == pow2 ln).
  { rewrite <- pow2_add. replace (ln - ld + ld)%Z with ln by lia. reflexivity. }
  pose proof (pow2_pos ln) as P1. pose proof (pow2_pos ld) as P2. pose proof (pow2_pos (ln - ld)) as P3.
  destruct (Qle_bool (pow2 (ln - ld)) q) eqn:E.
  - apply Qle_bool_iff in E. split; [exact E|].
    rewrite pow2_succ.
    (* q * D = N < 2 * 2^ln = 2 * 2^(ln-ld) * 2^ld <= 2*2^(ln-ld) * D *)
    destruct (Qlt_le_dec q (2 * pow2 (ln - ld))) as [|C]; [assumption|exfalso].
    assert (X : (2 * pow2 (ln - ld)) * pow2 ld <= q * D) by nra. lra.
  - assert (E' : q < pow2 (ln - ld)).
    { destruct (Qlt_le_dec q (pow2 (ln - ld))) as [|C]; [assumption|].
      apply Qle_bool_iff in C. congruence. }
    replace (ln - ld - 1 + 1)%Z with (ln - ld)%Z by lia. split; [|exact E'].
    assert (HH : 2 * pow2 (ln - ld - 1) == pow2 (ln - ld)).
    { rewrite <- pow2_succ. replace (ln - ld - 1 + 1)%Z with (ln - ld)%Z by lia. reflexivity. }
    destruct (Qlt_le_dec q (pow2 (ln - ld - 1))) as [C|]; [exfalso|assumption].
    assert (X : q * D < pow2 (ln - ld - 1) * (2 * pow2 ld)).
    { pose proof (pow2_pos (ln - ld - 1)). nra. }
    nra.
Qed.

Lemma flog2_unique q k : pow2 k <= q -> q < pow2 (k + 1) -> flog2 q = k.
Proof.
  intros H1 H2. pose proof (pow2_pos k) as Hp.
  destruct (flog2_spec q ltac:(lra)) as [H3 H4].
  assert (A : pow2 k < pow2 (flog2 q + 1)) by lra.
  assert (B : pow2 (flog2 q) < pow2 (k + 1)) by lra.
  apply pow2_lt_inv in A, B. lia.
Qed.

Lemma flog2_comp q r : 0 < q -> q == r -> flog2 q = flog2 r.
Proof.
  intros Hq H. destruct (flog2_spec r ltac:(lra)) as [H1 H2].
  apply flog2_unique; rewrite H; assumption.
Qed.

Lemma flog2_mono q r : 0 < q -> q <= r -> (flog2 q <= flog2 r)%Z.
Proof.
  intros Hq H. destruct (flog2_spec q Hq) as [H1 H2].
  destruct (flog2_spec r ltac:(lra)) as [H3 H4].
  assert (B : pow2 (flog2 q) < pow2 (flog2 r + 1)) by lra. apply pow2_lt_inv in B. lia.
Qed.

(** ** rnd64 *)

Lemma Qabs_nz q : ~ q == 0 -> 0 < Qabs q.
Proof. intros H. destruct (Qabs_cases q) as [[A B]|[A B]]; rewrite B; lra. Qed.

Lemma fexp64_comp q r : ~ q == 0 -> q == r -> fexp64 q = fexp64 r.
Proof.
  intros Hq H. unfold fexp64. rewrite (flog2_comp (Qabs q) (Qabs r)); auto.
  - now apply Qabs_nz.
  - now rewrite H.
Qed.

Lemma rnd64_comp q r : q == r -> rnd64 q = rnd64 r.
Proof.
  intros H. unfold rnd64.
  destruct (Qeq_bool q 0) eqn:E.
  - apply Qeq_bool_iff in E. assert (E2 : r == 0) by lra. apply Qeq_bool_iff in E2. now rewrite E2.
  - apply Qeq_bool_neq in E. destruct (Qeq_bool r 0) eqn:E2; [apply Qeq_bool_iff in E2; lra|].
    rewrite (fexp64_comp q r E H). apply Qred_complete.
    rewrite (round_he_comp (q * pow2 (- fexp64 r)) (r * pow2 (- fexp64 r))).
    + reflexivity.
    + now rewrite H.
Qed.

(** The value of [rnd64] up to ==. *)
Lemma rnd64_val q : ~ q == 0 ->
  rnd64 q == inject_Z (round_he (q * pow2 (- fexp64 q))) * pow2 (fexp64 q).
Proof.
  intros H. unfold rnd64. destruct (Qeq_bool q 0) eqn:E.
  - apply Qeq_bool_iff in E. contradiction.
  - apply Qred_correct.
Qed.

Lemma rnd64_0 q : q == 0 -> rnd64 q = 0.
Proof. intros H. unfold rnd64. apply Qeq_bool_iff in H. now rewrite H. Qed.

Lemma rnd64_red q : Qred (rnd64 q) = rnd64 q.
Proof. unfold rnd64. destruct (Qeq_bool q 0); [reflexivity|apply Qred_idem]. Qed.

Lemma is_dbl_red q : is_dbl q -> Qred q = q.
Proof. intros H. rewrite <- H. apply rnd64_red. Qed.

(** Two binary64 numbers that are numerically equal are the same term. *)
Lemma dbl_eq a b : is_dbl a -> is_dbl b -> a == b -> a = b.
Proof. intros Ha Hb H. apply Qred_id_eq; auto using is_dbl_red. Qed.

Lemma rnd64_opp q : rnd64 (- q) = - rnd64 q.
Proof.
  destruct (Qeq_dec q 0) as [E|E].
  - rewrite (rnd64_0 q E). rewrite rnd64_0; [reflexivity|lra].
  - apply Qred_id_eq; [|apply rnd64_red|apply Qred_opp_id, rnd64_red].
    rewrite (rnd64_val q E). rewrite rnd64_val by lra.
    assert (HF : fexp64 (- q) = fexp64 q).
    { unfold fexp64. rewrite (flog2_comp (Qabs (- q)) (Qabs q)); auto.
      - apply Qabs_nz. lra.
      - apply Qabs_opp. }
    rewrite HF. rewrite (round_he_comp (- q * pow2 (- fexp64 q)) (- (q * pow2 (- fexp64 q)))) by ring.
    rewrite round_he_opp, inject_Z_opp. ring.
Qed.

Lemma fexp64_ge q : (-1074 <= fexp64 q)%Z.
Proof. unfold fexp64. lia. Qed.

(** Every m * 2^e with |m| <= 2^53 and e >= -1074 is no closer to q than [rnd64 q]. *)
Lemma rnd64_nearest_pos q m e : 0 < q -> (Z.abs m <= 2 ^ 53)%Z -> (-1074 <= e)%Z ->
  Qabs (rnd64 q - q) <= Qabs (inject_Z m * pow2 e - q).
Proof.
  intros Hq Hm He.
  assert (Hnz : ~ q == 0) by lra.
  rewrite (rnd64_val q Hnz). set (x := fexp64 q).
  set (k := round_he (q * pow2 (- x))).
  assert (HN : forall j, Qabs (inject_Z k * pow2 x - q) <= Qabs (inject_Z j * pow2 x - q)).
  { intros j.
    assert (HH : forall i, Qabs (inject_Z i * pow2 x - q) == Qabs (inject_Z i - q * pow2 (- x)) * pow2 x).
    { intros i. rewrite <- (Qabs_pos (pow2 x)) at 2 by (pose proof (pow2_pos x); lra).
      rewrite <- Qabs_Qmult. apply Qabs_wd.
      transitivity (inject_Z i * pow2 x - q * (pow2 (- x) * pow2 x)); [|ring].
      rewrite pow2_opp_l. ring. }
    rewrite !HH. pose proof (round_he_nearest (q * pow2 (- x)) j) as HR. fold k in HR.
    pose proof (pow2_pos x). nra. }
  destruct (Z_le_gt_dec x e) as [Hxe|Hxe].
  - (* on the grid *)
    specialize (HN (m * 2 ^ (e - x))%Z).
    rewrite inject_Z_mult in HN. rewrite <- pow2_Z in HN by lia.
    assert (HP : inject_Z m * pow2 (e - x) * pow2 x == inject_Z m * pow2 e).
    { rewrite <- Qmult_assoc, <- pow2_add. replace (e - x + x)%Z with e by lia. reflexivity. }
    now rewrite HP in HN.
  - (* finer than the grid: then |m 2^e| <= 2^flog2 q <= q *)
    assert (Hx : x = (flog2 (Qabs q) - 52)%Z) by (unfold x, fexp64 in *; lia).
    rewrite (flog2_comp (Qabs q) q) in Hx; [|now apply Qabs_nz|apply Qabs_pos; lra].
    destruct (flog2_spec q Hq) as [H1 H2].
    specialize (HN (2 ^ 52)%Z). rewrite <- (pow2_Z 52) in HN by lia.
    rewrite <- pow2_add in HN. replace (52 + x)%Z with (flog2 q) in HN by lia.
    eapply Qle_trans; [exact HN|].
    assert (Hb : inject_Z m * pow2 e <= pow2 (flog2 q)).
    { apply Qle_trans with (inject_Z (2 ^ 53) * pow2 e).
      - pose proof (pow2_pos e). assert (inject_Z m <= inject_Z (2 ^ 53)) by (apply inject_Z_le; lia). nra.
      - rewrite <- (pow2_Z 53) by lia. rewrite <- pow2_add. apply pow2_mono. lia. }
    rewrite (Qabs_neg (pow2 (flog2 q) - q)) by lra.
    rewrite (Qabs_neg (inject_Z m * pow2 e - q)) by lra. lra.
Qed.

Lemma rnd64_nearest q m e : (Z.abs m <= 2 ^ 53)%Z -> (-1074 <= e)%Z ->
  Qabs (rnd64 q - q) <= Qabs (inject_Z m * pow2 e - q).
Proof.
  intros Hm He. destruct (Q_dec q 0) as [[H|H]|H].
  - pose proof (rnd64_nearest_pos (- q) (- m) e ltac:(lra) ltac:(lia) He) as HP.
    rewrite rnd64_opp in HP. rewrite inject_Z_opp in HP.
    assert (A : Qabs (rnd64 q - q) == Qabs (- rnd64 q - - q)).
    { rewrite <- Qabs_opp. apply Qabs_wd. ring. }
    assert (B : Qabs (inject_Z m * pow2 e - q) == Qabs (- inject_Z m * pow2 e - - q)).
    { rewrite <- Qabs_opp. apply Qabs_wd. ring. }
    now rewrite A, B.
  - now apply rnd64_nearest_pos.
  - rewrite (rnd64_0 q H). rewrite Qabs_pos by lra. rewrite H.
    apply Qle_trans with 0; [lra|apply Qabs_nonneg].
Qed.

(** [rnd64 q] is of the form m * 2^e. *)
Lemma rnd64_form q : exists m e, rnd64 q == inject_Z m * pow2 e /\ (Z.abs m <= 2 ^ 53)%Z /\ (-1074 <= e)%Z.
Proof.
  destruct (Qeq_dec q 0) as [E|E].
  - exists 0%Z, 0%Z. rewrite (rnd64_0 q E). split; [reflexivity|lia].
  - exists (round_he (q * pow2 (- fexp64 q))), (fexp64 q).
    split; [now apply rnd64_val|]. split; [|apply fexp64_ge].
    pose proof (Qabs_nz q E) as Hp. destruct (flog2_spec (Qabs q) Hp) as [_ H2].
    assert (H3 : (flog2 (Qabs q) + 1 <= 53 + fexp64 q)%Z) by (unfold fexp64; lia).
    pose proof (pow2_mono _ _ H3) as H4. rewrite (pow2_add 53) in H4.
    set (x := fexp64 q) in *.
    assert (H5 : Qabs q * pow2 (- x) <= pow2 53).
    { pose proof (pow2_pos (- x)) as P.
      assert (X : Qabs q * pow2 (- x) <= (pow2 53 * pow2 x) * pow2 (- x)) by (apply Qmult_le_compat_r; lra).
      assert (Y : (pow2 53 * pow2 x) * pow2 (- x) == pow2 53).
      { rewrite <- Qmult_assoc. rewrite (Qmult_comm (pow2 x)), pow2_opp_l. ring. }
      lra. }
    rewrite (pow2_Z 53) in H5 by lia.
    assert (H6 : - inject_Z (2 ^ 53) <= q * pow2 (- x) <= inject_Z (2 ^ 53)).
    { pose proof (pow2_pos (- x)) as P. destruct (Qabs_cases q) as [[A B]|[A B]]; rewrite B in H5; split; try nra.
      all: assert (0 <= inject_Z (2^53)) by (change 0 with (inject_Z 0); apply inject_Z_le; lia); nra. }
    destruct H6 as [H6 H7]. apply round_he_mono in H6, H7.
    rewrite <- inject_Z_opp in H6. rewrite round_he_Z in H6, H7. lia.
Qed.

Lemma rnd64_idem q : rnd64 (rnd64 q) = rnd64 q.
Proof.
  destruct (rnd64_form q) as (m & e & H & Hm & He).
  pose proof (rnd64_nearest (rnd64 q) m e Hm He) as N. rewrite <- H in N.
  assert (Z0 : rnd64 q - rnd64 q == 0) by ring. rewrite Z0 in N.
  change (Qabs 0) with 0 in N. apply Qabs_Qle_condition in N.
  apply Qred_id_eq; auto using rnd64_red. lra.
Qed.

Lemma rnd64_is_dbl q : is_dbl (rnd64 q).
Proof. apply rnd64_idem. Qed.

Lemma is_dbl_form q m e : q == inject_Z m * pow2 e -> (Z.abs m <= 2 ^ 53)%Z -> (-1074 <= e)%Z -> rnd64 q == q.
Proof.
  intros H Hm He. pose proof (rnd64_nearest q m e Hm He) as N. rewrite <- H in N.
  assert (Z0 : q - q == 0) by ring. rewrite Z0 in N. change (Qabs 0) with 0 in N.
  apply Qabs_Qle_condition in N. lra.
Qed.

Lemma rnd64_best q d : is_dbl d -> Qabs (rnd64 q - q) <= Qabs (d - q).
Proof.
  intros Hd. destruct (rnd64_form d) as (m & e & H & Hm & He).
  rewrite Hd in H. rewrite H. now apply rnd64_nearest.
Qed.

Lemma rnd64_mono q r : q <= r -> rnd64 q <= rnd64 r.
Proof.
  intros H. destruct (Qeq_dec q r) as [E|E]; [rewrite (rnd64_comp _ _ E); lra|].
  destruct (Qlt_le_dec (rnd64 r) (rnd64 q)) as [Hg|]; [exfalso|assumption].
  pose proof (rnd64_best q (rnd64 r) (rnd64_is_dbl r)) as N1.
  pose proof (rnd64_best r (rnd64 q) (rnd64_is_dbl q)) as N2.
  assert (Hqr : q < r) by lra.
  set (a := rnd64 q) in *. set (b := rnd64 r) in *.
  destruct (Qabs_cases (a - q)) as [[X1 Y1]|[X1 Y1]];
  destruct (Qabs_cases (b - q)) as [[X2 Y2]|[X2 Y2]];
  destruct (Qabs_cases (a - r)) as [[X3 Y3]|[X3 Y3]];
  destruct (Qabs_cases (b - r)) as [[X4 Y4]|[X4 Y4]];
  rewrite Y1, Y2 in N1; rewrite Y3, Y4 in N2; lra.
Qed.

Lemma rnd64_Z n : (Z.abs n <= 2 ^ 53)%Z -> rnd64 (inject_Z n) = inject_Z n.
Proof.
  intros H. apply Qred_id_eq; [|apply rnd64_red|apply Qred_inject_Z].
  apply (is_dbl_form _ n 0); [|assumption|lia]. change (pow2 0) with 1. ring.
Qed.

Lemma rnd64_eqZ q n : q == inject_Z n -> (Z.abs n <= 2 ^ 53)%Z -> rnd64 q = inject_Z n.
Proof. intros H Hn. rewrite (rnd64_comp _ _ H). now apply rnd64_Z. Qed.

Lemma rnd64_nonneg q : 0 <= q -> 0 <= rnd64 q.
Proof. intros H. rewrite <- (rnd64_0 0) by reflexivity. now apply rnd64_mono. Qed.

Lemma rnd64_nonpos q : q <= 0 -> rnd64 q <= 0.
Proof. intros H. rewrite <- (rnd64_0 0) by reflexivity. now apply rnd64_mono. Qed.

(** Error bounds: half an ulp, relative 2^-53 in the normal range. *)
Lemma rnd64_err q : ~ q == 0 -> Qabs (rnd64 q - q) <= (1#2) * pow2 (fexp64 q).
Proof.
  intros H. rewrite (rnd64_val q H). set (x := fexp64 q).
  pose proof (round_he_half (q * pow2 (- x))) as HR. set (k := round_he _) in *.
  assert (HH : Qabs (inject_Z k * pow2 x - q) == Qabs (inject_Z k - q * pow2 (- x)) * pow2 x).
  { rewrite <- (Qabs_pos (pow2 x)) at 2 by (pose proof (pow2_pos x); lra).
    rewrite <- Qabs_Qmult. apply Qabs_wd.
    transitivity (inject_Z k * pow2 x - q * (pow2 (- x) * pow2 x)); [|ring].
    rewrite pow2_opp_l. ring. }
  rewrite HH. pose proof (pow2_pos x). nra.
Qed.

Lemma rnd64_rel q : pow2 (-1022) <= Qabs q -> Qabs (rnd64 q - q) <= Qabs q * pow2 (-53).
Proof.
  intros H. pose proof (pow2_pos (-1022)) as P.
  assert (Hnz : ~ q == 0). { intros E. rewrite E in H. change (Qabs 0) with 0 in H. lra. }
  pose proof (rnd64_err q Hnz) as HE.
  pose proof (Qabs_nz q Hnz) as Hp. destruct (flog2_spec (Qabs q) Hp) as [H1 H2].
  assert (HX : fexp64 q = (flog2 (Qabs q) - 52)%Z).
  { unfold fexp64. assert (A : pow2 (-1022) < pow2 (flog2 (Qabs q) + 1)) by lra.
    apply pow2_lt_inv in A. lia. }
  rewrite HX in HE.
  assert (HY : (1#2) * pow2 (flog2 (Qabs q) - 52) == pow2 (flog2 (Qabs q)) * pow2 (-53)).
  { replace (flog2 (Qabs q) - 52)%Z with (flog2 (Qabs q) + (-53) + 1)%Z by lia.
    rewrite pow2_succ, pow2_add. ring. }
  rewrite HY in HE. pose proof (pow2_pos (-53)). nra.
Qed.

Lemma pow53 : inject_Z (2 ^ 53) * pow2 (-53) == 1.
Proof. reflexivity. Qed.

(** A quotient n/p of integers below 2^53 never rounds across an integer. *)
Lemma rnd64_div_lt n p k : (0 <= n < 2 ^ 53)%Z -> (0 < p)%Z ->
  inject_Z n / inject_Z p < inject_Z k -> rnd64 (inject_Z n / inject_Z p) < inject_Z k.
Proof.
  intros Hn Hp H.
  assert (HP : 0 < inject_Z p) by (change 0 with (inject_Z 0); apply inject_Z_lt; lia).
  assert (HN : 0 <= inject_Z n) by (change 0 with (inject_Z 0); apply inject_Z_le; lia).
  assert (Hq : inject_Z n / inject_Z p * inject_Z p == inject_Z n) by (field; lra).
  set (q := inject_Z n / inject_Z p) in *.
  assert (Hq0 : 0 <= q). { destruct (Qlt_le_dec q 0); [exfalso; nra|assumption]. }
  assert (HK : (1 <= k)%Z). { assert (0 < inject_Z k) by lra. change 0 with (inject_Z 0) in H0. apply inject_Z_lt_inv in H0. lia. }
  destruct (Qlt_le_dec q (1#2)) as [Hs|Hs].
  - apply Qle_lt_trans with (1#2).
    + change (1#2) with (rnd64 (1#2)). apply rnd64_mono. lra.
    + assert (1 <= inject_Z k) by (change 1 with (inject_Z 1); apply inject_Z_le; lia). lra.
  - assert (HR : Qabs (rnd64 q - q) <= Qabs q * pow2 (-53)).
    { apply rnd64_rel. rewrite Qabs_pos by assumption. apply Qle_trans with (1#2); [|assumption].
      change (1#2) with (pow2 (-1)). apply pow2_mono. lia. }
    rewrite (Qabs_pos q Hq0) in HR. apply Qabs_Qle_condition in HR.
    (* n + 1 <= k p *)
    assert (HI : (n + 1 <= k * p)%Z).
    { assert (X : inject_Z n < inject_Z (k * p)) by (rewrite inject_Z_mult; nra). apply inject_Z_lt_inv in X. lia. }
    rewrite Zle_Qle in HI. rewrite inject_Z_plus, inject_Z_mult in HI. change (inject_Z 1) with 1 in HI.
    assert (HB : inject_Z n * pow2 (-53) < 1).
    { assert (inject_Z n < inject_Z (2 ^ 53)) by (apply inject_Z_lt; lia).
      rewrite <- pow53. pose proof (pow2_pos (-53)). nra. }
    destruct (Qlt_le_dec (rnd64 q) (inject_Z k)) as [|C]; [assumption|exfalso].
    assert (X : inject_Z k * inject_Z p <= (q + q * pow2 (-53)) * inject_Z p) by nra.
    assert (Y : (q + q * pow2 (-53)) * inject_Z p == inject_Z n + inject_Z n * pow2 (-53)).
    { transitivity (q * inject_Z p + q * inject_Z p * pow2 (-53)); [ring|]. rewrite Hq. reflexivity. }
    lra.
Qed.

Lemma rnd64_div_gt n p k : (0 <= n < 2 ^ 53)%Z -> (0 < p <= 2 ^ 53)%Z -> (0 <= k)%Z ->
  inject_Z k < inject_Z n / inject_Z p -> inject_Z k < rnd64 (inject_Z n / inject_Z p).
Proof.
  intros Hn [Hp Hp2] Hk0 H.
  assert (HP : 0 < inject_Z p) by (change 0 with (inject_Z 0); apply inject_Z_lt; lia).
  assert (HN : 0 <= inject_Z n) by (change 0 with (inject_Z 0); apply inject_Z_le; lia).
  assert (Hq : inject_Z n / inject_Z p * inject_Z p == inject_Z n) by (field; lra).
  set (q := inject_Z n / inject_Z p) in *.
  assert (Hk : 0 <= inject_Z k) by (change 0 with (inject_Z 0); apply inject_Z_le; lia).
  assert (HI : (k * p + 1 <= n)%Z).
  { assert (X : inject_Z k * inject_Z p < inject_Z n).
    { rewrite <- Hq. apply Qmult_lt_r; assumption. }
    rewrite <- inject_Z_mult in X. apply inject_Z_lt_inv in X. lia. }
  rewrite Zle_Qle in HI. rewrite inject_Z_plus, inject_Z_mult in HI. change (inject_Z 1) with 1 in HI.
  assert (HR : Qabs (rnd64 q - q) <= Qabs q * pow2 (-53)).
  { apply rnd64_rel. rewrite Qabs_pos by lra. apply Qle_trans with (pow2 (-53)).
    - apply pow2_mono. lia.
    - assert (HPP : inject_Z p * pow2 (-53) <= 1).
      { assert (inject_Z p <= inject_Z (2 ^ 53)) by (apply inject_Z_le; lia).
        rewrite <- pow53. pose proof (pow2_pos (-53)). nra. }
      assert (1 <= q * inject_Z p) by nra.
      destruct (Qlt_le_dec q (pow2 (-53))); [exfalso; nra|assumption]. }
  rewrite (Qabs_pos q) in HR by lra. apply Qabs_Qle_condition in HR.
  assert (HB : inject_Z n * pow2 (-53) < 1).
  { assert (inject_Z n < inject_Z (2 ^ 53)) by (apply inject_Z_lt; lia).
    rewrite <- pow53. pose proof (pow2_pos (-53)). nra. }
  destruct (Qlt_le_dec (inject_Z k) (rnd64 q)) as [|C]; [assumption|exfalso].
  assert (X : (q - q * pow2 (-53)) * inject_Z p <= inject_Z k * inject_Z p).
  { apply Qmult_le_compat_r; lra. }
  assert (Y : (q - q * pow2 (-53)) * inject_Z p == inject_Z n - inject_Z n * pow2 (-53)).
  { transitivity (q * inject_Z p - q * inject_Z p * pow2 (-53)); [ring|]. rewrite Hq. reflexivity. }
  lra.
Qed.

(** The floor of the rounded quotient is the integer quotient. *)
Lemma Qfloor_rnd64_div n p : (0 <= n < 2 ^ 53)%Z -> (0 < p)%Z ->
  Qfloor (rnd64 (inject_Z n / inject_Z p)) = (n / p)%Z.
Proof.
  intros Hn Hp.
  assert (HP : 0 < inject_Z p) by (change 0 with (inject_Z 0); apply inject_Z_lt; lia).
  assert (Hq : inject_Z n / inject_Z p * inject_Z p == inject_Z n) by (field; lra).
  pose proof (Z.div_mod n p ltac:(lia)) as HD. pose proof (Z.mod_pos_bound n p Hp) as HM.
  assert (Hb : (0 <= n / p <= n)%Z).
  { split; [apply Z.div_pos; lia|]. apply Z.div_le_upper_bound; nia. }
  apply Qfloor_unique. split.
  - rewrite <- (rnd64_Z (n / p)) by lia. apply rnd64_mono.
    apply Qle_shift_div_l; [assumption|]. rewrite <- inject_Z_mult. apply inject_Z_le. nia.
  - change 1 with (inject_Z 1). rewrite <- inject_Z_plus. apply rnd64_div_lt; auto.
    apply Qlt_shift_div_r; [assumption|]. rewrite <- inject_Z_mult. apply inject_Z_lt. nia.
Qed.

(** Exact integer arithmetic in floats below 2^53. *)
Lemma fadd_Z a b : (Z.abs (a + b) <= 2 ^ 53)%Z -> fadd (inject_Z a) (inject_Z b) = inject_Z (a + b).
Proof. intros H. unfold fadd. apply rnd64_eqZ; [|assumption]. rewrite inject_Z_plus. reflexivity. Qed.
Lemma fsub_Z a b : (Z.abs (a - b) <= 2 ^ 53)%Z -> fsub (inject_Z a) (inject_Z b) = inject_Z (a - b).
Proof.
  intros H. unfold fsub. apply rnd64_eqZ; [|assumption]. unfold Zminus.
  rewrite inject_Z_plus, inject_Z_opp. reflexivity.
Qed.
Lemma fmul_Z a b : (Z.abs (a * b) <= 2 ^ 53)%Z -> fmul (inject_Z a) (inject_Z b) = inject_Z (a * b).
Proof. intros H. unfold fmul. apply rnd64_eqZ; [|assumption]. rewrite inject_Z_mult. reflexivity. Qed.

Lemma f_of_Z_exact n : (Z.abs n <= 2 ^ 53)%Z -> f_of_Z n = inject_Z n.
Proof. intros H. unfold f_of_Z. now apply rnd64_Z. Qed.

Lemma trunc_Z n : trunc (inject_Z n) = n.
Proof. unfold trunc, inject_Z. simpl. apply Z.quot_1_r. Qed.

Lemma inject_Z_inj_eq a b : inject_Z a == inject_Z b -> a = b.
Proof. unfold Qeq, inject_Z. simpl. lia. Qed.

Lemma inject_Z_dbl n : (Z.abs n <= 2 ^ 53)%Z -> is_dbl (inject_Z n).
Proof. apply rnd64_Z. Qed.

Lemma Qlt_bool_iff a b : Qlt_bool a b = true <-> a < b.
Proof.
  unfold Qlt_bool. rewrite negb_true_iff. split; intros H.
  - destruct (Qlt_le_dec a b) as [|C]; [assumption|]. apply Qle_bool_iff in C. congruence.
  - destruct (Qle_bool b a) eqn:E; [|reflexivity]. apply Qle_bool_iff in E. lra.
Qed.

Lemma Qlt_bool_false a b : Qlt_bool a b = false <-> b <= a.
Proof. unfold Qlt_bool. rewrite negb_false_iff. apply Qle_bool_iff. Qed.

Lemma Qle_bool_false a b : Qle_bool a b = false <-> b < a.
Proof.
  split; intros H.
  - destruct (Qlt_le_dec b a) as [|C]; [assumption|]. apply Qle_bool_iff in C. congruence.
  - destruct (Qle_bool a b) eqn:E; [|reflexivity]. apply Qle_bool_iff in E. lra.
Qed.

Lemma Qeq_bool_false a b : Qeq_bool a b = false <-> ~ a == b.
Proof.
  split; intros H.
  - now apply Qeq_bool_neq.
  - destruct (Qeq_bool a b) eqn:E; [|reflexivity]. apply Qeq_bool_iff in E. contradiction.
Qed.
