(** Rounding to k decimals and back to a double: [round_dec]. *)
From Verif Require Import PyFmt PyFloatProofs PyFmtProofs PyFmtProofs2.
From Coq Require Import Lqa Qfield.
Local Open Scope Q_scope.

Lemma round_he_close q m : Qabs (q - inject_Z m) < 1#2 -> round_he q = m.
Proof.
  intros H. pose proof (round_he_half q) as HR. set (z := round_he q) in *.
  apply Qabs_Qle_condition in HR. apply Qabs_Qlt_condition in H.
  assert (Ha : inject_Z z < inject_Z (m + 1)) by (rewrite inject_Z_plus; change (inject_Z 1) with 1; lra).
  assert (Hb : inject_Z m < inject_Z (z + 1)) by (rewrite inject_Z_plus; change (inject_Z 1) with 1; lra).
  apply inject_Z_lt_inv in Ha, Hb. lia.
Qed.

Lemma pow10_inv_l e : pow10 (- e) * pow10 e == 1.
Proof. unfold pow10. rewrite <- Qpower_plus by discriminate. replace (- e + e)%Z with 0%Z by lia. reflexivity. Qed.

Lemma dbl_multiple_t w t : is_dbl w -> pow2 t <= Qabs w -> (-1022 <= t)%Z ->
  exists m, w == inject_Z m * pow2 (t - 52).
Proof.
  intros Hw Ht Hb. pose proof (pow2_pos t) as P.
  assert (Hnz : ~ w == 0). { intros E. rewrite E in Ht. change (Qabs 0) with 0 in Ht. lra. }
  pose proof (rnd64_val w Hnz) as HV. rewrite Hw in HV.
  set (r := round_he _) in HV.
  assert (HF : (t - 52 <= fexp64 w)%Z).
  { unfold fexp64. destruct (flog2_spec (Qabs w) ltac:(lra)) as [H1 H2].
    assert (A : pow2 t < pow2 (flog2 (Qabs w) + 1)) by lra. apply pow2_lt_inv in A. lia. }
  exists (r * 2 ^ (fexp64 w - (t - 52)))%Z.
  rewrite HV at 1. rewrite inject_Z_mult, <- pow2_Z by lia.
  replace (fexp64 w) with ((fexp64 w - (t - 52)) + (t - 52))%Z at 1 by lia.
  rewrite pow2_add. ring.
Qed.

(** A point closer than half the spacing to a double rounds to it. *)
Lemma rnd64_near_pos x y t : is_dbl x -> (-1022 <= t)%Z -> pow2 t <= x ->
  Qabs (y - x) < pow2 (t - 53) -> (x == pow2 t -> y == x) -> rnd64 y == x.
Proof.
  intros Hx Hb Ht Hy He. pose proof (pow2_pos t) as P. pose proof (pow2_pos (t - 52)) as P2.
  assert (S : pow2 (t - 52) == 2 * pow2 (t - 53)).
  { replace (t - 52)%Z with ((t - 53) + 1)%Z by lia. apply pow2_succ. }
  assert (T52 : pow2 t == inject_Z (2 ^ 52) * pow2 (t - 52)).
  { rewrite <- pow2_Z by lia. rewrite <- pow2_add. replace (52 + (t - 52))%Z with t by lia. reflexivity. }
  pose proof (rnd64_best y x Hx) as N. pose proof (rnd64_is_dbl y) as Hw. set (w := rnd64 y) in *.
  rewrite (Qabs_Qminus x y) in N.
  apply Qabs_Qlt_condition in Hy.
  assert (N2 : Qabs (w - y) < pow2 (t - 53)).
  { eapply Qle_lt_trans; [exact N|]. apply Qabs_Qlt_condition. exact Hy. }
  apply Qabs_Qlt_condition in N2.
  assert (X : Qabs x == x) by (apply Qabs_pos; lra).
  destruct (dbl_multiple_t x t Hx ltac:(rewrite X; lra) Hb) as [m Hm].
  destruct (Qlt_le_dec w (pow2 t)) as [L|L].
  - destruct (Qeq_dec x (pow2 t)) as [E|E].
    + specialize (He E). unfold w. rewrite (rnd64_comp y x He). now rewrite Hx.
    + exfalso. assert (pow2 t < x) as G by (destruct (Qle_lt_or_eq _ _ Ht); [assumption|lra]).
      rewrite Hm, T52 in G. 
      assert (inject_Z (2 ^ 52) < inject_Z m) as G2 by nra.
      apply inject_Z_lt_inv in G2.
      assert (inject_Z (2 ^ 52 + 1) <= inject_Z m) as G3 by (apply inject_Z_le; lia).
      rewrite inject_Z_plus in G3. change (inject_Z 1) with 1 in G3.
      assert (pow2 t + pow2 (t - 52) <= x). { rewrite T52, Hm. nra. }
      lra.
  - assert (W : Qabs w == w) by (apply Qabs_pos; lra).
    destruct (dbl_multiple_t w t Hw ltac:(rewrite W; lra) Hb) as [m' Hm'].
    assert (A : inject_Z m' < inject_Z (m + 1)).
    { rewrite inject_Z_plus. change (inject_Z 1) with 1.
      assert (inject_Z m' * pow2 (t - 52) < (inject_Z m + 1) * pow2 (t - 52)) by lra. nra. }
    assert (B : inject_Z m < inject_Z (m' + 1)).
    { rewrite inject_Z_plus. change (inject_Z 1) with 1.
      assert (inject_Z m * pow2 (t - 52) < (inject_Z m' + 1) * pow2 (t - 52)) by lra. nra. }
    apply inject_Z_lt_inv in A, B. assert (m' = m) by lia. subst m'. rewrite Hm', Hm. reflexivity.
Qed.

Lemma is_dbl_opp x : is_dbl x -> is_dbl (- x).
Proof. unfold is_dbl. intros H. now rewrite rnd64_opp, H. Qed.

Lemma rnd64_near x y t : is_dbl x -> (-1022 <= t)%Z -> pow2 t <= Qabs x ->
  Qabs (y - x) < pow2 (t - 53) -> (Qabs x == pow2 t -> y == x) -> rnd64 y = x.
Proof.
  intros Hx Hb Ht Hy He. apply dbl_eq; [apply rnd64_is_dbl|assumption|].
  pose proof (pow2_pos t) as P.
  destruct (Qabs_cases x) as [[A B]|[A B]]; rewrite B in Ht, He.
  - eapply rnd64_near_pos; eauto.
  - assert (rnd64 (- y) == - x).
    { eapply (rnd64_near_pos (- x) (- y) t); auto using is_dbl_opp.
      - assert (E : - y - - x == - (y - x)) by ring. rewrite E, Qabs_opp. exact Hy.
      - intros E. rewrite (He E). reflexivity. }
    rewrite rnd64_opp in H. lra.
Qed.

Lemma rnd64_err_below y t : (-1021 <= t)%Z -> Qabs y <= pow2 t -> Qabs (rnd64 y - y) <= pow2 (t - 54).
Proof.
  intros Hb Hy. pose proof (pow2_pos (t - 54)) as P. pose proof (pow2_pos t) as Pt.
  destruct (Qeq_dec y 0) as [E|E].
  - rewrite (rnd64_0 y E), E. change (Qabs (0 - 0)) with 0. lra.
  - destruct (Qeq_dec (Qabs y) (pow2 t)) as [E2|E2].
    + assert (D : rnd64 y == y).
      { destruct (Qabs_cases y) as [[A B]|[A B]]; rewrite B in E2.
        - apply (is_dbl_form y 1 t); [rewrite E2; ring|lia|lia].
        - apply (is_dbl_form y (-1) t); [|lia|lia]. change (inject_Z (-1)) with (- (1)). rewrite <- E2. ring. }
      rewrite D. assert (Z0 : y - y == 0) by ring. rewrite Z0. change (Qabs 0) with 0. lra.
    + pose proof (rnd64_err y E) as HE. eapply Qle_trans; [exact HE|].
      assert (F : (fexp64 y <= t - 53)%Z).
      { unfold fexp64. pose proof (Qabs_nz y E) as Hp. destruct (flog2_spec _ Hp) as [H1 H2].
        assert (A : pow2 (flog2 (Qabs y)) < pow2 t).
        { destruct (Qle_lt_or_eq _ _ Hy); [lra|contradiction]. }
        apply pow2_lt_inv in A. lia. }
      apply pow2_mono in F.
      assert (S : pow2 (t - 53) == 2 * pow2 (t - 54)).
      { replace (t - 53)%Z with ((t - 54) + 1)%Z by lia. apply pow2_succ. }
      lra.
Qed.

Section Dec.
  Context (k : nat) (t : Z).
  Let p := pow10 (Z.of_nat k).
  Let i := pow10 (- Z.of_nat k).
  Context (Ht : (0 <= t)%Z) (H1 : p * pow2 (t - 54) < 1#2) (H2 : (1#2) * i < pow2 (t - 53)).

  Let Ppos : 0 < p. Proof. apply pow10_pos. Qed.
  Let Ipos : 0 < i. Proof. apply pow10_pos. Qed.
  Let PI : i * p == 1. Proof. apply pow10_inv_l. Qed.
  Let PZ : p == inject_Z (10 ^ Z.of_nat k).
  Proof. unfold p, pow10. rewrite (Zpower_Qpower 10) by lia. reflexivity. Qed.

  Lemma dec_half x : Qabs (inject_Z (round_he (x * p)) * i - x) <= (1#2) * i.
  Proof.
    pose proof (round_he_half (x * p)) as H. set (m := round_he _) in *.
    assert (E : inject_Z m * i - x == (inject_Z m - x * p) * i).
    { transitivity (inject_Z m * i - x * (i * p)); [rewrite PI; ring|ring]. }
    rewrite E, Qabs_Qmult, (Qabs_pos i) by lra. nra.
  Qed.

  Lemma round_dec_large x : is_dbl x -> pow2 t <= Qabs x -> round_dec k x = x.
  Proof.
    intros Hx Hl. unfold round_dec. fold p. fold i.
    apply (rnd64_near x _ t Hx); [lia|assumption| |].
    - eapply Qle_lt_trans; [apply dec_half|assumption].
    - intros E.
      assert (X : exists z, x == inject_Z z).
      { rewrite pow2_Z in E by lia. destruct (Qabs_cases x) as [[A B]|[A B]]; rewrite B in E.
        - eexists; exact E.
        - exists (- 2 ^ t)%Z. rewrite inject_Z_opp. lra. }
      destruct X as [z Hz].
      assert (Y : x * p == inject_Z (z * 10 ^ Z.of_nat k)) by (rewrite inject_Z_mult, <- PZ, Hz; reflexivity).
      rewrite (round_he_comp _ _ Y), round_he_Z, <- Y.
      transitivity (x * (i * p)); [ring|]. rewrite PI. ring.
  Qed.

  Lemma round_dec_small x : Qabs x < pow2 t -> round_he (round_dec k x * p) = round_he (x * p).
  Proof.
    intros Hs. unfold round_dec. fold p. fold i. set (m := round_he (x * p)).
    assert (Hm : Qabs (inject_Z m * i) <= pow2 t).
    { assert (MB : (- (2 ^ t * 10 ^ Z.of_nat k) <= m <= 2 ^ t * 10 ^ Z.of_nat k)%Z).
      { assert (PT : pow2 t * p == inject_Z (2 ^ t * 10 ^ Z.of_nat k)) by (rewrite inject_Z_mult, <- PZ, pow2_Z by lia; reflexivity).
        destruct (Qabs_cases x) as [[A B]|[A B]]; rewrite B in Hs.
        - assert (U : x * p <= pow2 t * p) by nra. apply round_he_mono in U. 
          rewrite (round_he_comp _ _ PT), round_he_Z in U.
          assert (L : 0 <= x * p) by nra. apply round_he_mono in L. change (round_he 0) with 0%Z in L. 
          unfold m. pose proof (Z.pow_nonneg 2 t). pose proof (Z.pow_nonneg 10 (Z.of_nat k)). nia.
        - assert (U : - (pow2 t * p) <= x * p) by nra. apply round_he_mono in U.
          rewrite round_he_opp, (round_he_comp _ _ PT), round_he_Z in U.
          assert (L : x * p <= 0) by nra. apply round_he_mono in L. change (round_he 0) with 0%Z in L.
          unfold m. pose proof (Z.pow_nonneg 2 t). pose proof (Z.pow_nonneg 10 (Z.of_nat k)). nia. }
      clearbody m. destruct MB as [M1 M2]. apply inject_Z_le in M1, M2.
      rewrite inject_Z_opp in M1. rewrite inject_Z_mult, <- PZ, <- pow2_Z in M1, M2 by lia.
      apply Qabs_Qle_condition. set (M := inject_Z m) in *. set (tt := pow2 t) in *.
      assert (E : tt == tt * p * i) by (transitivity (tt * (i * p)); [rewrite PI; ring|ring]).
      clear - M1 M2 E Ipos. split; rewrite E; nra. }
    set (y := inject_Z m * i) in *.
    apply round_he_close.
    assert (E : rnd64 y * p - inject_Z m == (rnd64 y - y) * p).
    { unfold y at 3. transitivity (rnd64 y * p - inject_Z m * (i * p)); [rewrite PI; ring|ring]. }
    rewrite E, Qabs_Qmult, (Qabs_pos p) by lra.
    pose proof (rnd64_err_below y t ltac:(lia) Hm) as HE.
    eapply Qle_lt_trans; [|exact H1]. rewrite Qmult_comm. 
    apply Qmult_le_l; [exact Ppos|exact HE].
  Qed.

  Lemma round_dec_again x : is_dbl x -> round_he (round_dec k x * p) = round_he (x * p).
  Proof.
    intros Hx. destruct (Qlt_le_dec (Qabs x) (pow2 t)) as [L|L].
    - now apply round_dec_small.
    - now rewrite round_dec_large.
  Qed.

  Lemma round_dec_idem_gen x : is_dbl x -> round_dec k (round_dec k x) = round_dec k x.
  Proof.
    intros Hx. unfold round_dec at 1. fold p. rewrite round_dec_again by assumption. reflexivity.
  Qed.

  (** Within half a unit of the last decimal, and a relative 2^-52. *)
  Lemma round_dec_err_gen x : pow2 (-1022) <= i -> Qabs (round_dec k x - x) <= (1#2) * i + Qabs x * pow2 (-52).
  Proof.
    intros Hi. unfold round_dec. fold p. fold i. pose proof (dec_half x) as H. set (m := round_he (x * p)) in *.
    pose proof (Qabs_nonneg x) as Xn. pose proof (pow2_pos (-52)) as P52.
    destruct (Z.eq_dec m 0) as [->|Hm].
    - assert (E0 : inject_Z 0 * i == 0) by (change (inject_Z 0) with 0; ring).
      rewrite (rnd64_0 _ E0). rewrite E0 in H. nra.
    - set (y := inject_Z m * i) in *.
      assert (Yi : i <= Qabs y).
      { unfold y. rewrite Qabs_Qmult, (Qabs_pos i) by lra.
        change (Qabs (inject_Z m)) with (inject_Z (Z.abs m)).
        assert (1 <= inject_Z (Z.abs m)) by (change 1 with (inject_Z 1); apply inject_Z_le; lia). nra. }
      pose proof (rnd64_rel y ltac:(lra)) as R.
      assert (YX : Qabs y <= 2 * Qabs x).
      { apply Qabs_Qle_condition in H. 
        destruct (Qabs_cases y) as [[A B]|[A B]]; rewrite B in *;
        destruct (Qabs_cases x) as [[C D]|[C D]]; rewrite D in *; lra. }
      assert (P53 : pow2 (-52) == 2 * pow2 (-53)) by reflexivity.
      assert (TRI : Qabs (rnd64 y - x) <= Qabs (rnd64 y - y) + Qabs (y - x)).
      { assert (E : rnd64 y - x == (rnd64 y - y) + (y - x)) by ring. rewrite E. apply Qabs_triangle. }
      pose proof (pow2_pos (-53)) as P. nra.
  Qed.

  Lemma fmt_again x : is_dbl x -> 0 <= x \/ ~ round_dec k x == 0 -> fmt_f k (round_dec k x) = fmt_f k x.
  Proof.
    intros Hx Hs. unfold fmt_f.
    assert (S : Qlt_bool (round_dec k x) 0 = Qlt_bool x 0).
    { destruct (Qlt_le_dec x 0) as [L|L].
      - assert (round_dec k x <= 0).
        { unfold round_dec. apply rnd64_nonpos. fold p i.
          assert (Z0 : (round_he (x * p) <= 0)%Z).
          { change 0%Z with (round_he 0). apply round_he_mono. nra. }
          apply inject_Z_le in Z0. change (inject_Z 0) with 0 in Z0. nra. }
        destruct Hs as [Hs|Hs]; [lra|].
        transitivity true; [apply Qlt_bool_iff; lra|symmetry; apply Qlt_bool_iff; lra].
      - assert (0 <= round_dec k x).
        { unfold round_dec. apply rnd64_nonneg. fold p i.
          assert (Z0 : (0 <= round_he (x * p))%Z).
          { change 0%Z with (round_he 0). apply round_he_mono. nra. }
          apply inject_Z_le in Z0. change (inject_Z 0) with 0 in Z0. nra. }
        transitivity false; [apply Qlt_bool_false; lra|symmetry; apply Qlt_bool_false; lra]. }
    rewrite S. do 3 f_equal. fold p.
    assert (A : forall u v, round_he (u * p) = round_he (v * p) -> Qlt_bool u 0 = Qlt_bool v 0 ->
                  round_he (Qabs u * p) = round_he (Qabs v * p)).
    { intros u v Huv Hsg.
      destruct (Qlt_bool u 0) eqn:Eu; symmetry in Hsg.
      - apply Qlt_bool_iff in Eu, Hsg.
        assert (U : Qabs u * p == - (u * p)) by (rewrite Qabs_neg by lra; ring).
        assert (V : Qabs v * p == - (v * p)) by (rewrite Qabs_neg by lra; ring).
        rewrite (round_he_comp _ _ U), (round_he_comp _ _ V), !round_he_opp. now f_equal.
      - apply Qlt_bool_false in Eu, Hsg.
        assert (U : Qabs u * p == u * p) by (rewrite Qabs_pos by lra; reflexivity).
        assert (V : Qabs v * p == v * p) by (rewrite Qabs_pos by lra; reflexivity).
        now rewrite (round_he_comp _ _ U), (round_he_comp _ _ V). }
    apply A; [now apply round_dec_again|assumption].
  Qed.
End Dec.

Lemma round_dec_dbl k x : is_dbl (round_dec k x).
Proof. apply rnd64_is_dbl. Qed.

Lemma round10_idem x : is_dbl x -> round_dec 10 (round_dec 10 x) = round_dec 10 x.
Proof. apply (round_dec_idem_gen 10 19); [lia|reflexivity|reflexivity]. Qed.
Lemma round6_idem x : is_dbl x -> round_dec 6 (round_dec 6 x) = round_dec 6 x.
Proof. apply (round_dec_idem_gen 6 33); [lia|reflexivity|reflexivity]. Qed.
Lemma round10_large x : is_dbl x -> pow2 19 <= Qabs x -> round_dec 10 x = x.
Proof. apply (round_dec_large 10 19); [lia|reflexivity]. Qed.
Lemma fmt10_again x : is_dbl x -> 0 <= x \/ ~ round_dec 10 x == 0 -> fmt_f 10 (round_dec 10 x) = fmt_f 10 x.
Proof. apply (fmt_again 10 19); [lia|reflexivity|reflexivity]. Qed.
Lemma round10_err x : Qabs (round_dec 10 x - x) <= (1#2) * pow10 (-10) + Qabs x * pow2 (-52).
Proof. apply (round_dec_err_gen 10). vm_compute. discriminate. Qed.
Lemma round6_err x : Qabs (round_dec 6 x - x) <= (1#2) * pow10 (-6) + Qabs x * pow2 (-52).
Proof. apply (round_dec_err_gen 6). vm_compute. discriminate. Qed.
