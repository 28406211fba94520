(** ['%.6g'] of a double closest to a number with at most 6 significant digits. *)
From Verif Require Import PyFmt PyFloatProofs PyFmtProofs PyFmtProofs2 PyRoundProofs.
From Coq Require Import Lqa Qfield.
Local Open Scope Q_scope.

Lemma pow10_le_lt a b : (a < b)%Z -> 10 * pow10 a <= pow10 b.
Proof. intros H. rewrite <- pow10_succ. apply pow10_mono. lia. Qed.

Lemma g_value_close p q M x : (0 < p)%nat -> (p <= 12)%nat -> (10 ^ (Z.of_nat p - 1) <= M < 10 ^ Z.of_nat p)%Z ->
  let y := inject_Z M * pow10 (x - Z.of_nat p + 1) in
  Qabs (q - y) <= y * pow10 (-15) -> g_value p q == y.
Proof.
  intros Hp Hp2 HM y Hq.
  set (P := Z.of_nat p) in *.
  assert (HP : (1 <= P <= 12)%Z) by lia.
  assert (Y1 : pow10 x <= y).
  { unfold y. destruct HM as [H _]. apply inject_Z_le in H. rewrite <- pow10_Z in H by lia.
    replace x with ((P - 1) + (x - P + 1))%Z at 1 by lia. rewrite (pow10_add (P - 1)).
    pose proof (pow10_pos (x - P + 1)). apply Qmult_le_compat_r; lra. }
  assert (Y2 : y <= pow10 (x + 1) - pow10 (x - P + 1)).
  { unfold y. assert (H : (M <= 10 ^ P - 1)%Z) by lia. apply inject_Z_le in H.
    unfold Zminus in H at 1. rewrite inject_Z_plus in H. rewrite <- pow10_Z in H by lia. change (inject_Z (- (1))) with (- (1)) in H.
    replace (x + 1)%Z with (P + (x - P + 1))%Z by lia. rewrite (pow10_add P).
    pose proof (pow10_pos (x - P + 1)) as Q0. set (u := pow10 (x - P + 1)) in *. 
    assert (E : pow10 P * u - u == (pow10 P + - (1)) * u) by ring. rewrite E. apply Qmult_le_compat_r; lra. }
  set (e := pow10 (-15)) in *. assert (e15 : e == 1 # 1000000000000000) by reflexivity.
  pose proof (pow10_pos x) as Px. pose proof (pow10_pos (x - P + 1)) as Pu.
  apply Qabs_Qle_condition in Hq.
  assert (XU : pow10 (x + 1) == 10 * pow10 x) by apply pow10_succ.
  assert (U12 : pow10 x <= (1#10) * pow10 12 * pow10 (x - P + 1)).
  { assert (E : (1#10) * pow10 12 == pow10 11) by reflexivity. rewrite E. rewrite <- pow10_add. apply pow10_mono. lia. }
  change (pow10 12) with (inject_Z 1000000000000) in U12. set (u := pow10 (x - P + 1)) in *.
  assert (U12' : pow10 x <= 100000000000 * u). { change (inject_Z 1000000000000) with 1000000000000 in U12. lra. }
  set (t := pow10 x) in *.
  assert (Ye : y * e <= (1 # 100) * u).
  { assert (y <= 10 * t) by lra. rewrite e15. lra. }
  assert (Ye2 : y * e <= (1#10) * y) by (rewrite e15; lra).
  assert (Q0 : 0 < q) by lra.
  destruct (flog10_spec q Q0) as [F1 F2]. set (F := flog10 q) in *.
  assert (FU : (F <= x)%Z).
  { destruct (Z_le_gt_dec F x); auto. assert (A : pow10 (x + 1) <= pow10 F) by (apply pow10_mono; lia). lra. }
  assert (FL : (x - 1 <= F)%Z).
  { destruct (Z_le_gt_dec (x - 1) F); auto. exfalso. assert (A : 10 * pow10 (F + 1) <= pow10 x) by (apply pow10_le_lt; lia). fold t in A. lra. }
  unfold g_value. assert (E0 : Qeq_bool q 0 = false) by (apply Qeq_bool_false; lra). rewrite E0.
  assert (EA : Qabs q = q). { destruct q as [a b]. unfold Qlt in Q0. cbn in Q0. unfold Qabs. rewrite Z.abs_eq by lia. reflexivity. }
  rewrite EA. destruct (sig_digits p q) as [m x'] eqn:ES.
  assert (EL : Qlt_bool q 0 = false) by (apply Qlt_bool_false; lra). rewrite EL. cbv zeta.
  destruct (sig_digits_spec p q m x' Hp Q0 ES) as [_ HB]. fold F P in HB. fold P.
  assert (X' : x' = F \/ x' = (F + 1)%Z).
  { unfold sig_digits in ES. fold F in ES. destruct (_ =? _)%N in ES; inversion ES; auto. }
  set (G := inject_Z (Z.of_N m) * pow10 (x' - P + 1)) in *.
  set (v := pow10 (F - P + 1)) in *. pose proof (pow10_pos (F - P + 1)) as Pv. fold v in Pv.
  assert (UV : u <= 10 * v).
  { unfold u, v. rewrite <- pow10_succ. apply pow10_mono. lia. }
  assert (GM : exists g, G == inject_Z g * v).
  { exists (Z.of_N m * 10 ^ (x' - F))%Z. unfold G, v. rewrite inject_Z_mult, <- pow10_Z by lia.
    replace (x' - P + 1)%Z with ((x' - F) + (F - P + 1))%Z by lia. rewrite pow10_add. ring. }
  assert (YM : exists g, y == inject_Z g * v).
  { exists (M * 10 ^ (x - F))%Z. unfold y, u, v. rewrite inject_Z_mult, <- pow10_Z by lia.
    replace (x - P + 1)%Z with ((x - F) + (F - P + 1))%Z by lia. rewrite pow10_add. ring. }
  destruct GM as [g Hg]. destruct YM as [h Hh].
  apply Qabs_Qle_condition in HB.
  assert (A1 : inject_Z g * v < inject_Z h * v + v) by lra.
  assert (A2 : inject_Z h * v < inject_Z g * v + v) by lra.
  assert (B1 : inject_Z g < inject_Z (h + 1)).
  { rewrite inject_Z_plus. change (inject_Z 1) with 1. apply (Qmult_lt_r _ _ v Pv). lra. }
  assert (B2 : inject_Z h < inject_Z (g + 1)).
  { rewrite inject_Z_plus. change (inject_Z 1) with 1. apply (Qmult_lt_r _ _ v Pv). lra. }
  apply inject_Z_lt_inv in B1, B2. assert (g = h) by lia. subst. rewrite Hg, Hh. reflexivity.
Qed.

(** Millionths between 0 and 1. *)
Definition millionth (m : Z) : Q := rnd64 (m # 1000000).

Lemma millionth_g m : (0 <= m <= 10 ^ 6)%Z -> g_value 6 (millionth m) == m # 1000000.
Proof.
  intros Hm. destruct (Z.eq_dec m 0) as [->|Hz]; [reflexivity|].
  assert (HX : exists M x, (10 ^ 5 <= M < 10 ^ 6)%Z /\ (m # 1000000) == inject_Z M * pow10 (x - 5)).
  { assert (C : (m < 10 \/ 10 <= m < 100 \/ 100 <= m < 1000 \/ 1000 <= m < 10000 \/ 10000 <= m < 100000 \/ 100000 <= m < 1000000 \/ m = 1000000)%Z) by lia.
    assert (E : forall k, (0 <= k)%Z -> (m # 1000000) == inject_Z (m * 10 ^ k) * pow10 (-6 - k)).
    { intros k Hk. rewrite inject_Z_mult, <- pow10_Z by assumption.
      transitivity (inject_Z m * (pow10 (-6 - k) * pow10 k)); [|ring].
      rewrite <- pow10_add. replace (-6 - k + k)%Z with (-6)%Z by lia. 
      assert (P6 : pow10 (-6) == 1 # 1000000) by reflexivity. rewrite P6. unfold Qeq, inject_Z. cbn. lia. }
    destruct C as [C|[C|[C|[C|[C|[C|C]]]]]].
    - exists (m * 10 ^ 5)%Z, (-6)%Z. split; [lia|]. apply (E 5%Z). lia.
    - exists (m * 10 ^ 4)%Z, (-5)%Z. split; [lia|]. apply (E 4%Z). lia.
    - exists (m * 10 ^ 3)%Z, (-4)%Z. split; [lia|]. apply (E 3%Z). lia.
    - exists (m * 10 ^ 2)%Z, (-3)%Z. split; [lia|]. apply (E 2%Z). lia.
    - exists (m * 10 ^ 1)%Z, (-2)%Z. split; [lia|]. apply (E 1%Z). lia.
    - exists (m * 10 ^ 0)%Z, (-1)%Z. split; [lia|]. apply (E 0%Z). lia.
    - exists 100000%Z, 0%Z. split; [lia|]. subst m. reflexivity. }
  destruct HX as (M & x & HM & HE).
  pose proof (g_value_close 6 (millionth m) M x) as HG. cbv zeta in HG.
  change (Z.of_nat 6) with 6%Z in HG. replace (x - 6 + 1)%Z with (x - 5)%Z in HG by lia.
  rewrite <- HE in HG. apply HG; [lia|lia|exact HM|].
  unfold millionth. set (y := m # 1000000).
  assert (Y : 1 # 1000000 <= y) by (unfold Qle, y; cbn; lia).
  assert (YA : Qabs y == y) by (apply Qabs_pos; lra).
  assert (PM : pow2 (-1022) <= 1 # 1000000) by (vm_compute; discriminate).
  pose proof (rnd64_rel y ltac:(rewrite YA; lra)) as R. rewrite YA in R.
  assert (PE : pow2 (-53) <= pow10 (-15)) by (vm_compute; discriminate).
  nra.
Qed.

Lemma millionth_read m : (0 <= m <= 10 ^ 6)%Z -> parse_float (fmt_g 6 (millionth m)) = Ok (millionth m).
Proof.
  intros Hm. rewrite parse_fmt_g by lia. f_equal. rewrite (rnd64_comp _ _ (millionth_g m Hm)). reflexivity.
Qed.

Lemma millionth_lt a b : (0 <= a <= 10 ^ 6)%Z -> (0 <= b <= 10 ^ 6)%Z -> (a < b)%Z -> millionth a < millionth b.
Proof.
  intros Ha Hb H. destruct (Qlt_le_dec (millionth a) (millionth b)) as [L|L]; [assumption|exfalso].
  assert (M : millionth a <= millionth b) by (apply rnd64_mono; unfold Qle; cbn; lia).
  assert (E : millionth a = millionth b) by (apply dbl_eq; [apply rnd64_is_dbl|apply rnd64_is_dbl|lra]).
  pose proof (millionth_g a Ha) as Ga. pose proof (millionth_g b Hb) as Gb. rewrite E, Gb in Ga.
  unfold Qeq in Ga. cbn in Ga. lia.
Qed.
