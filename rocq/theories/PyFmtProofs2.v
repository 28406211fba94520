(** ['%g'] and [repr]: digits, and reading them back. *)
From Verif Require Import PyFmt PyFloatProofs PyFmtProofs.
From Coq Require Import Lqa Qfield ZifyBool ZifyN ZifyNat.
Local Open Scope Z_scope.

(** ** Powers of ten *)

Lemma pow10_pos e : (0 < pow10 e)%Q.
Proof. apply Qpower_0_lt. reflexivity. Qed.
Lemma pow10_add a b : (pow10 (a + b) == pow10 a * pow10 b)%Q.
Proof. unfold pow10. apply Qpower_plus. discriminate. Qed.
Lemma pow10_opp_l e : (pow10 (- e) * pow10 e == 1)%Q.
Proof. rewrite <- pow10_add. replace (- e + e) with 0 by lia. reflexivity. Qed.
Lemma pow10_Z n : 0 <= n -> (pow10 n == inject_Z (10 ^ n))%Q.
Proof. intros H. unfold pow10. rewrite (Zpower_Qpower 10 n H). reflexivity. Qed.
Lemma pow10_ge1 n : 0 <= n -> (1 <= pow10 n)%Q.
Proof.
  intros H. rewrite pow10_Z by assumption. change 1%Q with (inject_Z 1). apply inject_Z_le.
  pose proof (Z.pow_pos_nonneg 10 n). lia.
Qed.
Lemma pow10_mono a b : a <= b -> (pow10 a <= pow10 b)%Q.
Proof.
  intros H. replace b with (a + (b - a)) by lia. rewrite pow10_add.
  pose proof (pow10_ge1 (b - a) ltac:(lia)) as H1. pose proof (pow10_pos a) as H2. nra.
Qed.
Lemma pow10_succ e : (pow10 (e + 1) == 10 * pow10 e)%Q.
Proof. rewrite pow10_add. change (pow10 1) with 10%Q. ring. Qed.
Lemma pow10_lt a b : a < b -> (pow10 a < pow10 b)%Q.
Proof.
  intros H. pose proof (pow10_mono (a + 1) b ltac:(lia)) as H1. rewrite pow10_succ in H1.
  pose proof (pow10_pos a). lra.
Qed.
Lemma pow10_lt_inv a b : (pow10 a < pow10 b)%Q -> a < b.
Proof. intros H. destruct (Z_lt_le_dec a b); auto. pose proof (pow10_mono b a ltac:(lia)). lra. Qed.
Lemma pow10_N k : (pow10 (Z.of_N k) == inject_Z (Z.of_N (10 ^ k)))%Q.
Proof. rewrite pow10_Z by lia. rewrite N2Z.inj_pow. reflexivity. Qed.

Lemma flog10_spec q : (0 < q -> pow10 (flog10 q) <= q /\ q < pow10 (flog10 q + 1))%Q.
Proof.
  intros Hq. unfold flog10.
  set (dn := dec_N (Z.to_N (Qnum q))). set (dd := dec_N (Npos (Qden q))).
  set (ln := Z.of_nat (length dn)). set (ld := Z.of_nat (length dd)).
  assert (Hn : 0 < Qnum q). { destruct q as [n d]. unfold Qlt in Hq. simpl in *. lia. }
  assert (Hl1 : 1 <= ln). { unfold ln, dn. pose proof (dec_N_nonempty (Z.to_N (Qnum q))). destruct (dec_N (Z.to_N (Qnum q))); [contradiction|simpl length; lia]. }
  assert (Hl2 : 1 <= ld). { unfold ld, dd. pose proof (dec_N_nonempty (Npos (Qden q))). destruct (dec_N (Npos (Qden q))); [contradiction|simpl length; lia]. }
  assert (B1 : (pow10 (ln - 1) <= inject_Z (Qnum q))%Q).
  { rewrite pow10_Z by lia. apply inject_Z_le.
    pose proof (dec_N_lower (Z.to_N (Qnum q)) ltac:(lia)) as H. fold dn in H.
    apply N2Z.inj_le in H. rewrite N2Z.inj_pow, Z2N.id in H by lia.
    replace (Z.of_N (N.of_nat (length dn) - 1)) with (ln - 1) in H by lia. exact H. }
  assert (B2 : (inject_Z (Qnum q) < pow10 ln)%Q).
  { rewrite pow10_Z by lia. apply inject_Z_lt.
    pose proof (dec_N_upper (Z.to_N (Qnum q))) as H. fold dn in H.
    apply N2Z.inj_lt in H. rewrite N2Z.inj_pow, Z2N.id in H by lia.
    replace (Z.of_N (N.of_nat (length dn))) with ln in H by lia. exact H. }
  assert (B3 : (pow10 (ld - 1) <= inject_Z (Zpos (Qden q)))%Q).
  { rewrite pow10_Z by lia. apply inject_Z_le.
    pose proof (dec_N_lower (Npos (Qden q)) ltac:(lia)) as H. fold dd in H.
    apply N2Z.inj_le in H. rewrite N2Z.inj_pow in H.
    replace (Z.of_N (N.of_nat (length dd) - 1)) with (ld - 1) in H by lia. exact H. }
  assert (B4 : (inject_Z (Zpos (Qden q)) < pow10 ld)%Q).
  { rewrite pow10_Z by lia. apply inject_Z_lt.
    pose proof (dec_N_upper (Npos (Qden q))) as H. fold dd in H.
    apply N2Z.inj_lt in H. rewrite N2Z.inj_pow in H.
    replace (Z.of_N (N.of_nat (length dd))) with ld in H by lia. exact H. }
  assert (Hq2 : (q * inject_Z (Zpos (Qden q)) == inject_Z (Qnum q))%Q).
  { destruct q as [n d]. unfold Qeq, inject_Z. simpl. lia. }
  set (NN := inject_Z (Qnum q)) in *. set (D := inject_Z (Zpos (Qden q))) in *.
  assert (P0 : (0 < D)%Q) by (pose proof (pow10_pos (ld - 1)); lra).
  destruct (Qle_bool (pow10 (ln - ld)) q) eqn:E.
  - apply Qle_bool_iff in E. split; [exact E|].
    destruct (Qlt_le_dec q (pow10 (ln - ld + 1))) as [|C]; [assumption|exfalso].
    assert (HP : (pow10 (ln - ld + 1) * pow10 (ld - 1) == pow10 ln)%Q).
    { rewrite <- pow10_add. replace (ln - ld + 1 + (ld - 1)) with ln by lia. reflexivity. }
    pose proof (pow10_pos (ln - ld + 1)) as P1. pose proof (pow10_pos (ld - 1)) as P2.
    assert (X : (pow10 (ln - ld + 1) * pow10 (ld - 1) <= q * D)%Q) by nra. lra.
  - apply Qle_bool_false in E.
    replace (ln - ld - 1 + 1) with (ln - ld) by lia. split; [|exact E].
    destruct (Qlt_le_dec q (pow10 (ln - ld - 1))) as [C|]; [exfalso|assumption].
    assert (HP : (pow10 (ln - ld - 1) * pow10 ld == pow10 (ln - 1))%Q).
    { rewrite <- pow10_add. replace (ln - ld - 1 + ld) with (ln - 1) by lia. reflexivity. }
    pose proof (pow10_pos (ln - ld - 1)) as P1. pose proof (pow10_pos ld) as P2.
    assert (X : (q * D <= pow10 (ln - ld - 1) * D)%Q) by (apply Qmult_le_compat_r; lra).
    assert (Y : (pow10 (ln - ld - 1) * D < pow10 (ln - ld - 1) * pow10 ld)%Q) by (apply Qmult_lt_l; assumption).
    lra.
Qed.

Lemma flog10_unique q k : (pow10 k <= q -> q < pow10 (k + 1) -> flog10 q = k)%Q.
Proof.
  intros H1 H2. pose proof (pow10_pos k) as Hp.
  destruct (flog10_spec q ltac:(lra)) as [H3 H4].
  assert (A : (pow10 k < pow10 (flog10 q + 1))%Q) by lra.
  assert (B : (pow10 (flog10 q) < pow10 (k + 1))%Q) by lra.
  apply pow10_lt_inv in A, B. lia.
Qed.

(** ** Significant digits *)

Lemma sig_digits_spec p q m x : (0 < p)%nat -> (0 < q)%Q -> sig_digits p q = (m, x) ->
  (10 ^ (N.of_nat p - 1) <= m < 10 ^ N.of_nat p)%N
  /\ (Qabs (inject_Z (Z.of_N m) * pow10 (x - Z.of_nat p + 1) - q)
      <= (1#2) * pow10 (flog10 q - Z.of_nat p + 1))%Q.
Proof.
  intros Hp Hq H. unfold sig_digits in H.
  set (x0 := flog10 q) in *. set (r := round_he (q * pow10 (Z.of_nat p - 1 - x0))) in *.
  destruct (flog10_spec q Hq) as [F1 F2]. fold x0 in F1, F2.
  set (k := Z.of_nat p - 1 - x0) in *.
  pose proof (pow10_pos k) as Pk.
  assert (S1 : (pow10 (Z.of_nat p - 1) <= q * pow10 k)%Q).
  { replace (Z.of_nat p - 1) with (x0 + k) by lia. rewrite pow10_add. apply Qmult_le_compat_r; lra. }
  assert (S2 : (q * pow10 k <= pow10 (Z.of_nat p))%Q).
  { replace (Z.of_nat p) with (x0 + 1 + k) by lia. rewrite (pow10_add (x0 + 1)). apply Qmult_le_compat_r; lra. }
  rewrite (pow10_Z (Z.of_nat p - 1)) in S1 by lia. rewrite (pow10_Z (Z.of_nat p)) in S2 by lia.
  apply round_he_mono in S1, S2. rewrite round_he_Z in S1, S2. fold r in S1, S2.
  assert (Hr0 : 0 <= r). { pose proof (Z.pow_pos_nonneg 10 (Z.of_nat p - 1)). lia. }
  assert (ET : Z.of_N (10 ^ N.of_nat p) = 10 ^ Z.of_nat p).
  { rewrite N2Z.inj_pow. f_equal. lia. }
  assert (ET1 : Z.of_N (10 ^ (N.of_nat p - 1)) = 10 ^ (Z.of_nat p - 1)).
  { rewrite N2Z.inj_pow. f_equal. lia. }
  assert (HB : (Qabs (inject_Z r * pow10 (- k) - q) <= (1#2) * pow10 (- k))%Q).
  { pose proof (round_he_half (q * pow10 k)) as HR. fold r in HR.
    assert (HH : (Qabs (inject_Z r * pow10 (- k) - q) == Qabs (inject_Z r - q * pow10 k) * pow10 (- k))%Q).
    { rewrite <- (Qabs_pos (pow10 (- k))) at 2 by (pose proof (pow10_pos (- k)); lra).
      rewrite <- Qabs_Qmult. apply Qabs_wd.
      transitivity (inject_Z r * pow10 (- k) - q * (pow10 (- k) * pow10 k))%Q; [rewrite pow10_opp_l; ring|ring]. }
    rewrite HH. pose proof (pow10_pos (- k)). apply Qmult_le_compat_r; lra. }
  replace (x0 - Z.of_nat p + 1) with (- k) by lia.
  destruct (Z.to_N r =? 10 ^ N.of_nat p)%N eqn:E; inversion H; subst m x; clear H.
  - apply N.eqb_eq in E. split.
    + split; [reflexivity|]. apply N.pow_lt_mono_r; lia.
    + assert (Er : r = 10 ^ Z.of_nat p) by lia.
      rewrite Er in HB. rewrite ET1.
      assert (HE : (inject_Z (10 ^ (Z.of_nat p - 1)) * pow10 (x0 + 1 - Z.of_nat p + 1) == inject_Z (10 ^ Z.of_nat p) * pow10 (- k))%Q).
      { rewrite <- !pow10_Z by lia. rewrite <- !pow10_add.
        replace (Z.of_nat p - 1 + (x0 + 1 - Z.of_nat p + 1)) with (x0 + 1) by lia.
        replace (Z.of_nat p + - k) with (x0 + 1) by lia. reflexivity. }
      rewrite HE. exact HB.
  - apply N.eqb_neq in E. split; [lia|].
    replace (x0 - Z.of_nat p + 1) with (- k) by lia. rewrite Z2N.id by lia. exact HB.
Qed.

(** ** Stripping zeros *)

Lemma drop_zeros_app_nz a c b : c <> 48%N ->
  drop_zeros (a ++ c :: b) = drop_zeros a ++ c :: b.
Proof.
  intros Hc. induction a as [|d a IH]; cbn [app drop_zeros].
  - destruct (N.eqb_spec c 48); [contradiction|reflexivity].
  - destruct (d =? 48)%N; auto.
Qed.

Lemma drop_zeros_split a : exists k, a = repeat 48%N k ++ drop_zeros a.
Proof.
  induction a as [|c a [k IH]]; [exists 0%nat; reflexivity|]. cbn [drop_zeros].
  destruct (N.eqb_spec c 48) as [->|]; [exists (S k); cbn [repeat app]; congruence|exists 0%nat; reflexivity].
Qed.

Definition rstrip0 (fp : pstr) : pstr := rev (drop_zeros (rev fp)).

Lemma rstrip0_split fp : exists k, fp = rstrip0 fp ++ repeat 48%N k.
Proof.
  destruct (drop_zeros_split (rev fp)) as [k H]. exists k. unfold rstrip0.
  rewrite <- (rev_involutive fp) at 1. rewrite H at 1. rewrite rev_app_distr. f_equal.
  clear. induction k as [|k IH]; [reflexivity|]. cbn [repeat rev]. rewrite IH.
  clear. induction k as [|k IH]; [reflexivity|]. cbn [repeat app]. now rewrite IH.
Qed.

Lemma existsb_app' (f : N -> bool) a b : existsb f (a ++ b) = existsb f a || existsb f b.
Proof. apply existsb_app. Qed.

Lemma all_digits_no_point x : all_digits x -> existsb (N.eqb 46) x = false.
Proof.
  intros H. destruct (existsb (N.eqb 46) x) eqn:E; [|reflexivity].
  apply existsb_exists in E as (c & Hc & E). apply N.eqb_eq in E. subst c.
  unfold all_digits in H. rewrite Forall_forall in H. specialize (H _ Hc). discriminate.
Qed.

Definition point_part (fp : pstr) : pstr := match fp with [] => [] | _ => 46%N :: fp end.

Lemma strip_zeros_digits ip : all_digits ip -> strip_zeros ip = ip.
Proof. intros H. unfold strip_zeros. now rewrite all_digits_no_point. Qed.

Lemma strip_zeros_shape ip fp : all_digits ip -> all_digits fp ->
  strip_zeros (ip ++ 46%N :: fp) = ip ++ point_part (rstrip0 fp).
Proof.
  intros Hi Hf. unfold strip_zeros.
  assert (HE : existsb (N.eqb 46) (ip ++ 46%N :: fp) = true).
  { rewrite existsb_app. cbn [existsb]. rewrite N.eqb_refl. cbn [orb]. apply orb_true_r. }
  rewrite HE. rewrite rev_app_distr. cbn [rev]. rewrite <- app_assoc. cbn [app].
  rewrite drop_zeros_app_nz by discriminate.
  unfold rstrip0, point_part.
  destruct (drop_zeros (rev fp)) as [|c r] eqn:E.
  - cbn [app rev]. rewrite N.eqb_refl. rewrite rev_involutive. now rewrite app_nil_r.
  - assert (Hc : (c =? 46)%N = false).
    { destruct (drop_zeros_split (rev fp)) as [k Hk]. rewrite E in Hk.
      assert (Hin : In c fp). { apply in_rev. rewrite Hk. apply in_or_app. right. now left. }
      unfold all_digits in Hf. rewrite Forall_forall in Hf. specialize (Hf _ Hin).
      apply is_digit_iff in Hf. lia. }
    cbn [app]. rewrite Hc. change (c :: r ++ 46%N :: rev ip) with ((c :: r) ++ 46%N :: rev ip).
    rewrite rev_app_distr. cbn [rev]. rewrite rev_involutive. rewrite <- !app_assoc. cbn [app].
    destruct (rev r ++ [c]) eqn:E2; [|reflexivity]. destruct (rev r); discriminate.
Qed.

Lemma rstrip0_digits fp : all_digits fp -> all_digits (rstrip0 fp).
Proof.
  intros H. destruct (rstrip0_split fp) as [k Hk]. rewrite Hk in H.
  apply all_digits_app in H. tauto.
Qed.

(** Value of a decimal (ip, fp) *)
Definition decval (ip fp : pstr) : Q := inject_Z (Z.of_N (digits_val (ip ++ fp))) * pow10 (- Z.of_nat (length fp)).

Lemma decval_rstrip0 ip fp : (decval ip (rstrip0 fp) == decval ip fp)%Q.
Proof.
  destruct (rstrip0_split fp) as [k Hk]. unfold decval.
  set (r := rstrip0 fp) in *. clearbody r. subst fp.
  rewrite app_assoc, (digits_val_app (ip ++ r)), digits_val_zeros.
  rewrite app_length, !repeat_length, N.add_0_r.
  rewrite N2Z.inj_mul, inject_Z_mult, <- pow10_N.
  rewrite <- Qmult_assoc, <- pow10_add.
  replace (Z.of_N (N.of_nat k) + - Z.of_nat (length r + k)) with (- Z.of_nat (length r)) by lia.
  reflexivity.
Qed.

(** ** Parsing mantissa and exponent *)

Lemma exp_str_parse x : exists r, exp_str x = 101%N :: r /\ parse_exp r = Some x.
Proof.
  unfold exp_str. eexists. split; [reflexivity|].
  assert (Hd : all_digits (pad0 2 (dec_N (Z.to_N (Z.abs x))))) by apply pad0_digits, dec_N_digits.
  assert (Hne : pad0 2 (dec_N (Z.to_N (Z.abs x))) <> []).
  { unfold pad0. pose proof (dec_N_nonempty (Z.to_N (Z.abs x))). intros E. apply app_eq_nil in E. tauto. }
  assert (Hv : digits_val (pad0 2 (dec_N (Z.to_N (Z.abs x)))) = Z.to_N (Z.abs x)).
  { now rewrite pad0_val, dec_N_val. }
  set (ds := pad0 2 _) in *. unfold parse_exp.
  destruct (x <? 0) eqn:E; cbn [split_sign]; rewrite (span_digits_nil ds Hd);
    destruct ds as [|c ds]; try contradiction; rewrite Hv; f_equal; lia.
Qed.

Lemma exp_str_num x : all_num (exp_str x).
Proof.
  unfold exp_str. constructor; [reflexivity|]. constructor; [destruct (x <? 0); reflexivity|].
  apply all_digits_num, pad0_digits, dec_N_digits.
Qed.

Lemma parse_unsigned_pt ip fp (dot : bool) suf x :
  all_digits ip -> all_digits fp -> ip <> [] -> (dot = false -> fp = []) ->
  (suf = [] /\ x = 0 \/ suf = exp_str x) ->
  parse_unsigned (ip ++ (if dot then 46%N :: fp else []) ++ suf)
  = Some (digits_val (ip ++ fp), x - Z.of_nat (length fp)).
Proof.
  intros Hi Hf Hne Hd Hs.
  assert (Hsuf : match suf with [] => True | c :: _ => is_digit c = false end /\ (match suf with [] => True | c :: _ => c = 101%N end)).
  { destruct Hs as [[-> ->]| ->]; [split; exact I|]. destruct (exp_str_parse x) as (r & -> & _). split; reflexivity. }
  destruct Hsuf as [Hsuf Hsuf2].
  unfold parse_unsigned.
  rewrite (span_digits ip); [|assumption|destruct dot; [reflexivity|exact Hsuf]].
  match goal with |- (let (_, _) := ?M in _) = _ => assert (Hm : M = (fp, suf)) end.
  { destruct dot.
    - cbn [app]. rewrite (span_digits fp suf Hf Hsuf). reflexivity.
    - rewrite (Hd eq_refl). cbn [app]. destruct suf as [|c suf]; [reflexivity|]. subst c. reflexivity. }
  rewrite Hm.
  destruct (ip ++ fp) as [|c0 d0] eqn:E0; [apply app_eq_nil in E0; tauto|]. rewrite <- E0.
  destruct Hs as [[-> ->]| ->].
  - reflexivity.
  - destruct (exp_str_parse x) as (r & -> & ->). cbn [N.eqb Pos.eqb orb]. f_equal.
Qed.

Lemma decval_shift ip fp x : (inject_Z (Z.of_N (digits_val (ip ++ fp))) * pow10 (x - Z.of_nat (length fp)) == decval ip fp * pow10 x)%Q.
Proof.
  unfold decval. rewrite <- Qmult_assoc, <- pow10_add.
  replace (- Z.of_nat (length fp) + x) with (x - Z.of_nat (length fp)) by lia. reflexivity.
Qed.

(** [strip_zeros (fmt_fixed k m) ++ suf] *)
Lemma strip_fixed_shape k m : exists ip fp,
  strip_zeros (fmt_fixed k m) = ip ++ point_part fp
  /\ all_digits ip /\ all_digits fp /\ ip <> []
  /\ (decval ip fp == inject_Z (Z.of_N m) * pow10 (- Z.of_nat k))%Q
  /\ ip = dec_N (m / 10 ^ N.of_nat k)
  /\ ((10 ^ N.of_nat k | m)%N -> fp = []).
Proof.
  destruct (fmt_fixed_shape k m) as (ip & fp & H & Hi & Hf & Hne & Hl & Hv & Hip). rewrite H.
  destruct k as [|k].
  - destruct fp; [|discriminate]. exists ip, []. rewrite app_nil_r in *.
    rewrite strip_zeros_digits by assumption. cbn [point_part].
    unfold decval. rewrite !app_nil_r, Hv. cbn [length]. repeat split; auto.
  - exists ip, (rstrip0 fp). rewrite strip_zeros_shape by assumption.
    repeat split; auto using rstrip0_digits.
    + rewrite decval_rstrip0. unfold decval. rewrite Hv, Hl. reflexivity.
    + intros [j Hj].
      assert (Hz : digits_val fp = 0%N).
      { rewrite digits_val_app, Hl in Hv. rewrite Hip, dec_N_val in Hv.
        rewrite Hj in Hv. rewrite N.div_mul in Hv by (apply N.pow_nonzero; lia). lia. }
      assert (Hrep : fp = repeat 48%N (length fp)).
      { clear - Hf Hz. induction fp as [|c fp IH]; [reflexivity|]. inversion Hf; subst.
        rewrite digits_val_cons in Hz. apply is_digit_iff in H1.
        assert (10 ^ N.of_nat (length fp) <> 0)%N by (apply N.pow_nonzero; lia).
        assert (c - 48 = 0 /\ digits_val fp = 0)%N as [Hc Hz2] by nia.
        cbn [length repeat]. f_equal; [lia|]. apply IH; auto. }
      rewrite Hrep. unfold rstrip0. clear. 
      assert (HR : forall n, rev (repeat 48%N n) = repeat 48%N n).
      { induction n as [|n IH]; [reflexivity|]. cbn [repeat rev]. rewrite IH.
        clear. induction n as [|n IH]; [reflexivity|]. cbn [repeat app]. now rewrite IH. }
      rewrite HR. induction (length fp) as [|n IH]; [reflexivity|]. cbn [repeat drop_zeros]. exact IH.
Qed.

Lemma point_part_num fp : all_digits fp -> all_num (point_part fp).
Proof. intros H. destruct fp; [constructor|]. constructor; [reflexivity|]. now apply all_digits_num. Qed.

(** Reading a decimal with optional exponent. *)
Lemma parse_float_dec (neg : bool) ip fp (dot : bool) suf x :
  all_digits ip -> all_digits fp -> ip <> [] -> (dot = false -> fp = []) ->
  (suf = [] /\ x = 0 \/ suf = exp_str x) ->
  parse_float (minus_if neg ++ ip ++ (if dot then 46%N :: fp else []) ++ suf)
  = Ok (rnd64 (let q := (decval ip fp * pow10 x)%Q in if neg then - q else q)%Q).
Proof.
  intros Hi Hf Hne Hd Hs.
  rewrite (parse_float_unsigned neg _ (digits_val (ip ++ fp)) (x - Z.of_nat (length fp))).
  - f_equal. apply rnd64_comp. cbv zeta. destruct neg; rewrite decval_shift; reflexivity.
  - apply all_num_app. split; [now apply all_digits_num|]. apply all_num_app. split.
    + destruct dot; [|constructor]. constructor; [reflexivity|now apply all_digits_num].
    + destruct Hs as [[-> ->]| ->]; [constructor|apply exp_str_num].
  - destruct ip as [|c ip]; [contradiction|]. left. inversion Hi; assumption.
  - now apply parse_unsigned_pt.
Qed.

Lemma point_part_if fp : exists dot : bool, point_part fp = (if dot then 46%N :: fp else []) /\ (dot = false -> fp = []).
Proof.
  destruct fp as [|c fp]; [exists false|exists true]; cbn [point_part]; split; auto. discriminate.
Qed.

Lemma parse_strip_fixed (neg : bool) k m suf x :
  (suf = [] /\ x = 0 \/ suf = exp_str x) ->
  parse_float (minus_if neg ++ strip_zeros (fmt_fixed k m) ++ suf)
  = Ok (rnd64 (let q := (inject_Z (Z.of_N m) * pow10 (- Z.of_nat k + x))%Q in if neg then - q else q)%Q).
Proof.
  intros Hs. destruct (strip_fixed_shape k m) as (ip & fp & -> & Hi & Hf & Hne & Hv & _).
  destruct (point_part_if fp) as (dot & -> & Hd). rewrite <- app_assoc.
  etransitivity; [apply (parse_float_dec neg ip fp dot suf x); assumption|].
  f_equal. apply rnd64_comp. cbv zeta. destruct neg; rewrite Hv, pow10_add; ring.
Qed.

(** The value printed by ['%.pg']: q rounded to p significant digits. *)
Definition g_value (p : nat) (q : Q) : Q :=
  if Qeq_bool q 0 then 0%Q else
  let (m, x) := sig_digits p (Qabs q) in
  let v := (inject_Z (Z.of_N m) * pow10 (x - Z.of_nat p + 1))%Q in
  if Qlt_bool q 0 then (- v)%Q else v.

Lemma parse_fmt_g p q : (0 < p)%nat -> parse_float (fmt_g p q) = Ok (rnd64 (g_value p q)).
Proof.
  intros Hp. unfold fmt_g, g_value. destruct (Qeq_bool q 0); [reflexivity|].
  destruct (sig_digits p (Qabs q)) as [m x].
  destruct ((-4 <=? x) && (x <? Z.of_nat p)) eqn:E.
  - rewrite <- (app_nil_r (strip_zeros _)).
    rewrite (parse_strip_fixed _ _ _ [] 0) by auto. f_equal. apply rnd64_comp. cbv zeta.
    replace (- Z.of_nat (Z.to_nat (Z.of_nat p - 1 - x)) + 0) with (x - Z.of_nat p + 1) by lia.
    reflexivity.
  - rewrite (parse_strip_fixed _ _ _ (exp_str x) x) by auto. f_equal. apply rnd64_comp. cbv zeta.
    replace (- Z.of_nat (p - 1) + x) with (x - Z.of_nat p + 1) by lia.
    reflexivity.
Qed.

(** Integers with at most p digits are printed exactly by ['%.pg']. *)
Lemma fmt_g_int p n : (0 < p)%nat -> 0 <= n < 10 ^ Z.of_nat p -> fmt_g p (inject_Z n) = dec_N (Z.to_N n).
Proof.
  intros Hp Hn. unfold fmt_g.
  destruct (Z.eq_dec n 0) as [->|Hn0]; [reflexivity|].
  assert (E0 : Qeq_bool (inject_Z n) 0 = false).
  { apply Qeq_bool_false. intros E. change 0%Q with (inject_Z 0) in E. apply inject_Z_inj_eq in E. contradiction. }
  rewrite E0.
  assert (E1 : Qlt_bool (inject_Z n) 0 = false).
  { apply Qlt_bool_false. change 0%Q with (inject_Z 0). apply inject_Z_le. lia. }
  rewrite E1. cbn [minus_if app].
  replace (Qabs (inject_Z n)) with (inject_Z n) by (unfold Qabs, inject_Z; simpl; f_equal; lia).
  set (l := length (dec_N (Z.to_N n))).
  assert (Hl1 : (0 < l)%nat). { unfold l. pose proof (dec_N_nonempty (Z.to_N n)). destruct (dec_N (Z.to_N n)); [contradiction|simpl; lia]. }
  assert (Hl2 : (l <= p)%nat).
  { apply dec_N_len_le; [assumption|]. apply N2Z.inj_lt. rewrite N2Z.inj_pow, Z2N.id by lia.
    replace (Z.of_N (N.of_nat p)) with (Z.of_nat p) by lia. lia. }
  assert (Hx : flog10 (inject_Z n) = Z.of_nat l - 1).
  { apply flog10_unique.
    - rewrite pow10_Z by lia. apply inject_Z_le.
      pose proof (dec_N_lower (Z.to_N n) ltac:(lia)) as H. apply N2Z.inj_le in H.
      rewrite N2Z.inj_pow, Z2N.id in H by lia. fold l in H.
      replace (Z.of_N (N.of_nat l - 1)) with (Z.of_nat l - 1) in H by lia. exact H.
    - rewrite pow10_Z by lia. apply inject_Z_lt.
      pose proof (dec_N_upper (Z.to_N n)) as H. apply N2Z.inj_lt in H.
      rewrite N2Z.inj_pow, Z2N.id in H by lia. fold l in H.
      replace (Z.of_N (N.of_nat l)) with (Z.of_nat l - 1 + 1) in H by lia. exact H. }
  unfold sig_digits. rewrite Hx.
  replace (Z.of_nat p - 1 - (Z.of_nat l - 1)) with (Z.of_nat (p - l)) by lia.
  assert (Hr : round_he (inject_Z n * pow10 (Z.of_nat (p - l))) = n * 10 ^ Z.of_nat (p - l)).
  { rewrite <- (round_he_Z (n * 10 ^ Z.of_nat (p - l))). apply round_he_comp.
    rewrite pow10_Z by lia. rewrite inject_Z_mult. reflexivity. }
  rewrite Hr.
  assert (HM : Z.to_N (n * 10 ^ Z.of_nat (p - l)) = (Z.to_N n * 10 ^ N.of_nat (p - l))%N).
  { rewrite Z2N.inj_mul by lia. f_equal. rewrite Z2N.inj_pow by lia. f_equal. lia. }
  rewrite HM.
  assert (HU : (Z.to_N n * 10 ^ N.of_nat (p - l) < 10 ^ N.of_nat p)%N).
  { replace (N.of_nat p) with (N.of_nat l + N.of_nat (p - l))%N by lia. rewrite N.pow_add_r.
    apply N.mul_lt_mono_pos_r; [|apply dec_N_upper]. 
    assert (10 ^ N.of_nat (p - l) <> 0)%N by (apply N.pow_nonzero; lia). lia. }
  destruct (Z.to_N n * 10 ^ N.of_nat (p - l) =? 10 ^ N.of_nat p)%N eqn:E2; [apply N.eqb_eq in E2; lia|].
  replace ((-4 <=? Z.of_nat l - 1) && (Z.of_nat l - 1 <? Z.of_nat p)) with true by lia.
  replace (Z.to_nat (Z.of_nat p - 1 - (Z.of_nat l - 1))) with (p - l)%nat by lia.
  destruct (strip_fixed_shape (p - l) (Z.to_N n * 10 ^ N.of_nat (p - l))) as (ip & fp & -> & _ & _ & _ & _ & Hip & Hfp).
  rewrite Hfp by (exists (Z.to_N n); reflexivity). cbn [point_part]. rewrite app_nil_r, Hip.
  rewrite N.div_mul by (apply N.pow_nonzero; lia). reflexivity.
Qed.

(** ** repr *)

(** The gap between binary64 numbers. *)
Lemma dbl_multiple q : is_dbl q -> ~ (q == 0)%Q -> exists m, (q == inject_Z m * pow2 (fexp64 q))%Q.
Proof.
  intros H Hnz. exists (round_he (q * pow2 (- fexp64 q))). pose proof (rnd64_val q Hnz) as V. unfold is_dbl in H. rewrite H in V. exact V.
Qed.

Lemma mult_gap a b e : ~ (inject_Z a * pow2 e == inject_Z b * pow2 e)%Q ->
  (pow2 e <= Qabs (inject_Z a * pow2 e - inject_Z b * pow2 e))%Q.
Proof.
  intros H. assert (Hab : a <> b) by (intros ->; apply H; reflexivity).
  assert (HE : (inject_Z a * pow2 e - inject_Z b * pow2 e == inject_Z (a - b) * pow2 e)%Q).
  { unfold Zminus. rewrite inject_Z_plus, inject_Z_opp. ring. }
  rewrite HE, Qabs_Qmult. rewrite (Qabs_pos (pow2 e)) by (pose proof (pow2_pos e); lra).
  assert (H1 : (1 <= Qabs (inject_Z (a - b)))%Q).
  { unfold Qabs, inject_Z. change (inject_Z 1 <= inject_Z (Z.abs (a - b)))%Q. apply inject_Z_le. lia. }
  pose proof (pow2_pos e). nra.
Qed.

Lemma dbl_multiple_le q e : is_dbl q -> ~ (q == 0)%Q -> e <= fexp64 q -> exists m, (q == inject_Z m * pow2 e)%Q.
Proof.
  intros H Hnz He. destruct (dbl_multiple q H Hnz) as [m Hm].
  exists (m * 2 ^ (fexp64 q - e)). rewrite inject_Z_mult, <- pow2_Z by lia.
  rewrite <- Qmult_assoc, <- pow2_add. replace (fexp64 q - e + e) with (fexp64 q) by lia. exact Hm.
Qed.

Lemma fexp64_pos q : (0 < q)%Q -> fexp64 q = Z.max (flog2 q - 52) (-1074).
Proof.
  intros H. unfold fexp64. rewrite (flog2_comp (Qabs q) q); [reflexivity| |apply Qabs_pos; lra].
  apply Qabs_nz. lra.
Qed.

(** Doubles closer to q than q * 10^-16 are q itself. *)
Lemma dbl_close q r : is_dbl q -> is_dbl r -> (0 < q)%Q -> (Qabs (r - q) <= q * pow10 (-16))%Q -> r = q.
Proof.
  intros Hq Hr Hpos Hc. apply dbl_eq; auto.
  destruct (Qeq_dec r q) as [|Hne]; [assumption|exfalso].
  assert (H16 : (0 < pow10 (-16) /\ pow10 (-16) < pow2 (-53))%Q) by (split; reflexivity).
  destruct H16 as [H16 H17].
  assert (Hrpos : (0 < r)%Q).
  { apply Qabs_Qle_condition in Hc. assert (pow10 (-16) < 1)%Q by reflexivity. nra. }
  destruct (flog2_spec q Hpos) as [F1 F2]. destruct (flog2_spec r Hrpos) as [G1 G2].
  set (f := flog2 q) in *. set (g := flog2 r) in *.
  pose proof (fexp64_pos q Hpos) as Eq. pose proof (fexp64_pos r Hrpos) as Er. fold f in Eq. fold g in Er.
  assert (Hqnz : ~ (q == 0)%Q) by lra. assert (Hrnz : ~ (r == 0)%Q) by lra.
  (* bound on the distance: strictly less than the spacing *)
  assert (HD : (Qabs (r - q) < pow2 (f + 1) * pow2 (-53))%Q).
  { eapply Qle_lt_trans; [exact Hc|]. pose proof (pow2_pos (-53)). nra. }
  rewrite <- pow2_add in HD.
  destruct (Z_le_gt_dec f g) as [Hfg|Hfg].
  - (* same grid 2^(fexp q) *)
    destruct (dbl_multiple q Hq Hqnz) as [a Ha].
    destruct (dbl_multiple_le r (fexp64 q) Hr Hrnz ltac:(lia)) as [b Hb].
    pose proof (mult_gap b a (fexp64 q)) as HG. rewrite <- Ha, <- Hb in HG. specialize (HG Hne).
    assert (pow2 (f + 1 + -53) <= pow2 (fexp64 q))%Q by (apply pow2_mono; lia). lra.
  - (* r < 2^f <= q *)
    assert (Hr2 : (r < pow2 f)%Q).
    { eapply Qlt_le_trans; [exact G2|]. apply pow2_mono. lia. }
    assert (HA : (Qabs (r - q) == q - r)%Q) by (rewrite Qabs_neg by lra; lra). rewrite HA in *.
    (* distance from q to r is at least (q - 2^f) + gap below 2^f *)
    assert (HF : f - 53 >= -1074 \/ f - 53 < -1074) by lia. destruct HF as [HF|HF].
    + assert (Hgap : (pow2 (f - 53) <= pow2 f - r)%Q).
      { destruct (Z_le_gt_dec (f - 1) g) as [Hg|Hg].
        - assert (g = f - 1) by lia.
          destruct (dbl_multiple_le r (f - 53) Hr Hrnz ltac:(lia)) as [b Hb].
          assert (Hp : (pow2 f == inject_Z (2 ^ 53) * pow2 (f - 53))%Q).
          { rewrite <- (pow2_Z 53) by lia. rewrite <- pow2_add. replace (53 + (f - 53)) with f by lia. reflexivity. }
          pose proof (mult_gap (2 ^ 53) b (f - 53)) as HG. rewrite <- Hb, <- Hp in HG.
          rewrite Qabs_pos in HG by lra. apply HG. lra.
        - assert (r < pow2 (f - 1))%Q by (eapply Qlt_le_trans; [exact G2|]; apply pow2_mono; lia).
          assert (pow2 f == 2 * pow2 (f - 1))%Q by (rewrite <- pow2_succ; replace (f - 1 + 1) with f by lia; reflexivity).
          assert (pow2 (f - 53) <= pow2 (f - 1))%Q by (apply pow2_mono; lia). lra. }
      destruct (Qeq_dec q (pow2 f)) as [Hqe|Hqe].
      * (* q = 2^f *)
        assert (q * pow10 (-16) < pow2 f * pow2 (-53))%Q by nra.
        rewrite <- pow2_add in H. replace (f + -53) with (f - 53) in H by lia. lra.
      * (* q >= 2^f + 2^(f-52) *)
        assert (Hq52 : (pow2 (f - 52) <= q - pow2 f)%Q).
        { destruct (dbl_multiple q Hq Hqnz) as [a Ha]. replace (fexp64 q) with (f - 52) in Ha by lia.
          assert (Hp : (pow2 f == inject_Z (2 ^ 52) * pow2 (f - 52))%Q).
          { rewrite <- (pow2_Z 52) by lia. rewrite <- pow2_add. replace (52 + (f - 52)) with f by lia. reflexivity. }
          pose proof (mult_gap a (2 ^ 52) (f - 52)) as HG. rewrite <- Ha, <- Hp in HG.
          rewrite Qabs_pos in HG by lra. apply HG. exact Hqe. }
        replace (f + 1 + -53) with (f - 52) in HD by lia. pose proof (pow2_pos (f - 53)). lra.
    + (* subnormal *)
      assert (fexp64 q = -1074) as Eq2 by lia. 
      destruct (dbl_multiple q Hq Hqnz) as [a Ha]. rewrite Eq2 in Ha.
      destruct (dbl_multiple_le r (-1074) Hr Hrnz (fexp64_ge r)) as [b Hb].
      pose proof (mult_gap a b (-1074)) as HG. rewrite <- Ha, <- Hb in HG.
      rewrite Qabs_pos in HG by lra.
      assert (~ q == r)%Q by (intros E; apply Hne; symmetry; exact E). specialize (HG H).
      assert (pow2 (f + 1 + -53) <= pow2 (-1074))%Q by (apply pow2_mono; lia). lra.
Qed.

Lemma sig17 q m x : is_dbl q -> (0 < q)%Q -> sig_digits 17 q = (m, x) ->
  rnd64 (inject_Z (Z.of_N m) * pow10 (x - 17 + 1)) = q.
Proof.
  intros Hq Hpos H. destruct (sig_digits_spec 17 q m x ltac:(lia) Hpos H) as [_ HB].
  change (Z.of_nat 17) with 17 in HB. set (y := (inject_Z (Z.of_N m) * pow10 (x - 17 + 1))%Q) in *.
  apply dbl_close; auto using rnd64_is_dbl.
  pose proof (rnd64_best y q Hq) as HN.
  destruct (flog10_spec q Hpos) as [F1 _].
  assert (HX : (pow10 (flog10 q - 17 + 1) <= q * pow10 (-16))%Q).
  { replace (flog10 q - 17 + 1) with (flog10 q + -16) by lia. rewrite pow10_add.
    apply Qmult_le_compat_r; [assumption|]. pose proof (pow10_pos (-16)); lra. }
  assert (Hsym : (Qabs (q - y) == Qabs (y - q))%Q) by (rewrite <- Qabs_opp; apply Qabs_wd; ring).
  rewrite Hsym in HN.
  assert (HT : (Qabs (rnd64 y - q) <= Qabs (rnd64 y - y) + Qabs (y - q))%Q).
  { eapply Qle_trans; [|apply Qabs_triangle]. apply Qle_lteq. right. apply Qabs_wd. ring. }
  lra.
Qed.

Lemma repr_digits_spec fuel n q d m x : (n + fuel = 17)%nat -> (0 < n)%nat -> is_dbl q -> (0 < q)%Q ->
  repr_digits fuel n q = (d, m, x) ->
  rnd64 (inject_Z (Z.of_N m) * pow10 (x - Z.of_nat d + 1)) = q /\ (0 < d)%nat
  /\ (10 ^ (N.of_nat d - 1) <= m < 10 ^ N.of_nat d)%N.
Proof.
  revert n; induction fuel as [|fuel IH]; intros n Hn Hn0 Hq Hpos H; cbn [repr_digits] in H;
    destruct (sig_digits n q) as [m0 x0] eqn:E.
  - inversion H; subst. replace d with 17%nat in * by lia. split; [|split; [lia|]].
    + now apply sig17.
    + apply (sig_digits_spec _ _ _ _ Hn0 Hpos E).
  - destruct (Qeq_bool _ q) eqn:E2 in H.
    + inversion H; subst. split; [|split; [assumption|]].
      * apply Qeq_bool_iff in E2. apply dbl_eq; auto using rnd64_is_dbl.
      * apply (sig_digits_spec _ _ _ _ Hn0 Hpos E).
    + apply (IH (S n)); auto; lia.
Qed.

(** [float(repr(q)) == q] for every binary64 number. *)
Lemma parse_repr q : is_dbl q -> parse_float (repr_float q) = Ok q.
Proof.
  intros Hq. unfold repr_float. destruct (Qeq_bool q 0) eqn:E0.
  - apply Qeq_bool_iff in E0. assert (q = 0%Q) as -> by (apply dbl_eq; auto; reflexivity). reflexivity.
  - apply Qeq_bool_false in E0.
    assert (Ha : is_dbl (Qabs q) /\ (0 < Qabs q)%Q /\ (if Qlt_bool q 0 then - Qabs q else Qabs q)%Q = q).
    { destruct (Qlt_bool q 0) eqn:E1.
      - apply Qlt_bool_iff in E1.
        assert (HA : Qabs q = (- q)%Q). { destruct q as [n d]. unfold Qabs, Qopp. simpl. f_equal. unfold Qlt in E1. simpl in E1. lia. }
        rewrite HA. split; [unfold is_dbl; rewrite rnd64_opp; now rewrite Hq|]. split; [lra|].
        destruct q as [n d]. unfold Qopp. simpl. f_equal. lia.
      - apply Qlt_bool_false in E1.
        assert (HA : Qabs q = q). { destruct q as [n d]. unfold Qabs. simpl. f_equal. unfold Qle in E1. simpl in E1. lia. }
        rewrite HA. split; [assumption|]. split; [lra|reflexivity]. }
    destruct Ha as (Ha1 & Ha2 & Ha3).
    destruct (repr_digits 16 1 (Qabs q)) as [[d m] x] eqn:ED.
    destruct (repr_digits_spec 16 1 (Qabs q) d m x ltac:(lia) ltac:(lia) Ha1 Ha2 ED) as (HR & Hd & Hm).
    assert (Hneg : forall y, (y == inject_Z (Z.of_N m) * pow10 (x - Z.of_nat d + 1))%Q ->
               rnd64 (if Qlt_bool q 0 then - y else y)%Q = q).
    { intros y Hy. transitivity (if Qlt_bool q 0 then - Qabs q else Qabs q)%Q; [|exact Ha3]. clear Ha3. destruct (Qlt_bool q 0).
      - rewrite rnd64_opp. f_equal. rewrite (rnd64_comp _ _ Hy). exact HR.
      - rewrite (rnd64_comp _ _ Hy). exact HR. }
    destruct ((-4 <=? x) && (x <? 16)) eqn:E1.
    + destruct (x <? Z.of_nat d - 1) eqn:E2.
      * rewrite parse_float_fixed. f_equal. cbv zeta. apply Hneg.
        replace (- Z.of_nat (Z.to_nat (Z.of_nat d - 1 - x))) with (x - Z.of_nat d + 1) by lia. reflexivity.
      * change (s ".0") with (46%N :: [48%N]).
        pose proof (parse_float_dec (Qlt_bool q 0) (dec_N (m * 10 ^ Z.to_N (x - Z.of_nat d + 1))) [48%N] true [] 0
                      (dec_N_digits _) (all_digits_zeros 1) (dec_N_nonempty _) ltac:(discriminate) ltac:(left; auto)) as HP.
        cbv iota in HP. rewrite app_nil_r in HP. rewrite HP. f_equal. cbv zeta. apply Hneg.
        unfold decval. rewrite digits_val_app, dec_N_val. cbn [length].
        change (digits_val [48%N]) with 0%N. rewrite N.add_0_r.
        rewrite !N2Z.inj_mul, !inject_Z_mult, <- pow10_N.
        change (inject_Z (Z.of_N (10 ^ N.of_nat 1))) with (pow10 1). change (pow10 0) with 1%Q.
        replace (Z.of_N (Z.to_N (x - Z.of_nat d + 1))) with (x - Z.of_nat d + 1) by lia.
        change (pow10 (- Z.of_nat 1)) with (pow10 (-(1))).
        transitivity (inject_Z (Z.of_N m) * pow10 (x - Z.of_nat d + 1) * (pow10 (-(1)) * pow10 1))%Q; [ring|].
        rewrite pow10_opp_l. ring.
    + destruct (fmt_fixed_shape (d - 1) m) as (ip & fp & HS & Hi & Hf & Hne & Hl & Hv & _).
      rewrite HS.
      assert (HH : exists dot : bool, (match (d - 1)%nat with O => [] | _ => 46%N :: fp end) = (if dot then 46%N :: fp else []) /\ (dot = false -> fp = [])).
      { destruct (d - 1)%nat; [exists false|exists true]; split; auto; [|discriminate].
        destruct fp; [reflexivity|discriminate]. }
      destruct HH as (dot & HD1 & HD2). rewrite HD1, <- app_assoc.
      etransitivity; [apply (parse_float_dec _ ip fp dot (exp_str x) x); auto|].
      f_equal. cbv zeta. apply Hneg. unfold decval. rewrite Hv, Hl.
      rewrite <- Qmult_assoc, <- pow10_add.
      replace (- Z.of_nat (d - 1) + x) with (x - Z.of_nat d + 1) by lia. reflexivity.
Qed.
