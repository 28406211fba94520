(** Printing and parsing numbers: round trips. *)
From Verif Require Import PyFmt PyFloatProofs.
From Coq Require Import Lqa Qfield ZifyBool ZifyN ZifyNat.
Local Open Scope Z_scope.

Ltac Zify.zify_post_hook ::= Z.div_mod_to_equations.

(** ** Strings of digits *)

Definition all_digits (x : pstr) : Prop := Forall (fun c => is_digit c = true) x.

Lemma is_digit_iff c : is_digit c = true <-> (48 <= c <= 57)%N.
Proof. unfold is_digit. lia. Qed.

Lemma digits_val_acc x a : fold_left (fun a c => (10 * a + (c - 48))%N) x a
  = (a * 10 ^ N.of_nat (length x) + digits_val x)%N.
Proof.
  unfold digits_val. revert a; induction x as [|c x IH]; intros a; cbn [fold_left length].
  - rewrite N.pow_0_r. lia.
  - rewrite IH, (IH (10 * 0 + (c - 48))%N). rewrite Nat2N.inj_succ, N.pow_succ_r'.
    set (t := (10 ^ N.of_nat (length x))%N). set (w := fold_left _ x 0%N). lia.
Qed.

Lemma digits_val_app a b : digits_val (a ++ b) = (digits_val a * 10 ^ N.of_nat (length b) + digits_val b)%N.
Proof. unfold digits_val at 1. rewrite fold_left_app. rewrite digits_val_acc. reflexivity. Qed.

Lemma digits_val_cons c b : digits_val (c :: b) = ((c - 48) * 10 ^ N.of_nat (length b) + digits_val b)%N.
Proof.
  change (c :: b) with ([c] ++ b). rewrite digits_val_app. reflexivity.
Qed.

Lemma digits_val_zeros k : digits_val (repeat 48%N k) = 0%N.
Proof. induction k as [|k IH]; [reflexivity|]. cbn [repeat]. rewrite digits_val_cons, IH. lia. Qed.

Lemma digits_val_bound x : all_digits x -> (digits_val x < 10 ^ N.of_nat (length x))%N.
Proof.
  induction 1 as [|c x Hc _ IH]; [reflexivity|].
  rewrite digits_val_cons. cbn [length]. rewrite Nat2N.inj_succ, N.pow_succ_r'.
  apply is_digit_iff in Hc. set (t := (10 ^ N.of_nat (length x))%N) in *. nia.
Qed.

Lemma all_digits_app a b : all_digits (a ++ b) <-> all_digits a /\ all_digits b.
Proof. apply Forall_app. Qed.

Lemma all_digits_zeros k : all_digits (repeat 48%N k).
Proof. induction k; constructor; auto. Qed.

(** ** dec_N *)

Lemma dec_aux_acc f n acc : dec_aux f n acc = dec_aux f n [] ++ acc.
Proof.
  revert n acc; induction f as [|f IH]; intros n acc; cbn [dec_aux]; [reflexivity|].
  destruct (n <? 10)%N; [reflexivity|].
  rewrite IH, (IH _ [_]). now rewrite <- app_assoc.
Qed.

Lemma dec_aux_spec f n : (n < 2 ^ N.of_nat f)%N -> (0 < f)%nat ->
  digits_val (dec_aux f n []) = n /\ all_digits (dec_aux f n [])
  /\ dec_aux f n [] <> [] /\ (n <> 0%N -> (10 ^ (N.of_nat (length (dec_aux f n [])) - 1) <= n)%N)
  /\ (n <> 0%N -> hd 48%N (dec_aux f n []) <> 48%N)
  /\ (n = 0%N -> dec_aux f n [] = [48%N]).
Proof.
  revert n; induction f as [|f IH]; intros n Hn Hf; [lia|]. cbn [dec_aux].
  destruct (N.ltb_spec n 10) as [H|H].
  - rewrite N.mod_small by lia. unfold digit_char. repeat split.
    + rewrite digits_val_cons. cbn [length]. rewrite N.pow_0_r. change (digits_val []) with 0%N. lia.
    + constructor; [|constructor]. apply is_digit_iff. lia.
    + discriminate.
    + cbn [length]. intros. change (10 ^ (N.of_nat 1 - 1))%N with 1%N. lia.
    + cbn [hd]. lia.
    + intros ->. reflexivity.
  - rewrite Nat2N.inj_succ, N.pow_succ_r' in Hn.
    assert (Hf2 : (0 < f)%nat) by (destruct f; [cbn in Hn; lia|lia]).
    assert (Hn2 : (n / 10 < 2 ^ N.of_nat f)%N) by lia.
    destruct (IH (n / 10)%N Hn2 Hf2) as (A & B & C & D & E & _).
    rewrite dec_aux_acc. set (d := dec_aux f (n / 10) []) in *.
    assert (Hnz : (n / 10 <> 0)%N) by lia.
    repeat split.
    + rewrite digits_val_app, A. rewrite digits_val_cons. cbn [length]. change (digits_val []) with 0%N.
      rewrite N.pow_0_r, N.pow_1_r. unfold digit_char. lia.
    + apply all_digits_app. split; [assumption|]. constructor; [|constructor].
      apply is_digit_iff. unfold digit_char. lia.
    + destruct d; [contradiction|discriminate].
    + intros _. rewrite app_length. cbn [length]. specialize (D Hnz).
      replace (N.of_nat (length d + 1) - 1)%N with (N.succ (N.of_nat (length d) - 1))%N.
      * rewrite N.pow_succ_r'. set (t := (10 ^ (N.of_nat (length d) - 1))%N) in *. lia.
      * assert (length d <> 0)%nat by (destruct d; [contradiction|discriminate]). lia.
    + intros _. specialize (E Hnz). destruct d; [contradiction|]. exact E.
    + intros ->. lia.
Qed.

Lemma dec_N_spec n :
  digits_val (dec_N n) = n /\ all_digits (dec_N n)
  /\ dec_N n <> [] /\ (n <> 0%N -> (10 ^ (N.of_nat (length (dec_N n)) - 1) <= n)%N)
  /\ (n <> 0%N -> hd 48%N (dec_N n) <> 48%N)
  /\ (n = 0%N -> dec_N n = [48%N]).
Proof.
  unfold dec_N. apply dec_aux_spec; [|lia].
  rewrite Nat2N.inj_succ, N2Nat.id.
  destruct (N.eq_dec n 0) as [->|Hn]; [reflexivity|].
  apply N.log2_spec. lia.
Qed.

Lemma dec_N_val n : digits_val (dec_N n) = n.
Proof. apply dec_N_spec. Qed.
Lemma dec_N_digits n : all_digits (dec_N n).
Proof. apply dec_N_spec. Qed.
Lemma dec_N_nonempty n : dec_N n <> [].
Proof. apply dec_N_spec. Qed.

Lemma dec_N_upper n : (n < 10 ^ N.of_nat (length (dec_N n)))%N.
Proof. rewrite <- (dec_N_val n) at 1. apply digits_val_bound, dec_N_digits. Qed.
Lemma dec_N_lower n : n <> 0%N -> (10 ^ (N.of_nat (length (dec_N n)) - 1) <= n)%N.
Proof. apply dec_N_spec. Qed.

Lemma dec_N_len_le n k : (0 < k)%nat -> (n < 10 ^ N.of_nat k)%N -> (length (dec_N n) <= k)%nat.
Proof.
  intros Hk H. destruct (N.eq_dec n 0) as [->|Hn]; [cbn; lia|].
  pose proof (dec_N_lower n Hn) as HL.
  destruct (le_lt_dec (length (dec_N n)) k) as [|C]; [assumption|exfalso].
  assert (10 ^ N.of_nat k <= 10 ^ (N.of_nat (length (dec_N n)) - 1))%N by (apply N.pow_le_mono_r; lia).
  lia.
Qed.

Lemma pad0_val k x : digits_val (pad0 k x) = digits_val x.
Proof. unfold pad0. rewrite digits_val_app, digits_val_zeros. lia. Qed.

Lemma pad0_digits k x : all_digits x -> all_digits (pad0 k x).
Proof. intros H. unfold pad0. apply all_digits_app. split; auto using all_digits_zeros. Qed.

Lemma pad0_len k x : (length x <= k)%nat -> length (pad0 k x) = k.
Proof. intros H. unfold pad0. rewrite app_length, repeat_length. lia. Qed.

(** ** span *)

Lemma span_all f x r : Forall (fun c => f c = true) x ->
  (match r with [] => True | c :: _ => f c = false end) -> span f (x ++ r) = (x, r).
Proof.
  intros H Hr. induction H as [|c x Hc _ IH]; cbn [app span].
  - destruct r as [|c r]; cbn [span]; [reflexivity|]. now rewrite Hr.
  - now rewrite Hc, IH.
Qed.

Lemma span_digits x r : all_digits x ->
  (match r with [] => True | c :: _ => is_digit c = false end) -> span is_digit (x ++ r) = (x, r).
Proof. apply span_all. Qed.

Lemma span_digits_nil x : all_digits x -> span is_digit x = (x, []).
Proof. intros H. rewrite <- (app_nil_r x) at 1. now apply span_digits. Qed.

(** ** Characters of numbers: no spaces or underscores *)

Definition numchar (c : N) : bool := is_digit c || (c =? 46)%N || (c =? 45)%N || (c =? 43)%N || (c =? 101)%N.
Definition all_num (x : pstr) : Prop := Forall (fun c => numchar c = true) x.

Lemma numchar_cases c : numchar c = true -> (48 <= c <= 57)%N \/ c = 46%N \/ c = 45%N \/ c = 43%N \/ c = 101%N.
Proof. unfold numchar, is_digit. lia. Qed.

Lemma numchar_not_space c : numchar c = true -> is_space c = false.
Proof. unfold numchar, is_digit, is_space. lia. Qed.

Lemma lstrip_num x : all_num x -> lstrip x = x.
Proof.
  intros H. destruct H as [|c x Hc _]; [reflexivity|]. cbn [lstrip].
  now rewrite (numchar_not_space c Hc).
Qed.

Lemma all_num_rev x : all_num x -> all_num (rev x).
Proof.
  unfold all_num. rewrite !Forall_forall. intros H c Hc. apply H. now apply in_rev.
Qed.

Lemma strip_num x : all_num x -> strip x = x.
Proof.
  intros H. unfold strip, rstrip. rewrite (lstrip_num x H).
  rewrite (lstrip_num (rev x)) by now apply all_num_rev. apply rev_involutive.
Qed.

Lemma drop_underscores_num x p : all_num x -> (p =? 95)%N = false -> drop_underscores p x = Some x.
Proof.
  intros H. revert p; induction H as [|c x Hc _ IH]; intros p Hp; cbn [drop_underscores].
  - now rewrite Hp.
  - assert (E : (c =? 95)%N = false) by (apply numchar_cases in Hc; lia).
    rewrite E, Hp. cbn [andb]. now rewrite (IH c E).
Qed.

Lemma all_digits_num x : all_digits x -> all_num x.
Proof. apply Forall_impl. intros c H. unfold numchar. now rewrite H. Qed.

Lemma all_num_app a b : all_num (a ++ b) <-> all_num a /\ all_num b.
Proof. apply Forall_app. Qed.

(** A number string which starts with a digit (or a point). *)
Lemma parse_float_unsigned (neg : bool) x m e :
  all_num x -> (match x with c :: _ => is_digit c = true \/ c = 46%N | [] => False end) ->
  parse_unsigned x = Some (m, e) ->
  parse_float (minus_if neg ++ x)
  = Ok (rnd64 (let q := (inject_Z (Z.of_N m) * pow10 e)%Q in if neg then - q else q)%Q).
Proof.
  intros Hx Hd Hp. unfold parse_float.
  assert (Hn : all_num (minus_if neg ++ x)).
  { apply all_num_app. split; [|assumption]. destruct neg; repeat constructor. }
  rewrite (strip_num _ Hn), (drop_underscores_num _ 0%N Hn eq_refl).
  assert (Hs : split_sign (minus_if neg ++ x) = (neg, x)).
  { destruct x as [|c x]; [contradiction|].
    destruct neg; cbn [minus_if app]; [reflexivity|].
    assert (c <> 45%N /\ c <> 43%N) as [H1 H2].
    { destruct Hd as [Hd|Hd]; [apply is_digit_iff in Hd|]; lia. }
    unfold split_sign.
    destruct c as [|c]; [reflexivity|].
    repeat (destruct c as [c|c|]; try reflexivity); exfalso; (apply H1; reflexivity) || (apply H2; reflexivity). }
  rewrite Hs.
  assert (Hinf : existsb (pstr_eqb (lower x)) [s "inf"; s "infinity"; s "nan"] = false).
  { destruct x as [|c x]; [contradiction|].
    assert (Hl : lower_char c = c /\ c <> 105%N /\ c <> 110%N).
    { destruct Hd as [Hd|Hd]; [apply is_digit_iff in Hd|]; unfold lower_char, is_upper.
      - destruct (65 <=? c)%N eqn:E; [lia|]. cbn [andb]. lia.
      - subst c. split; [reflexivity|lia]. }
    destruct Hl as (Hl & Hl1 & Hl2).
    cbn [lower List.map existsb]. rewrite Hl.
    change (s "inf") with (105%N :: s "nf"). change (s "infinity") with (105%N :: s "nfinity").
    change (s "nan") with (110%N :: s "an").
    cbn [pstr_eqb]. rewrite (proj2 (N.eqb_neq c 105) Hl1), (proj2 (N.eqb_neq c 110) Hl2). reflexivity. }
  rewrite Hinf, Hp. reflexivity.
Qed.

(** ** Fixed-point notation *)

Lemma fmt_fixed_shape k m : exists ip fp,
  fmt_fixed k m = ip ++ (match k with O => [] | _ => 46%N :: fp end)
  /\ all_digits ip /\ all_digits fp /\ ip <> [] /\ length fp = k /\ digits_val (ip ++ fp) = m
  /\ ip = dec_N (m / 10 ^ N.of_nat k).
Proof.
  unfold fmt_fixed. destruct k as [|k].
  - exists (dec_N m), []. rewrite !app_nil_r. change (10 ^ N.of_nat 0)%N with 1%N. rewrite N.div_1_r.
    repeat split; auto using dec_N_digits, dec_N_nonempty, dec_N_val. constructor.
  - set (t := (10 ^ N.of_nat (S k))%N).
    assert (Ht : (t <> 0)%N) by (apply N.pow_nonzero; lia).
    exists (dec_N (m / t)), (pad0 (S k) (dec_N (m mod t))).
    assert (Hlen : length (pad0 (S k) (dec_N (m mod t))) = S k).
    { apply pad0_len, dec_N_len_le; [lia|]. apply N.mod_lt. exact Ht. }
    repeat split; auto using dec_N_digits, dec_N_nonempty, pad0_digits.
    rewrite digits_val_app, Hlen, pad0_val, !dec_N_val. fold t.
    rewrite (N.div_mod m t Ht) at 3. lia.
Qed.

Lemma fmt_fixed_num k m : all_num (fmt_fixed k m).
Proof.
  destruct (fmt_fixed_shape k m) as (ip & fp & H & Hi & Hf & _). rewrite H.
  apply all_num_app. split; [now apply all_digits_num|].
  destruct k; [constructor|]. constructor; [reflexivity|]. now apply all_digits_num.
Qed.

Lemma parse_unsigned_shape ip fp (dot : bool) : all_digits ip -> all_digits fp -> ip <> [] ->
  (dot = false -> fp = []) ->
  parse_unsigned (ip ++ (if dot then 46%N :: fp else []))
  = Some (digits_val (ip ++ fp), - Z.of_nat (length fp)).
Proof.
  intros Hi Hf Hne Hd. unfold parse_unsigned.
  rewrite (span_digits ip); [|assumption|destruct dot; reflexivity].
  destruct dot.
  - rewrite (span_digits_nil fp Hf). destruct ip as [|c ip]; [contradiction|]. reflexivity.
  - rewrite (Hd eq_refl). destruct ip as [|c ip]; [contradiction|]. reflexivity.
Qed.

Lemma fmt_fixed_parse k m : parse_unsigned (fmt_fixed k m) = Some (m, - Z.of_nat k).
Proof.
  destruct (fmt_fixed_shape k m) as (ip & fp & H & Hi & Hf & Hne & Hl & Hv & _). rewrite H.
  destruct k as [|k].
  - destruct fp; [|discriminate]. rewrite app_nil_r in *.
    pose proof (parse_unsigned_shape ip [] false Hi Hf Hne ltac:(auto)) as HP.
    cbn [length] in HP. rewrite !app_nil_r in HP. rewrite HP, Hv. reflexivity.
  - pose proof (parse_unsigned_shape ip fp true Hi Hf Hne ltac:(discriminate)) as HP.
    cbv iota in HP. rewrite HP, Hv, Hl. reflexivity.
Qed.

Lemma fmt_fixed_head k m : match fmt_fixed k m with c :: _ => is_digit c = true \/ c = 46%N | [] => False end.
Proof.
  destruct (fmt_fixed_shape k m) as (ip & fp & H & Hi & _ & Hne & _). rewrite H.
  destruct ip as [|c ip]; [contradiction|]. left. inversion Hi; assumption.
Qed.

Lemma parse_float_fixed neg k m :
  parse_float (minus_if neg ++ fmt_fixed k m)
  = Ok (rnd64 (let q := (inject_Z (Z.of_N m) * pow10 (- Z.of_nat k))%Q in if neg then - q else q)%Q).
Proof. apply parse_float_unsigned; [apply fmt_fixed_num|apply fmt_fixed_head|apply fmt_fixed_parse]. Qed.

Lemma Qabs_pow10_nonneg q k : (0 <= round_he (Qabs q * pow10 k))%Z.
Proof.
  rewrite <- (round_he_Z 0). apply round_he_mono. change (inject_Z 0) with 0%Q.
  apply Qmult_le_0_compat; [apply Qabs_nonneg|]. apply Qpower_pos. discriminate.
Qed.

(** Reading back ['%.kf' % q]: the decimal rounding of q to k places, as a float. *)
Lemma parse_fmt_f k q : parse_float (fmt_f k q) = Ok (round_dec k q).
Proof.
  unfold fmt_f. rewrite parse_float_fixed. rewrite Z2N.id by apply Qabs_pow10_nonneg.
  unfold round_dec. f_equal.
  destruct (Qlt_bool q 0) eqn:E; cbv zeta iota.
  - apply Qlt_bool_iff in E. apply rnd64_comp.
    rewrite (round_he_comp (Qabs q * _) (- (q * pow10 (Z.of_nat k)))).
    + rewrite round_he_opp, inject_Z_opp. ring.
    + rewrite Qabs_neg by lra. ring.
  - apply Qlt_bool_false in E. apply rnd64_comp.
    rewrite (round_he_comp (Qabs q * _) (q * pow10 (Z.of_nat k))).
    + reflexivity.
    + rewrite Qabs_pos by assumption. reflexivity.
Qed.

(** ** Integers *)

Lemma dec_Z_num n : all_num (dec_Z n).
Proof.
  unfold dec_Z. destruct (n <? 0); [constructor; [reflexivity|]|]; apply all_digits_num, dec_N_digits.
Qed.

Lemma split_sign_digit c x : is_digit c = true -> split_sign (c :: x) = (false, c :: x).
Proof.
  intros Hd. assert (c <> 45%N /\ c <> 43%N) as [H1 H2] by (apply is_digit_iff in Hd; lia).
  unfold split_sign. destruct c as [|c]; [reflexivity|].
  repeat (destruct c as [c|c|]; try reflexivity); exfalso; (apply H1; reflexivity) || (apply H2; reflexivity).
Qed.

Lemma parse_int_dec n : parse_int (dec_Z n) = Ok n.
Proof.
  unfold parse_int. pose proof (dec_Z_num n) as Hn.
  rewrite (strip_num _ Hn), (drop_underscores_num _ 0%N Hn eq_refl).
  assert (Hfa : forall k, forallb is_digit (dec_N k) = true).
  { intros k. apply forallb_forall. intros c Hc. pose proof (dec_N_digits k) as H.
    unfold all_digits in H. rewrite Forall_forall in H. auto. }
  unfold dec_Z. destruct (n <? 0) eqn:E.
  - cbn [split_sign]. pose proof (dec_N_nonempty (Z.to_N (- n))) as Hne.
    destruct (dec_N (Z.to_N (- n))) as [|c d] eqn:Ed; [contradiction|]. rewrite <- Ed.
    rewrite Hfa, dec_N_val. f_equal. lia.
  - pose proof (dec_N_nonempty (Z.to_N n)) as Hne. pose proof (dec_N_digits (Z.to_N n)) as Hd.
    destruct (dec_N (Z.to_N n)) as [|c d] eqn:Ed; [contradiction|].
    rewrite split_sign_digit by (inversion Hd; assumption). rewrite <- Ed.
    rewrite Hfa, dec_N_val. f_equal. lia.
Qed.

Lemma parse_float_dec_N n : parse_float (dec_N n) = Ok (rnd64 (inject_Z (Z.of_N n))).
Proof.
  pose proof (parse_float_fixed false 0 n) as H. cbn [minus_if app fmt_fixed] in H. rewrite H.
  f_equal. apply rnd64_comp. cbv zeta iota. change (pow10 (- Z.of_nat 0)) with 1%Q. ring.
Qed.

Lemma parse_float_dec_Z n : parse_float (dec_Z n) = Ok (rnd64 (inject_Z n)).
Proof.
  unfold dec_Z. destruct (n <? 0) eqn:E.
  - pose proof (parse_float_fixed true 0 (Z.to_N (- n))) as H. cbn [minus_if app fmt_fixed] in H. rewrite H.
    f_equal. apply rnd64_comp. cbv zeta iota. change (pow10 (- Z.of_nat 0)) with 1%Q.
    rewrite Z2N.id by lia. rewrite inject_Z_opp. ring.
  - rewrite parse_float_dec_N. rewrite Z2N.id by lia. reflexivity.
Qed.
