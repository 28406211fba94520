(** The times of words. *)
From Coq Require Import Lqa Qabs.
From Verif Require Import PyFloatProofs PyRoundProofs.
From Verif Require Import BywModel BywSpec BywProofs.
Local Open Scope Q_scope.

(** The time, in milliseconds, after a word *)
Definition next_time (ms time : Q) (w : word) : Q := fadd (rnd64 time) (fmul (f_of_Z (Z.of_nat (length (wd_text w)))) ms).

Lemma set_times_cons ms time w l : set_times ms time (w :: l) =
  mkWord (wd_text w) (wd_obj w) (wd_layer w) (rnd64 (time / 1000)) :: set_times ms (next_time ms time w) l.
Proof. reflexivity. Qed.

Lemma set_times_map {A} (f : word -> A) ms l : (forall w q, f (mkWord (wd_text w) (wd_obj w) (wd_layer w) q) = f w) ->
  forall time, map f (set_times ms time l) = map f l.
Proof. intros Hf. induction l as [|w l IH]; intros time; [reflexivity|]. rewrite set_times_cons. cbn [map]. now rewrite IH, Hf. Qed.
Lemma set_times_texts ms time l : map wd_text (set_times ms time l) = map wd_text l.
Proof. now apply set_times_map. Qed.
Lemma set_times_objs ms time l : map wd_obj (set_times ms time l) = map wd_obj l.
Proof. now apply set_times_map. Qed.
Lemma set_times_layers ms time l : map wd_layer (set_times ms time l) = map wd_layer l.
Proof. now apply set_times_map. Qed.
Lemma set_times_length ms time l : length (set_times ms time l) = length l.
Proof. rewrite <- (map_length wd_text), set_times_texts. apply map_length. Qed.
Lemma letters_total l : letters l = total_length (map wd_text l).
Proof. unfold letters, total_length. now rewrite map_map. Qed.

Lemma next_dbl ms time w : is_dbl (next_time ms time w).
Proof. apply rnd64_is_dbl. Qed.

(** ** Never back *)

Lemma next_ge ms time w : 0 <= ms -> is_dbl time -> time <= next_time ms time w.
Proof.
  intros Hm Ht. unfold next_time, fadd. set (p := fmul _ ms).
  assert (0 <= p) as Hp.
  { apply rnd64_nonneg. apply Qmult_le_0_compat; [|assumption]. apply rnd64_nonneg. change 0 with (inject_Z 0). apply inject_Z_le. lia. }
  clearbody p. unfold is_dbl in Ht. rewrite Ht. assert (rnd64 time <= rnd64 (time + p)) as M by (apply rnd64_mono; lra). rewrite Ht in M. exact M.
Qed.

Lemma div1000_mono a b : a <= b -> rnd64 (a / 1000) <= rnd64 (b / 1000).
Proof. intros H. apply rnd64_mono. unfold Qdiv. change (/ 1000) with (1 # 1000). lra. Qed.

Lemma set_times_ascending ms l : 0 <= ms -> forall time, is_dbl time -> ascending (map wd_time (set_times ms time l)).
Proof.
  intros Hm. induction l as [|w l IH]; intros time Ht; [exact I|]. rewrite set_times_cons.
  destruct l as [|w' l]; [exact I|]. specialize (IH (next_time ms time w) (next_dbl _ _ _)). rewrite set_times_cons in IH |- *.
  cbn [map wd_time] in *. split; [|exact IH]. now apply div1000_mono, next_ge.
Qed.

Lemma timed_ascending start duration l r : (Z.abs start <= 2 ^ 53)%Z -> (0 <= duration)%Z -> timed start duration l = Ok r -> ascending (map wd_time r).
Proof.
  intros Hs Hd H. unfold timed in H. destruct (letters l =? 0)%Z eqn:E; [discriminate|]. injection H as <-.
  apply set_times_ascending; [|now apply inject_Z_dbl]. apply rnd64_nonneg. unfold Qdiv. apply Qmult_le_0_compat; [change 0 with (inject_Z 0); now apply inject_Z_le|].
  apply Qinv_le_0_compat. change 0 with (inject_Z 0). apply inject_Z_le.
  unfold letters. clear. induction l; cbn [map fold_right]; lia.
Qed.

(** ** Closeness *)

Lemma total_nonneg l : (0 <= total_length l)%Z.
Proof. unfold total_length. induction l; cbn [map fold_right]; lia. Qed.
Lemma total_app a b : total_length (a ++ b) = (total_length a + total_length b)%Z.
Proof.
  unfold total_length. induction a as [|x a IH]; cbn [app map fold_right]; [reflexivity|]. rewrite IH. lia.
Qed.
Lemma total_cons x l : total_length (x :: l) = (Z.of_nat (length x) + total_length l)%Z.
Proof. reflexivity. Qed.
Lemma total_count l : Forall (fun x : pstr => x <> []) l -> (Z.of_nat (length l) <= total_length l)%Z.
Proof.
  induction 1 as [|x l Hx H IH]; [reflexivity|]. rewrite total_cons. cbn [length].
  destruct x; [contradiction|]. cbn [length]. lia.
Qed.

Section Close.
  Context (start d L : Z).
  Context (Hs : (0 <= start)%Z) (Hd : (0 <= d)%Z) (Hsd : (start + d <= 2 ^ 32)%Z) (HL : (0 < L <= 2 ^ 40)%Z).

  Let x : Q := inject_Z d / inject_Z L.
  Let ms : Q := rnd64 x.
  Notation S' := (inject_Z start).

  Lemma L_pos : 0 < inject_Z L.
  Proof. change 0 with (inject_Z 0). apply inject_Z_lt. lia. Qed.
  Lemma x_nonneg : 0 <= x.
  Proof.
    unfold x, Qdiv. apply Qmult_le_0_compat; [change 0 with (inject_Z 0); apply inject_Z_le; lia|].
    apply Qinv_le_0_compat. pose proof L_pos. lra.
  Qed.
  Lemma x_L : x * inject_Z L == inject_Z d.
  Proof. unfold x. pose proof L_pos. field. lra. Qed.
  Lemma x_part a : (0 <= a <= L)%Z -> 0 <= x * inject_Z a <= inject_Z d.
  Proof.
    intros [H1 H2]. pose proof x_nonneg. pose proof (inject_Z_le 0 a H1). change (inject_Z 0) with 0 in H0.
    pose proof (inject_Z_le a L H2). rewrite <- x_L. split; nra.
  Qed.

  (** The pause after a word *)
  Lemma pause n : (0 < n <= L)%Z -> Qabs (fmul (f_of_Z n) ms - x * inject_Z n) <= x * inject_Z n * pow2 (-51).
  Proof.
    intros Hn. rewrite f_of_Z_exact by lia. unfold fmul. pose proof x_nonneg as Hx. pose proof (x_part n ltac:(lia)) as [Y _].
    destruct (Z.eq_dec d 0) as [Ed|Ed].
    - assert (Ex : x == 0). { unfold x. rewrite Ed. unfold Qdiv. change (inject_Z 0) with 0. ring. }
      assert (Em : ms == 0). { unfold ms. rewrite rnd64_0; [reflexivity|assumption]. }
      assert (E1 : inject_Z n * ms == 0) by (rewrite Em; ring). rewrite (rnd64_0 _ E1).
      assert (E2 : 0 - x * inject_Z n == 0) by (rewrite Ex; ring). rewrite E2. change (Qabs 0) with 0.
      assert (0 < pow2 (-51)) by apply pow2_pos. nra.
    - assert (X0 : pow2 (-40) <= x).
      { pose proof (inject_Z_le 1 d ltac:(lia)) as D. change (inject_Z 1) with 1 in D. pose proof x_L as E. pose proof L_pos as P.
        assert (inject_Z L <= inject_Z (2 ^ 40)) as L2 by (apply inject_Z_le; lia).
        assert (pow2 (-40) * inject_Z (2 ^ 40) == 1) as E2 by reflexivity. pose proof (pow2_pos (-40)) as P4.
        set (p := pow2 (-40)) in *. set (q := inject_Z (2 ^ 40)) in *. clearbody p q.
        destruct (Qlt_le_dec x p) as [C|]; [exfalso|assumption].
        assert (x * inject_Z L <= x * q) by nra. assert (x * q < p * q) by nra. lra. }
      assert (Ax : Qabs x == x) by (apply Qabs_pos; assumption).
      assert (M1 : Qabs (ms - x) <= x * pow2 (-53)).
      { rewrite <- Ax at 2. apply rnd64_rel. rewrite Ax. assert (pow2 (-1022) <= pow2 (-40)) by (apply pow2_mono; lia). lra. }
      assert (P53 : pow2 (-53) == 1 # 9007199254740992) by reflexivity. assert (P51 : pow2 (-51) == 1 # 2251799813685248) by reflexivity.
      rewrite P53 in M1. apply Qabs_Qle_condition in M1.
      pose proof (inject_Z_le 1 n ltac:(lia)) as N1. change (inject_Z 1) with 1 in N1. set (k := inject_Z n) in *.
      pose proof (pow2_pos (-40)) as P4.
      assert (B : 0 < k * ms /\ - (x * k * (1 # 9007199254740992)) <= k * ms - x * k <= x * k * (1 # 9007199254740992)).
      { assert (Hm : x * (1 # 2) <= ms) by lra. split; [nra|]. nra. }
      assert (Ak : Qabs (k * ms) == k * ms) by (apply Qabs_pos; lra).
      assert (M2 : Qabs (rnd64 (k * ms) - k * ms) <= k * ms * pow2 (-53)).
      { eapply Qle_trans; [apply rnd64_rel|rewrite Ak; apply Qle_refl]. rewrite Ak. assert (pow2 (-1022) <= (1#2) * pow2 (-40)).
        { change (1 # 2) with (pow2 (-1)). rewrite <- pow2_add. apply pow2_mono. lia. }
        assert (x * (1 # 2) <= k * ms); [|lra]. assert (x * (1 # 2) <= ms) by lra. nra. }
      rewrite P53 in M2. rewrite P51. apply Qabs_Qle_condition in M2. apply Qabs_Qle_condition.
      set (r := rnd64 (k * ms)) in *. clearbody r. set (z := k * ms) in *. clearbody z. set (y := x * k) in *. clearbody y. lra.
  Qed.

  (** After words of [a] letters, k roundings *)
  Definition inv (k a : Z) (time : Q) : Prop :=
    is_dbl time /\ 0 <= time /\ (0 <= k <= 2 ^ 40)%Z /\ (0 <= a <= L)%Z /\
    Qabs (time - (S' + x * inject_Z a)) <= inject_Z k * pow2 (-21) + x * inject_Z a * pow2 (-51).

  Lemma err_small k a : (0 <= k <= 2 ^ 40)%Z -> (0 <= a <= L)%Z -> inject_Z k * pow2 (-21) + x * inject_Z a * pow2 (-51) <= pow2 20.
  Proof.
    intros Hk Ha. pose proof (x_part a Ha) as [_ B]. assert (D : inject_Z d <= inject_Z (2 ^ 32)) by (apply inject_Z_le; lia).
    assert (K : inject_Z k <= inject_Z (2 ^ 40)) by (apply inject_Z_le; lia).
    change (inject_Z (2 ^ 40)) with (1099511627776#1) in K. change (inject_Z (2 ^ 32)) with (4294967296#1) in D.
    change (pow2 (-21)) with (1 # 2097152). change (pow2 (-51)) with (1 # 2251799813685248). change (pow2 20) with (1048576 # 1).
    set (u := x * inject_Z a) in *. clearbody u. set (v := inject_Z k) in *. clearbody v. lra.
  Qed.

  Lemma inv_range k a time : inv k a time -> 0 <= time <= pow2 33 /\ time <= inject_Z (2 ^ 32) + pow2 20.
  Proof.
    intros (_ & H0 & Hk & Ha & H). pose proof (err_small k a Hk Ha) as E. pose proof (x_part a Ha) as [_ B].
    apply Qabs_Qle_condition in H. assert (Sd : S' + inject_Z d <= inject_Z (2 ^ 32)) by (rewrite <- inject_Z_plus; apply inject_Z_le; lia).
    change (pow2 20) with (1048576 # 1) in *. change (pow2 33) with (8589934592 # 1). change (inject_Z (2 ^ 32)) with (4294967296#1) in *.
    set (e := _ + _ * _ * _) in *. clearbody e. set (u := x * inject_Z a) in *. clearbody u. split; [split; [assumption|]|]; lra.
  Qed.

  Lemma inv_first : inv 0 0 S'.
  Proof.
    split; [apply inject_Z_dbl; lia|]. split; [change 0 with (inject_Z 0); apply inject_Z_le; lia|]. split; [lia|]. split; [lia|].
    change (inject_Z 0) with 0. assert (E : S' - (S' + x * 0) == 0) by ring. rewrite E. change (Qabs 0) with 0.
    pose proof (pow2_pos (-21)). pose proof (pow2_pos (-51)). lra.
  Qed.

  Lemma sum_range k a time w : inv k a time -> wd_text w <> [] -> (a + Z.of_nat (length (wd_text w)) <= L)%Z ->
    0 <= time + fmul (f_of_Z (Z.of_nat (length (wd_text w)))) ms <= pow2 33.
  Proof.
    intros I Hw Hl. pose proof (inv_range _ _ _ I) as [_ R]. destruct I as (I1 & I0 & Ik & Ia & I2).
    assert (Hn : (0 < Z.of_nat (length (wd_text w)) <= L)%Z) by (destruct (wd_text w); [contradiction|cbn [length] in *; lia]).
    pose proof (pause _ Hn) as P. set (n := Z.of_nat (length (wd_text w))) in *.
    set (p := fmul (f_of_Z n) ms) in *. pose proof (err_small k a Ik Ia) as E. pose proof (x_part n ltac:(lia)) as [Y0 Y1].
    pose proof (x_part (a + n)%Z ltac:(lia)) as [_ Z1]. rewrite inject_Z_plus in Z1.
    assert (EZ : x * (inject_Z a + inject_Z n) == x * inject_Z a + x * inject_Z n) by ring. rewrite EZ in Z1.
    apply Qabs_Qle_condition in P, I2.
    assert (Sd : S' + inject_Z d <= inject_Z (2 ^ 32)) by (rewrite <- inject_Z_plus; apply inject_Z_le; lia).
    assert (D0 : inject_Z d <= inject_Z (2 ^ 32)) by (apply inject_Z_le; lia).
    change (pow2 20) with (1048576 # 1) in *. change (pow2 33) with (8589934592 # 1). change (inject_Z (2 ^ 32)) with (4294967296#1) in *.
    change (pow2 (-51)) with (1 # 2251799813685248) in *.
    set (u := x * inject_Z a) in *. clearbody u. set (v := x * inject_Z n) in *. clearbody v. clearbody p.
    set (e := _ + _ * _) in *. clearbody e. split; lra.
  Qed.

  Lemma inv_next k a time w : inv k a time -> wd_text w <> [] -> (a + Z.of_nat (length (wd_text w)) <= L)%Z -> (k + 1 <= 2 ^ 40)%Z ->
    inv (k + 1) (a + Z.of_nat (length (wd_text w))) (next_time ms time w).
  Proof.
    intros I Hw Hl Hk. pose proof (sum_range k a time w I Hw Hl) as R. destruct I as (I1 & I0 & Ik & Ia & I2).
    assert (Hn : (0 < Z.of_nat (length (wd_text w)) <= L)%Z) by (destruct (wd_text w); [contradiction|cbn [length] in *; lia]).
    split; [apply next_dbl|]. unfold next_time, fadd. rewrite I1. split; [apply rnd64_nonneg, R|]. split; [lia|]. split; [lia|].
    pose proof (pause _ Hn) as P. set (n := Z.of_nat (length (wd_text w))) in *. set (p := fmul (f_of_Z n) ms) in *.
    assert (RR : Qabs (rnd64 (time + p) - (time + p)) <= pow2 (-21)).
    { apply (rnd64_err_below (time + p) 33); [lia|]. rewrite Qabs_pos; apply R. }
    rewrite !inject_Z_plus. change (inject_Z 1) with 1.
    apply Qabs_Qle_condition in P, I2, RR. apply Qabs_Qle_condition. set (r := rnd64 (time + p)) in *. clearbody r p.
    assert (EZ : x * (inject_Z a + inject_Z n) == x * inject_Z a + x * inject_Z n) by ring.
    change (pow2 (-51)) with (1 # 2251799813685248) in *. change (pow2 (-21)) with (1 # 2097152) in *. rewrite !EZ.
    set (u := x * inject_Z a) in *. clearbody u. set (v := x * inject_Z n) in *. clearbody v. set (kk := inject_Z k) in *. clearbody kk. split; lra.
  Qed.

  (** The time of a word is near what it should be *)
  Lemma inv_time k a time : inv k a time -> Qabs (1000 * rnd64 (time / 1000) - (S' + x * inject_Z a)) <= inject_Z (k + 1) * pow2 (-18).
  Proof.
    intros I. pose proof (inv_range _ _ _ I) as [R _]. destruct I as (I1 & I0 & Ik & Ia & I2).
    assert (RR : Qabs (rnd64 (time / 1000) - time / 1000) <= pow2 (-30)).
    { apply (rnd64_err_below (time / 1000) 24); [lia|]. change (pow2 33) with (8589934592 # 1) in R. change (pow2 24) with (16777216 # 1).
      unfold Qdiv. change (/ 1000) with (1 # 1000). rewrite Qabs_pos; lra. }
    pose proof (x_part a Ia) as [Y0 Y1]. assert (D0 : inject_Z d <= inject_Z (2 ^ 32)) by (apply inject_Z_le; lia).
    apply Qabs_Qle_condition in RR, I2. apply Qabs_Qle_condition. rewrite inject_Z_plus. change (inject_Z 1) with 1.
    pose proof (inject_Z_le 0 k ltac:(lia)) as K0. change (inject_Z 0) with 0 in K0.
    change (inject_Z (2 ^ 32)) with (4294967296#1) in *. change (pow2 (-51)) with (1 # 2251799813685248) in *.
    change (pow2 (-21)) with (1 # 2097152) in *. change (pow2 (-18)) with (1 # 262144). change (pow2 (-30)) with (1 # 1073741824) in *.
    set (r := rnd64 (time / 1000)) in *. clearbody r. unfold Qdiv in RR. change (/ 1000) with (1 # 1000) in RR.
    set (u := x * inject_Z a) in *. clearbody u. set (kk := inject_Z k) in *. clearbody kk. split; lra.
  Qed.

  Lemma set_times_close l : Forall (fun w => wd_text w <> []) l -> forall k a time, inv k a time ->
    (a + total_length (map wd_text l) <= L)%Z -> (k + Z.of_nat (length l) <= 2 ^ 40)%Z ->
    forall l1 w l2, l = l1 ++ w :: l2 ->
    exists r, nth_error (set_times ms time l) (length l1) = Some r /\ wd_text r = wd_text w /\ wd_obj r = wd_obj w /\ wd_layer r = wd_layer w /\
      Qabs (1000 * wd_time r - (S' + x * inject_Z (a + total_length (map wd_text l1)))) <= inject_Z (k + Z.of_nat (length l1) + 1) * pow2 (-18).
  Proof.
    induction 1 as [|v l Hv Hl IH]; intros k a time I Ha Hk l1 w l2 E; [destruct l1; discriminate|].
    rewrite set_times_cons. cbn [map] in Ha. rewrite total_cons in Ha. pose proof (total_nonneg (map wd_text l)) as T0. cbn [length] in Hk.
    destruct l1 as [|v' l1].
    - cbn [app] in E. injection E as <- <-. eexists. split; [reflexivity|]. cbn [wd_text wd_obj wd_layer wd_time]. repeat (split; [reflexivity|]).
      cbn [map length]. change (total_length []) with 0%Z. replace (a + 0)%Z with a by lia. replace (k + Z.of_nat 0 + 1)%Z with (k + 1)%Z by lia. now apply inv_time.
    - cbn [app] in E. injection E as <- E. cbn [length nth_error].
      assert (I' := inv_next k a time v I Hv ltac:(lia) ltac:(lia)).
      destruct (IH (k + 1)%Z _ _ I' ltac:(lia) ltac:(lia) l1 w l2 E) as (r & R & R1 & R2 & R3 & R4). exists r. repeat (split; [assumption|]).
      cbn [map]. rewrite total_cons. rewrite Nat2Z.inj_succ.
      replace (a + (Z.of_nat (length (wd_text v)) + total_length (map wd_text l1)))%Z with (a + Z.of_nat (length (wd_text v)) + total_length (map wd_text l1))%Z by lia.
      replace (k + Z.succ (Z.of_nat (length l1)) + 1)%Z with (k + 1 + Z.of_nat (length l1) + 1)%Z by lia. exact R4.
  Qed.

  (** ** Strictly forward *)

  Lemma next_gt k a time w : (L <= 2 ^ 17 * d)%Z -> inv k a time -> wd_text w <> [] -> (a + Z.of_nat (length (wd_text w)) <= L)%Z ->
    rnd64 (time / 1000) + pow2 (-28) <= rnd64 (next_time ms time w / 1000).
  Proof.
    intros HLd I Hw Hl. pose proof (sum_range k a time w I Hw Hl) as R. pose proof (inv_range _ _ _ I) as [RT _].
    destruct I as (I1 & I0 & Ik & Ia & I2). unfold next_time, fadd. rewrite I1.
    assert (Hn : (0 < Z.of_nat (length (wd_text w)) <= L)%Z) by (destruct (wd_text w); [contradiction|cbn [length] in *; lia]).
    pose proof (pause _ Hn) as P. set (n := Z.of_nat (length (wd_text w))) in *. set (p := fmul (f_of_Z n) ms) in *.
    assert (X17 : pow2 (-17) <= x).
    { pose proof x_L as E. pose proof L_pos as PL. assert (inject_Z L <= inject_Z (2 ^ 17 * d)) as L2 by (apply inject_Z_le; lia).
      rewrite inject_Z_mult, <- E in L2. change (inject_Z (2 ^ 17)) with (131072 # 1) in L2. change (pow2 (-17)) with (1 # 131072). nra. }
    assert (XN : x <= x * inject_Z n). { pose proof (inject_Z_le 1 n ltac:(lia)) as N1. change (inject_Z 1) with 1 in N1. pose proof x_nonneg. nra. }
    assert (RR : Qabs (rnd64 (time + p) - (time + p)) <= pow2 (-21)).
    { apply (rnd64_err_below (time + p) 33); [lia|]. rewrite Qabs_pos; apply R. }
    set (t' := rnd64 (time + p)) in *.
    assert (R' : 0 <= t' <= pow2 33 + 1).
    { split; [apply rnd64_nonneg, R|]. apply Qabs_Qle_condition in RR. change (pow2 (-21)) with (1 # 2097152) in RR. lra. }
    assert (R1 : Qabs (rnd64 (time / 1000) - time / 1000) <= pow2 (-30)).
    { apply (rnd64_err_below (time / 1000) 24); [lia|]. change (pow2 33) with (8589934592 # 1) in RT. change (pow2 24) with (16777216 # 1).
      unfold Qdiv. change (/ 1000) with (1 # 1000). rewrite Qabs_pos; lra. }
    assert (R2 : Qabs (rnd64 (t' / 1000) - t' / 1000) <= pow2 (-30)).
    { apply (rnd64_err_below (t' / 1000) 24); [lia|]. change (pow2 33) with (8589934592 # 1) in R'. change (pow2 24) with (16777216 # 1).
      unfold Qdiv. change (/ 1000) with (1 # 1000). rewrite Qabs_pos; lra. }
    apply Qabs_Qle_condition in R1, R2, RR, P. clearbody t' p. set (q1 := rnd64 (time / 1000)) in *. set (q2 := rnd64 (t' / 1000)) in *. clearbody q1 q2.
    unfold Qdiv in R1, R2. change (/ 1000) with (1 # 1000) in R1, R2.
    change (pow2 (-51)) with (1 # 2251799813685248) in *. change (pow2 (-21)) with (1 # 2097152) in *.
    change (pow2 (-30)) with (1 # 1073741824) in *. change (pow2 (-17)) with (1 # 131072) in *. change (pow2 (-28)) with (1 # 268435456).
    set (v := x * inject_Z n) in *. clearbody v. lra.
  Qed.

  (** Every one before all that follow it, by a margin *)
  Lemma set_times_forward l : (L <= 2 ^ 17 * d)%Z -> Forall (fun w => wd_text w <> []) l -> forall k a time, inv k a time ->
    (a + total_length (map wd_text l) <= L)%Z -> (k + Z.of_nat (length l) <= 2 ^ 40)%Z ->
    ForallOrdPairs (fun p q => p + pow2 (-28) <= q) (map wd_time (set_times ms time l)).
  Proof.
    intros HLd. induction 1 as [|v l Hv Hl IH]; intros k a time I Ha Hk; [constructor|].
    rewrite set_times_cons. cbn [map] in Ha |- *. rewrite total_cons in Ha. pose proof (total_nonneg (map wd_text l)) as T0. cbn [length] in Hk.
    assert (I' := inv_next k a time v I Hv ltac:(lia) ltac:(lia)).
    specialize (IH _ _ _ I' ltac:(lia) ltac:(lia)). constructor; [|exact IH]. cbn [wd_time].
    pose proof (next_gt k a time v HLd I Hv ltac:(lia)) as G.
    destruct l as [|w l]; [constructor|]. rewrite set_times_cons in IH |- *. cbn [map wd_time] in IH |- *. constructor; [exact G|].
    inversion IH as [|? ? F _]; subst. apply Forall_forall. intros q Hq. rewrite Forall_forall in F. specialize (F q Hq). pose proof (pow2_pos (-28)). lra.
  Qed.
End Close.

(** ** The words of a line *)

Lemma timed_close start duration l r : sane_line start duration (map wd_text l) -> timed start duration l = Ok r ->
  forall l1 w l2, l = l1 ++ w :: l2 -> exists v, nth_error r (length l1) = Some v /\ wd_text v = wd_text w /\ wd_obj v = wd_obj w /\ wd_layer v = wd_layer w /\
    Qabs (1000 * wd_time v - ideal start duration (map wd_text l1) (map wd_text l)) <= inject_Z (Z.of_nat (length l1) + 1) * pow2 (-18).
Proof.
  intros ((H1 & H2 & H3) & Hf & Ht) H l1 w l2 E. unfold timed in H. rewrite letters_total in H. destruct (_ =? 0)%Z eqn:E0; [discriminate|]. injection H as <-.
  apply Z.eqb_neq in E0. pose proof (total_nonneg (map wd_text l)) as T0. pose proof (total_count _ Hf) as TC. rewrite map_length in TC.
  assert (Hf' : Forall (fun w => wd_text w <> []) l) by (rewrite Forall_map in Hf; exact Hf).
  destruct (set_times_close start duration (total_length (map wd_text l)) H1 H2 H3 ltac:(lia) l Hf' 0 0 (inject_Z start)) with (l1 := l1) (w := w) (l2 := l2) as (v & V & V1 & V2 & V3 & V4);
    [apply inv_first; lia|lia|lia|exact E|].
  exists v. repeat (split; [assumption|]). rewrite Z.add_0_l in V4. unfold ideal.
  assert (EI : inject_Z start + inject_Z duration * (inject_Z (total_length (map wd_text l1)) / inject_Z (total_length (map wd_text l))) ==
               inject_Z start + inject_Z duration / inject_Z (total_length (map wd_text l)) * inject_Z (total_length (map wd_text l1))).
  { unfold Qdiv. ring. }
  rewrite EI. exact V4.
Qed.

Lemma timed_forward start duration l r : sane_line start duration (map wd_text l) -> (total_length (map wd_text l) <= 2 ^ 17 * duration)%Z ->
  timed start duration l = Ok r -> ForallOrdPairs (fun p q => p + pow2 (-28) <= q) (map wd_time r).
Proof.
  intros ((H1 & H2 & H3) & Hf & Ht) HL H. unfold timed in H. rewrite letters_total in H. destruct (_ =? 0)%Z eqn:E0; [discriminate|]. injection H as <-.
  apply Z.eqb_neq in E0. pose proof (total_nonneg (map wd_text l)) as T0. pose proof (total_count _ Hf) as TC. rewrite map_length in TC.
  assert (Hf' : Forall (fun w => wd_text w <> []) l) by (rewrite Forall_map in Hf; exact Hf).
  apply (set_times_forward start duration (total_length (map wd_text l)) H1 H2 H3 ltac:(lia) l HL Hf' 0 0); [apply inv_first; lia|lia|lia].
Qed.

Lemma timed_first start duration w l r : timed start duration (w :: l) = Ok r -> exists v r', r = v :: r' /\ wd_time v = rnd64 (inject_Z start / 1000).
Proof. unfold timed. destruct (_ =? 0)%Z; [discriminate|]. intros [= <-]. eauto. Qed.

(** Before the end *)
Lemma timed_before_end start duration l r : sane_line start duration (map wd_text l) ->
  (Z.of_nat (length l) * total_length (map wd_text l) <= 2 ^ 18 * duration)%Z ->
  timed start duration l = Ok r -> Forall (fun v => 1000 * wd_time v <= inject_Z (start + duration)) r.
Proof.
  intros Sl Hn H. pose proof Sl as ((H1 & H2 & H3) & Hf & Ht).
  assert (HR : map wd_text r = map wd_text l /\ total_length (map wd_text l) <> 0%Z).
  { unfold timed in H. rewrite letters_total in H. destruct (_ =? 0)%Z eqn:E0; [discriminate|]. injection H as <-. apply Z.eqb_neq in E0. split; [apply set_times_texts|assumption]. }
  destruct HR as [HR HT]. apply Forall_forall. intros v Hv. apply In_nth_error in Hv as [i Hi].
  assert (Li : (i < length l)%nat). { rewrite <- (map_length wd_text l), <- HR, map_length. apply nth_error_Some. congruence. }
  destruct (nth_error l i) as [w|] eqn:Ew; [|apply nth_error_None in Ew; lia].
  apply nth_error_split in Ew as (l1 & l2 & E & L1).
  destruct (timed_close start duration l r Sl H l1 w l2 E) as (v' & V & _ & _ & _ & C). rewrite L1, Hi in V. injection V as <-.
  apply Qabs_Qle_condition in C as [_ C]. unfold ideal in C. rewrite E in C. rewrite map_app, total_app in C. cbn [map] in C. rewrite total_cons in C.
  rewrite E in Hn, HT, Hf. rewrite map_app, total_app in Hn, HT. cbn [map] in Hn, HT. rewrite total_cons in Hn, HT. rewrite app_length in Hn. cbn [length] in Hn.
  rewrite map_app in Hf. apply Forall_app in Hf as [_ Hf]. cbn [map] in Hf. apply Forall_inv in Hf.
  pose proof (total_nonneg (map wd_text l1)) as A0. pose proof (total_nonneg (map wd_text l2)) as A2.
  assert (A1 : (1 <= Z.of_nat (length (wd_text w)))%Z) by (destruct (wd_text w); [contradiction|cbn [length]; lia]).
  set (a := total_length (map wd_text l1)) in *. set (L := (a + _)%Z) in *. assert (HL : (a + 1 <= L)%Z) by lia.
  assert (P : 0 < inject_Z L) by (change 0 with (inject_Z 0); apply inject_Z_lt; lia).
  assert (EI : inject_Z duration * (inject_Z a / inject_Z L) == inject_Z duration - inject_Z duration * inject_Z (L - a) / inject_Z L).
  { unfold Zminus. rewrite inject_Z_plus, inject_Z_opp. field. lra. }
  rewrite EI in C.
  assert (D : inject_Z (Z.of_nat (length l1) + 1) * pow2 (-18) <= inject_Z duration * inject_Z (L - a) / inject_Z L).
  { apply Qle_shift_div_l; [assumption|]. change (pow2 (-18)) with (/ inject_Z (2 ^ 18)).
    assert (B : inject_Z (Z.of_nat (length l1) + 1) * inject_Z L <= inject_Z duration * inject_Z (L - a) * inject_Z (2 ^ 18)).
    { rewrite <- !inject_Z_mult. apply inject_Z_le. nia. }
    apply (Qmult_le_r _ _ (inject_Z (2 ^ 18))); [reflexivity|].
    assert (E3 : inject_Z (Z.of_nat (length l1) + 1) * / inject_Z (2 ^ 18) * inject_Z L * inject_Z (2 ^ 18) == inject_Z (Z.of_nat (length l1) + 1) * inject_Z L).
    { field. intros X. discriminate X. }
    rewrite E3. exact B. }
  rewrite inject_Z_plus. lra.
Qed.
