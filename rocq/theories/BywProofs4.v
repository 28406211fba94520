(** Times as adjust.py writes them for T, and the waypoints made of words. *)
From Coq Require Import Lqa Qabs ZifyBool ZifyN ZifyNat.
From Verif Require Import PyFloatProofs PyFmtProofs PyFmtProofs2 TimeProofs.
From Verif Require Import BywModel BywSpec BywProofs.
Local Open Scope Z_scope.

Definition plain_num (x : pstr) : Prop := x <> [] /\ Forall (fun c => in_num c = true) x.

Lemma digits_plain x : all_digits x -> Forall (fun c => in_num c = true) x.
Proof. apply Forall_impl. intros c H. unfold in_num. now rewrite H. Qed.
Lemma fixed_plain k m : plain_num (fmt_fixed k m).
Proof.
  destruct (fmt_fixed_shape k m) as (ip & fp & E & Hi & Hf & Hne & _). rewrite E. split.
  - intros X. apply app_eq_nil in X as [X _]. contradiction.
  - apply Forall_app. split; [now apply digits_plain|]. destruct k; [constructor|]. constructor; [reflexivity|]. now apply digits_plain.
Qed.

Lemma repr_digits_exp fuel : forall n q d m x, repr_digits fuel n q = (d, m, x) -> flog10 q <= x <= flog10 q + 1.
Proof.
  assert (S : forall n q m x, sig_digits n q = (m, x) -> flog10 q <= x <= flog10 q + 1).
  { intros n q m x. unfold sig_digits. destruct (_ =? _)%N; intros [= _ <-]; lia. }
  induction fuel as [|fuel IH]; intros n q d m x H; cbn [repr_digits] in H; destruct (sig_digits n q) as [m0 x0] eqn:E.
  - injection H as <- <- <-. now apply (S n q m0).
  - destruct (Qeq_bool _ q); [injection H as <- <- <-; now apply (S n q m0)|]. now apply (IH _ _ _ _ _ H).
Qed.

(** From a tenth of a millisecond on, and to 31 million years, floats are written without an exponent. *)
Lemma repr_plain q : (q == 0 \/ pow10 (-4) <= q < pow10 15)%Q -> plain_num (repr_float q).
Proof.
  intros H. unfold repr_float. destruct (Qeq_bool q 0) eqn:E0; [split; [discriminate|repeat constructor]|]. apply Qeq_bool_false in E0.
  destruct H as [H|[H1 H2]]; [contradiction|]. pose proof (pow10_pos (-4)) as P4. assert (Hq : (0 < q)%Q) by lra.
  assert (Qlt_bool q 0 = false) as -> by (apply Qlt_bool_false; lra). cbn [minus_if app].
  destruct (repr_digits 16 1 (Qabs q)) as [[n m] x] eqn:E. apply repr_digits_exp in E.
  assert (Ha : (0 < Qabs q)%Q) by now apply Qabs_nz.
  pose proof (flog10_spec (Qabs q) Ha) as [L1 L2]. assert (A : (Qabs q == q)%Q) by (apply Qabs_pos; lra). rewrite A in L1 at 2. rewrite A in L2 at 1.
  assert (X1 : -4 <= flog10 (Qabs q)).
  { destruct (Z_lt_le_dec (flog10 (Qabs q)) (-4)) as [C|]; [exfalso|assumption].
    assert (pow10 (flog10 (Qabs q) + 1) <= pow10 (-4))%Q by (apply pow10_mono; lia). lra. }
  assert (X2 : flog10 (Qabs q) <= 14).
  { destruct (Z_lt_le_dec 14 (flog10 (Qabs q))) as [C|]; [exfalso|assumption].
    assert (pow10 15 <= pow10 (flog10 (Qabs q)))%Q by (apply pow10_mono; lia). lra. }
  assert ((-4 <=? x) && (x <? 16) = true) as -> by lia.
  destruct (x <? Z.of_nat n - 1); [apply fixed_plain|]. split; [intros X; apply app_eq_nil in X as [_ X]; discriminate|].
  apply Forall_app. split; [apply digits_plain, dec_N_digits|repeat constructor].
Qed.

Lemma num_not_space c : in_num c = true -> is_space c = false.
Proof. intros H. destruct (is_space c) eqn:E; [|reflexivity]. apply space_not_num in E as [E _]. congruence. Qed.

Lemma strip_secs x : plain_num x -> strip (x ++ s "s") = x ++ s "s".
Proof.
  intros [Hn Hx]. destruct x as [|c x]; [contradiction|]. apply Forall_cons_iff in Hx as [Hc _]. unfold strip. cbn [app lstrip].
  rewrite (num_not_space c Hc). unfold rstrip. change (c :: x ++ s "s") with ((c :: x) ++ [115%N]). rewrite rev_app_distr. cbn [rev app lstrip].
  change (is_space 115) with false. cbv iota. cbn [rev]. now rewrite rev_app_distr, rev_involutive.
Qed.

Lemma split_secs x : plain_num x -> ts_split (x ++ s "s") [] 0 = [[]; x ++ s "s"; []].
Proof.
  intros [Hn Hx].
  assert (M : ts_match (x ++ s "s") = Some (S (length x))).
  { assert (M : ts_match_num (x ++ s "s") = Some (S (length x))).
    { unfold ts_match_num. rewrite span_all by (auto; reflexivity). destruct x; [contradiction|]. reflexivity. }
    destruct x as [|c x]; [contradiction|]. apply Forall_cons_iff in Hx as [Hc _]. unfold ts_match. cbn [app] in *.
    destruct (N.eq_dec c 45) as [->|Hne]; [discriminate|]. rewrite <- M. destruct c as [|p]; [reflexivity|].
    repeat (destruct p as [p|p|]; try reflexivity; try congruence). }
  destruct x as [|c x]; [contradiction|]. pose proof M as M'. cbn [app] in M' |- *. cbn [ts_split]. rewrite M'. cbn [length rev]. f_equal.
  pose proof (ts_split_copy (x ++ s "s") [] [c]) as C. rewrite app_nil_r in C. 
  replace (length (x ++ s "s")) with (S (length x)) in C by (rewrite app_length; cbn; lia). rewrite C; [reflexivity|]. intros X. apply app_eq_nil in X as [_ X]. discriminate.
Qed.

Lemma parts_secs x q : plain_num x -> parse_float x = Ok q -> ts_parts [[]; x ++ s "s"; []] [] = Ok [(115%N, q)].
Proof.
  intros Hp Hq. change (ts_parts [[]; x ++ s "s"; []] []) with (ts_parts [x ++ s "s"; []] []).
  assert (G : forall z, strip z <> [] -> last_char z = Some 115%N -> parse_float (init_str z) = Ok q -> ts_parts [z; []] [] = Ok [(115%N, q)]).
  { intros z Hz Hl Hi. cbn [ts_parts]. destruct (strip z); [contradiction|]. rewrite Hl. cbn [pget]. rewrite Hi. reflexivity. }
  apply G.
  - rewrite strip_secs by assumption. intros X. apply app_eq_nil in X as [_ X]. discriminate.
  - apply last_char_snoc.
  - change (s "s") with [115%N]. now rewrite init_str_snoc.
Qed.

Lemma secs_time x q f cx : plain_num x -> parse_float x = Ok q -> is_dbl q -> ctx_fps cx = Ok (Some f) ->
  T_init (TStr (x ++ s "s")) cx = Ok (mkT (rnd64 (q * f)) (Some f)).
Proof.
  intros Hp Hq Hd Hf. unfold T_init. rewrite Hf. cbn [bind]. unfold parse_time_spec. rewrite strip_secs, split_secs by assumption.
  rewrite (parts_secs x q) by assumption. cbn [bind].
  unfold ts_seconds, unit_sizes. cbn [fold_left fst snd pget N.eqb].
  assert (S1 : fadd 0 (fmul q (inject_Z 1)) = q).
  { unfold fadd, fmul. rewrite (rnd64_comp (q * inject_Z 1) q) by (change (inject_Z 1) with 1%Q; ring). rewrite Hd.
    rewrite (rnd64_comp (0 + q) q) by ring. exact Hd. }
  change (Pos.eqb 104 115) with false. change (Pos.eqb 109 115) with false. change (Pos.eqb 115 115) with true. cbv iota. rewrite S1.
  cbn [truthy]. destruct (Qeq_bool q 0) eqn:E0; cbn [negb].
  - apply Qeq_bool_iff in E0. cbn [bind]. change (Pos.eqb 102 115) with false. cbv iota. cbn [bind]. rewrite rnd64_0; [reflexivity|]. rewrite E0. ring.
  - cbn [bind]. change (Pos.eqb 102 115) with false. cbv iota. cbn [bind]. do 2 f_equal. unfold fadd, fmul.
    rewrite (rnd64_comp (0 + rnd64 (q * f)) (rnd64 (q * f))) by ring. apply rnd64_idem.
Qed.

Lemma repr_time q f cx : is_dbl q -> (q == 0 \/ pow10 (-4) <= q < pow10 15)%Q -> ctx_fps cx = Ok (Some f) ->
  T_init (TStr (repr_float q ++ s "s")) cx = Ok (mkT (rnd64 (q * f)) (Some f)).
Proof. intros Hd Hq Hf. apply secs_time; auto using repr_plain. now apply parse_repr. Qed.
Lemma zero_time f cx : ctx_fps cx = Ok (Some f) -> T_init (TStr (s "0" ++ s "s")) cx = Ok (mkT 0 (Some f)).
Proof.
  intros Hf. pose proof (secs_time (s "0") 0 f cx) as E. rewrite E; [|split; [discriminate|repeat constructor]|reflexivity|reflexivity|assumption].
  rewrite rnd64_0 by ring. reflexivity.
Qed.
