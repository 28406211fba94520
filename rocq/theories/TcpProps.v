(** C175: a time made of a time, and the numbers that a time is. *)
From Verif Require Import TimeModel TimeSpec PyFloatProofs TimeProofs TimeProofs2 TimeProps TcpModel.
From Coq Require Import Lia Lqa Qround.
Local Open Scope Z_scope.

Lemma trunc_iff q k : trunc q = k <-> (0 <= q /\ inject_Z k <= q /\ q < inject_Z (k + 1) \/ q <= 0 /\ inject_Z (k - 1) < q /\ q <= inject_Z k)%Q.
Proof.
  destruct q as [n d]. unfold trunc, Qle, Qlt, inject_Z. cbn [Qnum Qden]. rewrite !Z.mul_1_r. set (e := Z.pos d). assert (He : 0 < e) by (unfold e; lia). clearbody e. clear d.
  split.
  - intros <-. pose proof (Z.quot_rem n e ltac:(lia)) as Q. destruct (Z.le_gt_cases 0 n) as [P|P].
    + left. pose proof (Z.rem_bound_pos n e P He). nia.
    + right. pose proof (Z.rem_bound_pos (- n) e ltac:(lia) He) as B. rewrite Z.rem_opp_l in B by lia. nia.
  - intros [(A & B & C)|(A & B & C)].
    + symmetry. apply Z.quot_unique with (r := n - e * k); nia.
    + assert (X : Z.quot (- n) e = - k) by (symmetry; apply Z.quot_unique with (r := - n - e * (- k)); nia). rewrite Z.quot_opp_l in X by lia. lia.
Qed.
Lemma Qlt_nonneg q : (0 <= q)%Q -> Qlt_bool q 0 = false.
Proof. intros H. destruct (Qlt_bool q 0) eqn:E; [|reflexivity]. apply Qlt_bool_iff in E. exfalso. lra. Qed.

(** [int(t)] is [float(t)] without what comes after the point. *)
Theorem C175_int : forall t k,
  T_int t = k <-> (0 <= T_float t /\ inject_Z k <= T_float t /\ T_float t < inject_Z (k + 1) \/ T_float t <= 0 /\ inject_Z (k - 1) < T_float t /\ T_float t <= inject_Z k)%Q.
Proof. intros t k. apply trunc_iff. Qed.
Print Assumptions C175_int.
(** [T(t, ref)] is [t], if that isn't before 0: with any [ref] that works for T(0, ref), whose FPS it gets. *)
Theorem C175_copy_partial : forall t r z, T_new (TNum 0) r = Ok z -> (0 <= frames t)%Q ->
  exists u, T_of t r = Ok u /\ frames u = frames t /\ fps u = fps z /\ (compat u t -> T_eq u (CT t) = Ok true).
Proof.
  intros t r z Hz Ht. unfold T_of, T_new in *. destruct (ref_ctx r) as [c|]; [|discriminate]. cbn [bind] in *. unfold T_init in *. destruct (ctx_fps c) as [f|]; [|discriminate]. cbn [bind] in *.
  change (Qlt_bool 0 0) with false in Hz. cbn [bind] in Hz. injection Hz as <-. unfold T_float. rewrite Qlt_nonneg by exact Ht. cbn [bind]. exists (mkT (frames t) f). split; [reflexivity|]. split; [reflexivity|]. split; [reflexivity|].
  intros C. apply C03_order_is_frames; [exact C|]. cbn [frames]. reflexivity.
Qed.
Print Assumptions C175_copy_partial.
(** [T(int(t), ref)] isn't after [t], and is less than a frame before it. *)
Theorem C175_whole_partial : forall t r z, T_new (TNum 0) r = Ok z -> (0 <= frames t)%Q -> T_int t <= 2 ^ 53 ->
  exists u k, T_of_int t r = Ok u /\ fps u = fps z /\ frames u = inject_Z k /\ (frames u <= frames t)%Q /\ (frames t < frames u + 1)%Q.
Proof.
  intros t r z Hz Ht Hb. assert (H0 : 0 <= T_int t). { destruct (proj1 (C175_int t (T_int t)) eq_refl) as [(_ & _ & A)|(_ & A & B)]; unfold T_float in *; [|assert ((0 <= inject_Z (T_int t))%Q) by lra; now rewrite Zle_Qle].
    assert (L : (inject_Z 0 < inject_Z (T_int t + 1))%Q) by (change (inject_Z 0) with 0%Q; lra). rewrite <- Zlt_Qlt in L. lia. }
  assert (K : (inject_Z (T_int t) <= frames t /\ frames t < inject_Z (T_int t) + 1)%Q).
  { destruct (proj1 (C175_int t (T_int t)) eq_refl) as [(_ & A & B)|(A & B & C)]; unfold T_float in *.
    - rewrite inject_Z_plus in B. change (inject_Z 1) with 1%Q in B. split; lra.
    - assert (E : (frames t == 0)%Q) by lra. assert (Z0 : T_int t = 0). { assert (L : (inject_Z (T_int t - 1) < inject_Z 0)%Q) by (change (inject_Z 0) with 0%Q; lra). rewrite <- Zlt_Qlt in L. lia. }
      rewrite Z0. change (inject_Z 0) with 0%Q. split; lra. }
  assert (F : f_of_Z (T_int t) = inject_Z (T_int t)) by (apply f_of_Z_exact; lia).
  unfold T_of_int, T_new in *. destruct (ref_ctx r) as [c|]; [|discriminate]. cbn [bind] in *. unfold T_init in *. destruct (ctx_fps c) as [f|]; [|discriminate]. cbn [bind] in *.
  change (Qlt_bool 0 0) with false in Hz. cbn [bind] in Hz. injection Hz as <-. rewrite F, Qlt_nonneg by (change 0%Q with (inject_Z 0); rewrite <- Zle_Qle; exact H0). cbn [bind].
  exists (mkT (inject_Z (T_int t)) f), (T_int t). cbn [fps frames]. tauto.
Qed.
Print Assumptions C175_whole_partial.
(** A time before 0 is counted from the end, once more: without a reference that's an error, *)
Theorem C175_unanchored_refuted : forall t, (frames t < 0)%Q -> T_of t RNone = Err ValueError.
Proof. intros t H. unfold T_of, T_new, T_init, T_float. cbn [ref_ctx bind ctx_fps]. assert (Qlt_bool (frames t) 0 = true) as -> by now apply Qlt_bool_iff. reflexivity. Qed.
Print Assumptions C175_unanchored_refuted.
(** and with one it's another time, unless the animation lasts for no frames at all. *)
Theorem C175_negative_refuted : forall p a le te lb tb n t n0 anc,
  at_fps (inject_Z p) (Some a) -> 0 < p ->
  aget (s "end-time") a = Some (AStr (write le te)) -> wf_spec le te -> small p le -> 0 <= amount UF le ->
  aget (s "begin-time") a = Some (AStr (write lb tb)) -> wf_spec lb tb -> small p lb -> 0 <= amount UF lb ->
  Z.abs (frames_of p le) <= 2 ^ 51 -> Z.abs (frames_of p lb) <= 2 ^ 51 -> 0 < n <= 2 ^ 51 ->
  option_map tag_attrs (canvas_root n0 anc) = Some a -> frames t = inject_Z (- n) -> fps t = Some (inject_Z p) ->
  exists u, T_of t (RTag n0 anc) = Ok u /\ fps u = fps t /\ frames u = inject_Z (- n + (1 + frames_of p le - frames_of p lb)) /\
    (T_eq u (CT t) = Ok true <-> 1 + frames_of p le - frames_of p lb = 0).
Proof.
  intros p a le te lb tb n t n0 anc H1 H2 H3 H4 H5 H6 H7 H8 H9 H10 H11 H12 H13 Hr Hf Hp.
  pose proof (C06_negative_index_partial p a le te lb tb n H1 H2 H3 H4 H5 H6 H7 H8 H9 H10 H11 H12 H13) as E.
  unfold T_of, T_new, T_float. cbn [ref_ctx bind]. rewrite Hr, Hf, E. eexists. split; [reflexivity|]. cbn [fps frames]. split; [now rewrite Hp|]. split; [f_equal; lia|].
  assert (C : compat (mkT (inject_Z (1 + frames_of p le - frames_of p lb - n)) (Some (inject_Z p))) t) by (unfold compat; cbn [fps]; rewrite Hp; reflexivity).
  destruct (C03_order_is_frames _ _ C) as (_ & [A B] & _). cbn [frames] in *. rewrite Hf in *. rewrite inject_Z_injective in *. split; [intros X; apply A in X; lia|intros X; apply B; lia].
Qed.
Print Assumptions C175_negative_refuted.

Example C175_nonvacuous :
  let n := El (s "canvas") canvas24 [] in let d := El (s "[document]") [] [n] in
  option_map tag_attrs (canvas_root n [d]) = Some canvas24 /\ T_new (TNum 0) (RTag n [d]) = Ok (mkT 0 (Some 24%Q)) /\ T_new (TStr (s "-5f")) (RTag n [d]) = Ok (mkT (-5) (Some 24%Q)) /\
  T_of (mkT (-5) (Some 24%Q)) (RTag n [d]) = Ok (mkT 116 (Some 24%Q)) /\ T_of (mkT (7#2) None) (RTag n [d]) = Ok (mkT (7#2) (Some 24%Q)) /\
  T_int (mkT (7#2) None) = 3 /\ T_int (mkT (-(7#2)) None) = -3 /\ T_of_int (mkT (7#2) None) (RTag n [d]) = Ok (mkT 3 (Some 24%Q)).
Proof. vm_compute. repeat split; reflexivity. Qed.
