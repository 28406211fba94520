(** Proofs about changing the frame rate *)
From Verif Require AnimProofs2.
From Verif Require Import TlModel TlSpec ValSpec SerModel ValProofs SerProofs TimeSpec TimeProofs TimeProofs2 ValProofs2 TlProofs TlProofs2 PyFmtProofs PyFmtProofs2 TlProofs3 CtlModel CtlSpec CtlProofs RatSpec.
From Coq Require Import Lia Lqa.
Local Open Scope Z_scope.

Lemma at_rate_fps q a : at_fps q (Some (at_rate q a)).
Proof. exists (at_rate q a), (AFlo q). split; [reflexivity|]. split; [apply AnimProofs2.aget_aset_same|reflexivity]. Qed.

Lemma history_written c n cx f ty os l' : is_animated n = false -> is_tag n = true -> tag_name n = ty -> ctx_fps cx = Ok f ->
  ops_mean c cx f ty os [] l' -> let m := run_ops c cx n os in
  timeline_is m cx f l' /\ has_type m ty /\ (is_animated m = true -> attrs_distinct m /\ child_tags m = map wp_tag l') /\
  (is_animated m = false -> l' = []).
Proof.
  intros Ha Ht Hn Hf Ho m. assert (H : timeline_is n cx f []).
  { repeat split; try assumption; try (constructor; fail).
    - unfold tl_values, waypoints, waypoint_tags. now rewrite Ha.
    - unfold waypoint_tags. now rewrite Ha. }
  assert (Hty : has_type n ty) by (split; [assumption|now rewrite Ha]).
  destruct (history_refines c n cx f [] ty os l' H Hty Ho) as (L & T' & W). split; [assumption|]. split; [assumption|]. split.
  - intros A. exact (W ltac:(intros X; congruence) A).
  - intros A. eapply timeline_static; eassumption.
Qed.

Lemma static_timeline n cx f : is_tag n = true -> ctx_fps cx = Ok f -> is_animated n = false -> timeline_is n cx f [].
Proof.
  intros Ht Hf Ha. split; [assumption|]. split; [assumption|]. unfold tl_values, waypoints, waypoint_tags. rewrite Ha. repeat split. constructor.
Qed.

Lemma spelt_seconds p q n : 0 < p -> 0 < q -> 0 <= n ->
  (inject_Z (spelt_again p q n) / inject_Z q == inject_Z n / inject_Z p)%Q <-> p = q \/ n mod p = 0.
Proof.
  intros Hp Hq Hn. unfold spelt_again. pose proof (Z.div_mod n p ltac:(lia)) as D. pose proof (Z.mod_pos_bound n p Hp) as M.
  set (k := n / p) in *. set (r := n mod p) in *. clearbody k r.
  assert (Q1 : (0 < inject_Z p)%Q) by (change 0%Q with (inject_Z 0); now rewrite <- Zlt_Qlt).
  assert (Q2 : (0 < inject_Z q)%Q) by (change 0%Q with (inject_Z 0); now rewrite <- Zlt_Qlt).
  assert (E : (inject_Z (k * q + r) / inject_Z q == inject_Z n / inject_Z p)%Q <-> (k * q + r) * p = n * q).
  { split; intros H.
    - apply inject_Z_injective. rewrite !inject_Z_mult.
      transitivity ((inject_Z (k * q + r) / inject_Z q) * (inject_Z p * inject_Z q))%Q; [field; lra|]. rewrite H. field. lra.
    - transitivity (inject_Z ((k * q + r) * p) / (inject_Z q * inject_Z p))%Q; [rewrite inject_Z_mult; field; lra|].
      rewrite H, inject_Z_mult. field. lra. }
  rewrite E, D. split; [intros H|intros [<-| ->]; lia].
  assert (r * (p - q) = 0) by lia. apply Z.mul_eq_0 in H0. lia.
Qed.
