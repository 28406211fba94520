(** C167: changing the frame rate of an animation (animation.py, t.py, value/value.py). *)
From Coq Require Import Lia.
From Verif Require AnimProofs2 AnimProofs4.
From Verif Require Import TimeSpec TimeProofs TlModel TlSpec TlProofs TlProofs3 CtlSpec CtlProofs RatSpec RatProofs.
From Verif Require TlProps.
From Verif Require Import XpSpec SerModel SerProofs SavSpec SavProofs SavSpec2 SavProofs2 SavProofs3 SavProofs4 SavProps2 WrProofs2 WrProofs3 WrProofs4 WrProofs5 EndSpec.
From Verif Require Import XpSpec AnimModel AnimSpec AnimProofs3 AnimProofs5 AnimProps LayModel DocProofs DocProofs2 LaySpec LayProofs LayProofs2 LayProofs3 LayProofs4 LayProofs5 LayProofs6 LayProofs7 VarSpec VarProofs LoopModel MovSpec MovProofs MovProofs2 MovProps MixSpec MixProofs WrSpec ClsProofs PrmSpec PrmProofs PrmProofs2 PrmProofs3 PrmProps WldSpec WldProofs WldProofs2 WldProps EndProofs EndProofs2 EndProps PgmSpec PgmProofs PgmProps.
Local Open Scope Z_scope.

(** C167: [animation.fps = v] changes no layer, and everything in the document is read with the new rate afterwards. *)
Theorem C167_set : forall F w v q, usual F -> portrays F w -> py_float v = Ok q ->
  exists F', do_pact F (PAnim (s "fps") v) = (F', Ok tt) /\ usual F' /\ depicts F' (fst w) /\
    (forall r u, root_of F' r -> iuid r = 1%N -> inside u r -> ctx_of F' (iuid u) = Some (at_rate q (snd w))).
Proof.
  intros F w v q U P Hq. destruct (C160_program F w [PAnim (s "fps") v] [LpAnim (s "fps") v] U P) as (E & U' & P').
  { split; [|exact I]. split; [reflexivity|]. split; [reflexivity|]. vm_compute. reflexivity. }
  assert (A : list_pacts w [LpAnim (s "fps") v] = ((fst w, at_rate q (snd w)), [Ok tt])).
  { cbn [list_pacts list_pact]. unfold anim_assign. change (is_in (s "fps") int_names) with false. change (is_in (s "fps") float_names) with true. cbn iota. rewrite Hq. reflexivity. }
  rewrite A in *. cbn [fst snd] in *. cbn [pacts] in *. destruct (do_pact F (PAnim (s "fps") v)) as [F' r'] eqn:D. cbn [fst snd] in *. injection E as ->.
  exists F'. split; [reflexivity|]. split; [exact U'|]. split; [exact (proj1 P')|]. intros r u Hr Eu Hu. exact (C160_times F' _ r u U' P' Hr Eu Hu).
Qed.
Print Assumptions C167_set.

(** C167: a time that was read from the file, as whole hours, minutes, seconds and frames, means these at the new rate. *)
Theorem C167_texts : forall l trail q a, wf_spec l trail -> 0 < q -> small q l -> seconds_of l = 0 \/ 0 <= amount UF l ->
  T_init (TStr (write l trail)) (Some (at_rate (inject_Z q) a)) = Ok (mkT (inject_Z (frames_of q l)) (Some (inject_Z q))).
Proof. intros l trail q a H1 H2 H3 H4. apply T_spec_value; try assumption. apply at_rate_fps. Qed.
Print Assumptions C167_texts.

(** C167: the waypoints that were set (by any history, of a value that was static at first) stay at the same frames. *)
Theorem C167_assigned : forall c n a f ty os l q, is_animated n = false -> is_tag n = true -> tag_name n = ty -> ctx_fps (Some a) = Ok f ->
  ops_mean c (Some a) f ty os [] l -> (0 < q)%Q ->
  timeline_is (run_ops c (Some a) n os) (Some (at_rate q a)) (Some q) (map (retimed (Some q)) l).
Proof.
  intros c n a f ty os l q Ha Ht Hn Hf Ho Hq.
  assert (Hg : ctx_fps (Some (at_rate q a)) = Ok (Some q)) by (apply ctx_fps_at; [apply at_rate_fps|assumption]).
  destruct (history_written c n _ f ty os l Ha Ht Hn Hf Ho) as (L & T & W & S). destruct (is_animated (run_ops c (Some a) n os)) eqn:A.
  - pose proof L as (_ & _ & _ & _ & O & Fo). apply (stored_other _ _ f _ ty); try assumption; [now apply W|]. eapply timeline_fits; eassumption.
  - rewrite (S eq_refl). apply static_timeline; try assumption. apply L.
Qed.
Print Assumptions C167_assigned.

(** C167: but what is saved is the time they had as seconds and frames at the old rate, whether the rate
    is changed before it is saved or after the file is loaded. *)
Theorem C167_saved : forall c n a p ty os l l' q, is_animated n = false -> is_tag n = true -> tag_name n = ty ->
  ctx_fps (Some a) = Ok (Some (inject_Z p)) -> ops_mean c (Some a) (Some (inject_Z p)) ty os [] l ->
  0 < p <= 10 ^ 6 -> 0 < q -> p <= q \/ in_order l' -> Forall (fun w => attrs_distinct (w_val w)) l ->
  Forall2 (comes_back p q) l l' -> Forall (fun w => at_ w <= inject_Z (2 ^ 53))%Q l' ->
  timeline_is (reload (run_ops c (Some a) n os)) (Some (at_rate (inject_Z q) a)) (Some (inject_Z q)) l'.
Proof.
  intros c n a p ty os l l' q Ha Ht Hn Hf Ho Hp Hq Hor Hd HB Hs.
  assert (Hq' : (0 < inject_Z q)%Q) by (change 0%Q with (inject_Z 0); now rewrite <- Zlt_Qlt).
  destruct (history_written c n _ _ ty os l Ha Ht Hn Hf Ho) as (L & T & W & S). destruct (is_animated (run_ops c (Some a) n os)) eqn:A.
  - pose proof L as (_ & _ & _ & _ & O & Fo). destruct (W eq_refl) as [W1 W2].
    apply (saved_back _ _ p q ty l l'); try assumption.
    + apply at_rate_fps.
    + destruct Hor as [Hor|Hor]; [|assumption]. eapply back_order; [|exact HB|exact O]. lia.
    + eapply Forall_impl; [|exact Fo]. cbn. tauto.
    + eapply timeline_fits; eassumption.
  - rewrite (S eq_refl) in HB. inversion HB. apply static_timeline.
    + rewrite reload_is_tag. apply L.
    + apply ctx_fps_at; [apply at_rate_fps|assumption].
    + now rewrite is_animated_reload.
Qed.
Print Assumptions C167_saved.

(** C167: so that where a waypoint is before saving is where it is afterwards only in the first second (or if the rate is the same); and it keeps its
    seconds only if these were whole. *)
Theorem C167_refuted : forall p q w w' k, comes_back p q w w' -> at_frame w k -> 0 < p -> 0 < q ->
  ((at_ w' == at_ (retimed (Some (inject_Z q)) w))%Q <-> p = q \/ k < p) /\
  ((at_ w' / inject_Z q == at_ w / inject_Z p)%Q <-> p = q \/ k mod p = 0).
Proof.
  intros p q w w' k [k' [E' H']] [E H] Hp Hq. rewrite E in E'. injection E' as E'. subst k'. split.
  - unfold at_ at 1 2, retimed. cbn [w_time frames]. rewrite E. rewrite inject_Z_injective. apply spelt_iff; lia.
  - unfold at_ at 1. cbn [w_time frames]. rewrite E. apply spelt_seconds; lia.
Qed.
Print Assumptions C167_refuted.

(** The hypotheses of C167 are met: a new animation; and a number that moves, at 24 and then at 30 frames per second. *)
Definition r24 : attrs := [(s "fps", AStr (s "24")); (s "begin-time", AStr (s "0f")); (s "end-time", AStr (s "5s"))].
Definition rops : list op := [OSet (KeyNum 48) (AWp (TlProps.wpt 0 "2.0000000000")); OSet (KeyStr (s "1s")) (AVal (PFlo 3)); ODel (KeyNum 47)].
Definition rwps : list wp := [TlProps.wpt 24 "3.0000000000"; TlProps.wpt 48 "2.0000000000"].
Example C167_set_nonvacuous : usual (doc_forest xblank) /\ portrays (doc_forest xblank) pworld0 /\ py_float (PInt 12) = Ok 12%Q.
Proof. split; [exact eforest_usual|]. split; [split; [exact eforest_depicts|eexists; split; vm_compute; reflexivity]|]. vm_compute. reflexivity. Qed.
Example C167_nonvacuous : exists l',
  is_animated TlProps.one = false /\ tag_name TlProps.one = s "real" /\ ctx_fps (Some r24) = Ok (Some 24%Q) /\
  ops_mean VReal (Some r24) (Some 24%Q) (s "real") rops [] rwps /\ Forall (fun w => attrs_distinct (w_val w)) rwps /\
  Forall2 (comes_back 24 30) rwps l' /\ Forall (fun w => at_ w <= inject_Z (2 ^ 53))%Q l' /\
  map at_ (map (retimed (Some 30%Q)) rwps) = [24; 48]%Q /\ map at_ l' = [30; 60]%Q.
Proof.
  eexists. split; [reflexivity|]. split; [reflexivity|]. split; [vm_compute; reflexivity|].
  split; [exact TlProps.C29_histories_nonvacuous|].
  assert (D : forall x y, attrs_distinct (El x [(s "value", y)] [])) by (intros; repeat constructor; intros []).
  split; [repeat (constructor; [apply D|]); constructor|].
  split.
  { constructor; [apply (comes_back_at 24 30 _ 24); split; [reflexivity|lia]|].
    constructor; [apply (comes_back_at 24 30 _ 48); split; [reflexivity|lia]|]. constructor. }
  split; [repeat (constructor; [vm_compute; discriminate|]); constructor|]. split; reflexivity.
Qed.
