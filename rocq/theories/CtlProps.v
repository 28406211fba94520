(** Property C166: a timeline assigned to another value (value/value.py). *)
From Verif Require Import TlModel SerModel TimeSpec ValSpec TlSpec TimeProofs TlProofs TlProofs2 TlProofs3 TlProofs4 TlProps CtlModel CtlSpec CtlProofs.
From Coq Require Import Lia Lqa.
Local Open Scope Z_scope.

(** Two documents: the one of TlProps at 24 frames a second, these at 12 and at 30. *)
Definition doc12 : ctx := Some [(s "fps", AStr (s "12")); (s "begin-time", AStr (s "0f")); (s "end-time", AStr (s "5s"))].
Definition doc30 : ctx := Some [(s "fps", AStr (s "30")); (s "begin-time", AStr (s "0f")); (s "end-time", AStr (s "5s"))].
Definition two_wps : list wp := [wpt 24 "3.0000000000"; wpt 48 "2.0000000000"].

(** C166: the value gets waypoints at the same frames, with the same values and interpolations,
    whatever it had before, whatever the rates of the two documents. *)
Theorem C166_copied :
  forall n cx f l ty m cy g par, timeline_is n cx f l -> l <> [] -> has_type n ty -> has_type m ty -> ctx_fps cy = Ok g ->
  exists m', tl_copy false n cx m cy par = (m', Ok tt) /\ has_type m' ty /\ is_animated m' = true /\
    timeline_is m' cy g (map (retimed g) l).
Proof.
  intros n cx f l ty m cy g par HL Hne Hn Hm Hg.
  destruct (copy_is n cx f l m cy g ty par HL Hne (timeline_fits _ _ _ _ _ HL Hn) Hm Hg) as (m' & E & (W & _) & T & L).
  exists m'. repeat (split; [assumption|]). assumption.
Qed.
Print Assumptions C166_copied.

(** C166: at the same rate it is the same timeline. *)
Theorem C166_same_rate :
  forall n cx f l ty m cy par, timeline_is n cx f l -> l <> [] -> has_type n ty -> has_type m ty -> ctx_fps cy = Ok f ->
  exists m', tl_copy false n cx m cy par = (m', Ok tt) /\ has_type m' ty /\ timeline_is m' cy f l.
Proof.
  intros n cx f l ty m cy par HL Hne Hn Hm Hg.
  destruct (C166_copied n cx f l ty m cy f par HL Hne Hn Hm Hg) as (m' & E & T & _ & L).
  rewrite retimed_same in L by apply HL. exists m'. now split.
Qed.
Print Assumptions C166_same_rate.

(** C166: assigning a value's timeline to the value itself, by the same object or by another one
    for the same tag, leaves it as it is. *)
Theorem C166_itself :
  forall same n cx f l ty par, timeline_is n cx f l -> has_type n ty -> l <> [] \/ is_animated n = false ->
  exists n', tl_copy same n cx n cx par = (n', Ok tt) /\ has_type n' ty /\ timeline_is n' cx f l.
Proof.
  intros same n cx f l ty par HL Hn Hc. destruct same; [exists n; now split|].
  destruct l as [|w l].
  - destruct Hc as [Hc|Hc]; [easy|]. exists n. split; [|now split]. pose proof HL as (_ & _ & V & _).
    unfold tl_copy. rewrite V. cbn [tl_assign set_waypoints]. unfold unanimate. now rewrite Hc.
  - apply (C166_same_rate n cx f (w :: l) ty n cx par HL ltac:(easy) Hn Hn). apply HL.
Qed.
Print Assumptions C166_itself.

(** C166: the timeline of a value which isn't animated makes the other one static too: it
    keeps the value of its own first waypoint. *)
Theorem C166_static :
  forall n cx m cy g w l ty, is_animated n = false ->
  timeline_is m cy g (w :: l) -> has_type m ty ->
  tl_copy false n cx m cy true = (w_val w, Ok tt).
Proof.
  intros n cx m cy g w l ty Ha HL Hm. unfold tl_copy, tl_values, waypoints, waypoint_tags. rewrite Ha. cbn [bind map].
  eapply C79_assigning_nothing; eassumption.
Qed.
Print Assumptions C166_static.
Theorem C166_both_static :
  forall n cx m cy par, is_animated n = false -> is_animated m = false -> tl_copy false n cx m cy par = (m, Ok tt).
Proof.
  intros n cx m cy par Ha Hm. unfold tl_copy, tl_values, waypoints, waypoint_tags. rewrite Ha. cbn [bind map tl_assign set_waypoints].
  unfold unanimate. now rewrite Hm.
Qed.
Print Assumptions C166_both_static.

(** C166: a value of another type doesn't refuse it, but has a timeline which can't be read afterwards. *)
Theorem C166_other_type_refuted :
  forall n cx f l ty m cy g ty' par, timeline_is n cx f l -> l <> [] -> has_type n ty -> has_type m ty' -> ty <> ty' -> ctx_fps cy = Ok g ->
  exists m', tl_copy false n cx m cy par = (m', Ok tt) /\ is_animated m' = true /\ tl_values m' cy = Err ValueError.
Proof. intros n cx f [|w l] ty m cy g ty' par HL Hne; [easy|]. eapply copy_bad; eassumption. Qed.
Print Assumptions C166_other_type_refuted.

(** C166: what is there after saving and loading is at the frames that the seconds and
    frames of the first document mean in the second one, when these are in order. *)
Theorem C166_saved :
  forall n cx l l' ty m cy p q par m',
  timeline_is n cx (Some (inject_Z p)) l -> l <> [] -> has_type n ty -> has_type m ty ->
  at_fps (inject_Z q) cy -> 0 < p <= 10 ^ 6 -> 0 < q ->
  is_animated m = false \/ attrs_distinct m -> Forall (fun w => attrs_distinct (w_val w)) l ->
  Forall2 (comes_back p q) l l' -> Forall (fun w => at_ w <= inject_Z (2 ^ 53))%Q l' ->
  p <= q \/ in_order l' ->
  tl_copy false n cx m cy par = (m', Ok tt) ->
  timeline_is (reload m') cy (Some (inject_Z q)) l'.
Proof.
  intros n cx l l' ty m cy p q par m' HL Hne Hn Hm Hc Hp Hq Hd Hdl HB Hsm Ho E.
  assert (Hg : ctx_fps cy = Ok (Some (inject_Z q))).
  { apply ctx_fps_at; [assumption|]. change 0%Q with (inject_Z 0). rewrite <- Zlt_Qlt. lia. }
  pose proof (timeline_fits _ _ _ _ _ HL Hn) as Hfit.
  destruct (copy_is n cx _ l m cy _ ty par HL Hne Hfit Hm Hg) as (m0 & E' & (W1 & W2 & W3) & T & _).
  rewrite E in E'. injection E' as <-. pose proof HL as (_ & _ & _ & _ & O & F).
  apply (saved_back m' cy p q ty l l'); try assumption.
  - now apply W3.
  - destruct Ho as [Ho|Ho]; [|assumption]. eapply back_order; [|exact HB|exact O]. lia.
  - eapply Forall_impl; [|exact F]. cbn. tauto.
Qed.
Print Assumptions C166_saved.

(** C166: so at the same rate the saved timeline is the one that was copied. *)
Theorem C166_saved_same_rate :
  forall n cx l ty m cy p par m',
  timeline_is n cx (Some (inject_Z p)) l -> l <> [] -> has_type n ty -> has_type m ty ->
  at_fps (inject_Z p) cy -> 0 < p <= 10 ^ 6 ->
  is_animated m = false \/ attrs_distinct m -> Forall (fun w => attrs_distinct (w_val w)) l ->
  Forall (fun w => exists k, at_frame w k) l ->
  tl_copy false n cx m cy par = (m', Ok tt) ->
  timeline_is (reload m') cy (Some (inject_Z p)) (map reload_wp l).
Proof.
  intros n cx l ty m cy p par m' HL Hne Hn Hm Hc Hp Hd Hdl Hw E.
  assert (HB : Forall2 (comes_back p p) l (map reload_wp l)).
  { pose proof HL as (_ & _ & _ & _ & _ & F). clear - Hw Hp F. induction Hw as [|w l [k Hk] _ IH]; [constructor|]. inversion F as [|? ? [F1 _] F2]; subst.
    cbn [map]. constructor; [|now apply IH]. destruct (comes_back_at p p w k Hk) as [k' Hk']. unfold reload_wp.
    destruct w as [[q0 f0] b a c v]. destruct Hk' as [Ek Hk']. unfold at_ in Ek. cbn [w_time frames fps w_before w_after w_cls w_val] in *. subst.
    pose proof (comes_back_at p p (mkW (mkT (inject_Z k') (Some (inject_Z p))) b a c v) k' (conj eq_refl Hk')) as C.
    rewrite spelt_same in C by lia. exact C. }
  eapply C166_saved; try eassumption; try lia.
  apply Forall_map. eapply Forall_impl; [|exact Hw]. intros w [k [Hk1 Hk2]]. change (at_ (reload_wp w)) with (at_ w). rewrite Hk1. rewrite <- Zle_Qle. lia.
Qed.
Print Assumptions C166_saved_same_rate.

(** C166: but between different rates every waypoint after the first second moves when it is saved. *)
Theorem C166_saved_refuted :
  forall p q w w' k, comes_back p q w w' -> at_frame w k -> 0 < p ->
  (at_ w' == at_ (retimed (Some (inject_Z q)) w))%Q <-> p = q \/ k < p.
Proof.
  intros p q w w' k [k' [E' H']] [E H] Hp. rewrite E in E'. injection E' as E'. subst k'.
  unfold at_ at 1 2, retimed. cbn [w_time frames]. rewrite E. rewrite inject_Z_injective. apply spelt_iff; lia.
Qed.
Print Assumptions C166_saved_refuted.

(** C166: and one waypoint can take the place of another. Of two, at 12 and at 24 frames of 24 a second, copied to
    a document at 12 a second, there are two until it is saved, and one afterwards. *)
Definition half_and_one : node :=
  with_at VReal (with_at VReal one (KeyNum 12) (PFlo 2)) (KeyStr (s "1s")) (PFlo 3).
Definition copied12 : node := fst (tl_copy false half_and_one doc one doc12 true).
Theorem C166_lost_refuted :
  timeline_is copied12 doc12 (Some 12%Q)
    (map (retimed (Some 12%Q)) [wpt 12 "2.0000000000"; wpt 24 "3.0000000000"]) /\
  (exists w, tl_values (reload copied12) doc12 = Ok [w] /\ at_ w = 12%Q).
Proof.
  split.
  - split; [vm_compute; reflexivity|]. split; [vm_compute; reflexivity|]. split; [vm_compute; reflexivity|]. split; [vm_compute; reflexivity|].
    split.
    + split; [|split; [|exact I]]; cbn [In map]; intros v Hv; [destruct Hv as [<-|[]]; reflexivity|destruct Hv].
    + repeat (constructor; [split; [reflexivity|vm_compute; discriminate]|]). constructor.
  - eexists. split; vm_compute; reflexivity.
Qed.
Print Assumptions C166_lost_refuted.

(** The hypotheses of C166 are met: the timeline of TlProps, from 24 to 30 frames a second. *)
Example C166_nonvacuous :
  timeline_is anim doc (Some 24%Q) two_wps /\ two_wps <> [] /\ has_type anim (s "real") /\ has_type one (s "real") /\
  ctx_fps doc30 = Ok (Some 30%Q) /\
  map at_ two_wps = [24; 48]%Q /\
  (exists l, tl_values (fst (tl_copy false anim doc one doc30 true)) doc30 = Ok l /\ map at_ l = [24; 48]%Q) /\
  (exists l, tl_values (reload (fst (tl_copy false anim doc one doc30 true))) doc30 = Ok l /\ map at_ l = [30; 60]%Q) /\
  (exists l, tl_values (fst (tl_copy false anim doc (fst (tl_copy false half_and_one doc one doc12 true)) doc12 true)) doc12 = Ok l
     /\ map at_ l = [24; 48]%Q).
Proof.
  split; [exact (proj1 example_timeline)|]. split; [discriminate|]. split; [exact (proj2 example_timeline)|].
  split; [split; reflexivity|]. split; [vm_compute; reflexivity|]. split; [reflexivity|].
  split; [eexists; split; vm_compute; reflexivity|]. split; [eexists; split; vm_compute; reflexivity|]. eexists; split; vm_compute; reflexivity.
Qed.
Example C166_saved_nonvacuous : exists l',
  at_fps (inject_Z 30) doc30 /\ attrs_distinct one /\ Forall (fun w => attrs_distinct (w_val w)) two_wps /\
  Forall2 (comes_back 24 30) two_wps l' /\ Forall (fun w => at_ w <= inject_Z (2 ^ 53))%Q l' /\
  map at_ l' = [30; 60]%Q.
Proof.
  eexists. split; [eexists; eexists; split; [reflexivity|split; [reflexivity|vm_compute; reflexivity]]|].
  assert (D : forall x y, attrs_distinct (El x [(s "value", y)] [])) by (intros; repeat constructor; intros []).
  split; [apply D|]. split; [repeat (constructor; [apply D|]); constructor|].
  split.
  { constructor; [apply (comes_back_at 24 30 _ 24); split; [reflexivity|lia]|].
    constructor; [apply (comes_back_at 24 30 _ 48); split; [reflexivity|lia]|]. constructor. }
  split; [repeat (constructor; [vm_compute; discriminate|]); constructor|]. reflexivity.
Qed.

(** ** C38, for times of another document *)

(** C38: a time at another speed as key of a timeline that has waypoints always clears it before it raises: all of them are lost. *)
Theorem C38_cleared_refuted :
  forall c n cx f l par t g x w, timeline_is n cx (Some f) l -> l <> [] -> fps t = Some g -> ~ (g == f)%Q -> ~ (frames t == 0)%Q ->
  new_waypoint c t x = Ok w ->
  exists n', tl_setitem c n cx par (KeyT t) x = (n', Err ValueError) /\ is_animated n' = true /\ tl_values n' cx = Ok [].
Proof.
  intros c n cx f l par t g x w H1 H2 H3 H4 H5 H6. destruct (foreign_set c n cx f l par t g x w H1 H2 H3 H4 H5 H6) as [E A].
  exists (with_kids n []). split; [exact E|]. now apply cleared.
Qed.
Print Assumptions C38_cleared_refuted.
(** C38: so does a list with times of different speeds; a static value is animated by it and has no value any more. *)
Theorem C38_mixed_list_refuted :
  forall n cx f g l w par, Forall (fun v => fps (w_time v) = Some f) l -> l <> [] -> fps (w_time w) = Some g -> ~ (g == f)%Q ->
  exists n', tl_assign n cx par (SList (l ++ [w])) = (n', Err ValueError) /\ is_animated n' = true /\ tl_values n' cx = Ok [].
Proof.
  intros n cx f g l w par H1 H2 H3 H4. eexists. split; [now apply (foreign_assigned n cx f g)|]. apply cleared.
  destruct (is_animated n) eqn:E; [exact E|reflexivity].
Qed.
Print Assumptions C38_mixed_list_refuted.
(** C38: the first waypoint of a timeline may have a time of any speed: it is at that frame of this document. *)
Theorem C38_first_waypoint :
  forall c n cx f ty par t g x w, timeline_is n cx (Some f) [] -> has_type n ty -> fps t = Some g -> (0 <= frames t)%Q ->
  new_waypoint c t x = Ok w -> fits ty w ->
  exists n', tl_setitem c n cx par (KeyT t) x = (n', Ok tt) /\ has_type n' ty /\ timeline_is n' cx (Some f) [retimed (Some f) w].
Proof. exact foreign_first. Qed.
Print Assumptions C38_first_waypoint.
Example C38_foreign_nonvacuous :
  (exists w, new_waypoint VReal (mkT 1 (Some 30%Q)) (AVal (PFlo 2)) = Ok w /\ fits (s "real") w) /\
  timeline_is anim doc (Some 24%Q) two_wps /\ two_wps <> [] /\ ~ (30 == 24)%Q /\ timeline_is one doc (Some 24%Q) [] /\ has_type one (s "real") /\
  Forall (fun v => fps (w_time v) = Some 24%Q) two_wps.
Proof.
  split.
  { eexists. split; [vm_compute; reflexivity|]. split; [right; left; reflexivity|]. split; [right; left; reflexivity|].
    split; [reflexivity|]. split; [reflexivity|]. split; [reflexivity|]. vm_compute. reflexivity. }
  split; [exact (proj1 example_timeline)|]. split; [discriminate|]. split; [discriminate|]. split.
  { split; [reflexivity|]. split; [vm_compute; reflexivity|]. split; [reflexivity|]. split; [reflexivity|]. split; [exact I|constructor]. }
  split; [split; reflexivity|]. repeat constructor.
Qed.
