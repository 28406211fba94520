(** C32 and C33 without the condition that the new waypoints are at different times. *)
From Verif Require Import TlModel TimeSpec ValSpec TlSpec TlProofs TlProofs2 TlProofs4 TlProofs5 TlProps.
Local Open Scope Z_scope.

(** C33, for all lists of new waypoints. If no two of them are at the time of the same old waypoint: of several at one
    time the last one is there afterwards, and at all other times nothing has changed. *)
Theorem C33_last_one :
  forall c n cx f l ty par ws, timeline_is n cx f l -> has_type n ty -> is_animated n = true ->
  Forall (fun w => fps (w_time w) = f /\ (0 <= at_ w)%Q) ws -> Forall (fits ty) ws ->
  (forall o a w b v d, In o l -> ws = a ++ w :: b ++ v :: d -> (at_ w == at_ o)%Q -> ~ (at_ v == at_ o)%Q) ->
  exists n' l', tl_add c n cx par ws true = (n', Ok tt) /\ has_type n' ty /\ timeline_is n' cx f l' /\
    (forall a w b, ws = a ++ w :: b -> Forall (fun v => ~ (at_ v == at_ w)%Q) b -> find_at (at_ w) l' = Some w) /\
    (forall q, Forall (fun w => ~ (at_ w == q)%Q) ws -> find_at q l' = find_at q l).
Proof.
  intros c n cx f l ty par ws L T A Fr Fit S.
  destruct (add_many c n cx f l ty par ws true L T A Fr Fit S (or_introl eq_refl)) as (n' & E & T' & L').
  exists n', (put_all ws l). split; [assumption|]. split; [assumption|]. split; [assumption|]. apply put_all_finds. exact (timeline_order _ _ _ _ L).
Qed.
Print Assumptions C33_last_one.
(** C33: otherwise nothing changes, and there is a KeyError. *)
Theorem C33_key_error :
  forall c n cx f l par ws o a w b v d, timeline_is n cx f l -> Forall (fun w => fps (w_time w) = f) ws ->
  In o l -> ws = a ++ w :: b ++ v :: d -> (at_ w == at_ o)%Q -> (at_ v == at_ o)%Q ->
  tl_add c n cx par ws true = (n, Err KeyError).
Proof. exact add_twice. Qed.
Print Assumptions C33_key_error.
(** C32, for all lists of new waypoints. *)
Theorem C32_add_many :
  forall c n cx f l ty par ws, timeline_is n cx f l -> has_type n ty -> is_animated n = true ->
  Forall (fun w => fps (w_time w) = f /\ (0 <= at_ w)%Q) ws -> Forall (fits ty) ws ->
  Forall (fun w => find_at (at_ w) l = None) ws ->
  exists n' l', tl_add c n cx par ws false = (n', Ok tt) /\ has_type n' ty /\ timeline_is n' cx f l' /\
    (forall a w b, ws = a ++ w :: b -> Forall (fun v => ~ (at_ v == at_ w)%Q) b -> find_at (at_ w) l' = Some w) /\
    (forall q, Forall (fun w => ~ (at_ w == q)%Q) ws -> find_at q l' = find_at q l).
Proof.
  intros c n cx f l ty par ws L T A Fr Fit N.
  destruct (add_many c n cx f l ty par ws false L T A Fr Fit) as (n' & E & T' & L'); [|now right|].
  - intros o a w b v d I E X. rewrite E in N. apply Forall_app in N as [_ N]. inversion N as [|? ? N1 _]; subst.
    rewrite find_at_None in N1. exfalso. apply (N1 o I). now symmetry.
  - exists n', (put_all ws l). split; [assumption|]. split; [assumption|]. split; [assumption|]. apply put_all_finds. exact (timeline_order _ _ _ _ L).
Qed.
Print Assumptions C32_add_many.
Example C33_last_nonvacuous :
  let ws := [wpt 12 "5.0"; wpt 48 "1.0"; wpt 12 "6.0"] in
  Forall (fun w => fps (w_time w) = Some 24%Q /\ (0 <= at_ w)%Q) ws /\ Forall (fits (s "real")) ws /\
  tl_values (fst (tl_add VReal anim doc true ws true)) doc = Ok [wpt 12 "6.0"; wpt 24 "3.0000000000"; wpt 48 "1.0"] /\
  tl_values (fst (tl_add VReal anim doc true [wpt 12 "5.0"; wpt 12 "6.0"] false)) doc = Ok [wpt 12 "6.0"; wpt 24 "3.0000000000"; wpt 48 "2.0000000000"].
Proof.
  cbv zeta. split; [repeat constructor; discriminate|]. split; [repeat constructor; unfold interpolation; cbn [In]; auto 7; vm_compute; reflexivity|].
  split; vm_compute; reflexivity.
Qed.
