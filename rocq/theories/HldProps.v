(** Property C169: waypoints that are held while the timeline changes (HldModel.v). *)
From Verif Require Import TlModel SerModel TimeSpec ValSpec TlSpec WpvModel TlProofs TlProofs2 TlProofs3 TlProofs4 WpvProofs HldModel HldSpec HldProofs TlProps.
From Coq Require Import Lia.

Definition nothing_held : holds := fun _ => None.
Definition no_handles : handles := fun _ => None.

(** Programs that get waypoints, assign to their values, times and interpolations, put them back and change the timeline, in any order: the timeline and
    the held waypoints are as HldSpec.v has them. A waypoint's value is that in the document until the timeline is written the next time; from then on it is the
    waypoint's own.
    What is missing: as in C28 and C157. *)
Theorem C169_histories_partial : forall c cx f ty n l acts l' hs' rs, timeline_is n cx f l -> has_type n ty ->
  acts_mean c cx f ty acts (l, no_handles) (l', hs') rs ->
  exists st', hsteps c cx (n, nothing_held) acts = (st', rs) /\ seen cx f st' (l', hs') /\ has_type (fst st') ty.
Proof.
  intros c cx f ty n l acts l' hs' rs H T M. destruct (steps_refine _ _ _ _ _ _ _ _ M (n, nothing_held)) as (st' & E & R).
  - split; [exact H|]. split; [exact T|]. intros j. exact I.
  - exists st'. split; [exact E|]. split; [now apply (rel_seen _ _ ty)|apply R].
Qed.
Print Assumptions C169_histories_partial.

(** An assignment to the value of a held waypoint is in the document, and in every other waypoint that was got from the same time, if the timeline hasn't been
    written in between. *)
Theorem C169_shared_partial : forall c cx f ty n l i w j j' v m r, timeline_is n cx f l -> has_type n ty -> nth_error l i = Some w -> j <> j' ->
  set_value (w_cls w) (w_val w) v = (m, r) -> fits ty (with_val m w) ->
  exists n' hs', hsteps c cx (n, nothing_held) [HNth j i; HNth j' i; HVal j v] = ((n', hs'), [Ok tt; Ok tt; r]) /\
    timeline_is n' cx f (revalue (at_ w) m l) /\ option_map (current n') (hs' j) = Some (with_val m w) /\ option_map (current n') (hs' j') = Some (with_val m w).
Proof.
  intros c cx f ty n l i w j j' v m r H T Hi D Hm F. pose proof H as (_ & _ & _ & _ & Ho & _).
  pose proof (found l i w (at_ w) Ho Hi eq_refl) as Fw.
  destruct (C169_histories_partial c cx f ty n l [HNth j i; HNth j' i; HVal j v] (revalue (at_ w) m l)
    (put_handle (put_handle no_handles j (w, Some (at_ w))) j' (w, Some (at_ w))) [Ok tt; Ok tt; r] H T) as ([n' hs'] & E & [S1 S2] & _).
  - eapply acts_cons; [apply means_nth; exact Hi|]. eapply acts_cons; [apply means_nth; exact Hi|]. eapply acts_cons; [|apply acts_nil].
    eapply means_val; [|exact Fw|exact Hm|exact F]. unfold put_handle. rewrite (proj2 (N.eqb_neq j j') D), N.eqb_refl. reflexivity.
  - exists n', hs'. split; [exact E|]. split; [exact S1|]. cbn [fst snd] in S2. rewrite !S2. unfold put_handle. rewrite (proj2 (N.eqb_neq j j') D), !N.eqb_refl. cbn [option_map].
    assert (G : find_at (at_ w) (revalue (at_ w) m l) = Some (with_val m w)).
    { apply find_at_In; [apply S1|]. split; [|reflexivity]. unfold revalue. apply in_map_iff. exists w. split; [|eapply nth_error_In, Hi].
      now rewrite (proj2 (Qeq_bool_iff (at_ w) (at_ w)) (Qeq_refl _)). }
    unfold is_now. cbn [snd fst]. rewrite G. split; reflexivity.
Qed.
Print Assumptions C169_shared_partial.

(** But assigning to its time or its interpolations changes nothing in the document, *)
Theorem C169_own_refuted : forall c cx n hs j x t,
  fst (fst (hstep c cx (n, hs) (HBefore j x))) = n /\ fst (fst (hstep c cx (n, hs) (HAfter j x))) = n /\ fst (fst (hstep c cx (n, hs) (HTime j t))) = n.
Proof.
  intros c cx n hs j x t. cbn [hstep]. unfold on_held, own. cbn [snd fst]. destruct (hs j) as [h|]; [|auto].
  split; [|split]; [destruct (set_before _ _)|destruct (set_after _ _)|]; reflexivity.
Qed.
Print Assumptions C169_own_refuted.

(** until the waypoint is put back: the interpolation is then in the document. *)
Theorem C169_put_back_partial : forall c cx f ty n l i w j x w' k, timeline_is n cx f l -> has_type n ty -> nth_error l i = Some w ->
  set_before w x = Ok w' -> names cx f k (at_ w) ->
  exists n' hs', hsteps c cx (n, nothing_held) [HNth j i; HBefore j x; HPut k j] = ((n', hs'), [Ok tt; Ok tt; Ok tt]) /\
    timeline_is n' cx f (put_wp w' l) /\ find_at (at_ w) (put_wp w' l) = Some w' /\ w_before w' <> s "undefined" /\ option_map (current n') (hs' j) = Some w'.
Proof.
  intros c cx f ty n l i w j x w' k H T Hi Hb Hk. pose proof H as (_ & _ & _ & _ & Ho & Hq).
  pose proof (found l i w (at_ w) Ho Hi eq_refl) as Fw.
  pose proof (timeline_fits _ _ _ _ _ H T) as FF. rewrite Forall_forall in FF. pose proof (FF w (nth_error_In _ _ Hi)) as Fit.
  rewrite Forall_forall in Hq. destruct (Hq w (nth_error_In _ _ Hi)) as [Q1 Q2].
  destruct (C35_setters_keep_names_canonical w x w' (proj1 Fit) (proj1 (proj2 Fit)) (or_introl Hb)) as [I1 I2].
  assert (Ew : w' = mkW (mkT (at_ w) f) (w_before w') (w_after w') (w_cls w) (w_val w)).
  { unfold set_before in Hb. destruct (check_interpolation x); [|discriminate]. injection Hb as <-. cbn [w_before w_after]. f_equal. unfold at_. rewrite <- Q1. now destruct (w_time w). }
  set (h1 := put_handle no_handles j (w, Some (at_ w))). set (h2 := put_handle h1 j (w', Some (at_ w))).
  assert (N : is_now l (w', Some (at_ w)) = w'). { unfold is_now. cbn [snd fst]. rewrite Fw. rewrite Ew. reflexivity. }
  assert (Rt : retime (mkT (at_ w) f) w' = w') by (rewrite Ew; reflexivity).
  destruct (C169_histories_partial c cx f ty n l [HNth j i; HBefore j x; HPut k j] (put_wp w' l) (all_loose l (put_handle h2 j (w', Some (at_ w)))) [Ok tt; Ok tt; Ok tt] H T)
    as ([n' hs'] & E & [S1 S2] & _).
  - eapply acts_cons; [apply means_nth; exact Hi|]. eapply acts_cons; [eapply means_before; [unfold put_handle; rewrite N.eqb_refl; reflexivity|exact Hb]|].
    eapply acts_cons; [|apply acts_nil]. fold h1 h2.
    pose proof (means_put c cx f ty k j (at_ w) l h2 w' (Some (at_ w))) as M. rewrite N, Rt in M. apply M.
    + unfold h2, put_handle. now rewrite N.eqb_refl.
    + exact Hk.
    + rewrite Ew. destruct Fit as (_ & _ & F3 & F4 & F5 & F6). repeat split; assumption.
  - exists n', hs'. split; [exact E|]. split; [exact S1|]. split; [apply find_put_same; [exact Ho|rewrite Ew; reflexivity]|].
    split; [intros X; rewrite X in I1; cbn [In] in I1; unfold interpolation in I1; cbn [In] in I1; decompose [or] I1; try easy; discriminate|].
    cbn [fst snd] in S2. rewrite S2. unfold all_loose, put_handle. rewrite N.eqb_refl. cbn [option_map]. rewrite N. reflexivity.
Qed.
Print Assumptions C169_put_back_partial.

(** Whenever the timeline is written, at whatever time, all the waypoints that are held are left behind: they keep the values of that moment, and whatever is
    assigned to them, the document never changes. *)
Theorem C169_left_behind_refuted : forall c cx n hs o n', run_op c cx n o = (n', Ok tt) -> exists hs', hstep c cx (n, hs) (HOp o) = ((n', hs'), Ok tt) /\
  (forall j, option_map (current n') (hs' j) = option_map (current n) (hs j)) /\
  forall acts, Forall on_waypoint acts -> fst (fst (hsteps c cx (n', hs') acts)) = n'.
Proof.
  intros c cx n hs o n' E. cbn [hstep]. rewrite E. cbn [was_cleared]. eexists. split; [reflexivity|]. split.
  - intros j. unfold loosen. destruct (hs j); reflexivity.
  - assert (G : forall acts hs1, (forall j h, hs1 j = Some h -> h_slot h = None) -> Forall on_waypoint acts -> fst (fst (hsteps c cx (n', hs1) acts)) = n').
    { induction acts as [|a acts IH]; intros hs1 L F; [reflexivity|]. inversion F as [|? ? Fa F']; subst. cbn [hsteps].
      assert (X : exists hs2 r, hstep c cx (n', hs1) a = ((n', hs2), r) /\ forall j h, hs2 j = Some h -> h_slot h = None).
      { assert (P : forall j x, h_slot x = None -> forall j' h, hset hs1 j x j' = Some h -> h_slot h = None).
        { intros j x Hx j' h. unfold hset. destruct (N.eqb j' j); [intros Y; injection Y as <-; exact Hx|apply L]. }
        destruct a as [| j v|j x|j x|j t| |]; try contradiction; cbn [hstep]; unfold on_held, own; cbn [snd fst];
          (destruct (hs1 j) as [h|] eqn:Ej; [|now exists hs1, (Err EUnmodelled)]); pose proof (L j h Ej) as Hh.
        - destruct (set_value _ _ v) as [m r]. rewrite Hh. eexists _, _. split; [reflexivity|]. now apply P.
        - destruct (set_before _ _); eexists _, _; (split; [reflexivity|]); [now apply P|exact L].
        - destruct (set_after _ _); eexists _, _; (split; [reflexivity|]); [now apply P|exact L].
        - eexists _, _. split; [reflexivity|]. now apply P. }
      destruct X as (hs2 & r & -> & L2). specialize (IH hs2 L2 F'). match goal with |- context [hsteps c cx ?st acts] => change (fst (fst (hsteps c cx st acts)) = n') in IH; destruct (hsteps c cx st acts) as [st2 rs] end. exact IH. }
    intros acts F. apply G; [|exact F]. intros j h. unfold loosen. destruct (hs j); [|discriminate]. intros Y. injection Y as <-. reflexivity.
Qed.
Print Assumptions C169_left_behind_refuted.

(** The waypoint at one second is got twice; 5 is assigned to its value; then something is set at two seconds, and 7 assigned. *)
Definition xacts : list hact := [HNth 0 0; HNth 1 0; HVal 0 (PFlo 5); HOp (OSet (KeyNum 96) (AVal (PFlo 1))); HVal 0 (PFlo 7)].
Example C169_nonvacuous : nth_error [wpt 24 "3.0000000000"; wpt 48 "2.0000000000"] 0 = Some (wpt 24 "3.0000000000") /\
  (exists m, set_value VReal (w_val (wpt 24 "3.0000000000")) (PFlo 5) = (m, Ok tt) /\ fits (s "real") (with_val m (wpt 24 "3.0000000000")) /\ m <> w_val (wpt 24 "3.0000000000")) /\
  (exists w', set_before (wpt 24 "3.0000000000") (s "linear") = Ok w' /\ w' <> wpt 24 "3.0000000000") /\ names doc (Some 24%Q) (KeyNum 24) (at_ (wpt 24 "3.0000000000")) /\
  snd (hsteps VReal doc (anim, nothing_held) xacts) = [Ok tt; Ok tt; Ok tt; Ok tt; Ok tt] /\
  tl_values (fst (fst (hsteps VReal doc (anim, nothing_held) xacts))) doc = Ok [wpt 24 "5.0000000000"; wpt 48 "2.0000000000"; wpt 96 "1.0000000000"] /\
  option_map (current (fst (fst (hsteps VReal doc (anim, nothing_held) xacts)))) (snd (fst (hsteps VReal doc (anim, nothing_held) xacts)) 0%N) = Some (wpt 24 "7.0000000000").
Proof.
  split; [reflexivity|]. split.
  { eexists. split; [vm_compute; reflexivity|]. split; [|discriminate]. split; [right; left; reflexivity|]. split; [right; left; reflexivity|].
    split; [reflexivity|]. split; [reflexivity|]. split; reflexivity. }
  split. { eexists. split; [vm_compute; reflexivity|]. intros E. apply (f_equal w_before) in E. vm_compute in E. discriminate E. }
  split. { apply names_num. vm_compute. discriminate. }
  split; [vm_compute; reflexivity|]. split; vm_compute; reflexivity.
Qed.
