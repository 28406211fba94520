(** Property C157: assigning to the value of a waypoint that was read from a timeline (WpvModel.v). *)
From Verif Require Import TlModel SerModel TimeSpec ValSpec TlSpec WpvModel TlProofs TlProofs2 TlProofs3 TlProofs4 ValProofs ValProofs2 WpvProofs.
From Verif Require Import MoreSpec TlProps MoreProps.
From Coq Require Import Lia.
Local Open Scope Z_scope.

(** The waypoints l, of which the one at q has the value m now. Its time and its interpolations are what they were. *)
Definition revalue_at (q : Q) (m : node) (l : list wp) : list wp :=
  map (fun w => if Qeq_bool (at_ w) q then mkW (w_time w) (w_before w) (w_after w) (w_cls w) m else w) l.

Lemma found_nth q l w : find_at q l = Some w -> exists i, nth_error l i = Some w /\ (at_ w == q)%Q.
Proof.
  unfold find_at. intros H. apply find_some in H as [H E]. apply Qeq_bool_iff in E. apply In_nth_error in H as (i & Hi). now exists i.
Qed.
Lemma revalue_same q p m l : (p == q)%Q -> map (fun x => if Qeq_bool (at_ x) p then revalued m x else x) l = revalue_at q m l.
Proof. intros E. apply map_ext. intros x. replace (Qeq_bool (at_ x) p) with (Qeq_bool (at_ x) q); [reflexivity|].
  apply Bool.eq_true_iff_eq. rewrite !Qeq_bool_iff. now rewrite E.
Qed.

(** C157: whatever is assigned to the value of the waypoint at a time, if it leaves a value of its type in the tag, then the value of this waypoint has changed,
    and nothing else: no time, no interpolation, no other waypoint. And if the setter leaves the tag as it was, then nothing has changed.
    What is missing: strings as times (C36_getting_refuted) and the letters x_y (refuted below). *)
Theorem C157_waypoint_partial :
  forall n cx f l k q w v m r, timeline_is n cx f l -> names cx f k q -> not_str k -> ~ mentions (s "x_y") n -> find_at q l = Some w ->
  set_value (w_cls w) (w_val w) v = (m, r) ->
  is_tag m = true -> is_animated m = false -> tag_name m = tag_name (w_val w) -> from_tag m = Ok (w_cls w) ->
  exists n', tl_assign n cx k v = (n', r) /\ tag_name n' = tag_name n /\ tag_attrs n' = tag_attrs n /\ timeline_is n' cx f (revalue_at q m l) /\ (m = w_val w -> n' = n).
Proof.
  intros n cx f l k q w v m r H Hk Hs Hx Hw Hm Tm Am Nm Cm. destruct (found_nth _ _ _ Hw) as (i & Hi & Ei).
  destruct (wp_assign_is n cx f l i w v m r H Hi Hm Tm Am Nm Cm) as (n' & E & E1 & E2 & E3). rewrite (revalue_same _ _ m l Ei) in E3.
  exists n'. unfold tl_assign. rewrite (proj2 (C28_x_y n cx f l k q H Hk Hs) Hx), Hw. repeat (split; [assumption|]). intros ->.
  rewrite (wp_assign_same n cx f l i w v r H Hi Hm) in E. congruence.
Qed.
Print Assumptions C157_waypoint_partial.

(** The same of the i-th waypoint of [timeline.values()], with no condition on letters. *)
Theorem C157_values :
  forall n cx f l i w v m r, timeline_is n cx f l -> nth_error l i = Some w ->
  set_value (w_cls w) (w_val w) v = (m, r) ->
  is_tag m = true -> is_animated m = false -> tag_name m = tag_name (w_val w) -> from_tag m = Ok (w_cls w) ->
  exists n', values_assign n cx i v = (n', r) /\ tag_name n' = tag_name n /\ tag_attrs n' = tag_attrs n /\ timeline_is n' cx f (revalue_at (at_ w) m l) /\ (m = w_val w -> n' = n).
Proof.
  intros n cx f l i w v m r H Hi Hm Tm Am Nm Cm.
  destruct (wp_assign_is n cx f l i w v m r H Hi Hm Tm Am Nm Cm) as (n' & E & E1 & E2 & E3). rewrite (revalue_same _ _ m l (Qeq_refl _)) in E3.
  exists n'. unfold values_assign. rewrite (proj1 (proj2 (proj2 H))), Hi. repeat (split; [assumption|]). intros ->.
  rewrite (wp_assign_same n cx f l i w v r H Hi Hm) in E. congruence.
Qed.
Print Assumptions C157_values.

Lemma set_value_plain c prior v m r : plain c -> is_animated prior = false -> is_tag prior = true -> tag_name prior = tag_name (empty_tag c) ->
  set_value c prior v = (m, r) -> is_tag m = true /\ tag_name m = tag_name prior /\ is_animated m = false.
Proof.
  intros Hc Ha Ht Hn H. assert (X : is_tag m = true /\ tag_name m = tag_name prior).
  { unfold plain in Hc. cbn [In] in Hc. destruct Hc as [<-|[<-|[<-|[<-|[<-|[<-|[<-|[<-|[]]]]]]]]]; cbn [set_value] in H;
      try (unfold simple_set in H; destruct (simple_str _ v); injection H as <- <-; split; assumption || reflexivity || (symmetry; exact Hn)).
    - unfold string_set in H. destruct (py_str v); injection H as <- <-; split; assumption || reflexivity.
    - unfold color_set in H. destruct (color_conv v); injection H as <- <-; split; assumption || reflexivity || (symmetry; exact Hn).
    - unfold vector_set in H. destruct (vector_members v); [|injection H as <- <-; split; assumption || reflexivity]. destruct (py_items v) as [[|]|].
      + destruct (vector_append _ _). injection H as <- <-. split; [reflexivity|symmetry; exact Hn].
      + injection H as <- <-. split; [reflexivity|symmetry; exact Hn].
      + destruct (vector_append _ _). injection H as <- <-. split; [reflexivity|symmetry; exact Hn]. }
  destruct X as [X1 X2]. split; [assumption|]. split; [assumption|]. unfold is_animated in *. now rewrite X2.
Qed.

(** Whatever assigning stores in a value that isn't animated, it stores in the waypoint: the value of the waypoint reads as x, and the rest is as it was.
    For all classes with a tag of their own, and all values that C15 to C25 say are stored. *)
Theorem C157_stores_partial :
  forall n cx f l k q w v x, timeline_is n cx f l -> names cx f k q -> not_str k -> ~ mentions (s "x_y") n -> find_at q l = Some w ->
  plain (w_cls w) -> has_type n (tag_name (empty_tag (w_cls w))) -> stores (w_cls w) (w_val w) v x ->
  exists n' m, tl_assign n cx k v = (n', Ok tt) /\ timeline_is n' cx f (revalue_at q m l) /\ get_value (w_cls w) m cx = Ok x.
Proof.
  intros n cx f l k q w v x H Hk Hs Hx Hw Hc Hty (m & Hm & G). destruct (G cx) as (G1 & G2 & _).
  pose proof (timeline_fits _ _ _ _ _ H Hty) as F. rewrite Forall_forall in F. destruct (found_nth _ _ _ Hw) as (i & Hi & _). apply nth_error_In in Hi.
  destruct (F w Hi) as (_ & _ & F1 & F2 & F3 & F4). destruct (set_value_plain _ _ _ _ _ Hc F1 F3 F2 Hm) as (M1 & M2 & M3).
  destruct (C157_waypoint_partial n cx f l k q w v m (Ok tt) H Hk Hs Hx Hw Hm M1 M3 M2 G2) as (n' & E & _ & _ & E3 & _). exists n', m. split; [exact E|]. split; [exact E3|exact G1].
Qed.
Print Assumptions C157_stores_partial.

(** What can't be assigned to a number, bool, time, text or colour raises an exception, and nothing has changed. *)
Theorem C157_errors :
  forall n cx f l i w v m e, timeline_is n cx f l -> nth_error l i = Some w -> In (w_cls w) [VReal; VInteger; VBool; VAngle; VTime; VString; VColor] ->
  set_value (w_cls w) (w_val w) v = (m, Err e) -> values_assign n cx i v = (n, Err e).
Proof.
  intros n cx f l i w v m e H Hi Hc Hm. unfold values_assign. rewrite (proj1 (proj2 (proj2 H))), Hi. apply (wp_assign_same n cx f l i w v _ H Hi). rewrite Hm. f_equal.
  cbn [In] in Hc. destruct Hc as [Hc|[Hc|[Hc|[Hc|[Hc|[Hc|[Hc|[]]]]]]]]; rewrite <- Hc in Hm; cbn [set_value] in Hm;
    try (unfold simple_set in Hm; destruct (simple_str _ v); [discriminate|]; now injection Hm).
  - unfold string_set in Hm. destruct (py_str v); [discriminate|]. now injection Hm.
  - unfold color_set in Hm. destruct (color_conv v); [discriminate|]. now injection Hm.
Qed.
Print Assumptions C157_errors.

(** There is no waypoint at this time: a KeyError, and nothing has changed. *)
Theorem C157_missing : forall n cx f l k q v, timeline_is n cx f l -> names cx f k q -> not_str k -> ~ mentions (s "x_y") n -> find_at q l = None -> tl_assign n cx k v = (n, Err KeyError).
Proof. intros n cx f l k q v H Hk Hs Hx Hw. unfold tl_assign. now rewrite (proj2 (C28_x_y n cx f l k q H Hk Hs) Hx), Hw. Qed.
Print Assumptions C157_missing.

(** A static value has no waypoints to assign to. *)
Theorem C157_static : forall n cx i v, is_animated n = false -> values_assign n cx i v = (n, Err IndexError).
Proof. intros n cx i v A. unfold values_assign, tl_values, waypoints, waypoint_tags. rewrite A. cbn [bind map]. now destruct i. Qed.
Print Assumptions C157_static.

(** C157: not for the letters x_y. *)
Theorem C157_x_y_refuted : exists n l w v m, timeline_is n doc (Some 24%Q) l /\ find_at 24 l = Some w /\ set_value (w_cls w) (w_val w) v = (m, Ok tt) /\ tl_assign n doc (KeyNum 24) v = (n, Err ValueError).
Proof.
  set (v := El (s "string") [] [Txt (s "x_y")]).
  exists (El (s "animated") [(s "type", AStr (s "string"))] [El (s "waypoint") [(s "time", AStr (s "1s")); (s "before", AStr (s "linear")); (s "after", AStr (s "linear"))] [v]]),
    [mkW (mkT 24 (Some 24%Q)) (s "linear") (s "linear") VString v], (mkW (mkT 24 (Some 24%Q)) (s "linear") (s "linear") VString v), (PStr (s "a")), (El (s "string") [] [Txt (s "a")]).
  split; [|split; [vm_compute; reflexivity|split; vm_compute; reflexivity]].
  split; [vm_compute; reflexivity|]. split; [vm_compute; reflexivity|]. split; [vm_compute; reflexivity|]. split; [vm_compute; reflexivity|]. split; [split; [intros ? []|exact I]|].
  constructor; [|constructor]. split; [reflexivity|]. vm_compute. discriminate.
Qed.
Print Assumptions C157_x_y_refuted.
(** Nor for types which aren't spelt in small letters: after assigning, the timeline can't be read any more. *)
Definition shouting : node :=
  El (s "animated") [(s "type", AStr (s "REAL"))]
    [El (s "waypoint") [(s "time", AStr (s "1s")); (s "before", AStr (s "linear")); (s "after", AStr (s "linear"))] [El (s "REAL") [(s "value", AStr (s "1"))] []]].
Theorem C157_spelling_refuted : exists l n', timeline_is shouting doc (Some 24%Q) l /\ length l = 1%nat /\ tl_assign shouting doc (KeyNum 24) (PInt 5) = (n', Ok tt) /\ tl_values n' doc = Err ValueError.
Proof.
  exists [mkW (mkT 24 (Some 24%Q)) (s "linear") (s "linear") VReal (El (s "REAL") [(s "value", AStr (s "1"))] [])]. eexists.
  split; [|split; [reflexivity|split; [vm_compute; reflexivity|vm_compute; reflexivity]]].
  split; [vm_compute; reflexivity|]. split; [vm_compute; reflexivity|]. split; [vm_compute; reflexivity|]. split; [vm_compute; reflexivity|]. split; [split; [intros ? []|exact I]|].
  constructor; [|constructor]. split; [reflexivity|]. vm_compute. discriminate.
Qed.
Print Assumptions C157_spelling_refuted.

Example C157_nonvacuous :
  timeline_is anim doc (Some 24%Q) [wpt 24 "3.0000000000"; wpt 48 "2.0000000000"] /\ ~ mentions (s "x_y") anim /\
  (exists n, tl_assign anim doc (KeyT (mkT 48 None)) (PFlo (1 # 2)) = (n, Ok tt) /\ tl_values n doc = Ok [wpt 24 "3.0000000000"; wpt 48 "0.5000000000"]) /\
  values_assign anim doc 0 (PStr (s "a")) = (anim, Err ValueError) /\
  stores VReal (w_val (wpt 48 "2.0000000000")) (PFlo (1 # 2)) (PFlo (1 # 2)).
Proof.
  split; [exact (proj1 example_timeline)|]. split.
  { intros H. apply str_contains_spec in H. vm_compute in H. discriminate. }
  split; [exists (fst (tl_assign anim doc (KeyT (mkT 48 None)) (PFlo (1 # 2)))); split; vm_compute; reflexivity|]. split; [vm_compute; reflexivity|].
  assert (E : round_dec 10 (1 # 2) = (1 # 2)%Q) by (vm_compute; reflexivity).
  exact (eq_ind _ (fun y => stores VReal (w_val (wpt 48 "2.0000000000")) (PFlo (1 # 2)) (PFlo y)) (real_stores (w_val (wpt 48 "2.0000000000")) (1 # 2)) _ E).
Qed.
