(** Properties C28 to C39 and C76 to C80: timelines (value/value.py). *)
From Verif Require Import TlModel SerModel TimeSpec ValSpec TlSpec TlProofs TlProofs2 TlProofs3 TlProofs4.
From Coq Require Import Permutation Lia.
Local Open Scope Z_scope.

(** A document for the examples, 24 frames a second and five seconds long,
    and <real value="1.0"/>. *)
Definition doc : ctx := Some [(s "fps", AStr (s "24")); (s "begin-time", AStr (s "0f")); (s "end-time", AStr (s "5s"))].
Definition one : node := El (s "real") [(s "value", AStr (s "1.0"))] [].
(** It, with the value x set at the time k *)
Definition with_at (c : vcls) (n : node) (k : tkey) (x : pyval) : node := fst (tl_setitem c n doc true k (AVal x)).
(** Two and three, at 48 and 24 frames *)
Definition anim : node := with_at VReal (with_at VReal one (KeyNum 48) (PFlo 2)) (KeyStr (s "1s")) (PFlo 3).
Definition wpt (q : Q) (x : string) : wp :=
  mkW (mkT q (Some 24%Q)) (s "clamped") (s "clamped") VReal (El (s "real") [(s "value", AStr (s x))] []).

Example example_timeline : timeline_is anim doc (Some 24%Q) [wpt 24 "3.0000000000"; wpt 48 "2.0000000000"] /\ has_type anim (s "real").
Proof.
  split; [|split; vm_compute; reflexivity]. split; [vm_compute; reflexivity|]. split; [vm_compute; reflexivity|]. split; [vm_compute; reflexivity|]. split; [vm_compute; reflexivity|].
  split.
  - split; [intros v [<-|[]]; reflexivity|]. split; [intros v []|exact I].
  - repeat constructor; discriminate.
Qed.

(** C28: setting a time and then getting any time. [x] is a waypoint, a Value object or what the constructor
    of the class makes one from, and w the waypoint that means ([gives]).
    What is missing: times given as strings, times before zero, and
    timelines in which the letters x_y occur (see below). *)
Theorem C28_set_then_get_partial :
  forall c n cx f l ty par k q x w, timeline_is n cx f l -> has_type n ty ->
  names cx f k q -> gives c (mkT q f) x w -> fits ty w ->
  exists n', tl_setitem c n cx par k x = (n', Ok tt) /\ timeline_is n' cx f (put_wp w l) /\ has_type n' ty /\
    forall k' p, names cx f k' p -> not_str k' ->
      str_contains (s "x_y") n = false -> str_contains (s "x_y") n' = false ->
      ((p == q)%Q -> tl_getitem n' cx k' = Ok w) /\
      (~ (p == q)%Q -> tl_getitem n' cx k' = tl_getitem n cx k').
Proof. exact set_then_get. Qed.
Print Assumptions C28_set_then_get_partial.

Example C28_nonvacuous :
  str_contains (s "x_y") anim = false /\
  tl_getitem anim doc (KeyNum 24) = Ok (wpt 24 "3.0000000000") /\
  tl_getitem (with_at VReal anim (KeyStr (s "24f")) (PFlo (1#2))) doc (KeyNum 24) = Ok (wpt 24 "0.5000000000") /\
  tl_getitem (with_at VReal anim (KeyStr (s "24f")) (PFlo (1#2))) doc (KeyT (mkT 48 None)) = Ok (wpt 48 "2.0000000000").
Proof. vm_compute. repeat split. Qed.

(** C28: what the waypoint is when a plain Python value is assigned, and that it fits. *)
Theorem C28_values_fit :
  forall c v m t, In c [VReal; VInteger; VBool; VAngle; VTime; VString; VColor] -> (forall c' k cy, v <> PVal c' k cy) -> new_value c v = Ok m ->
  let w := mkW t (s "clamped") (s "clamped") c m in
  gives c t (AVal v) w /\ fits (tag_name (empty_tag c)) w.
Proof. intros c v m t H P N w. split; [now constructor|]. exact (new_value_fits c v m t H N). Qed.
Print Assumptions C28_values_fit.
Theorem C28_pairs_fit :
  forall x y m t, new_value VXY (PTuple [PFlo x; PFlo y]) = Ok m ->
  let w := mkW t (s "clamped") (s "clamped") VXY m in
  gives VXY t (AVal (PTuple [PFlo x; PFlo y])) w /\ fits (s "vector") w.
Proof. intros x y m t N w. split; [constructor; [discriminate|assumption]|]. exact (new_pair_fits x y m t N). Qed.
Print Assumptions C28_pairs_fit.
Example C28_values_nonvacuous :
  new_value VColor (PStr (s "#ff0000")) = Ok (El (s "color") [] [El (s "r") [] [Txt (s "1.000000")]; El (s "g") [] [Txt (s "0.000000")];
                                                             El (s "b") [] [Txt (s "0.000000")]; El (s "a") [] [Txt (s "1.000000")]])
  /\ exists m, new_value VXY (PTuple [PFlo 1; PFlo 2]) = Ok m.
Proof. split; [vm_compute; reflexivity|]. eexists. reflexivity. Qed.

(** C28: any history. The timeline behaves as a sorted list of waypoints with
    [put_wp], [without] and [put_all]; [op_means] says which. *)
Theorem C28_histories_partial :
  forall c n cx f l ty os l', timeline_is n cx f l -> has_type n ty -> ops_mean c cx f ty os l l' ->
  timeline_is (run_ops c cx n os) cx f l' /\ has_type (run_ops c cx n os) ty.
Proof. intros c n cx f l ty os l' A B C. destruct (history_refines c n cx f l ty os l' A B C) as (X & Y & _). auto. Qed.
Print Assumptions C28_histories_partial.

(** C28: the abstract operations are those of a map. *)
Theorem C28_the_abstract_map :
  forall w l q, in_order l ->
  in_order (put_wp w l) /\ in_order (without q l) /\
  find_at (at_ w) (put_wp w l) = Some w /\ (forall p, ~ (at_ w == p)%Q -> find_at p (put_wp w l) = find_at p l) /\
  find_at q (without q l) = None /\ (forall p, ~ (p == q)%Q -> find_at p (without q l) = find_at p l).
Proof. exact abstract_map. Qed.
Print Assumptions C28_the_abstract_map.

(** C28: a string with the letters x_y in it makes every lookup fail. *)
Theorem C28_letters_refuted :
  exists n n', tl_setitem VString n doc true (KeyNum 0) (AVal (PStr (s "max_y"))) = (n', Ok tt) /\
    is_tag n = true /\ tag_name n = s "string" /\
    (exists w, tl_values n' doc = Ok [w]) /\ tl_getitem n' doc (KeyNum 0) = Err ValueError.
Proof.
  exists (El (s "string") [] [Txt (s "a")]), (fst (tl_setitem VString (El (s "string") [] [Txt (s "a")]) doc true (KeyNum 0) (AVal (PStr (s "max_y"))))).
  split; [vm_compute; reflexivity|]. split; [reflexivity|]. split; [reflexivity|]. split; [|vm_compute; reflexivity].
  exists (mkW (mkT 0 (Some 24%Q)) (s "clamped") (s "clamped") VString (El (s "string") [] [Txt (s "max_y")])). vm_compute. reflexivity.
Qed.
Print Assumptions C28_letters_refuted.

(** C28: when the waypoints in a file are not in order of time, a waypoint that is listed is not found. *)
Theorem C28_unsorted_files_refuted :
  exists n w, In w [wpt 48 "2.0000000000"; wpt 24 "3.0000000000"] /\ tl_values n doc = Ok [wpt 48 "2.0000000000"; wpt 24 "3.0000000000"] /\
    tl_getitem n doc (KeyT (w_time w)) = Err KeyError.
Proof.
  exists (El (s "animated") [(s "type", AStr (s "real"))] [wp_tag (wpt 48 "2.0000000000"); wp_tag (wpt 24 "3.0000000000")]), (wpt 24 "3.0000000000").
  split; [right; left; reflexivity|]. split; vm_compute; reflexivity.
Qed.
Print Assumptions C28_unsorted_files_refuted.

(** C28: assigning an empty tuple is accepted, and then the timeline can't be read. *)
Theorem C28_empty_vectors_refuted :
  exists n n', tl_setitem VXY n doc true (KeyNum 0) (AVal (PTuple [])) = (n', Ok tt) /\ from_tag n = Ok VXY /\ get_value VXY n doc = Ok (PDict [(s "x", PStr (s "1")); (s "y", PStr (s "2"))]) /\
    exists e, tl_values n' doc = Err e.
Proof.
  pose (n := El (s "vector") [] [El (s "x") [] [Txt (s "1")]; El (s "y") [] [Txt (s "2")]]).
  exists n, (fst (tl_setitem VXY n doc true (KeyNum 0) (AVal (PTuple [])))).
  split; [vm_compute; reflexivity|]. split; [vm_compute; reflexivity|]. split; [vm_compute; reflexivity|]. exists TypeError. vm_compute. reflexivity.
Qed.
Print Assumptions C28_empty_vectors_refuted.

(** C29: setting a time makes any readable timeline sorted and unique, whatever order it was in. *)
Theorem C29_setting_sorts :
  forall c n cx f ty par k q x w l, is_tag n = true -> tl_values n cx = Ok l -> ctx_fps cx = Ok f ->
  Forall (fun w => (0 <= at_ w)%Q) l ->
  has_type n ty -> names cx f k q -> gives c (mkT q f) x w -> fits ty w ->
  exists n' l', tl_setitem c n cx par k x = (n', Ok tt) /\ child_tags n' = map wp_tag l' /\ in_order l' /\
    forall v, In v l' <-> v = w \/ In v l /\ ~ (at_ v == at_ w)%Q.
Proof. exact setting_sorts. Qed.
Print Assumptions C29_setting_sorts.
Example C29_nonvacuous :
  tl_values (El (s "animated") [(s "type", AStr (s "real"))] [wp_tag (wpt 48 "2.0000000000"); wp_tag (wpt 24 "3.0000000000")]) doc
    = Ok [wpt 48 "2.0000000000"; wpt 24 "3.0000000000"].
Proof. vm_compute. reflexivity. Qed.

(** C29: after any history of edits of a value that was static at first, the
    waypoints in the XML are strictly increasing in time. *)
Theorem C29_histories_partial :
  forall c n cx f ty os l', is_animated n = false -> is_tag n = true -> tag_name n = ty -> ctx_fps cx = Ok f ->
  ops_mean c cx f ty os [] l' ->
  in_order l' /\ (is_animated (run_ops c cx n os) = true -> child_tags (run_ops c cx n os) = map wp_tag l').
Proof. exact history_sorted. Qed.
Print Assumptions C29_histories_partial.
Example C29_histories_nonvacuous :
  ops_mean VReal doc (Some 24%Q) (s "real") [OSet (KeyNum 48) (AWp (wpt 0 "2.0000000000")); OSet (KeyStr (s "1s")) (AVal (PFlo 3)); ODel (KeyNum 47)]
    [] [wpt 24 "3.0000000000"; wpt 48 "2.0000000000"].
Proof.
  eapply mean_cons; [apply (means_set _ _ _ _ _ _ 48%Q (wpt 48 "2.0000000000"))|].
  - constructor. discriminate.
  - constructor.
  - repeat split; unfold interpolation; cbn [In]; tauto || (vm_compute; reflexivity).
  - eapply mean_cons; [apply (means_set _ _ _ _ _ _ 24%Q (wpt 24 "3.0000000000"))|].
    + constructor; [vm_compute; reflexivity|discriminate].
    + constructor; [discriminate|vm_compute; reflexivity].
    + repeat split; unfold interpolation; cbn [In]; tauto || (vm_compute; reflexivity).
    + eapply mean_cons; [apply (means_del_missing _ _ _ _ _ 47%Q)|].
      * constructor. discriminate.
      * vm_compute. reflexivity.
      * vm_compute. constructor.
Qed.

(** C29: but a list assigned as a whole may name a time twice. *)
Theorem C29_duplicates_refuted :
  exists n', tl_assign one doc true (SList [wpt 24 "1.0"; wpt 24 "2.0"]) = (n', Ok tt) /\
    child_tags n' = [wp_tag (wpt 24 "1.0"); wp_tag (wpt 24 "2.0")].
Proof. exists (fst (tl_assign one doc true (SList [wpt 24 "1.0"; wpt 24 "2.0"]))). split; vm_compute; reflexivity. Qed.
Print Assumptions C29_duplicates_refuted.

(** C30 *)
Theorem C30_delete_removes_exactly_it :
  forall n cx f k q l ty w, timeline_is n cx f l -> has_type n ty -> names cx f k q -> find_at q l = Some w ->
  exists n', tl_delitem n cx true k = (n', Ok tt) /\ has_type n' ty /\ timeline_is n' cx f (without q l).
Proof. intros n cx f k q l ty w A B C D. destruct (del_is n cx f k q l ty w A B C D) as (n' & X & Y & Z & _). eauto. Qed.
Print Assumptions C30_delete_removes_exactly_it.
Theorem C30_missing_changes_nothing :
  forall n cx f k q l par, timeline_is n cx f l -> names cx f k q -> find_at q l = None ->
  tl_delitem n cx par k = (n, Err KeyError).
Proof. exact del_missing. Qed.
Print Assumptions C30_missing_changes_nothing.
Example C30_nonvacuous :
  find_at 24 [wpt 24 "3.0000000000"; wpt 48 "2.0000000000"] = Some (wpt 24 "3.0000000000") /\
  tl_delitem anim doc true (KeyNum 24) = (with_at VReal one (KeyNum 48) (PFlo 2), Ok tt) /\
  snd (tl_delitem anim doc true (KeyNum 25)) = Err KeyError.
Proof. vm_compute. repeat split. Qed.

(** C31: of a value in a document *)
Theorem C31_deleting_the_last :
  forall n cx f k q w, timeline_is n cx f [w] -> names cx f k q -> (at_ w == q)%Q ->
  tl_delitem n cx true k = (w_val w, Ok tt) /\
  (forall ty, has_type n ty -> is_animated (w_val w) = false /\ from_tag (w_val w) = Ok (w_cls w) /\ tag_name (w_val w) = ty).
Proof. exact deleting_the_last. Qed.
Print Assumptions C31_deleting_the_last.
Example C31_nonvacuous :
  fst (tl_delitem (with_at VReal one (KeyNum 48) (PFlo 2)) doc true (KeyStr (s "2s"))) = w_val (wpt 48 "2.0000000000").
Proof. vm_compute. reflexivity. Qed.
(** C31: a value in no document: it raises, and the waypoint is lost. *)
Theorem C31_detached_refuted :
  forall n cx f k q w, timeline_is n cx f [w] -> names cx f k q -> (at_ w == q)%Q ->
  tl_delitem n cx false k = (with_kids n [], Err ValueError).
Proof. intros n cx f k q w A B C. now rewrite (del_last n cx f k q w false A B C). Qed.
Print Assumptions C31_detached_refuted.

(** C32: an animated value *)
Theorem C32_add_keeps_all :
  forall c n cx f l ty par ws, timeline_is n cx f l -> has_type n ty -> is_animated n = true -> fresh f ws -> Forall (fits ty) ws ->
  Forall (fun w => find_at (at_ w) l = None) ws ->
  exists n' l', tl_add c n cx par ws false = (n', Ok tt) /\ has_type n' ty /\ timeline_is n' cx f l' /\
    forall v, In v l' <-> In v l \/ In v ws.
Proof. exact add_keeps_all. Qed.
Print Assumptions C32_add_keeps_all.
Theorem C32_clash_changes_nothing :
  forall c n cx f l par ws, timeline_is n cx f l -> fresh f ws ->
  ~ Forall (fun w => find_at (at_ w) l = None) ws -> tl_add c n cx par ws false = (n, Err ValueError).
Proof. exact add_clash. Qed.
Print Assumptions C32_clash_changes_nothing.
(** C32: a static value becomes animated; the value it had, which the timeline of a static value doesn't show, is gone. *)
Theorem C32_add_to_static_value :
  forall c n cx f v m par ws ow, is_animated n = false -> is_tag n = true -> tag_name n = tag_name (empty_tag c) -> ctx_fps cx = Ok f ->
  get_value c n cx = Ok v -> (forall c' k cy, v <> PVal c' k cy) -> new_value c v = Ok m -> from_tag m = Ok c -> tag_name m = tag_name (empty_tag c) -> is_tag m = true ->
  fresh f ws -> Forall (fits (tag_name n)) ws ->
  exists n' l', tl_add c n cx par ws ow = (n', Ok tt) /\ is_animated n' = true /\ has_type n' (tag_name n) /\ timeline_is n' cx f l' /\
    forall w, In w l' <-> In w ws.
Proof. exact add_to_static. Qed.
Print Assumptions C32_add_to_static_value.
Example C32_nonvacuous :
  fresh (Some 24%Q) [wpt 36 "1.0"; wpt 12 "5.0"] /\ Forall (fits (s "real")) [wpt 36 "1.0"; wpt 12 "5.0"] /\
  Forall (fun w => find_at (at_ w) [wpt 24 "3.0000000000"; wpt 48 "2.0000000000"] = None) [wpt 36 "1.0"; wpt 12 "5.0"] /\
  tl_values (fst (tl_add VReal anim doc true [wpt 36 "1.0"; wpt 12 "5.0"] false)) doc
    = Ok [wpt 12 "5.0"; wpt 24 "3.0000000000"; wpt 36 "1.0"; wpt 48 "2.0000000000"] /\
  snd (tl_add VReal anim doc true [wpt 36 "1.0"; wpt 48 "5.0"] false) = Err ValueError /\
  tl_values (fst (tl_add VReal one doc true [wpt 36 "1.0"; wpt 12 "5.0"] false)) doc = Ok [wpt 12 "5.0"; wpt 36 "1.0"].
Proof.
  split.
  { split; [repeat constructor; discriminate|]. repeat constructor. intros X. discriminate X. }
  split.
  { repeat constructor; unfold interpolation; cbn [In]; auto 7; vm_compute; reflexivity. }
  split; [repeat constructor|]. split; [vm_compute; reflexivity|]. split; vm_compute; reflexivity.
Qed.
(** C32: adding nothing to a static value leaves it animated, with no value at any time. *)
Theorem C32_adding_nothing_refuted :
  exists n', tl_add VReal one doc true [] false = (n', Ok tt) /\ get_value VReal one doc = Ok (PFlo 1) /\
    is_animated n' = true /\ tl_values n' doc = Ok [].
Proof. exists (fst (tl_add VReal one doc true [] false)). repeat split; vm_compute; reflexivity. Qed.
Print Assumptions C32_adding_nothing_refuted.

(** C33 *)
Theorem C33_overwriting :
  forall c n cx f l ty par ws, timeline_is n cx f l -> has_type n ty -> is_animated n = true -> fresh f ws -> Forall (fits ty) ws ->
  exists n' l', tl_add c n cx par ws true = (n', Ok tt) /\ has_type n' ty /\ timeline_is n' cx f l' /\
    (forall w, In w ws -> find_at (at_ w) l' = Some w) /\
    (forall q, Forall (fun w => ~ (at_ w == q)%Q) ws -> find_at q l' = find_at q l).
Proof. exact add_overwrites. Qed.
Print Assumptions C33_overwriting.
Example C33_nonvacuous :
  tl_values (fst (tl_add VReal anim doc true [wpt 48 "1.0"; wpt 12 "5.0"] true)) doc
    = Ok [wpt 12 "5.0"; wpt 24 "3.0000000000"; wpt 48 "1.0"].
Proof. vm_compute. reflexivity. Qed.
(** C33: two new waypoints at the time of an old one: KeyError. *)
Theorem C33_same_time_twice_refuted :
  tl_add VReal anim doc true [wpt 24 "7.0"; wpt 24 "8.0"] true = (anim, Err KeyError).
Proof. vm_compute. reflexivity. Qed.
Print Assumptions C33_same_time_twice_refuted.

(** C34: for values which the constructor of the class keeps exactly ([keepable]), in a document.
    Missing: colours with more precision than two hexadecimal digits, transformations, and others below. *)
Theorem C34_animating_and_back_partial :
  forall c n cx f v, plain c -> is_animated n = false -> is_tag n = true -> from_tag n = Ok c -> tag_name n = tag_name (empty_tag c) ->
  ctx_fps cx = Ok f -> get_value c n cx = Ok v -> keepable c cx v ->
  exists n1 n2 w, set_is_animated c n cx true true = (n1, Ok tt) /\ is_animated n1 = true /\
    timeline_is n1 cx f [w] /\ w_time w = mkT 0 f /\ get_value c (w_val w) cx = Ok v /\
    set_is_animated c n1 cx true false = (n2, Ok tt) /\ is_animated n2 = false /\ get_value c n2 cx = Ok v.
Proof. exact animate_roundtrip_kept. Qed.
Print Assumptions C34_animating_and_back_partial.
Example C34_nonvacuous :
  from_tag one = Ok VReal /\ get_value VReal one doc = Ok (PFlo 1) /\ keepable VReal doc (PFlo 1) /\
  fst (set_is_animated VReal (fst (set_is_animated VReal one doc true true)) doc true false) = El (s "real") [(s "value", AStr (s "1.0000000000"))] [].
Proof. vm_compute. repeat split. Qed.
(** C34: the colour 0.3 red comes back as 0.301961. *)
Theorem C34_colours_refuted :
  exists n n1 n2 t1 t2, set_value VColor (empty_tag VColor) (PTuple [PFlo (rnd64 (3#10)); PFlo 0; PFlo 0]) = (n, Ok tt) /\
    set_is_animated VColor n doc true true = (n1, Ok tt) /\ set_is_animated VColor n1 doc true false = (n2, Ok tt) /\
    color_tuple n = Ok t1 /\ color_tuple n2 = Ok t2 /\ t1 <> t2.
Proof.
  pose (n := fst (set_value VColor (empty_tag VColor) (PTuple [PFlo (rnd64 (3#10)); PFlo 0; PFlo 0]))).
  pose (n1 := fst (set_is_animated VColor n doc true true)).
  pose (n2 := fst (set_is_animated VColor n1 doc true false)).
  exists n, n1, n2, (match color_tuple n with Ok t => t | _ => [] end), (match color_tuple n2 with Ok t => t | _ => [] end).
  repeat (split; [vm_compute; reflexivity|]). vm_compute. discriminate.
Qed.
Print Assumptions C34_colours_refuted.
(** C34: a value in no document can be animated, but not un-animated. *)
Theorem C34_detached_refuted :
  exists n1, set_is_animated VReal one None false true = (n1, Ok tt) /\ is_animated n1 = true /\
    snd (set_is_animated VReal n1 None false false) = Err ValueError.
Proof. exists (fst (set_is_animated VReal one None false true)). repeat split; vm_compute; reflexivity. Qed.
Print Assumptions C34_detached_refuted.

(** C35 *)
Theorem C35_names_are_canonical :
  forall x, match check_interpolation x with
            | Ok y => interpolation y /\ check_interpolation y = Ok y /\
                      (x = y \/ (x = s "auto" /\ y = s "tcb") \/ (x = s "halt" /\ y = s "ease"))
            | Err e => e = ValueError /\ ~ interpolation x /\ x <> s "auto" /\ x <> s "halt"
            end.
Proof. exact interp_canonical. Qed.
Print Assumptions C35_names_are_canonical.
(** C35: and the constructor and the setters of waypoints check them. *)
Theorem C35_waypoints_have_canonical_names :
  forall k v b a cx w, waypoint_new k v b a cx = Ok w -> interpolation (w_before w) /\ interpolation (w_after w).
Proof. exact waypoint_new_interp. Qed.
Print Assumptions C35_waypoints_have_canonical_names.
Theorem C35_setters_keep_names_canonical :
  forall w x w', interpolation (w_before w) -> interpolation (w_after w) -> set_before w x = Ok w' \/ set_after w x = Ok w' ->
  interpolation (w_before w') /\ interpolation (w_after w').
Proof. exact setters_interp. Qed.
Print Assumptions C35_setters_keep_names_canonical.
(** C35: each setter changes its own side of the waypoint, to the canonical name of what it is given, and nothing else. *)
Theorem C35_setters_set_their_own_side :
  forall w x,
  (forall y, check_interpolation x = Ok y ->
     set_before w x = Ok (mkW (w_time w) y (w_after w) (w_cls w) (w_val w)) /\
     set_after w x = Ok (mkW (w_time w) (w_before w) y (w_cls w) (w_val w))) /\
  (forall e, check_interpolation x = Err e -> set_before w x = Err e /\ set_after w x = Err e).
Proof. exact setters_side. Qed.
Print Assumptions C35_setters_set_their_own_side.
Example C35_nonvacuous :
  check_interpolation (s "auto") = Ok (s "tcb") /\ check_interpolation (s "halt") = Ok (s "ease") /\
  check_interpolation (s "linear") = Ok (s "linear") /\ check_interpolation (s "Linear") = Err ValueError /\
  check_interpolation (s "undefined") = Err ValueError /\
  waypoint_new (KeyNum 3) (PVal VReal one doc) (s "auto") (s "halt") doc = Ok (mkW (mkT 3 (Some 24%Q)) (s "tcb") (s "ease") VReal one).
Proof. vm_compute. repeat split. Qed.

(** C36: setting and deleting with a string *)
Theorem C36_set_then_delete_partial :
  forall c n cx f l ty x q v w, timeline_is n cx f l -> has_type n ty -> T_init (TStr x) cx = Ok (mkT q f) -> (0 <= q)%Q ->
  gives c (mkT q f) v w -> fits ty w ->
  exists n1 n2, tl_setitem c n cx true (KeyStr x) v = (n1, Ok tt) /\ tl_delitem n1 cx true (KeyStr x) = (n2, Ok tt) /\
    timeline_is n2 cx f (without q l).
Proof. exact str_set_del. Qed.
Print Assumptions C36_set_then_delete_partial.
Example C36_nonvacuous : T_init (TStr (s "1s 2f")) doc = Ok (mkT 26 (Some 24%Q)).
Proof. vm_compute. reflexivity. Qed.
(** C36: getting with a string never works: NotImplemented isn't handled for str, so the waypoint is not found. *)
Theorem C36_getting_refuted :
  forall n cx x w, tl_getitem n cx (KeyStr x) <> Ok w.
Proof. exact str_get_refuted. Qed.
Print Assumptions C36_getting_refuted.

(** C37: set at T(-24) with the speed given, counted from the end when it is read. *)
Theorem C37_negative_times_refuted :
  exists n', tl_setitem VReal one doc true (KeyT (mkT (-24) (Some 24%Q))) (AVal (PFlo 2)) = (n', Ok tt) /\
    tl_values n' doc = Ok [wpt 97 "2.0000000000"].
Proof. exists (fst (tl_setitem VReal one doc true (KeyT (mkT (-24) (Some 24%Q))) (AVal (PFlo 2)))). split; vm_compute; reflexivity. Qed.
Print Assumptions C37_negative_times_refuted.

(** C38: for attached values, and times not at another speed than the document's *)
Theorem C38_failed_set_changes_nothing_partial :
  forall c n cx par k x n' e, key_speed cx k -> tl_setitem c n cx par k x = (n', Err e) -> n' = n.
Proof. exact setitem_atomic. Qed.
Print Assumptions C38_failed_set_changes_nothing_partial.
Theorem C38_failed_delete_changes_nothing_partial :
  forall n cx k n' e, tl_delitem n cx true k = (n', Err e) -> n' = n.
Proof. exact delitem_atomic. Qed.
Print Assumptions C38_failed_delete_changes_nothing_partial.
Theorem C38_failed_unanimate_changes_nothing_partial :
  forall c n cx n' e, set_is_animated c n cx true false = (n', Err e) -> n' = n.
Proof. intros c. exact unanimate_atomic. Qed.
Print Assumptions C38_failed_unanimate_changes_nothing_partial.
Theorem C38_failed_add_changes_nothing_partial :
  forall c n cx par ws ow n' e, is_animated n = true -> speeds_agree cx ws -> tl_add c n cx par ws ow = (n', Err e) -> n' = n.
Proof. exact add_atomic. Qed.
Print Assumptions C38_failed_add_changes_nothing_partial.
Example C38_nonvacuous :
  tl_setitem VReal anim doc true (KeyNum 24) (AVal (PStr (s "abc"))) = (anim, Err ValueError) /\
  tl_delitem anim doc true (KeyNum 25) = (anim, Err KeyError) /\
  tl_add VReal anim doc true [wpt 48 "1.0"] false = (anim, Err ValueError) /\
  set_is_animated VReal (El (s "animated") [(s "type", AStr (s "real"))] []) doc true false
    = (El (s "animated") [(s "type", AStr (s "real"))] [], Err IndexError).
Proof. vm_compute. repeat split. Qed.
(** C38: a time at another speed clears the timeline before it raises. *)
Theorem C38_other_speed_refuted :
  exists n', tl_setitem VReal anim doc true (KeyT (mkT 1 (Some 30%Q))) (AVal (PFlo 2)) = (n', Err ValueError) /\
    tl_values n' doc = Ok [] /\ tl_values anim doc <> Ok [].
Proof. exists (fst (tl_setitem VReal anim doc true (KeyT (mkT 1 (Some 30%Q))) (AVal (PFlo 2)))). split; [vm_compute; reflexivity|]. split; vm_compute; [reflexivity|discriminate]. Qed.
Print Assumptions C38_other_speed_refuted.

(** C39: the waypoint is added, but then it always raises. *)
Theorem C39_always_raises_refuted :
  forall c n cx par ws n' r, tl_iadd c n cx par ws = (n', r) -> r <> Ok tt.
Proof. exact iadd_never_ok. Qed.
Print Assumptions C39_always_raises_refuted.
Theorem C39_but_adds_partial :
  forall c n cx f l ty par ws, timeline_is n cx f l -> has_type n ty -> is_animated n = true -> fresh f ws -> Forall (fits ty) ws ->
  exists n' l', tl_iadd c n cx par ws = (n', Err TypeError) /\ timeline_is n' cx f l' /\
    (forall w, In w ws -> find_at (at_ w) l' = Some w) /\
    (forall q, Forall (fun w => ~ (at_ w == q)%Q) ws -> find_at q l' = find_at q l).
Proof. exact iadd_adds. Qed.
Print Assumptions C39_but_adds_partial.
Example C39_nonvacuous :
  snd (tl_iadd VReal anim doc true [wpt 12 "5.0"]) = Err TypeError /\
  tl_values (fst (tl_iadd VReal anim doc true [wpt 12 "5.0"])) doc = Ok [wpt 12 "5.0"; wpt 24 "3.0000000000"; wpt 48 "2.0000000000"].
Proof. vm_compute. repeat split. Qed.

(** C76: timelines survive saving and loading, for times that the format keeps... *)
Theorem C76_timelines_survive_saving :
  forall c n cx f ty os l', is_animated n = false -> is_tag n = true -> tag_name n = ty -> ctx_fps cx = Ok f ->
  ops_mean c cx f ty os [] l' ->
  Forall (fun w => kept_time cx (w_time w) /\ attrs_distinct (w_val w)) l' ->
  timeline_is (run_ops c cx n os) cx f l' /\ timeline_is (reload (run_ops c cx n os)) cx f (map reload_wp l').
Proof. exact history_saved. Qed.
Print Assumptions C76_timelines_survive_saving.
(** ... which whole frames are. *)
Theorem C76_whole_frames_are_kept :
  forall cx r m, at_fps (inject_Z r) cx -> 0 < r <= 10 ^ 6 -> 0 <= m < 2 ^ 53 ->
  kept_time cx (mkT (inject_Z m) (Some (inject_Z r))).
Proof. exact whole_kept. Qed.
Print Assumptions C76_whole_frames_are_kept.
Example C76_nonvacuous :
  at_fps 24 doc /\ kept_time doc (mkT 26 (Some 24%Q)) /\ attrs_distinct (w_val (wpt 24 "3.0")) /\
  tl_values (reload anim) doc = Ok [wpt 24 "3.0000000000"; wpt 48 "2.0000000000"].
Proof.
  split; [exists (match doc with Some a => a | None => [] end), (AStr (s "24")); split; [reflexivity|]; split; vm_compute; reflexivity|]. split; [vm_compute; reflexivity|]. split; [repeat constructor; intros []|vm_compute; reflexivity].
Qed.
(** C76: fractions of a frame are not kept: a third is saved as 0.333333. *)
Theorem C76_fractions_refuted :
  exists t, is_dbl (frames t) /\ fps t = Some 24%Q /\ ~ kept_time doc t.
Proof.
  exists (mkT (rnd64 (1 # 3)) (Some 24%Q)). split; [vm_compute; reflexivity|]. split; [reflexivity|]. vm_compute. discriminate.
Qed.
Print Assumptions C76_fractions_refuted.

(** C77: iterating over a timeline gives its waypoints in order of time, whatever the order in the file. *)
Theorem C77_iteration_is_in_order :
  forall n cx l, tl_values n cx = Ok l -> exists l', tl_iter n cx = Ok l' /\ Permutation l l' /\ in_order l'.
Proof. exact iter_sorted. Qed.
Print Assumptions C77_iteration_is_in_order.
Example C77_nonvacuous :
  tl_iter (El (s "animated") [(s "type", AStr (s "real"))] [wp_tag (wpt 48 "2.0"); wp_tag (wpt 24 "3.0")]) doc
    = Ok [wpt 24 "3.0"; wpt 48 "2.0"].
Proof. vm_compute. reflexivity. Qed.

(** C78: timelines with the same times are equal, whatever the values... *)
Theorem C78_equality_ignores_values_refuted :
  exists n m, tl_eq n doc m doc = Ok true /\ tl_values n doc <> tl_values m doc.
Proof. exists (with_at VReal one (KeyNum 0) (PFlo 1)), (with_at VReal one (KeyNum 0) (PFlo 2)). split; vm_compute; [reflexivity|discriminate]. Qed.
Print Assumptions C78_equality_ignores_values_refuted.
(** ... and it is exactly that. *)
Theorem C78_equality_is_of_times_partial :
  forall n m cx f l l', timeline_is n cx f l -> timeline_is m cx f l' ->
  exists b, tl_eq n cx m cx = Ok b /\ (b = true <-> Forall2 (fun v w => at_ v == at_ w)%Q l l').
Proof. exact tl_eq_times. Qed.
Print Assumptions C78_equality_is_of_times_partial.
Example C78_nonvacuous :
  tl_eq anim doc anim doc = Ok true /\ tl_eq anim doc (with_at VReal anim (KeyNum 3) (PFlo 2)) doc = Ok false.
Proof. vm_compute. repeat split. Qed.

(** C79: assigning a list of waypoints at distinct times stores exactly those. *)
Theorem C79_assigning_a_list_partial :
  forall n cx f ty par l, has_type n ty -> ctx_fps cx = Ok f -> l <> [] -> fresh f l -> Forall (fits ty) l ->
  exists n' l', tl_assign n cx par (SList l) = (n', Ok tt) /\ has_type n' ty /\ timeline_is n' cx f l' /\ Permutation l l'.
Proof. exact assign_list. Qed.
Print Assumptions C79_assigning_a_list_partial.
Example C79_nonvacuous :
  tl_values (fst (tl_assign one doc true (SList [wpt 48 "2.0"; wpt 24 "3.0"]))) doc = Ok [wpt 24 "3.0"; wpt 48 "2.0"].
Proof. vm_compute. reflexivity. Qed.
(** C79: an empty list leaves the first waypoint as a static value, and a list of something else clears the timeline and raises. *)
Theorem C79_assigning_nothing :
  forall n cx f w l ty, timeline_is n cx f (w :: l) -> has_type n ty ->
  tl_assign n cx true (SList []) = (w_val w, Ok tt).
Proof. exact assign_nothing. Qed.
Print Assumptions C79_assigning_nothing.
Theorem C79_junk_refuted :
  exists n', tl_assign anim doc true SJunk = (n', Err AttributeError) /\ tl_values n' doc = Ok [].
Proof. exists (fst (tl_assign anim doc true SJunk)). split; vm_compute; reflexivity. Qed.
Print Assumptions C79_junk_refuted.

(** C80: the tag of a waypoint reads back as the same waypoint. *)
Theorem C80_waypoint_tags_read_back :
  forall ty w cx f, fits ty w -> ctx_fps cx = Ok f -> fps (w_time w) = f -> (0 <= at_ w)%Q ->
  wp_from_tag (wp_tag w) (AStr ty) cx = Ok w.
Proof. exact wp_read. Qed.
Print Assumptions C80_waypoint_tags_read_back.
(** C80: and what is read fits the type of the timeline. *)
Theorem C80_read_waypoints_fit :
  forall n tv cx w, wp_from_tag n tv cx = Ok w ->
  exists ty, tv = AStr ty /\ fits ty w /\ ctx_fps cx = Ok (fps (w_time w)).
Proof. exact wp_from_tag_fits. Qed.
Print Assumptions C80_read_waypoints_fit.
Example C80_nonvacuous : wp_from_tag (wp_tag (wpt 24 "3.0")) (AStr (s "real")) doc = Ok (wpt 24 "3.0").
Proof. vm_compute. reflexivity. Qed.
(** C80: a waypoint of another type is accepted, and then the timeline can't be read. *)
Theorem C80_wrong_type_refuted :
  exists w n', waypoint_new (KeyNum 3) (PVal VInteger (El (s "integer") [(s "value", AStr (s "1"))] []) doc) (s "clamped") (s "clamped") doc = Ok w /\
    tl_setitem VReal one doc true (KeyNum 3) (AWp w) = (n', Ok tt) /\ tl_values n' doc = Err ValueError.
Proof.
  pose (w := mkW (mkT 3 (Some 24%Q)) (s "clamped") (s "clamped") VInteger (El (s "integer") [(s "value", AStr (s "1"))] [])).
  exists w, (fst (tl_setitem VReal one doc true (KeyNum 3) (AWp w))). repeat split; vm_compute; reflexivity.
Qed.
Print Assumptions C80_wrong_type_refuted.
