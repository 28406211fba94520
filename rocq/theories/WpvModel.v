(** Assigning through the waypoints of a timeline: [value.timeline[t].value.value = v], and [value.timeline.values()[i].value.value = v]. A waypoint that
    is read from a timeline is a new object (value.py:583-590), so that assigning to its [time], [before] or [after] (value.py:503-517) changes nothing in the
    document. But its [value] is a view of the tag which is in the document (value.py:585 [Value.from_tag(v[0])]), and assigning to that changes it. *)
From Verif Require Import TlModel.

(** The i-th of the tags in a list of nodes changed by f; value.py:111-128 and :569: texts and comments between the tags aren't counted *)
Fixpoint at_tag (i : nat) (f : node -> node) (k : list node) : list node :=
  match k with
  | [] => []
  | c :: k' => if is_tag c then match i with O => f c :: k' | S i' => c :: at_tag i' f k' end else c :: at_tag i f k'
  end.

(** The waypoint tag w with m instead of its value (value.py:569-585: the only tag in it) *)
Definition with_value (m w : node) : node := with_kids w (at_tag 0 (fun _ => m) (tag_kids w)).

(** value.py:130-154 [_waypoints], before the waypoints are put into the dictionary *)
Definition listed (n : node) (cx : ctx) : res (list wp) :=
  match waypoint_tags n with
  | [] => Ok []
  | l => match aget (s "type") (tag_attrs n) with
         | None => Err KeyError
         | Some ty => mapM (fun w => wp_from_tag w ty cx) l
         end
  end.
(** value.py:145-152: of the waypoints with the same time, the dictionary keeps the last. *)
Fixpoint last_at (t : T) (l : list wp) : option nat :=
  match l with
  | [] => None
  | w :: l' => match last_at t l' with
               | Some i => Some (S i)
               | None => match tmatch t (w_time w) with Ok true => Some O | _ => None end
               end
  end.

(** [w.value.value = v] for a waypoint w that was read from n: the setters (ValModel.v) change the tag of the value in place. *)
Definition wp_assign (n : node) (cx : ctx) (w : wp) (v : pyval) : outcome :=
  match listed n cx with
  | Err e => (n, Err e)
  | Ok l => match last_at (w_time w) l with
            | None => (n, Err EUnmodelled)
            | Some i => let (m, r) := set_value (w_cls w) (w_val w) v in (with_kids n (at_tag i (with_value m) (tag_kids n)), r)
            end
  end.

(** value.py:380-389 [__getitem__], and then [.value.value = v] *)
Definition tl_assign (n : node) (cx : ctx) (k : tkey) (v : pyval) : outcome :=
  match tl_getitem n cx k with Err e => (n, Err e) | Ok w => wp_assign n cx w v end.
(** value.py:318-319 [values()]; then [[i].value.value = v] *)
Definition values_assign (n : node) (cx : ctx) (i : nat) (v : pyval) : outcome :=
  match tl_values n cx with
  | Err e => (n, Err e)
  | Ok l => match nth_error l i with None => (n, Err IndexError) | Some w => wp_assign n cx w v end
  end.
