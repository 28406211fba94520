(** Waypoints that a program holds: [w = value.timeline.values()[i]] (or [value.timeline[t]], value.py:380-389, which gives one of the same), kept while the
    timeline is changed. The waypoint is a new object with a time and interpolations of its own; its value is a view of the tag in the document
    (value.py:583-590, WpvModel.v). When a timeline is written, all its tags are cleared away, and new ones are made of copies
    (value.py:179-183, :372-375, :540-551): the view is then of a tag which isn't in the document any more. *)
From Verif Require Import TlModel SerModel TimeSpec ValSpec TlSpec WpvModel.

(** A waypoint; its value is that of the i-th waypoint tag of the timeline, or its own if that tag is no longer there *)
Record hwp := mkH { h_obj : wp; h_slot : option nat }.
Definition holds := N -> option hwp.
Definition hset (h : holds) (j : N) (x : hwp) : holds := fun z => if N.eqb z j then Some x else h z.
Definition with_val (m : node) (w : wp) : wp := mkW (w_time w) (w_before w) (w_after w) (w_cls w) m.

(** value.py:569-585: the tag in the i-th waypoint *)
Definition slot_val (n : node) (i : nat) : option node :=
  match nth_error (waypoint_tags n) i with
  | Some t => match child_tags t with m :: _ => Some m | [] => None end
  | None => None
  end.
(** What the held waypoint is at present *)
Definition current (n : node) (h : hwp) : wp :=
  match h_slot h with
  | Some i => match slot_val n i with Some m => with_val m (h_obj h) | None => h_obj h end
  | None => h_obj h
  end.
(** bs4: [clear()] takes the tags out, with what is in them. *)
Definition loosen (n : node) (hs : holds) : holds := fun j => option_map (fun h => mkH (current n h) None) (hs j).
(** Whether the tag was cleared: unless an exception was raised before that *)
Definition was_cleared (n' : node) (r : res unit) : bool :=
  match r with Ok _ => true | Err _ => match child_tags n' with [] => true | _ => false end end.

Inductive hact :=
| HNth (j : N) (i : nat)          (* w = timeline.values()[i] *)
| HVal (j : N) (v : pyval)        (* w.value.value = v *)
| HBefore (j : N) (x : pstr)      (* w.before = x *)
| HAfter (j : N) (x : pstr)
| HTime (j : N) (t : T)           (* w.time = t *)
| HOp (o : op)                    (* timeline[k] = x, del timeline[k], timeline.add(...) *)
| HPut (k : tkey) (j : N).        (* timeline[k] = w *)

Definition hstate := (node * holds)%type.
Definition on_held (st : hstate) (j : N) (f : hwp -> hstate * res unit) : hstate * res unit :=
  match snd st j with None => (st, Err EUnmodelled) | Some h => f h end.
(** value.py:503-517, and [self.time], a plain attribute *)
Definition own (st : hstate) (j : N) (h : hwp) (r : res wp) : hstate * res unit :=
  match r with Ok w => ((fst st, hset (snd st) j (mkH w (h_slot h))), Ok tt) | Err e => (st, Err e) end.
Definition hstep (c : vcls) (cx : ctx) (st : hstate) (a : hact) : hstate * res unit :=
  let (n, hs) := st in
  match a with
  | HNth j i =>
      match (let* l := tl_values n cx in let* all := listed n cx in Ok (l, all)) with
      | Err e => (st, Err e)
      | Ok (l, all) =>
          match nth_error l i with
          | None => (st, Err IndexError)
          | Some w => match last_at (w_time w) all with
                      | None => (st, Err EUnmodelled)
                      | Some p => ((n, hset hs j (mkH w (Some p))), Ok tt)
                      end
          end
      end
  | HVal j v => on_held st j (fun h =>
      let w := current n h in
      let (m, r) := set_value (w_cls w) (w_val w) v in
      match h_slot h with
      | Some i => ((with_kids n (at_tag i (with_value m) (tag_kids n)), hs), r)
      | None => ((n, hset hs j (mkH (with_val m w) None)), r)
      end)
  | HBefore j x => on_held st j (fun h => own st j h (set_before (h_obj h) x))
  | HAfter j x => on_held st j (fun h => own st j h (set_after (h_obj h) x))
  | HTime j t => on_held st j (fun h => own st j h (Ok (mkW t (w_before (h_obj h)) (w_after (h_obj h)) (w_cls (h_obj h)) (w_val (h_obj h)))))
  | HOp o => let (n', r) := run_op c cx n o in ((n', if was_cleared n' r then loosen n hs else hs), r)
  (** value.py:391-422: its time is set, whatever comes of the rest. *)
  | HPut k j => on_held st j (fun h =>
      match ensure_fps cx k with
      | Err e => (st, Err e)
      | Ok t =>
          let w := h_obj h in
          let hs1 := hset hs j (mkH (mkW t (w_before w) (w_after w) (w_cls w) (w_val w)) (h_slot h)) in
          let (n', r) := tl_setitem c n cx true k (AWp (current n h)) in
          ((n', if was_cleared n' r then loosen n hs1 else hs1), r)
      end)
  end.
Fixpoint hsteps (c : vcls) (cx : ctx) (st : hstate) (l : list hact) : hstate * list (res unit) :=
  match l with
  | [] => (st, [])
  | a :: l' => let (st1, r) := hstep c cx st a in let (st2, rs) := hsteps c cx st1 l' in (st2, r :: rs)
  end.
