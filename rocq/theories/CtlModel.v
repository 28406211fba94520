(** Assigning the timeline of one value to another one (value.py:96-109). *)
From Verif Require Import TlModel.

(** value.py:96-109 [m.timeline = n.timeline]: the getter (90-94) makes a Timeline which
    reads its value's tag when it's asked, so the values are read from n
    when they are assigned. Nothing is done if both are the same
    Value object ([v.parent is self], 104-105).
    The contexts are those of the two documents. *)
Definition tl_copy (same : bool) (n : node) (cx : ctx) (m : node) (cy : ctx) (par : bool) : outcome :=
  if same then (m, Ok tt)
  else match tl_values n cx with
       | Err e => (m, Err e)
       | Ok l => tl_assign m cy par (SList l)
       end.
