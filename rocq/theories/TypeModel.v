(** The type of a value. *)
From Verif Require Import ValModel TlModel.

(** The type that the file says the value has: value/value.py:188-202 [our_type], for the classes that don't hide it by the Python type of their values
    (simple.py:84-142, vector.py:10 and string.py:7 do); and what value.py:61-64 writes and :145-150 compares with. *)
Definition stored_type (n : node) : res aval :=
  if is_animated n then match aget (s "type") (tag_attrs n) with Some a => Ok a | None => Err KeyError end
  else Ok (AStr (tag_name n)).

(** value/value.py:321-322 [Timeline.items] *)
Definition tl_items (n : node) (cx : ctx) : res (list (T * wp)) := waypoints n cx.
(** value/value.py:453-454 [Timeline.__bool__] *)
Definition tl_bool (n : node) (cx : ctx) : res bool := let* z := tl_len n cx in Ok (negb (z =? 0)%Z).
