(** The frame rate of the animation is changed. *)
From Verif Require Import TlModel TlSpec.
Local Open Scope Z_scope.

(** The attributes of the animation, when its frame rate is another one *)
Definition at_rate (q : Q) (a : attrs) : attrs := aset (s "fps") (AFlo q) a.
