(** Several animations at once: what it means that a layer is in one of them. *)
From Verif Require Import LayModel LaySpec.
Local Open Scope N_scope.

(** [r] is the tag of an animation: a canvas directly in one of the documents. *)
Definition animation (F : forest) (r : inode) : Prop := exists d, In d F /\ itag d = true /\ In r (ikids d) /\ named (s "canvas") r = true.
(** The tag [n] is the animation [r] or somewhere in it. *)
Definition part_of (n r : inode) : Prop := n = r \/ In n (idesc r).
(** The group a move puts the layer into *)
Definition into (m : move) : okind * N := match m with MAppend kd g _ => (kd, g) | MInsert kd g _ _ => (kd, g) end.
(** What a time is in seconds *)
Definition in_seconds (t : T) : option Q := match fps t with Some f => Some (frames t / f)%Q | None => None end.
