(** Which layer an object stands for *)
From Verif Require Import DocModel LayModel IdnModel.

(** The object o is one for the layer (or the animation) with the tag u. *)
Definition stands_for (S : idoc) (o : nat) (u : N) : Prop := exists kd, nth_error (i_objs S) o = Some (kd, u).
(** The objects that a program has at the end: the animation and the results of all its calls *)
Definition given (rs : list (res (list nat))) (o : nat) : Prop := exists l, In (Ok l) rs /\ In o l.
