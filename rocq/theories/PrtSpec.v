(** The parts of a transformation as variables *)
From Verif Require Import AnimModel LayModel WrSpec TlModel PrmSpec.
Local Open Scope Z_scope.

(** The value n has the parts d, by their names. *)
Definition has_parts (n : node) (d : list (pstr * node)) : Prop :=
  Forall2 (fun f kt => tag_name f = fst kt /\ child_tags f = [snd kt]) (child_tags n) d /\ NoDup (map fst d).

(** What the acts on one part make of it: those with its name, one after the other ([val_edit]: PrmSpec.v; the class is seen from the tag) *)
Fixpoint history_of (cx : ctx) (k : pstr) (t : node) (l : list (pstr * vedit)) : node :=
  match l with
  | [] => t
  | (k', e) :: l' => history_of cx k (if pstr_eqb k' k then fst (val_edit t cx e) else t) l'
  end.
(** Gradients with colours as Synfig writes them: not one within another *)
Definition plain_stops (n : node) : Prop :=
  Forall (fun t => tag_name t = s "color" /\ find_all (has_name (s "color")) t = []) (child_tags n).
(** A colour at the position q *)
Definition at_pos (q : Q) (t : node) : Prop := exists v p, aget (s "pos") (tag_attrs t) = Some v /\ float_of_aval v = Ok p /\ (q == p)%Q.
