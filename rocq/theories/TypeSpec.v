(** What is said about the types of values, and about the views of a timeline. *)
From Verif Require Import ValModel TlModel WrSpec TypeModel.

(** The name that Synfig uses for the type of the values of a class *)
Definition file_type (c : vcls) : pstr :=
  match c with
  | VReal => s "real" | VInteger => s "integer" | VBlendMethod => s "integer" | VBool => s "bool" | VAngle => s "angle" | VTime => s "time"
  | VString => s "string" | VColor => s "color" | VXY => s "vector" | VTransformation => s "composite" | VGradient => s "gradient" | VCanvas => s "canvas"
  | VTbd x => x
  end.
(** A program that does these things to a value, and catches every exception. After each of them the value may or may not have a parent. *)
Definition history (c : vcls) (cx : ctx) (n : node) (l : list (bool * vedit)) : node :=
  fold_left (fun n e => fst (vapply c n cx (fst e) (snd e))) l n.
(** Everything but an assignment of the value itself *)
Definition not_assigned (e : vedit) : Prop := match e with VSet _ => False | _ => True end.

(** The last in the list of those with its time *)
Definition last_at (w : wp) (l : list wp) : Prop := exists a b, l = a ++ w :: b /\ Forall (fun v => ~ (frames (w_time v) == frames (w_time w))%Q) b.
(** The waypoints with these tags, whatever their times: one for each tag *)
Definition written_as (n : node) (cx : ctx) (l : list wp) : Prop :=
  is_animated n = true /\ exists ty, stored_type n = Ok ty /\ Forall2 (fun t w => wp_from_tag t ty cx = Ok w) (child_tags n) l.
