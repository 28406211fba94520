(** When some letters occur in a tag. *)
From Verif Require Import TlModel.

(** The letters x, one after the other, somewhere in y *)
Definition occurs (x y : pstr) : Prop := exists a b, y = a ++ x ++ b.
(** They are in a name, an attribute or a text of the tag n, or of a tag in it. *)
Inductive mentions (x : pstr) : node -> Prop :=
| in_text y : occurs x y -> mentions x (Txt y)
| in_name nm a k : occurs x nm -> mentions x (El nm a k)
| in_key nm a k kv : In kv a -> occurs x (fst kv) -> mentions x (El nm a k)
| in_attr nm a k kv : In kv a -> occurs x (aval_str (snd kv)) -> mentions x (El nm a k)
| in_child nm a k c : In c k -> mentions x c -> mentions x (El nm a k).
