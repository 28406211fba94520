(** What "differ only in letter case and underscores" means. *)
From Verif Require Import PyBase.

(** Two characters are the same letter, whatever the case. *)
Definition same_letter (a b : N) : Prop :=
  a = b \/ (65 <= a <= 90 /\ b = a + 32)%N \/ (65 <= b <= 90 /\ a = b + 32)%N.

(** Two names are equal but for case and underscores (95). *)
Inductive same_name : pstr -> pstr -> Prop :=
| sn_nil : same_name [] []
| sn_left x y : same_name x y -> same_name (95%N :: x) y
| sn_right x y : same_name x y -> same_name x (95%N :: y)
| sn_char a b x y : same_letter a b -> same_name x y -> same_name (a :: x) (b :: y).

(** The name one registration is for: the given one, or the class's own. *)
Definition registered_name {C} (e : option pstr * pstr * C) : pstr :=
  match e with
  | (Some (ch :: x), _, _) => ch :: x
  | (_, cn, _) => cn
  end.
