(** Times made of times. *)
From Verif Require Import TimeModel.

(** t.py:98 [self._frames = float(value)], where the value is a time itself: [T(t, ref)] *)
Definition T_of (t : T) (r : refval) : res T := T_new (TNum (T_float t)) r.
(** [T(int(t), ref)] (t.py:201-202); [float()] of the number is exact up to 2^53, and rounded after that *)
Definition T_of_int (t : T) (r : refval) : res T := T_new (TNum (f_of_Z (T_int t))) r.
