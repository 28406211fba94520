(** What C165 says: which values are kept so that they compare equal to what was assigned. *)
From Coq Require Import Permutation.
From Verif Require Import SerModel ValSpec.
Local Open Scope Z_scope.

(** The float closest to a number with k decimals, which is what one gets by writing such a number in a program *)
Definition has_decimals (k : nat) (x : Q) : Prop := exists m, x = rnd64 (decimal k m).
(** The vector has nothing but x and y in it, and begins with x, if it has anything; so do all those in files written by Synfig or by this library. *)
Definition begins_with_x (prior : node) : Prop :=
  only_xy prior /\ match child_tags prior with [] => True | t :: _ => tag_name t = s "x" end.

(** What can be assigned to a value of the class c whose tag was prior, so that it is equal to that afterwards *)
Inductive kept : vcls -> node -> pyval -> Prop :=
| kept_integer prior z : kept VInteger prior (PInt z)
| kept_bool prior b : kept VBool prior (PBool b)
| kept_real prior x : (Qabs x <= 100000000000)%Q -> kept VReal prior (PFlo x)
| kept_angle prior x : is_dbl x -> kept VAngle prior (PFlo x)
| kept_string prior x : has_name (s "string") prior = true -> kept VString prior (PStr x)
| kept_hex prior (hash : bool) x : Forall is_hex x -> length x = 6%nat \/ length x = 8%nat -> kept VColor prior (PStr ((if hash then s "#" else []) ++ x))
| kept_rgba prior r g b a : has_decimals 6 r -> has_decimals 6 g -> has_decimals 6 b -> has_decimals 6 a -> kept VColor prior (PTuple [PFlo r; PFlo g; PFlo b; PFlo a])
| kept_rgb prior r g b : has_decimals 6 r -> has_decimals 6 g -> has_decimals 6 b -> kept VColor prior (PTuple [PFlo r; PFlo g; PFlo b])
| kept_xy prior x y : begins_with_x prior -> has_decimals 10 x -> has_decimals 10 y -> kept VXY prior (PTuple [PFlo x; PFlo y])
| kept_transformation prior l ox oy a k sx sy : has_name (s "composite") prior = true -> from_tag prior = Ok VTransformation -> has_decimals 10 ox -> has_decimals 10 oy -> is_dbl a -> is_dbl k -> has_decimals 10 sx -> has_decimals 10 sy ->
    Permutation l (full ox oy a k sx sy) -> kept VTransformation prior (PDict l)
| kept_gradient prior l d : has_name (s "gradient") prior = true -> gradient_ok d -> Forall (fun a => Forall (has_decimals 6) (snd a)) d ->
    Permutation l d -> kept VGradient prior (PDictF (map (fun a => (position (fst a), colour_arg (snd a))) l)).
