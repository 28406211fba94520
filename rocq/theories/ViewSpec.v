(** What is said about values as containers. *)
From Coq Require Import Permutation.
From Verif Require Import TlModel ViewModel.
Local Open Scope Z_scope.

(** Iterating over the vector gives these numbers. *)
Definition reads (n : node) (l : list Q) : Prop := vector_iter n = Ok l.
(** A vector in the file: not animated, <x> and then <y>, both of them numbers. *)
Definition plain_xy (n : node) (x y : Q) : Prop :=
  is_animated n = false /\ map tag_name (child_tags n) = [s "x"; s "y"] /\ vector_getitem n (s "x") = Ok x /\ vector_getitem n (s "y") = Ok y.
(** The dictionary has, at the position q, the colour with these hex digits. *)
Definition shows (d : list (Q * pyval)) (q : Q) (x : pstr) : Prop :=
  exists c cx, qget q d = Some (PVal VColor c cx) /\ color_hex c = Ok x.
(** The gradient can be read, with all its colours. *)
Definition grad_reads (n : node) (cx : ctx) (d : list (Q * pyval)) : Prop :=
  gradient_val n cx = Ok d /\ forall q v, In (q, v) d -> exists c cy x, v = PVal VColor c cy /\ color_hex c = Ok x.
(** The part k of the transformation is a vector with these coordinates, and the part k is this angle. *)
Definition vector_part (n : node) (cx : ctx) (k : pstr) (x y : Q) : Prop :=
  exists m, composite_getitem n cx k = Ok (PVal VXY m cx) /\ plain_xy m x y.
Definition angle_part (n : node) (cx : ctx) (k : pstr) (q : Q) : Prop :=
  exists m, composite_getitem n cx k = Ok (PVal VAngle m cx) /\ simple_val VAngle m cx = Ok (PFlo q).
(** A transformation whose four parts are there, once each, and can be read *)
Record trans_reads (n : node) (cx : ctx) (o1 o2 a w s1 s2 : Q) : Prop := {
  tr_keys : Permutation (composite_keys n) (map fst transformation_keys);
  tr_offset : vector_part n cx (s "offset") o1 o2;
  tr_angle : angle_part n cx (s "angle") a;
  tr_skew : angle_part n cx (s "skew_angle") w;
  tr_scale : vector_part n cx (s "scale") s1 s2
}.
(** The Python object is this number: a float, an int, or True or False. *)
Definition number_is (v : pyval) (q : Q) : Prop :=
  v = PFlo q \/ (exists z, v = PInt z /\ q = inject_Z z) \/ (exists b : bool, v = PBool b /\ q = if b then 1%Q else 0%Q).
