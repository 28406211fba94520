(** More of what is said about template/__main__.py: names and texts. *)
From Coq Require Import Permutation.
From Verif Require Import ScanModel ScanSpec.
Local Open Scope N_scope.

(** ASCII letters *)
Definition big (c : N) : Prop := 65 <= c <= 90.
Definition small (c : N) : Prop := 97 <= c <= 122.
Definition letter (c : N) : Prop := big c \/ small c.
(** Lower and upper case *)
Definition lowered (c d : N) : Prop := big c /\ d = c + 32 \/ ~ big c /\ d = c.
Definition uppered (c d : N) : Prop := small c /\ d + 32 = c \/ ~ small c /\ d = c.
(** y is x with capitals at the beginnings of words, and only there. *)
Definition titled (x y : pstr) : Prop :=
  length y = length x /\
  forall a c b, x = a ++ c :: b -> exists a' c' b', y = a' ++ c' :: b' /\ length a' = length a /\
    ((exists a0 l, a = a0 ++ [l] /\ letter l) /\ lowered c c' \/ ~ (exists a0 l, a = a0 ++ [l] /\ letter l) /\ uppered c c').

(** The name of the class of this value, of the param with this name *)
Definition parts (v : node) : list pstr := map tag_name (child_tags v).
Inductive value_class (name : pstr) (v : node) : pstr -> Prop :=
| is_blend : name = s "blend_method" -> value_class name v (s "BlendMethod")
| is_xy : name <> s "blend_method" -> title (tag_name v) = s "Vector" -> Permutation (parts v) [s "x"; s "y"] -> value_class name v (s "X_Y")
| is_transformation : name <> s "blend_method" -> title (tag_name v) = s "Composite" ->
    Permutation (parts v) [s "offset"; s "angle"; s "skew_angle"; s "scale"] -> value_class name v (s "Transformation")
| is_titled : name <> s "blend_method" -> ~ (title (tag_name v) = s "Vector" /\ Permutation (parts v) [s "x"; s "y"]) ->
    ~ (title (tag_name v) = s "Composite" /\ Permutation (parts v) [s "offset"; s "angle"; s "skew_angle"; s "scale"]) -> value_class name v (title (tag_name v)).

(** What comes after the value: the description the field had so far, if it had one *)
Definition rest_of_field (pr : N -> bool) (k : option klass) (name x : pstr) : Prop :=
  (exists c i doc, k = Some c /\ aget name (k_dict c) = Some (mkF i (Some doc)) /\ doc <> [] /\
     x = [10] ++ repeat 32 30 ++ s "doc=" ++ repr_str pr doc ++ s "," ++ [10] ++ repeat 32 20 ++ s ")") \/
  ((forall c i doc, k = Some c -> aget name (k_dict c) = Some (mkF i (Some doc)) -> doc = []) /\ x = [10] ++ repeat 32 20 ++ s ")").
(** The beginning: the kind of field, the class and the value *)
Inductive first_of_field (pr : N -> bool) (cx : ctx) (v : node) (array : bool) (cls : pstr) : pstr -> Prop :=
| field_blend c x n e : cls = s "BlendMethod" -> from_tag v = Ok c -> get_value c v cx = Ok x -> new_value VBlendMethod x = Ok n -> expression pr VBlendMethod n None = Ok e ->
    first_of_field pr cx v array cls (s "f." ++ (if array then s "ParamArrayField" else s "ParamTagField") ++ s "(v.BlendMethod, " ++ expr_text e ++ s ",")
| field_value c e : cls <> s "BlendMethod" -> from_tag v = Ok c -> expression pr c v cx = Ok e ->
    first_of_field pr cx v array cls (s "f." ++ (if array then s "ParamArrayField" else s "ParamTagField") ++ s "(v." ++ cls ++ s ", " ++ expr_text e ++ s ",")
| field_not_yet c : cls <> s "BlendMethod" -> from_tag v = Ok c -> expression pr c v cx = Err NotImplementedError ->
    first_of_field pr cx v array cls (s "f.NotImplementedField(" ++ [34] ++ cls ++ [34] ++ s ",").

(** n is m, or somewhere in it. *)
Inductive within (n : node) : node -> Prop :=
| within_here : within n n
| within_kid nm a l k : In k l -> within n k -> within n (El nm a l).
