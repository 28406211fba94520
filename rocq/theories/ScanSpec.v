(** What is said about template/__main__.py. *)
From Verif Require Import ScanModel RepSpec.
Local Open Scope N_scope.

(** The tag says that its layer has this type. *)
Definition has_ltype (n : node) (ty : pstr) : Prop := aget (s "type") (tag_attrs n) = Some (AStr ty).
(** The first of these layers with this type *)
Definition first_of_type (l : list node) (ty : pstr) (n : node) : Prop :=
  exists a b, l = a ++ n :: b /\ has_ltype n ty /\ Forall (fun m => ~ has_ltype m ty) a.
(** No other type gives the same name of a class. *)
Definition only_type (l : list node) (ty : pstr) : Prop := forall m ty', In m l -> has_ltype m ty' -> title ty' = title ty -> ty' = ty.

(** The tag is a parameter that makes a field of this name: it has no index, or the index 0, and the class doesn't have it
    from a class it inherits from. *)
Definition makes_field (k : option klass) (p : node) (name : pstr) : Prop :=
  exists full, aget (s "name") (tag_attrs p) = Some (AStr full) /\
    (forall c, k = Some c -> is_inherited_param c full = false) /\
    (~ In 91 full /\ name = full \/ ~ In 91 name /\ (exists r, full = name ++ 91 :: r) /\ exists u v, full = u ++ s "[0]" ++ v).

(** Names without white space, quotes and so on *)
Definition word_name (x : pstr) : Prop := x <> [] /\ Forall (fun c => word_char c = true) x.
(** Something that can be in quotes on a line *)
Definition one_line (x : pstr) : Prop := encodable x /\ ~ In 10 x /\ ~ In 13 x.
(** The version and the params of the layers are fit for Python. *)
Definition python_names (root : node) : Prop :=
  forall l, In l (soup_layers root) ->
    (forall v, aget (s "version") (tag_attrs l) = Some (AStr v) -> one_line v) /\
    (forall p x, In p (find_all (has_name (s "param")) l) -> aget (s "name") (tag_attrs p) = Some (AStr x) -> word_name (fst (span (fun c => negb (c =? 91)) x))).
