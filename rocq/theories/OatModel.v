(** Value objects as Python objects: attributes of vectors and transformations ([position.x], [transformation.angle]), assigning to attributes, and [copy.copy()].
    The object has a dictionary of its own; names that are neither in there nor in the class go to [__getattr__], if the class has that. *)
From Verif Require Import ValModel TlModel ViewModel.
Local Open Scope N_scope.

(** An object: its class, whether [_tag] is in its dictionary (value.py:12-24 puts it there), and what else is *)
Record pyobj := mkObj { o_cls : vcls; o_tag : bool; o_own : list (pstr * pyval) }.
(** value.py:12-15, with a tag *)
Definition obj_for (c : vcls) : pyobj := mkObj c true [].

(** The names in the classes (value.py:9-265, vector.py:14-115, transformation.py:10-165, gradient.py:8-70, color.py:10-103, string.py, tbd.py, blendmethod.py:
    these have capitals) and the names which Python has for itself *)
Definition class_names : list pstr :=
  [s "value"; s "is_animated"; s "timeline"; s "tag"; s "our_type"; s "as_python_expression"; s "get_name_for_tag"; s "handles_type"; s "from_tag";
   s "get"; s "keys"; s "values"; s "items"; s "as_tuple"].
Definition in_class (k : pstr) : bool :=
  starts_with (s "_") k || existsb (fun c => (65 <=? c) && (c <=? 90)) k || existsb (pstr_eqb k) class_names.

(** [getattr(o, k)], for names that aren't in the class. None is that the depth of Python's stack isn't enough (RecursionError).
    vector.py:32-40, transformation.py:80-86 with :94-99: [self._tag] is looked up in the same way. *)
Fixpoint get_attribute (depth : nat) (o : pyobj) (n : node) (cx : ctx) (k : pstr) : option (res pyval) :=
  match depth with
  | O => None
  | S d =>
      if pstr_eqb k (s "_tag") && o_tag o then Some (Ok POther)
      else match aget k (o_own o) with
           | Some v => Some (Ok v)
           | None =>
               match o_cls o with
               | VXY =>
                   if starts_with (s "_") k then Some (Err AttributeError)
                   else match get_attribute d o n cx (s "_tag") with
                        | None => None
                        | Some (Err e) => Some (Err e)
                        | Some (Ok _) => Some (let* q := vector_attr n k in Ok (PFlo q))
                        end
               | VTransformation =>
                   match get_attribute d o n cx (s "_tag") with
                   | None => None
                   | Some (Err e) => Some (Err e)
                   | Some (Ok _) => Some (composite_attr n cx k)
                   end
               | _ => Some (Err AttributeError)
               end
           end
  end.

(** [o.k = v]: no class has a [__setattr__]. [value] has a setter; the others that have one are not modelled here (see WrSpec.v), nor are names that
    the classes have for something else, but [tag] (value.py:32-34) can't be set. *)
Definition set_attribute (o : pyobj) (n : node) (k : pstr) (v : pyval) : (pyobj * node) * res unit :=
  if pstr_eqb k (s "value") then let (m, r) := set_value (o_cls o) n v in ((o, m), r)
  else if pstr_eqb k (s "tag") then ((o, n), Err AttributeError)
  else if in_class k then ((o, n), Err EUnmodelled)
  else ((mkObj (o_cls o) (o_tag o) (aset k v (o_own o)), n), Ok tt).

(** [copy.copy(o)]: Python (3.11) makes an object with an empty dictionary, asks whether that has [__setstate__], and if not puts in what is in the
    dictionary of o. *)
Definition copy_object (depth : nat) (o : pyobj) (n : node) (cx : ctx) : option (res pyobj) :=
  match get_attribute depth (mkObj (o_cls o) false []) n cx (s "__setstate__") with
  | None => None
  | Some (Ok _) => Some (Err EUnmodelled)
  | Some (Err AttributeError) => Some (Ok o)
  | Some (Err e) => Some (Err e)
  end.

(** Several objects for one value: their attributes are assigned to, and the document is changed in other ways *)
Inductive oact := OSet (i : N) (k : pstr) (v : pyval) | ODoc (m : node).
Definition ostate := (node * (N -> pyobj))%type.
Definition ostep (st : ostate) (a : oact) : ostate * res unit :=
  match a with
  | OSet i k v => let '((o, m), r) := set_attribute (snd st i) (fst st) k v in ((m, fun j => if j =? i then o else snd st j), r)
  | ODoc m => ((m, snd st), Ok tt)
  end.
Fixpoint osteps (st : ostate) (l : list oact) : ostate * list (res unit) :=
  match l with
  | [] => (st, [])
  | a :: l' => let (st1, r) := ostep st a in let (st2, rs) := osteps st1 l' in (st2, r :: rs)
  end.
