(** The parameters of layers as variables: a small specification. The functions of the model are [param_set] (field.py:238-240), [layer_setitem] (layer/layer.py:97-111),
    [set_value] and [new_value] (the setters and constructors of value/). *)
From Verif Require Import LayModel LaySpec.

(** ** Assignments *)

(** [layer.k = v] for a parameter, or [layer['k'] = v] with a plain value *)
Inductive manner := ByField | ByItem.
Record assignment := assign { as_how : manner; as_layer_ : N; as_name : pstr; as_value_ : pyval }.
Definition do_assign (F : forest) (a : assignment) : change :=
  match fget (as_layer_ a) F with
  | None => (F, Err EUnmodelled)
  | Some n => match as_how a with
              | ByField => param_set F n (as_name a) (as_value_ a)
              | ByItem => layer_setitem F (as_layer_ a) (as_name a) (SPlain (as_value_ a))
              end
  end.
(** Any number of them, and what each returned or raised *)
Fixpoint assigns (F : forest) (l : list assignment) : forest * list (res unit) :=
  match l with
  | [] => (F, [])
  | a :: l' => let (F1, r) := do_assign F a in let (F2, rs) := assigns F1 l' in (F2, r :: rs)
  end.

(** ** Variables *)

(** A variable has a class and holds a value, as it is written in a file. *)
Definition store := N -> option (vcls * node).
Definition put (h : store) (q : N) (x : vcls * node) : store := fun z => if N.eqb z q then Some x else h z.
(** What assigning does to a single value: see C15 to C23. *)
Definition store_assign (h : store) (q : N) (how : manner) (v : pyval) : store * res unit :=
  match h q with
  | None => (h, Err EUnmodelled)
  | Some (c, t) =>
      match how with
      | ByField => let (m, r) := set_value c t v in (put h q (c, m), r)
      | ByItem => match new_value c v with Ok m => (put h q (c, m), Ok tt) | Err e => (h, Err e) end
      end
  end.
(** The value m comes from assigning v to a value of this class. *)
Definition made (c : vcls) (how : manner) (v : pyval) (m : node) : Prop :=
  match how with ByItem => new_value c v = Ok m | ByField => exists t0, set_value c t0 v = (m, Ok tt) end.
(** Assignments to variables, by their numbers *)
Fixpoint store_assigns (h : store) (l : list (N * manner * pyval)) : store * list (res unit) :=
  match l with
  | [] => (h, [])
  | (q, how, v) :: l' => let (h1, r) := store_assign h q how v in let (h2, rs) := store_assigns h1 l' in (h2, r :: rs)
  end.

(** ** The variables of a document *)

(** The variable that the layer u calls k is a param: the first in it, or in the layers in it, that has this name. So two layers may mean the same one. *)
Definition place (F : forest) (u : N) (k : pstr) : option N :=
  match fget u F with Some n => option_map iuid (ifind (is_param k) n) | None => None end.
(** No tag of this name, nor in it *)
Fixpoint no_param (t : node) : bool :=
  match t with Txt _ => true | El nm _ k => negb (pstr_eqb nm (s "param")) && forallb no_param k end.
Definition simple_class (c : vcls) : Prop := In c [VReal; VInteger; VBool; VAngle; VTime; VString; VColor].
(** The param q has one value w, of a simple class. *)
Definition variable (F : forest) (q : N) (c : vcls) (w : inode) : Prop :=
  exists p, fget q F = Some p /\ named (s "param") p = true /\ aget (s "name") (iattrs p) <> None /\
    filter itag (ikids p) = [w] /\ from_tag (forget w) = Ok c /\ simple_class c /\ no_param (forget w) = true.
(** The variables hold what is in the document. *)
Definition agrees (F : forest) (h : store) : Prop :=
  forall q c t, h q = Some (c, t) -> exists w, variable F q c w /\ forget w = t.
(** All the variables of a document *)
Definition simpleb (c : vcls) : bool := match c with VReal | VInteger | VBool | VAngle | VTime | VString | VColor => true | _ => false end.
Definition variables (F : forest) : store := fun q =>
  match fget q F with
  | Some p =>
      if named (s "param") p && match aget (s "name") (iattrs p) with Some _ => true | None => false end
      then match filter itag (ikids p) with
           | [w] => match from_tag (forget w) with
                    | Ok c => if simpleb c && no_param (forget w) then Some (c, forget w) else None
                    | Err _ => None
                    end
           | _ => None
           end
      else None
  | None => None
  end.
(** The places that assignments are to *)
Definition to_places (F : forest) (l : list assignment) : list (N * manner * pyval) :=
  map (fun a => (match place F (as_layer_ a) (as_name a) with Some q => q | None => 0%N end, as_how a, as_value_ a)) l.
(** Each is to a variable. *)
Definition to_variables (F : forest) (h : store) (l : list assignment) : Prop :=
  Forall (fun a => exists q x, place F (as_layer_ a) (as_name a) = Some q /\ h q = Some x) l.
