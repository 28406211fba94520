(** find_all() with values of all classes: /repo/sangfroid/layer/layer.py:130-282 with the comparisons of value/*.py.
    LayModel has it for the values that aren't built from parts; this is the same, with those too. *)
From Verif Require Export StrModel.
From Verif Require Import ViewModel.
Local Open Scope Z_scope.

(** [a == b], where a is a value of the class c: simple.py:61-73, vector.py:128-137, color.py:28-44, transformation.py:133-146, and
    value.py:232-236 for String, Gradient and the classes that aren't implemented, whose [value] raises. Canvas is not modelled; nor are Strings compared with objects of class T. *)
Definition val_eq (c : vcls) (n : node) (cx : ctx) (b : pyval) : res bool :=
  match c with
  | VReal | VInteger | VBool | VAngle | VTime | VBlendMethod => simple_eq c n cx b
  | VColor => color_eq n b
  | VString => match b with
               | PVal c' m cy => let* y := get_value c' m cy in
                                 match y with PStr y => Ok (pstr_eqb (string_val n) y) | PT _ => Err EUnmodelled | _ => Ok false end
               | PStr y => Ok (pstr_eqb (string_val n) y)
               | PT _ => Err EUnmodelled
               | _ => Ok false
               end
  | VXY => vec_eq n b
  | VGradient => grad_eq n cx b
  | VTransformation => trans_eq n cx b
  | VTbd _ => Err NotImplementedError
  | VCanvas => Err EUnmodelled
  end.
(** layer.py:257 [found_value==want_value]. What isn't a value leaves it to the value beside it. *)
Definition found_eq (a b : pyval) : res bool :=
  match a, b with
  | PVal c n cx, _ => val_eq c n cx b
  | _, PVal c n cx => val_eq c n cx a
  | _, _ => field_eq a b
  end.

Section Find.
  Context (printable : N -> bool).   (* as in PexModel *)

  (** layer.py:242-252: reading the field, and its repr() for the log *)
  Definition read_logged (st : lcls) (F : forest) (n : inode) (c : lcls) (k : pstr) : res pyval :=
    let* v := field_get st F n c k in
    let* _ := match v with PVal t m cx => value_str printable t m cx | _ => Ok [] end in Ok v.
  (** layer.py:241-262. A class, where a value is looked for, is some object which isn't equal to anything, has no length and can't be converted to a number. *)
  Definition wanted (w : want) : pyval := match w with WVal v => v | WCls _ => POther end.
  Fixpoint any_found (st : lcls) (F : forest) (n : inode) (c : lcls) (l : list (pstr * want)) : res bool :=
    match l with
    | [] => Ok false
    | (k, w) :: l' =>
        match read_logged st F n c k with
        | Err AttributeError => any_found st F n c l'
        | Err e => Err e
        | Ok found => let* b := found_eq found (wanted w) in if b then Ok true else any_found st F n c l'
        end
    end.
  (** layer.py:216-272 [matcher] *)
  Definition matches_all (st : lcls) (F : forest) (cr : criterion) (n : inode) : res bool :=
    if is_layer n then
      let* c := layer_class n in
      match cr with
      | CBool b => Ok b
      | CFun f => Ok (f n)
      | CAny l => any_found st F n c l
      end
    else Ok false.
  (** layer.py:130-282 [find_all] *)
  Definition find_all_of (st : lcls) (F : forest) (n : inode) (pos : list posarg) (recursive : bool)
    (kw : list (pstr * want)) (at_ : option (list (pstr * want))) : res (list inode) :=
    let* cr := criterion_of pos kw at_ in
    let* l := filterM (matches_all st F cr) (if recursive then idesc n else filter itag (ikids n)) in
    mapM as_layer l.
End Find.
