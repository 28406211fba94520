(** /repo/sangfroid/value/: values as containers: length, truth, iteration, and comparison of the values built from several parts. *)
From Verif Require Import TlModel.
Local Open Scope Z_scope.

(** ** Length and truth *)

(** [len(v)]: value/vector.py:113-114, transformation.py:127-131, gradient.py:41-42; for the other classes, value.py:185-186:
    the number of waypoints *)
Definition value_len (c : vcls) (n : node) (cx : ctx) : res Z :=
  match c with
  | VXY => Ok (Z.of_nat (length (vector_dict n)))
  | VTransformation => Ok (Z.of_nat (length (child_tags n)))
  | VGradient => let* d := gradient_val n cx in Ok (Z.of_nat (length d))
  | _ => tl_len n cx
  end.
(** [bool(v)]: simple.py:108-109 for Bool; otherwise Python asks [len(v)] *)
Definition value_truth (c : vcls) (n : node) (cx : ctx) : res bool :=
  match c with
  | VBool => let* r := simple_val VBool n cx in match r with PBool b => Ok b | _ => Err EUnmodelled end
  | _ => let* l := value_len c n cx in Ok (negb (l =? 0))
  end.

(** [len(v)] of Python objects *)
Definition py_len (v : pyval) : res Z :=
  match v with
  | PStr x => Ok (Z.of_nat (length x))
  | PTuple l | PList l => Ok (Z.of_nat (length l))
  | PDict l => Ok (Z.of_nat (length l))
  | PDictF l => Ok (Z.of_nat (length l))
  | PVal c n cx => value_len c n cx
  | PNone | PBool _ | PInt _ | PFlo _ | PT _ | POther => Err TypeError
  end.

(** ** Views *)

(** value/transformation.py:120-125 [keys], [values] and [items] *)
Definition composite_keys (n : node) : list pstr := map tag_name (child_tags n).
Definition composite_values (n : node) (cx : ctx) : res (list pyval) := let* d := composite_val n cx in Ok (map snd d).
Definition composite_items := composite_val.
(** value/transformation.py:80-86 [__getattr__], for names that aren't real attributes *)
Definition composite_attr (n : node) (cx : ctx) (key : pstr) : res pyval :=
  let* o := composite_get n cx key in match o with None => Err AttributeError | Some v => Ok v end.
(** value/gradient.py:52-62 [keys], [values], [items] and [__iter__] *)
Definition gradient_keys (n : node) (cx : ctx) : res (list Q) := let* d := gradient_val n cx in Ok (map fst d).
Definition gradient_values (n : node) (cx : ctx) : res (list pyval) := let* d := gradient_val n cx in Ok (map snd d).
Definition gradient_items := gradient_val.
Definition gradient_iter := gradient_keys.
(** value/vector.py:139-141 [__iter__]: iterating over None is a TypeError *)
Definition vector_iter (n : node) : res (list Q) :=
  let* o := vector_values n in match o with None => Err TypeError | Some l => Ok l end.

(** [iter(v)]: None if there's no iterating over v; then the elements. A Transformation has [__getitem__] and no [__iter__],
    so Python tries [v[0]], which is a KeyError (transformation.py:88-92). *)
Definition py_iter (v : pyval) : option (res (list pyval)) :=
  match v with
  | PStr x => Some (Ok (map (fun c => PStr [c]) x))
  | PTuple l | PList l => Some (Ok l)
  | PDict l => Some (Ok (map (fun kv => PStr (fst kv)) l))
  | PDictF l => Some (Ok (map (fun kv => PFlo (fst kv)) l))
  | PVal VXY n _ => Some (let* l := vector_iter n in Ok (map PFlo l))
  | PVal VGradient n cx => Some (let* l := gradient_iter n cx in Ok (map PFlo l))
  | PVal VTransformation _ _ => Some (Err KeyError)
  | _ => None
  end.

(** ** Comparison *)

(** [x == v], where x is a float: Python asks v, if x doesn't know its class *)
Definition float_eq (x : Q) (v : pyval) : res bool :=
  match v with
  | PFlo q => Ok (Qeq_bool x q)
  | PInt z => Ok (Qeq_bool x (inject_Z z))
  | PBool b => Ok (Qeq_bool x (if b then 1%Q else 0%Q))
  | PT t => T_eq t (CNum x)
  | PVal (VReal | VInteger | VBool | VAngle | VTime | VBlendMethod) _ _ =>
      match v with PVal c n cx => simple_eq c n cx (PFlo x) | _ => Err EUnmodelled end
  | PVal VGradient n cx => let* _ := gradient_val n cx in Ok false
  | PVal VCanvas n cx => let* _ := get_value VCanvas n cx in Ok false
  | PVal (VTbd _) _ _ => Err NotImplementedError
  | _ => Ok false
  end.
Definition both (f : Q -> pyval -> res bool) (l : list Q) (m : list pyval) : res bool :=
  let* bs := mapM (fun ab => f (fst ab) (snd ab)) (combine l m) in Ok (forallb (fun b => b) bs).
(** value/vector.py:128-137 [Vector.__eq__] *)
Definition vec_eq (n : node) (other : pyval) : res bool :=
  match py_len other with
  | Err TypeError => Ok false
  | Err e => Err e
  | Ok l =>
      if negb (l =? Z.of_nat (length (vector_dict n))) then Ok false
      else match py_iter other with
           | None => Err TypeError
           | Some ys => let* xs := vector_iter n in
                        match xs with [] => Ok true | _ => let* ys := ys in both float_eq xs ys end
           end
  end.

(** Comparing the entries of dictionaries: the first difference decides *)
Fixpoint entries_eq {K} (get : K -> option pyval) (eq : pyval -> pyval -> res bool) (l : list (K * pyval)) : res bool :=
  match l with
  | [] => Ok true
  | (k, x) :: l' => match get k with
                    | None => Ok false
                    | Some y => let* b := eq x y in if b then entries_eq get eq l' else Ok false
                    end
  end.
(** [x == y], where x is one of the colours of a gradient *)
Definition stop_eq (x y : pyval) : res bool := match x with PVal VColor n _ => color_eq n y | _ => Err EUnmodelled end.
(** value/value.py:232-236 [Value.__eq__] of a Gradient: a dictionary is compared with a value *)
Definition grad_eq (n : node) (cx : ctx) (other : pyval) : res bool :=
  let* a := gradient_val n cx in
  let* b := match other with PVal c m cy => get_value c m cy | _ => Ok other end in
  match b with
  | PDictF d => if negb (Z.of_nat (length d) =? Z.of_nat (length a)) then Ok false
                else entries_eq (fun k => qget k d) stop_eq a
  | PDict d => Ok (match a, d with [], [] => true | _, _ => false end)
  | PT t => T_eq t COther
  | _ => Ok false
  end.

(** [a == b], where a is a value which isn't a Transformation *)
Definition flat_eq (c : vcls) (n : node) (cx : ctx) (other : pyval) : res bool :=
  match c with
  | VReal | VInteger | VBool | VAngle | VTime | VBlendMethod => simple_eq c n cx other
  | VColor => color_eq n other
  | VString => match other with
               | PStr y => Ok (pstr_eqb (string_val n) y)
               | PVal VString m _ => Ok (pstr_eqb (string_val n) (string_val m))
               | _ => Err EUnmodelled
               end
  | VXY => vec_eq n other
  | VGradient => grad_eq n cx other
  | _ => Err EUnmodelled
  end.
(** [other[key] != value] at transformation.py:143, the other way round. Values are asked first whether they are equal to something;
    what isn't a value leaves it to the value beside it. *)
Definition item_eq (o v : pyval) : res bool :=
  match o, v with
  | PVal c n cx, _ => flat_eq c n cx v
  | PT _, _ => Err EUnmodelled
  | _, PVal c n cx => flat_eq c n cx o
  | _, _ => Err EUnmodelled
  end.
(** [other[key]], where other has [items] *)
Definition py_getitem (other : pyval) (k : pstr) : res pyval :=
  match other with
  | PDict d => match aget k d with Some v => Ok v | None => Err KeyError end
  | PDictF _ => Err KeyError
  | PVal VXY n _ => let* q := vector_getitem n k in Ok (PFlo q)
  | PVal VTransformation n cx => composite_getitem n cx k
  | PVal VGradient n cx => let* _ := gradient_val n cx in Err KeyError
  | _ => Err EUnmodelled
  end.
Fixpoint items_eq (other : pyval) (l : list (pstr * pyval)) : res bool :=
  match l with
  | [] => Ok true
  | (k, v) :: l' => let* o := py_getitem other k in let* b := item_eq o v in if b then items_eq other l' else Ok false
  end.
(** value/transformation.py:133-146 [Composite.__eq__] *)
Definition trans_eq (n : node) (cx : ctx) (other : pyval) : res bool :=
  match py_items other with
  | None => Ok false
  | Some _ => let* l := py_len other in
              if negb (l =? Z.of_nat (length (child_tags n))) then Ok false
              else let* d := composite_items n cx in items_eq other d
  end.
