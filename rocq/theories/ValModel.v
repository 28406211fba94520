(** /repo/sangfroid/value/: static values. Animation is in TlModel.v. *)
From Verif Require Export TimeModel RegistryModel.
Local Open Scope Z_scope.

(** ** Value classes and Python objects *)

(** The subclasses of value.Value: simple.py, string.py, color.py,
    vector.py (Vector and its only subclass X_Y), transformation.py (Composite
    and its only subclass Transformation), gradient.py, canvas.py,
    blendmethod.py; the classes of tbd.py behave alike. *)
Inductive vcls : Type :=
| VReal | VInteger | VBool | VAngle | VTime | VString | VColor | VXY
| VTransformation | VGradient | VCanvas | VBlendMethod | VTbd (name : pstr).

(** The Python objects that can be passed to or read from a value. Dictionaries
    have string keys ([PDict]) or numeric keys ([PDictF]). [PVal c n cx] is a
    value object of class c, whose tag is n, found in a document whose outermost canvas has the
    attributes cx (or in none). [POther] is any object without special methods. *)
Inductive pyval : Type :=
| PNone
| PBool (b : bool)
| PInt (z : Z)
| PFlo (q : Q)
| PStr (x : pstr)
| PTuple (l : list pyval)
| PList (l : list pyval)
| PDict (l : list (pstr * pyval))
| PDictF (l : list (Q * pyval))
| PT (t : T)
| PVal (c : vcls) (n : node) (cx : ctx)
| POther.

(** value/value.py:249-251 [get_name_for_tag]: [cls.__name__.lower()] *)
Definition name_for_tag (c : vcls) : pstr :=
  match c with
  | VReal => s "real" | VInteger => s "integer" | VBool => s "bool" | VAngle => s "angle"
  | VTime => s "time" | VString => s "string" | VColor => s "color" | VXY => s "x_y"
  | VTransformation => s "transformation" | VGradient => s "gradient" | VCanvas => s "canvas"
  | VBlendMethod => s "blendmethod" | VTbd x => lower x
  end.

(** value/value.py:25-29 [_get_empty_tag]; vector.py:141-142; transformation.py:18-22 *)
Definition empty_tag (c : vcls) : node :=
  match c with
  | VXY => El (s "vector") [] []
  | VTransformation => El (s "composite") [(s "type", AStr (s "transformation"))] []
  | _ => El (name_for_tag c) [] []
  end.

(** ** Reading *)

(** value/simple.py:11-26 [Simple.value] and the [_construct_value]s
    (simple.py:28-29, 110-120, 147-151) *)
Definition simple_val (c : vcls) (n : node) (cx : ctx) : res pyval :=
  match aget (s "value") (tag_attrs n) with
  | None => Err ValueError
  | Some (AStr x) =>
      match c with
      | VReal | VAngle => let* q := parse_float x in Ok (PFlo q)
      | VInteger | VBlendMethod => let* z := parse_int x in Ok (PInt z)
      | VBool => Ok (PBool (pstr_eqb (lower x) (s "true")))
      | VTime => let* t := T_init (TStr x) cx in Ok (PT t)
      | _ => Err EUnmodelled
      end
  | Some _ => Err AssertionError
  end.

(** value/string.py:9-12 [String.value]: [str(self._tag.string)] *)
Definition string_val (n : node) : pstr :=
  match node_string n with Some x => x | None => s "None" end.

(** value/color.py:4 [RGBA] *)
Definition rgba : list pstr := [s "r"; s "g"; s "b"; s "a"].

(** [float(self._tag(dimension)[0].string)] *)
Definition color_comp (n : node) (d : pstr) : res Q :=
  match find_all (has_name d) n with
  | [] => Err IndexError
  | t :: _ => match node_string t with None => Err TypeError | Some x => parse_float x end
  end.

(** value/color.py:21-26 [as_tuple] *)
Definition color_tuple (n : node) : res (list Q) := mapM (color_comp n) rgba.

(** value/color.py:9-19 [Color.value] *)
Definition color_hex (n : node) : res pstr :=
  let* l := color_tuple n in
  let r := 35%N :: flat_map (fun q => fmt_02x (round_he (fmul q 255))) l in
  Ok (if ends_with (s "ff") r then firstn (length r - 2) r else r).

(** value/vector.py:15-22 [Vector.value] *)
Definition vector_dict (n : node) : list (pstr * option pstr) :=
  adict (map (fun t => (tag_name t, node_string t)) (child_tags n)).

(** [float(v)] where v is a str or None *)
Definition float_opt (v : option pstr) : res Q :=
  match v with None => Err TypeError | Some x => parse_float x end.

(** Sorting strings, by code points. *)
Fixpoint pstr_le (a b : pstr) : bool :=
  match a, b with
  | [], _ => true
  | _ :: _, [] => false
  | x :: a', y :: b' => if (x =? y)%N then pstr_le a' b' else (x <? y)%N
  end.
Section Sort.
  Context {A : Type} (le : A -> A -> bool).
  Fixpoint ins (x : A) (l : list A) : list A :=
    match l with
    | [] => [x]
    | y :: l' => if le x y then x :: l else y :: ins x l'
    end.
  (** [sorted()]: stable. *)
  Definition sort (l : list A) : list A := fold_right ins [] l.
End Sort.

(** value/vector.py:102-103 [keys] *)
Definition vector_keys (n : node) : list pstr := sort pstr_le (map fst (vector_dict n)).

(** value/vector.py:110-111 [items] *)
Definition vector_items (n : node) : res (list (pstr * Q)) :=
  mapM (fun kv => let* q := float_opt (snd kv) in Ok (fst kv, q)) (vector_dict n).

(** value/value.py:36-44 [is_animated] *)
Definition animated_name : pstr := s "animated".
Definition is_animated (n : node) : bool := pstr_eqb (tag_name n) animated_name.

(** value/vector.py:105-108 [values]; None when animated *)
Definition vector_values (n : node) : res (option (list Q)) :=
  if is_animated n then Ok None else let* l := vector_items n in Ok (Some (map snd l)).

(** value/vector.py:116-120 [as_tuple] *)
Definition vector_tuple (n : node) : res (list Q) :=
  mapM (fun k => float_opt (match aget k (vector_dict n) with Some v => v | None => None end)) (vector_keys n).

(** Python list indexing *)
Definition py_index {A} (l : list A) (i : Z) : res A :=
  let j := if i <? 0 then i + Z.of_nat (length l) else i in
  if j <? 0 then Err IndexError
  else match nth_error l (Z.to_nat j) with Some x => Ok x | None => Err IndexError end.

(** value/vector.py:75-96 [get] and [__getitem__] with a string key *)
Definition vector_get (n : node) (key : pstr) : res (option Q) :=
  match filter (has_name key) (child_tags n) with
  | [] => Ok None
  | t :: _ => let* q := float_opt (node_string t) in Ok (Some q)
  end.
Definition vector_getitem (n : node) (key : pstr) : res Q :=
  let* o := vector_get n key in match o with None => Err KeyError | Some q => Ok q end.
(** with an int key *)
Definition vector_getitem_int (n : node) (i : Z) : res Q :=
  let* k := py_index (vector_keys n) i in vector_getitem n k.

(** value/vector.py:32-40 [__getattr__] (for names that aren't real attributes) *)
Definition vector_attr (n : node) (f : pstr) : res Q :=
  match f with
  | 95%N :: _ => Err AttributeError
  | _ => match find_first (has_name f) n with
         | None => Err AttributeError
         | Some t => parse_float (node_text t)
         end
  end.

(** value/vector.py:128-139 [__eq__] against a sequence of floats *)
Definition vector_eq (n : node) (other : list Q) : res bool :=
  if negb (Nat.eqb (length other) (length (vector_dict n))) then Ok false
  else let* o := vector_values n in
       match o with
       | None => Err TypeError
       | Some l => Ok (forallb (fun ab => Qeq_bool (fst ab) (snd ab)) (combine l other))
       end.

(** ** From tags *)

(** The decorators [@Value.handles_type()], in the order of value/__init__.py:14-22. *)
Definition value_history : list (option pstr * pstr * vcls) :=
  [(None, s "Canvas", VCanvas); (None, s "Color", VColor); (None, s "Vector", VXY);
   (None, s "Gradient", VGradient); (None, s "Real", VReal); (None, s "Integer", VInteger);
   (None, s "Bool", VBool); (None, s "Angle", VAngle); (None, s "Time", VTime);
   (None, s "String", VString);
   (None, s "Dynamic_List", VTbd (s "Dynamic_List")); (None, s "Static_List", VTbd (s "Static_List"));
   (None, s "Wplist", VTbd (s "Wplist")); (None, s "Dilist", VTbd (s "Dilist"));
   (None, s "Bline", VTbd (s "Bline")); (None, s "Tone", VTbd (s "Tone"));
   (None, s "Composite", VTransformation)].
Definition value_registry : registry vcls := run value_history.

Definition first_child_tag (n : node) : option node := hd_error (child_tags n).

(** value/vector.py:144-181 [Vector._construct_from]: X_Y if the fields are x
    and y (of the first waypoint, when animated). Iterating over [None.children] is an AttributeError. *)
Definition vector_construct (n : node) : res vcls :=
  let xy t := match map tag_name (child_tags t) with
              | [] => Err TypeError
              | l => if forallb (fun k => pstr_eqb k (s "x") || pstr_eqb k (s "y")) l
                        && existsb (pstr_eqb (s "x")) l && existsb (pstr_eqb (s "y")) l
                     then Ok VXY else Err TypeError
              end in
  if is_animated n then
    match first_child_tag n with
    | None => Ok VXY
    | Some w => match first_child_tag w with None => Err AttributeError | Some t => xy t end
    end
  else xy n.

(** value/transformation.py:170-187 [Composite._construct_from] *)
Definition composite_construct (n : node) : res vcls :=
  match aget (s "type") (tag_attrs n) with
  | Some (AStr x) => if pstr_eqb (lower x) (s "transformation") then Ok VTransformation else Err KeyError
  | Some _ => Err AttributeError
  | None => Err KeyError
  end.

(** value/value.py:258-278 [Value.from_tag]: the class of the object. The tag is
    kept as it is. An attribute that isn't a str has no [lower]. *)
Definition from_tag (n : node) : res vcls :=
  let* nm := if is_animated n
             then match aget (s "type") (tag_attrs n) with
                  | Some (AStr x) => Ok x
                  | Some _ => Err AttributeError
                  | None => Err KeyError
                  end
             else Ok (tag_name n) in
  let* c := from_name value_registry nm in
  match c with
  | VXY => vector_construct n
  | VTransformation => composite_construct n
  | _ => Ok c
  end.

(** ** Composite, reading *)

(** value/transformation.py:189-195 [Transformation.REQUIRED_KEYS] *)
Definition transformation_keys : list (pstr * vcls) :=
  [(s "offset", VXY); (s "angle", VAngle); (s "skew_angle", VAngle); (s "scale", VXY)].

(** value/transformation.py:24-54 [Composite.value] *)
Definition composite_field (cx : ctx) (f : node) : res (pstr * pyval) :=
  if pstr_eqb (tag_name f) (s "layer") then Err AssertionError
  else match child_tags f with
       | [v] => let* c := from_tag v in Ok (tag_name f, PVal c v cx)
       | _ => Err ValueError
       end.
Definition same_keys (a b : list pstr) : bool :=
  forallb (fun k => existsb (pstr_eqb k) b) a && forallb (fun k => existsb (pstr_eqb k) a) b.
Definition composite_val (n : node) (cx : ctx) : res (list (pstr * pyval)) :=
  let* l := mapM (composite_field cx) (child_tags n) in
  let d := adict l in
  if same_keys (map fst d) (map fst transformation_keys) then Ok d else Err AssertionError.

(** value/transformation.py:94-118 [get] and :88-92 [__getitem__] *)
Definition composite_get (n : node) (cx : ctx) (key : pstr) : res (option pyval) :=
  match filter (has_name key) (child_tags n) with
  | [] => Ok None
  | [f] => match child_tags f with
           | [] => Ok None
           | [v] => let* c := from_tag v in Ok (Some (PVal c v cx))
           | _ => Err ValueError
           end
  | _ => Err ValueError
  end.
Definition composite_getitem (n : node) (cx : ctx) (key : pstr) : res pyval :=
  let* o := composite_get n cx key in match o with None => Err KeyError | Some v => Ok v end.

(** ** Gradient, reading *)

(** Dictionaries with float keys *)
Fixpoint qget (k : Q) (d : list (Q * pyval)) : option pyval :=
  match d with [] => None | (k', v) :: d' => if Qeq_bool k k' then Some v else qget k d' end.
Fixpoint qset (k : Q) (v : pyval) (d : list (Q * pyval)) : list (Q * pyval) :=
  match d with
  | [] => [(k, v)]
  | (k', v') :: d' => if Qeq_bool k k' then (k', v) :: d' else (k', v') :: qset k v d'
  end.
Definition qdict (l : list (Q * pyval)) : list (Q * pyval) :=
  fold_left (fun d kv => qset (fst kv) (snd kv) d) l [].

(** value/gradient.py:7-17 [Gradient.value] *)
Definition gradient_val (n : node) (cx : ctx) : res (list (Q * pyval)) :=
  let cs := find_all (has_name (s "color")) n in
  if (Z.of_nat (length cs) <? 2) then Err ValueError
  else let* l := mapM (fun c => match aget (s "pos") (tag_attrs c) with
                                | None => Err KeyError
                                | Some v => let* q := float_of_aval v in Ok (q, PVal VColor c cx)
                                end) cs in
       Ok (qdict l).

(** value/gradient.py:44-45 [__getitem__] *)
Definition gradient_getitem (n : node) (cx : ctx) (k : Q) : res pyval :=
  let* d := gradient_val n cx in match qget k d with Some v => Ok v | None => Err KeyError end.

(** ** [obj.value] *)
Definition get_value (c : vcls) (n : node) (cx : ctx) : res pyval :=
  match c with
  | VReal | VInteger | VBool | VAngle | VTime | VBlendMethod => simple_val c n cx
  | VString => Ok (PStr (string_val n))
  | VColor => let* x := color_hex n in Ok (PStr x)
  | VXY => Ok (PDict (map (fun kv => (fst kv, match snd kv with Some x => PStr x | None => PNone end)) (vector_dict n)))
  | VTransformation => let* d := composite_val n cx in Ok (PDict d)
  | VGradient => let* d := gradient_val n cx in Ok (PDictF d)
  | VCanvas => (* canvas.py:6-22; the layers themselves are objects of LayModel.v, here POther *)
      if forallb (has_name (s "layer")) (child_tags n) then Ok (PList (map (fun _ => POther) (child_tags n))) else Err ValueError
  | VTbd _ => Err NotImplementedError    (* tbd.py:7-10 *)
  end.

(** ** Python conversions *)

(** [float(v)]: numbers, str, T (t.py:204), Numeric (simple.py:75-80) and Angle (simple.py:137-138) *)
Definition py_float (v : pyval) : res Q :=
  match v with
  | PBool b => Ok (if b then 1%Q else 0%Q)
  | PInt z => Ok (f_of_Z z)
  | PFlo q => Ok q
  | PStr x => parse_float x
  | PT t => Ok (frames t)
  | PVal VReal n cx => let* r := simple_val VReal n cx in match r with PFlo q => Ok q | _ => Err EUnmodelled end
  | PVal VAngle n cx => let* r := simple_val VAngle n cx in match r with PFlo q => Ok q | _ => Err EUnmodelled end
  | PVal VInteger n cx | PVal VBlendMethod n cx =>
      let* r := simple_val VInteger n cx in match r with PInt z => Ok (f_of_Z z) | _ => Err EUnmodelled end
  | _ => Err TypeError
  end.

(** [int(v)] *)
Definition py_int (v : pyval) : res Z :=
  match v with
  | PBool b => Ok (if b then 1 else 0)
  | PInt z => Ok z
  | PFlo q => Ok (trunc q)
  | PStr x => parse_int x
  | PT t => Ok (T_int t)
  | PVal VReal n cx => let* r := simple_val VReal n cx in match r with PFlo q => Ok (trunc q) | _ => Err EUnmodelled end
  | PVal VInteger n cx | PVal VBlendMethod n cx =>
      let* r := simple_val VInteger n cx in match r with PInt z => Ok z | _ => Err EUnmodelled end
  | _ => Err TypeError
  end.

(** [bool(v)]. Value defines [__len__] as the number of its waypoints
    (value.py:185-186), so a static value of a class without its own [__bool__] or
    [__len__] is false. Animated ones are outside the model here. *)
Definition py_bool (v : pyval) : res bool :=
  match v with
  | PNone => Ok false
  | PBool b => Ok b
  | PInt z => Ok (negb (z =? 0))
  | PFlo q => Ok (negb (Qeq_bool q 0))
  | PStr x => Ok (match x with [] => false | _ => true end)
  | PTuple l | PList l => Ok (match l with [] => false | _ => true end)
  | PDict l => Ok (match l with [] => false | _ => true end)
  | PDictF l => Ok (match l with [] => false | _ => true end)
  | PT _ | POther => Ok true
  | PVal VBool n cx => let* r := simple_val VBool n cx in match r with PBool b => Ok b | _ => Err EUnmodelled end
  | PVal VXY n _ => Ok (match vector_dict n with [] => false | _ => true end)
  | PVal VTransformation n _ => Ok (match child_tags n with [] => false | _ => true end)
  | PVal VGradient n cx => let* d := gradient_val n cx in Ok (match d with [] => false | _ => true end)
  | PVal _ n _ => if is_animated n then Err EUnmodelled else Ok false
  end.

(** [T(v)] without ref (t.py:94-120) *)
Definition py_T (v : pyval) (cx : ctx) : res T :=
  match v with
  | PStr x => T_init (TStr x) cx
  | _ => match py_float v with
         | Ok q => T_init (TNum q) cx
         | Err TypeError => T_init TBad cx
         | Err e => Err e
         end
  end.

(** [str(v)]; containers and the values built from several parts are outside the model, except (). *)
Definition py_str (v : pyval) : res pstr :=
  match v with
  | PNone => Ok (s "None")
  | PBool b => Ok (if b then s "True" else s "False")
  | PInt z => Ok (dec_Z z)
  | PFlo q => Ok (repr_float q)
  | PStr x => Ok x
  | PTuple [] => Ok (s "()")
  | PT t => Ok (T_str t)
  | PVal c n cx =>
      if is_animated n then Ok (s "(animated)")
      else match c with
           | VReal | VInteger | VBool | VTime | VBlendMethod =>
               let* r := simple_val c n cx in
               match r with
               | PFlo q => Ok (repr_float q)
               | PInt z => Ok (dec_Z z)
               | PBool b => Ok (if b then s "True" else s "False")
               | PT t => Ok (T_str t)
               | _ => Err EUnmodelled
               end
           | VAngle => let* r := simple_val c n cx in
                       match r with PFlo q => Ok (fmt_g 6 q ++ [176%N]) | _ => Err EUnmodelled end
           | VString => Ok (string_val n)
           | VColor => color_hex n
           | _ => Err EUnmodelled
           end
  | _ => Err EUnmodelled
  end.

(** [v == ()], as at simple.py:36 *)
Definition eq_empty_tuple (v : pyval) : res bool :=
  match v with
  | PTuple [] => Ok true
  | PVal (VReal | VInteger | VAngle | VBlendMethod) _ _ => Err TypeError    (* float(()), int(()): simple.py:63 *)
  | PVal VBool n cx => let* r := simple_val VBool n cx in
                       match r with PBool b => Ok (negb b) | _ => Err EUnmodelled end    (* bool(()) is False *)
  | PVal VTime n cx => let* _ := simple_val VTime n cx in Ok false
  | PVal VColor n _ => let* _ := color_tuple n in Ok false
  | PVal VXY n _ => match vector_dict n with
                    | [] => if is_animated n then Err TypeError else Ok true
                    | _ => Ok false
                    end
  | PVal VGradient n cx => let* _ := gradient_val n cx in Ok false
  | PVal (VTbd _) _ _ => Err NotImplementedError
  | _ => Ok false
  end.

(** ** Writing *)

(** The tag after an assignment, and the exception it raised, if any. *)
Definition outcome := (node * res unit)%type.

Definition is_none (v : pyval) : bool := match v with PNone => true | _ => false end.

(** value/simple.py:36-49 and the [_value_to_str]s (simple.py:57-59, 92-94,
    122-124): the string to be stored *)
Definition simple_str (c : vcls) (v : pyval) : res pstr :=
  let* e := eq_empty_tuple v in
  let d := e || is_none v in
  match c with
  | VReal => let* q := if d then Ok 0%Q else py_float v in Ok (fmt_f 10 q)
  | VAngle => let* q := if d then Ok 0%Q else py_float v in Ok (repr_float q)
  | VInteger | VBlendMethod => let* z := if d then Ok 0 else py_int v in Ok (dec_Z z)
  | VBool => let* b := if d then Ok false else py_bool v in Ok (if b then s "true" else s "false")
  | VTime => let* t := if d then Ok (mkT 0 None) else py_T v None in Ok (T_str t)
  | _ => Err EUnmodelled
  end.

(** value/simple.py:31-55 [Simple.value] setter *)
Definition simple_set (c : vcls) (n : node) (v : pyval) : outcome :=
  match simple_str c v with
  | Ok x => (El (name_for_tag c) [(s "value", AStr x)] [], Ok tt)
  | Err e => (n, Err e)
  end.

(** value/string.py:14-16 *)
Definition string_set (n : node) (v : pyval) : outcome :=
  match py_str v with
  | Ok x => (El (tag_name n) (tag_attrs n) [Txt x], Ok tt)
  | Err e => (n, Err e)
  end.

(** value/color.py:70-71: drop a leading '#' *)
Definition drop_hash (x : pstr) : pstr := match x with 35%N :: r => r | _ => x end.
(** value/color.py:55-92: the four components *)
Definition color_parse_hex (x : pstr) : res (list Q) :=
  let v := drop_hash x in
  let* v := if Nat.eqb (length v) 6 then Ok (v ++ s "FF")
            else if Nat.eqb (length v) 8 then Ok v else Err ValueError in
  match v with
  | [a; b; c; d; e; f; g; h] =>
      let comp z := round_dec 6 (fdiv (inject_Z z) 255) in
      let* r := parse_hex2 a b in let* g' := parse_hex2 c d in
      let* b' := parse_hex2 e f in let* a' := parse_hex2 g h in
      Ok [comp r; comp g'; comp b'; comp a']
  | _ => Err ValueError
  end.
Definition color_conv (v : pyval) : res (list Q) :=
  match v with
  | PTuple l =>
      match l with
      | [] => Ok [1; 1; 1; 1]%Q
      | [_; _; _] => mapM py_float (l ++ [PFlo 1])
      | [_; _; _; _] => mapM py_float l
      | _ => Err ValueError
      end
  | PStr x => color_parse_hex x
  | PVal VColor n _ => color_tuple n
  | _ => Err ValueError
  end.

Definition color_node (attrs : attrs) (l : list Q) : node :=
  El (s "color") attrs (map (fun dq => El (fst dq) [] [Txt (fmt_f 6 (snd dq))]) (combine rgba l)).

(** value/color.py:46-101 setter *)
Definition color_set (n : node) (v : pyval) : outcome :=
  match color_conv v with
  | Ok l => (color_node [] l, Ok tt)
  | Err e => (n, Err e)
  end.

(** Keys of a mapping *)
Inductive pkey := KS (x : pstr) | KF (q : Q).

(** [v.items()], if [hasattr(v, 'items')] *)
Definition py_items (v : pyval) : option (res (list (pkey * pyval))) :=
  match v with
  | PDict l => Some (Ok (map (fun kv => (KS (fst kv), snd kv)) l))
  | PDictF l => Some (Ok (map (fun kv => (KF (fst kv), snd kv)) l))
  | PVal VXY n _ => Some (let* l := vector_items n in Ok (map (fun kv => (KS (fst kv), PFlo (snd kv))) l))
  | PVal VTransformation n cx => Some (let* l := composite_val n cx in Ok (map (fun kv => (KS (fst kv), snd kv)) l))
  | PVal VGradient n cx => Some (let* l := gradient_val n cx in Ok (map (fun kv => (KF (fst kv), snd kv)) l))
  | _ => None
  end.

Definition is_number (v : pyval) : bool :=
  match v with PFlo _ | PInt _ | PBool _ => true | _ => false end.

(** vector.py:67-73: one new child per member; a failing member stops the loop. *)
Fixpoint vector_append (acc : list node) (l : list (pkey * pyval)) : list node * res unit :=
  match l with
  | [] => (acc, Ok tt)
  | (KF _, _) :: _ => (acc, Err EUnmodelled)
  | (KS k, v) :: l' =>
      match (match v with PFlo q => Ok (fmt_f 10 q) | _ => py_str v end) with
      | Ok x => vector_append (acc ++ [El k [] [Txt x]]) l'
      | Err e => (acc, Err e)
      end
  end.

(** value/vector.py:42-73 setter. The tag is not cleared. *)
Definition vector_members (v : pyval) : res (list (pkey * pyval)) :=
  match v with
  | PNone | PTuple [] => Ok []
  | PTuple [a; b] => if is_number a && is_number b then Ok [(KS (s "x"), a); (KS (s "y"), b)] else Err TypeError
  | PTuple _ => Err TypeError
  | _ => match py_items v with Some _ => Ok [] | None => Err TypeError end
  end.
Definition vector_set (n : node) (v : pyval) : outcome :=
  match vector_members v with
  | Err e => (n, Err e)
  | Ok m =>
      match py_items v with
      | None => let (k, r) := vector_append (tag_kids n) m in (El (s "vector") [] k, r)
      | Some (Ok l) => let (k, r) := vector_append (tag_kids n) l in (El (s "vector") [] k, r)
      | Some (Err e) => (El (s "vector") [] (tag_kids n), Err e)
      end
  end.

(** value/canvas.py:24-35 setter: only for the empty sequence or things that aren't
    layers. *)
Definition canvas_set (n : node) (v : pyval) : outcome :=
  let cleared := El (tag_name n) (tag_attrs n) [] in
  match v with
  | PTuple [] | PList [] | PDict [] | PDictF [] | PStr [] => (cleared, Ok tt)
  | PTuple _ | PList _ | PDict _ | PDictF _ | PStr _ => (cleared, Err TypeError)
  | PNone | PBool _ | PInt _ | PFlo _ | PT _ | POther => (cleared, Err TypeError)
  | PVal _ _ _ => (cleared, Err EUnmodelled)
  end.

(** value/value.py:12-24 [Value.__init__] with one argument that isn't a tag, for
    the classes that don't nest *)
Definition new_flat (c : vcls) (v : pyval) : res node :=
  let (n, r) := match c with
                | VString => string_set (empty_tag c) v
                | VColor => color_set (empty_tag c) v
                | VXY => vector_set (empty_tag c) v
                | VCanvas => canvas_set (empty_tag c) v
                | VTbd _ => (empty_tag c, Err AttributeError)   (* the property has no setter *)
                | VGradient | VTransformation => (empty_tag c, Err EUnmodelled)
                | _ => simple_set c (empty_tag c) v
                end in
  let* _ := r in
  match c with
  | VBlendMethod => (* blendmethod.py:33-37 *)
      Ok (El (s "integer") (aset (s "static") (AStr (s "true")) (tag_attrs n)) (tag_kids n))
  | _ => Ok n
  end.

(** transformation.py:71-78 the loop *)
Fixpoint composite_append (acc : list node) (l : list (pstr * pyval)) : list node * res unit :=
  match l with
  | [] => (acc, Ok tt)
  | (k, v) :: l' =>
      match aget k transformation_keys with
      | None => (acc, Err KeyError)
      | Some c => match new_flat c v with
                  | Ok t => composite_append (acc ++ [El k [] [t; Txt [10%N]]]) l'
                  | Err e => (acc, Err e)
                  end
      end
  end.

Fixpoint str_keys (l : list (pkey * pyval)) : option (list (pstr * pyval)) :=
  match l with
  | [] => Some []
  | (KS k, v) :: l' => match str_keys l' with Some r => Some ((k, v) :: r) | None => None end
  | (KF _, _) :: _ => None
  end.

(** value/transformation.py:56-78 setter. A transformation on the right is another one: see CpyModel.v for [t.value = t]. *)
Definition composite_set (n : node) (v : pyval) : outcome :=
  match py_items v with
  | None => (n, Err TypeError)
  | Some (Err e) => (n, Err e)
  | Some (Ok l) =>
      match str_keys l with
      | None => (n, Err KeyError)
      | Some l => if forallb (fun kv => match aget (fst kv) transformation_keys with Some _ => true | None => false end) l
                  then let (k, r) := composite_append [] l in (El (tag_name n) (tag_attrs n) k, r)
                  else (n, Err KeyError)
      end
  end.

(** gradient.py:32-36 the loop *)
Fixpoint gradient_append (acc : list node) (l : list (Q * pyval)) : list node * res unit :=
  match l with
  | [] => (acc, Ok tt)
  | (pos, v) :: l' =>
      match new_flat VColor v with
      | Ok t => gradient_append (acc ++ [set_attr (s "pos") (AStr (fmt_g 6 pos)) t]) l'
      | Err e => (acc, Err e)
      end
  end.

Definition key_le (a b : Q * pyval) : bool := Qle_bool (fst a) (fst b).

(** value/gradient.py:19-36 setter. Formatting a str with %g is a TypeError. *)
Definition gradient_set_dict (n : node) (d : list (Q * pyval)) : outcome :=
  if Z.of_nat (length d) <? 2 then (n, Err ValueError)
  else let (k, r) := gradient_append [] (sort key_le d) in (El (tag_name n) (tag_attrs n) k, r).
Definition gradient_set (n : node) (v : pyval) : outcome :=
  match v with
  | PVal VGradient m cx => match gradient_val m cx with Ok d => gradient_set_dict n d | Err e => (n, Err e) end
  | PDictF d => gradient_set_dict n d
  | PDict d =>
      if Z.of_nat (length d) <? 2 then (n, Err ValueError)
      else (El (tag_name n) (tag_attrs n) [],
            match sort (fun a b => pstr_le (fst a) (fst b)) d with
            | (_, v) :: _ => match new_flat VColor v with Ok _ => Err TypeError | Err e => Err e end
            | [] => Ok tt
            end)
  | _ => (n, Err TypeError)
  end.

(** value/gradient.py:47-50 [__setitem__] *)
Definition gradient_setitem (n : node) (cx : ctx) (k : Q) (v : pyval) : outcome :=
  match gradient_val n cx with
  | Err e => (n, Err e)
  | Ok d => gradient_set_dict n (qset k v d)
  end.

(** ** [obj.value = v] *)
Definition set_value (c : vcls) (n : node) (v : pyval) : outcome :=
  match c with
  | VReal | VInteger | VBool | VAngle | VTime | VBlendMethod => simple_set c n v
  | VString => string_set n v
  | VColor => color_set n v
  | VXY => vector_set n v
  | VTransformation => composite_set n v
  | VGradient => gradient_set n v
  | VCanvas => canvas_set n v
  | VTbd _ => (n, Err AttributeError)
  end.

(** [cls(v)] *)
Definition new_value (c : vcls) (v : pyval) : res node :=
  match c with
  | VTransformation | VGradient => let (n, r) := set_value c (empty_tag c) v in let* _ := r in Ok n
  | _ => new_flat c v
  end.

(** ** Equality *)

(** NEAR_AS_DAMMIT, simple.py:5 *)
Definition near : Q := rnd64 (1 # 10000).

Definition is_instance (c : vcls) (v : pyval) : bool :=
  match c, v with
  | VReal, PVal VReal _ _ | VInteger, PVal (VInteger | VBlendMethod) _ _ | VBool, PVal VBool _ _
  | VAngle, PVal VAngle _ _ | VTime, PVal VTime _ _ | VBlendMethod, PVal VBlendMethod _ _ => true
  | _, _ => false
  end.

(** value/simple.py:61-73 [Simple.__eq__], with :86-90 [Real._compare_with]: what
    [other] is converted to; [None] if the conversion is a ValueError, in
    which case the comparison is with [other] itself. *)
Definition conv_or_keep {A} (r : res A) : res (option A) :=
  match r with Ok a => Ok (Some a) | Err ValueError => Ok None | Err e => Err e end.

Definition simple_eq (c : vcls) (n : node) (cx : ctx) (other : pyval) : res bool :=
  match c with
  | VReal | VAngle =>
      let* o := if is_instance c other
                then match other with
                     | PVal _ m cy => let* r := simple_val c m cy in match r with PFlo q => Ok (Some q) | _ => Err EUnmodelled end
                     | _ => Err EUnmodelled
                     end
                else conv_or_keep (py_float other) in
      let* r := simple_val c n cx in
      match r, o with
      | PFlo x, Some y => Ok (match c with VReal => Qle_bool (Qabs (fsub x y)) near | _ => Qeq_bool x y end)
      | PFlo _, None => Ok false
      | _, _ => Err EUnmodelled
      end
  | VInteger | VBlendMethod =>
      let* o := if is_instance c other
                then match other with
                     | PVal _ m cy => let* r := simple_val c m cy in match r with PInt z => Ok (Some z) | _ => Err EUnmodelled end
                     | _ => Err EUnmodelled
                     end
                else conv_or_keep (py_int other) in
      let* r := simple_val c n cx in
      match r, o with
      | PInt x, Some y => Ok (x =? y)
      | PInt _, None => Ok false
      | _, _ => Err EUnmodelled
      end
  | VBool =>
      let* o := if is_instance c other
                then match other with
                     | PVal _ m cy => let* r := simple_val c m cy in match r with PBool b => Ok b | _ => Err EUnmodelled end
                     | _ => Err EUnmodelled
                     end
                else py_bool other in
      let* r := simple_val c n cx in
      match r with PBool b => Ok (Bool.eqb b o) | _ => Err EUnmodelled end
  | VTime =>
      let* o := if is_instance c other
                then match other with
                     | PVal _ m cy => let* r := simple_val c m cy in match r with PT t => Ok (Some t) | _ => Err EUnmodelled end
                     | _ => Err EUnmodelled
                     end
                else conv_or_keep (py_T other None) in
      let* r := simple_val c n cx in
      match r, o with
      | PT x, Some y => T_eq x (CT y)
      | PT x, None => T_eq x COther
      | _, _ => Err EUnmodelled
      end
  | _ => Err EUnmodelled
  end.

(** value/color.py:28-44 [Color.__eq__] *)
Definition color_eq (n : node) (other : pyval) : res bool :=
  match other with
  | PVal VColor m _ => let* a := color_hex n in let* b := color_hex m in Ok (pstr_eqb a b)
  | PStr x =>
      let o := lower x in
      let o := match o with 35%N :: _ => o | _ => 35%N :: o end in
      let o := if Nat.eqb (length o) 9 && ends_with (s "ff") o then firstn (length o - 2) o else o in
      let* a := py_str (PVal VColor n None) in Ok (pstr_eqb a o)
  | PTuple l =>
      let l := if Nat.eqb (length l) 3 then l ++ [PFlo 1] else l in
      let* a := color_tuple n in
      if Nat.eqb (length l) 4
      then Ok (forallb (fun ab => match snd ab with
                                  | PFlo q => Qeq_bool (fst ab) q
                                  | PInt z => Qeq_bool (fst ab) (inject_Z z)
                                  | PBool b => Qeq_bool (fst ab) (if b then 1%Q else 0%Q)
                                  | _ => false
                                  end) (combine a l))
      else Ok false
  | _ => Ok false
  end.
