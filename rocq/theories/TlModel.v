(** Timelines and waypoints: /repo/sangfroid/value/value.py.

    A Value object is given by its class c, its tag n, the attributes cx of the
    root canvas of the document it is in (if any), and [par]: whether the tag
    has a parent. Operations give the tag afterwards; where the code
    replaces the tag in its parent, the result is the new tag. *)
From Verif Require Export ValModel.
Local Open Scope Z_scope.

(** ** Waypoints *)

Definition vcls_eqb (a b : vcls) : bool :=
  match a, b with
  | VReal, VReal | VInteger, VInteger | VBool, VBool | VAngle, VAngle | VTime, VTime
  | VString, VString | VColor, VColor | VXY, VXY | VTransformation, VTransformation
  | VGradient, VGradient | VCanvas, VCanvas | VBlendMethod, VBlendMethod => true
  | VTbd x, VTbd y => pstr_eqb x y
  | _, _ => false
  end.

(** value.py:477-499 the state of a Waypoint. Its value is a Value object: a class and a tag. *)
Record wp : Type := mkW { w_time : T; w_before : pstr; w_after : pstr; w_cls : vcls; w_val : node }.

(** value.py:460-468 INTERPOLATION_TYPES, without 'undefined' *)
Definition interpolation_types : list pstr :=
  [s "tcb"; s "clamped"; s "constant"; s "linear"; s "ease"].
(** value.py:470-473 INTERPOLATION_TYPE_SYNONYMS *)
Definition interpolation_synonyms : list (pstr * pstr) :=
  [(s "auto", s "tcb"); (s "clamped", s "clamped"); (s "constant", s "constant");
   (s "linear", s "linear"); (s "halt", s "ease")].

(** value.py:517-538 [_check_interpolation_type] for a str *)
Definition check_interpolation (v : pstr) : res pstr :=
  if pstr_eqb v (s "undefined") then Err ValueError
  else if existsb (pstr_eqb v) interpolation_types then Ok v
  else match aget v interpolation_synonyms with
       | Some k => Ok k
       | None => Err ValueError
       end.
(** value.py:505-507, 513-515 the setters *)
Definition set_before (w : wp) (v : pstr) : res wp :=
  let* b := check_interpolation v in Ok (mkW (w_time w) b (w_after w) (w_cls w) (w_val w)).
Definition set_after (w : wp) (v : pstr) : res wp :=
  let* a := check_interpolation v in Ok (mkW (w_time w) (w_before w) a (w_cls w) (w_val w)).

(** A time given by the caller: a T, an int or float, a str, or anything else. *)
Inductive tkey : Type :=
| KeyT (t : T)
| KeyNum (q : Q)
| KeyStr (x : pstr)
| KeyOther.

(** value.py:477-499 [Waypoint.__init__] *)
Definition waypoint_new (k : tkey) (v : pyval) (before after : pstr) (cx : ctx) : res wp :=
  match v with
  | PVal c n _ =>
      if is_animated n then Err ValueError
      else let* t := match k with
                     | KeyT t => Ok t
                     | KeyNum q => T_init (TNum q) cx
                     | KeyStr x => T_init (TStr x) cx
                     | KeyOther => Err TypeError
                     end in
           let* b := check_interpolation before in
           let* a := check_interpolation after in
           Ok (mkW t b a c n)
  | _ => Err TypeError
  end.

(** value.py:540-551 [Waypoint.tag]: a new tag with a copy of the value *)
Definition wp_tag (w : wp) : node :=
  El (s "waypoint") [(s "time", ATime (w_time w)); (s "before", AStr (w_before w)); (s "after", AStr (w_after w))]
     [w_val w].

(** The first argument of T() for an attribute: a str, or an object for [float()] *)
Definition tval_of (v : aval) : tval :=
  match v with
  | AStr x => TStr x
  | AFlo q => TNum q
  | AInt z => TNum (f_of_Z z)
  | ATime t => TNum (frames t)
  end.

(** A str attribute as an interpolation type; anything else isn't one. *)
Definition aval_interp (v : aval) : res pstr :=
  match v with AStr x => check_interpolation x | _ => Err ValueError end.

(** value.py:553-592 [Waypoint.from_tag]. The messages of the two errors about
    the number of values mention a variable that doesn't exist. *)
Definition wp_from_tag (n : node) (our_type : aval) (cx : ctx) : res wp :=
  if negb (has_name (s "waypoint") n) then Err ValueError
  else match aget (s "time") (tag_attrs n) with
  | None => Err KeyError
  | Some tv =>
      let* t := T_init (tval_of tv) cx in
      match child_tags n with
      | [v] =>
          if is_animated v then Err ValueError
          else if negb (match our_type with AStr x => pstr_eqb (tag_name v) x | _ => false end) then Err ValueError
          else
            let* c := from_tag v in
            match aget (s "before") (tag_attrs n), aget (s "after") (tag_attrs n) with
            | Some b, Some a => let* b := aval_interp b in let* a := aval_interp a in Ok (mkW t b a c v)
            | _, _ => Err KeyError
            end
      | _ => Err NameError
      end
  end.

(** ** Dictionaries whose keys are T *)

(** Whether a lookup of [a] finds [b]: the hashes (t.py:284-289) have to agree, and
    then a == b, which may raise (t.py:224-242). Collisions of Python's
    own hash function are left out. *)
Definition opt_qeq (a b : option Q) : bool :=
  match a, b with Some x, Some y => Qeq_bool x y | None, None => true | _, _ => false end.
Definition tmatch (a b : T) : res bool :=
  match T_hash a, T_hash b with
  | None, None => T_eq a (CT b)
  | Some (x, f), Some (y, g) => if Qeq_bool x y && opt_qeq f g then T_eq a (CT b) else Ok false
  | _, _ => Ok false
  end.

Definition tdict := list (T * wp).
(** [d[k] = v]: an existing key keeps its place (and its object). *)
Fixpoint tset (k : T) (v : wp) (d : tdict) : res tdict :=
  match d with
  | [] => Ok [(k, v)]
  | (k', v') :: d' =>
      let* m := tmatch k k' in
      if m then Ok ((k', v) :: d') else let* r := tset k v d' in Ok ((k', v') :: r)
  end.
(** [del d[k]] *)
Fixpoint tdel (k : T) (d : tdict) : res tdict :=
  match d with
  | [] => Err KeyError
  | (k', v') :: d' =>
      let* m := tmatch k k' in
      if m then Ok d' else let* r := tdel k d' in Ok ((k', v') :: r)
  end.
Fixpoint tsets (l : list wp) (d : tdict) : res tdict :=
  match l with
  | [] => Ok d
  | w :: l' => let* d := tset (w_time w) w d in tsets l' d
  end.
Fixpoint tdels (l : list T) (d : tdict) : res tdict :=
  match l with
  | [] => Ok d
  | t :: l' => let* d := tdel t d in tdels l' d
  end.

(** ** Reading a timeline *)

(** value.py:111-128 [_waypoint_tags] *)
Definition waypoint_tags (n : node) : list node := if is_animated n then child_tags n else [].

(** value.py:130-154 [_waypoints] *)
Definition waypoints (n : node) (cx : ctx) : res tdict :=
  match waypoint_tags n with
  | [] => Ok []
  | l => match aget (s "type") (tag_attrs n) with
         | None => Err KeyError
         | Some ty => let* ws := mapM (fun w => wp_from_tag w ty cx) l in tsets ws []
         end
  end.

(** value.py:315-322 [keys], [values], [items]; :185-186 and :450-451 [__len__] *)
Definition tl_keys (n : node) (cx : ctx) : res (list T) := let* d := waypoints n cx in Ok (map fst d).
Definition tl_values (n : node) (cx : ctx) : res (list wp) := let* d := waypoints n cx in Ok (map snd d).
Definition tl_len (n : node) (cx : ctx) : res Z := let* d := waypoints n cx in Ok (Z.of_nat (length d)).

(** [sorted()] of waypoints, by [Waypoint.__lt__] (value.py:594-595). Comparing
    times of different FPS raises. Python's algorithm makes a comparison between the
    groups of different FPS, unless there are times without FPS
    to go by: that is outside the model. *)
Definition conflict (a b : T) : bool :=
  match fps a, fps b with Some x, Some y => negb (Qeq_bool x y) | _, _ => false end.
Definition wp_le (a b : wp) : bool := Qle_bool (frames (w_time a)) (frames (w_time b)).
Definition sort_wps (l : list wp) : res (list wp) :=
  if existsb (fun a => existsb (fun b => conflict (w_time a) (w_time b)) l) l
  then if existsb (fun a => match fps (w_time a) with None => true | _ => false end) l
       then Err EUnmodelled else Err ValueError
  else Ok (sort wp_le l).

(** value.py:299-301 [__iter__] *)
Definition tl_iter (n : node) (cx : ctx) : res (list wp) := let* l := tl_values n cx in sort_wps l.

(** [sub in str(tag)] for a word without markup characters: it has to be in a
    name, an attribute or a text. *)
Fixpoint str_contains (x : pstr) (n : node) : bool :=
  match n with
  | Txt y => contains x y
  | El nm a k => contains x nm
                 || existsb (fun kv => contains x (fst kv) || contains x (aval_str (snd kv))) a
                 || existsb (str_contains x) k
  end.

Definition cmp_of (k : tkey) : cmpval :=
  match k with KeyT t => CT t | KeyNum q => CNum q | KeyStr _ | KeyOther => COther end.

(** value.py:380-389 [__getitem__] *)
Fixpoint tl_find (k : cmpval) (d : tdict) : res wp :=
  match d with
  | [] => Err KeyError
  | (t, w) :: d' =>
      let* e := T_eq t k in
      if e then Ok w
      else let* g := T_gt t k in
           if g then Err KeyError else tl_find k d'
  end.
Definition tl_getitem (n : node) (cx : ctx) (k : tkey) : res wp :=
  if str_contains (s "x_y") n then Err ValueError
  else let* d := waypoints n cx in tl_find (cmp_of k) d.

(** value.py:437-441 [__eq__] between two timelines: by [Waypoint.__eq__], value.py:597-601 *)
Fixpoint wps_eq (a b : list wp) : res bool :=
  match a, b with
  | [], [] => Ok true
  | x :: a', y :: b' => let* e := T_eq (w_time x) (CT (w_time y)) in if e then wps_eq a' b' else Ok false
  | _, _ => Ok false
  end.
Definition tl_eq (n : node) (cx : ctx) (m : node) (cy : ctx) : res bool :=
  let* a := tl_values n cx in
  let* b := tl_values m cy in
  if Nat.eqb (length a) (length b) then wps_eq a b else Ok false.

(** ** Changing a timeline *)

(** value.py:303-313 [_ensure_fps] *)
Definition ensure_fps (cx : ctx) (k : tkey) : res T :=
  match k with
  | KeyNum q => T_init (TNum q) cx
  | KeyStr x => T_init (TStr x) cx
  | KeyT t => match fps t with None => T_init (TNum (frames t)) cx | Some _ => Ok t end
  | KeyOther => Err TypeError
  end.

Definition with_kids (n : node) (k : list node) : node := El (tag_name n) (tag_attrs n) k.

(** value.py:61-64: the tag becomes <animated type="...">; its other attributes are lost. *)
Definition animated_tag (n : node) : node := El (s "animated") [(s "type", AStr (tag_name n))] (tag_kids n).

Fixpoint with_newlines (l : list node) : list node :=
  match l with
  | [] => []
  | [x] => [x]
  | x :: l' => x :: Txt [10%N] :: with_newlines l'
  end.

(** value.py:69-88 [_set_animated(False)]: the tag is cleared, and then can't be
    replaced if it has no parent. *)
Definition unanimate (n : node) (cx : ctx) (par : bool) : outcome :=
  if negb (is_animated n) then (n, Ok tt)
  else match tl_values n cx with
       | Err e => (n, Err e)
       | Ok [] => (n, Err IndexError)
       | Ok (w :: _) => if par then (w_val w, Ok tt) else (with_kids n [], Err ValueError)
       end.

(** value.py:156-183 [_set_waypoints]. The tag is cleared before the sorting. *)
Definition set_waypoints (n : node) (cx : ctx) (par : bool) (l : list wp) : outcome :=
  match l with
  | [] => unanimate n cx par
  | _ =>
      let n1 := if is_animated n then n else animated_tag n in
      match sort_wps l with
      | Ok l' => (with_kids n1 (with_newlines (map wp_tag l')), Ok tt)
      | Err e => (with_kids n1 [], Err e)
      end
  end.

(** What is assigned to [timeline[t]]. *)
Inductive tlarg : Type :=
| AWp (w : wp)
| AVal (v : pyval).

(** [isinstance(v, c)], for a v of class c'; BlendMethod is a subclass of Integer (blendmethod.py:4). *)
Definition inst (c c' : vcls) : bool :=
  vcls_eqb c c' || match c, c' with VInteger, VBlendMethod => true | _, _ => false end.

(** value.py:395-409 the new waypoint *)
Definition new_waypoint (c : vcls) (t : T) (x : tlarg) : res wp :=
  match x with
  | AWp w => Ok (mkW t (w_before w) (w_after w) (w_cls w) (w_val w))
  | AVal v =>
      let made := let* m := new_value c v in Ok (mkW t (s "clamped") (s "clamped") c m) in
      match v with
      | PVal c' m _ => if inst c c'
                       then if is_animated m then Err ValueError
                            else Ok (mkW t (s "clamped") (s "clamped") c' m)
                       else made
      | _ => made
      end
  end.

(** value.py:391-422 [__setitem__] *)
Definition tl_setitem (c : vcls) (n : node) (cx : ctx) (par : bool) (k : tkey) (x : tlarg) : outcome :=
  match ensure_fps cx k with
  | Err e => (n, Err e)
  | Ok t =>
      match new_waypoint c t x with
      | Err e => (n, Err e)
      | Ok w =>
          let n1 := if is_animated n then n else animated_tag (with_kids n []) in
          match (let* d := waypoints n1 cx in tset t w d) with
          | Err e => (n1, Err e)
          | Ok d => set_waypoints n1 cx par (map snd d)
          end
      end
  end.

(** value.py:424-435 [__delitem__] *)
Definition tl_delitem (n : node) (cx : ctx) (par : bool) (k : tkey) : outcome :=
  match (match k with KeyOther => let* _ := waypoints n cx in Err KeyError | _ => ensure_fps cx k end) with
  | Err e => (n, Err e)
  | Ok t =>
      match (let* d := waypoints n cx in tdel t d) with
      | Err e => (n, Err e)
      | Ok d => set_waypoints n cx par (map snd d)
      end
  end.

(** value.py:56-68 [_set_animated(True)]: the old value becomes a waypoint at 0.
    The layers of a Canvas, which would be assigned to a new one, are not modelled here. *)
Definition animate (c : vcls) (n : node) (cx : ctx) (par : bool) : outcome :=
  if is_animated n then (n, Ok tt)
  else match get_value c n cx with
       | Err e => (n, Err e)
       | Ok v =>
           if (match c, v with VCanvas, PList (_ :: _) => true | _, _ => false end) then (n, Err EUnmodelled)
           else tl_setitem c (with_kids (animated_tag n) []) cx par (KeyNum 0) (AVal v)
       end.

(** value.py:45-47 [value.is_animated = b] *)
Definition set_is_animated (c : vcls) (n : node) (cx : ctx) (par : bool) (b : bool) : outcome :=
  if b then animate c n cx par else unanimate n cx par.

(** value.py:353-359: the times of the old waypoints which clash, once for each new one *)
Fixpoint clashes (old : list wp) (new : list wp) : res (list T) :=
  match old with
  | [] => Ok []
  | o :: old' =>
      let* l := filterM (fun w => T_eq (w_time o) (CT (w_time w))) new in
      let* r := clashes old' new in
      Ok (map (fun _ => w_time o) l ++ r)
  end.

(** value.py:329-378 [add], with a Waypoint or a list of them *)
Definition tl_add (c : vcls) (n : node) (cx : ctx) (par : bool) (ws : list wp) (overwrite : bool) : outcome :=
  match (let* existing := waypoints n cx in
         let* cl := clashes (map snd existing) ws in
         if overwrite then tdels cl existing
         else match cl with [] => Ok existing | _ => Err ValueError end) with
  | Err e => (n, Err e)
  | Ok d =>
      let (n1, r) := set_is_animated c n cx par true in
      match r with
      | Err e => (n1, Err e)
      | Ok _ =>
          match tsets ws d with
          | Err e => (n1, Err e)
          | Ok d => match sort_wps (map snd d) with
                    | Ok l => (with_kids n1 (map wp_tag l), Ok tt)
                    | Err e => (with_kids n1 [], Err e)
                    end
          end
      end
  end.

(** value.py:96-109 [value.timeline = v], for a list of waypoints (or a dict of
    them, or another Timeline: its values), a list with something else
    in it (numbers, say), and other objects. *)
Inductive tlset : Type :=
| SList (l : list wp)
| SJunk
| SOther.
Definition tl_assign (n : node) (cx : ctx) (par : bool) (v : tlset) : outcome :=
  match v with
  | SList l => set_waypoints n cx par l
  | SJunk => (with_kids (if is_animated n then n else animated_tag n) [], Err AttributeError)
  | SOther => (n, Err TypeError)
  end.

(** value.py:324-327 [value.timeline += w]: [__iadd__] returns None, which is then assigned. *)
Definition tl_iadd (c : vcls) (n : node) (cx : ctx) (par : bool) (ws : list wp) : outcome :=
  match tl_add c n cx par ws true with
  | (n1, Ok _) => tl_assign n1 cx par SOther
  | (n1, Err e) => (n1, Err e)
  end.
