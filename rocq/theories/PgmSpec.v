(** Programs that make layers, put them into groups, set their parameters, timelines and attributes, copy parameters from one to another, and also say what the animation is like: its size,
    its speed and so on. What they do to a document, and the same without one. *)
From Verif Require Import AnimModel LayModel LaySpec LoopModel MovSpec VarSpec MixSpec WrSpec TlModel PrmSpec SavSpec2 WldSpec EndSpec.
Local Open Scope N_scope.

(** ** What a user does *)

(** What WldSpec.v has; [animation.k = v]; and [layer.k = layer2['k2']], for another layer or another name. (What happens if a value is assigned to
    itself is in CpyModel.v.) *)
Inductive pact := PLayer (x : wact) | PAnim (k : pstr) (v : pyval) | PCopy (u : N) (k : pstr) (u2 : N) (k2 : pstr).
Definition do_pact (F : forest) (x : pact) : change :=
  match x with
  | PLayer x => do_wact F x
  | PAnim k v => match fget 1 F with None => (F, Err EUnmodelled) | Some n => anim_set F n k v end
  | PCopy u k u2 k2 =>
      match fget u2 F with
      | None => (F, Err EUnmodelled)
      | Some n => match layer_getitem n k2 with Err e => (F, Err e) | Ok (w, c) => do_wact F (WField u k (PVal c (forget w) (ctx_of F (iuid w)))) end
      end
  end.
Fixpoint pacts (F : forest) (l : list pact) : forest * list (res unit) :=
  match l with
  | [] => (F, [])
  | x :: l' => let (F1, r) := do_pact F x in let (F2, rs) := pacts F1 l' in (F2, r :: rs)
  end.

(** ** The same without a document *)

(** The layers, and a dictionary for the animation *)
Definition pworld := (world * attrs)%type.
Definition int_names : list pstr := [s "width"; s "height"; s "antialias"].
Definition float_names : list pstr := [s "version"; s "xres"; s "yres"; s "gamma_r"; s "gamma_g"; s "gamma_b"; s "fps"].
Definition str_names : list pstr := [s "view_box"; s "bgcolor"; s "end_time"].
(** What can only be read, and what there will be some day *)
Definition fixed_names : list pstr := [s "begin_time"; s "name"; s "size"; s "viewbox"; s "framecount"; s "background"; s "keyframes"; s "canvas_tag"].
Definition todo_names : list pstr := 
  [s "background_first_color"; s "background_rendering"; s "background_second_color"; s "background_size"; s "grid_color"; s "grid_show"; s "grid_size"; s "grid_snap";
   s "guide_color"; s "guide_show"; s "guide_snap"; s "jack_offset"; s "onion_skin"; s "onion_skin_future"; s "onion_skin_keyframes"; s "onion_skin_past"].
Definition is_in (k : pstr) (l : list pstr) : bool := existsb (pstr_eqb k) l.
Definition put_attr (k : pstr) (r : res aval) (a : attrs) : attrs * res unit := match r with Ok v => (aset k v a, Ok tt) | Err e => (a, Err e) end.
Definition anim_assign (a : attrs) (k : pstr) (v : pyval) : attrs * res unit :=
  if is_in k int_names then put_attr k (let* z := py_int v in Ok (AInt z)) a
  else if is_in k float_names then put_attr k (let* q := py_float v in Ok (AFlo q)) a
  else if is_in k str_names then put_attr k (let* x := py_str v in Ok (AStr x)) a
  else if is_in k fixed_names then (a, Err AttributeError)
  else (a, Err NotImplementedError).
(** What is in the variable q2 is assigned to q, or to one of the parts of q. *)
Definition copied (part : option pstr) (v : pyval) : pyval := match part with None => v | Some k => PDict [(k, v)] end.
Inductive lpact := LpLayer (x : lwact) | LpAnim (k : pstr) (v : pyval) | LpCopy (q : N) (part : option pstr) (q2 : N) (cx : ctx).
Definition list_pact (w : pworld) (x : lpact) : pworld * res unit :=
  match x with
  | LpLayer x => let (w1, r) := list_wact (fst w) x in ((w1, snd w), r)
  | LpAnim k v => let (a, r) := anim_assign (snd w) k v in ((fst w, a), r)
  | LpCopy q part q2 cx =>
      match snd (fst (fst w)) q2 with
      | None => (w, Err EUnmodelled)
      | Some t => match from_tag t with Err e => (w, Err e) | Ok c => let (w1, r) := list_wact (fst w) (LwAct (LAs q ByField (copied part (PVal c t cx)))) in ((w1, snd w), r) end
      end
  end.
Fixpoint list_pacts (w : pworld) (l : list lpact) : pworld * list (res unit) :=
  match l with
  | [] => (w, [])
  | x :: l' => let (w1, r) := list_pact w x in let (w2, rs) := list_pacts w1 l' in (w2, r :: rs)
  end.

(** ** How they belong together *)

(** The dictionary is that of the animation. *)
Definition portrays (F : forest) (w : pworld) : Prop := depicts F (fst w) /\ topped (snd w) F.
Definition settable (k : pstr) : bool := is_in k (int_names ++ float_names ++ str_names ++ fixed_names ++ todo_names).
(** [layer.k] is q, or a part of q. *)
Definition field_is (F : forest) (u : N) (k : pstr) (q : N) (part : option pstr) : Prop :=
  exists n c, fget u F = Some n /\ is_layer n = true /\ layer_class n = Ok c /\
  match aget k (all_fields c) with
  | Some (FParam _ _) => place F u k = Some q /\ part = None
  | Some (FShort up) => place F u up = Some q /\ part = Some k
  | _ => False
  end.
Definition pact_means (F : forest) (w : pworld) (x : pact) (x' : lpact) : Prop :=
  match x, x' with
  | PLayer x, LpLayer x' => wact_means F (fst w) x x'
  | PAnim k v, LpAnim k' v' => k' = k /\ v' = v /\ settable k = true
  | PCopy u k u2 k2, LpCopy q part q2 cx => place F u2 k2 = Some q2 /\ field_is F u k q part /\ q <> q2 /\ snd (fst (fst w)) q <> None /\ snd (fst (fst w)) q2 <> None /\ cx = ctx_of F q2
  | _, _ => False
  end.
Fixpoint pacts_mean (F : forest) (w : pworld) (l : list pact) (l' : list lpact) : Prop :=
  match l, l' with
  | [], [] => True
  | x :: l1, x' :: l1' => pact_means F w x x' /\ pacts_mean (fst (do_pact F x)) (fst (list_pact w x')) l1 l1'
  | _, _ => False
  end.

(** All strings are XML of one line; frame rates are numbers of Python. *)
Definition sound_pact (x : pact) : Prop :=
  match x with
  | PLayer x => sound_wact x
  | PAnim k v => good_val v /\ tidy_val v /\ line_of v /\ (k = s "fps" -> forall q, py_float v = Ok q -> PyFloat.is_dbl q)
  | PCopy _ _ _ _ => True
  end.

(** What [animation.k] says in the end, if v was assigned to it *)
Definition anim_said (k : pstr) (v : pyval) (cx : ctx) : res pyval :=
  if is_in k int_names then let* z := py_int v in Ok (PInt z)
  else if is_in k float_names then let* q := py_float v in Ok (PFlo q)
  else let* x := py_str v in if pstr_eqb k (s "end_time") then let* t := T_init (TStr x) cx in Ok (PT t) else Ok (PStr x).
