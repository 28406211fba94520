(** What the theorems about layers say, apart from the functions they are about. *)
From Verif Require Import LayModel DocProofs.
From Coq Require Import Permutation.

(** Every tag is one object at one place. *)
Definition wf (F : forest) : Prop := NoDup (fuids F).

(** The numbers of some layers, in order: their identities *)
Definition ids (l : list inode) : list N := map iuid l.

(** A list without x *)
Definition without (x : N) (l : list N) : list N := filter (fun y => negb (N.eqb x y)) l.

(** A tree without the texts that are only white space *)
Definition blank (n : inode) : bool :=
  match n with IT x => forallb (fun c => existsb (N.eqb c) [9; 10; 13; 32]%N) x | IE _ _ _ _ => false end.
Fixpoint squeeze (n : inode) : inode :=
  match n with
  | IT x => IT x
  | IE u nm a k => IE u nm a (flat_map (fun c => if blank c then [] else [squeeze c]) k)
  end.
(** Two forests that differ only in white space *)
Definition same_but_space (F F' : forest) : Prop := map squeeze F = map squeeze F'.

(** c is the canvas of the layer n itself: it is directly in n's param called canvas, and
    nothing before that could be taken for it. *)
Definition own_canvas (n c : inode) : Prop :=
  exists k1 p k2 j1 j2,
    ikids n = k1 ++ p :: k2 /\ is_param (s "canvas") p = true /\
    ikids p = j1 ++ c :: j2 /\ named (s "canvas") c = true /\
    (forall x, In x (fdesc k1) -> is_param (s "canvas") x = false) /\
    (forall x, In x (fdesc j1) -> named (s "canvas") x = false).
(** c holds the children of the object n: an animation is its own canvas. *)
Definition holds_children (kd : okind) (n c : inode) : Prop :=
  match kd with KAnim => c = n | KGroup => own_canvas n c | KPlain => False end.

(** All the layers in a tree have a known type. *)
Definition known (n : inode) : Prop := exists c, layer_class n = Ok c.
Definition all_known (l : list inode) : Prop := Forall (fun n => is_layer n = true -> known n) l.

(** ** Histories of moves *)
Inductive move := MAppend (kd : okind) (g l : N) | MInsert (kd : okind) (g : N) (i : Z) (l : N).
Definition try_move (F : forest) (m : move) : change :=
  match m with
  | MAppend kd g l => group_append F kd g l
  | MInsert kd g i l => group_insert F kd g i l
  end.
Definition do_move (F : forest) (m : move) : forest := fst (try_move F m).
(** None of the moves puts a layer into itself (the model has no cycles). They may raise exceptions. *)
Fixpoint moves_modelled (F : forest) (ms : list move) : Prop :=
  match ms with
  | [] => True
  | m :: ms' => snd (try_move F m) <> Err EUnmodelled /\ moves_modelled (do_move F m) ms'
  end.

(** ** Layers nested in layers *)

(** The layers inside a layer: each with its number, and its own sublayers, topmost first *)
Inductive ltree := LT (u : N) (sub : list ltree).
Definition lid (t : ltree) : N := match t with LT u _ => u end.
Definition lsub (t : ltree) : list ltree := match t with LT _ k => k end.
Fixpoint lcount (t : ltree) : nat := match t with LT _ k => S (list_sum (map lcount k)) end.
Fixpoint lall (t : ltree) : list N := match t with LT u k => u :: flat_map lall k end.

(** No layer among these or inside them *)
Definition no_layers (l : list inode) : Prop := forall x, In x (fdesc l) -> is_layer x = false.

(** As [own_canvas], with everything of the layer that is not in the canvas *)
Definition canvas_and_rest (n c : inode) (rest : list inode) : Prop :=
  exists k1 p k2 j1 j2,
    ikids n = k1 ++ p :: k2 /\ is_param (s "canvas") p = true /\
    ikids p = j1 ++ c :: j2 /\ named (s "canvas") c = true /\
    (forall x, In x (fdesc k1) -> is_param (s "canvas") x = false) /\
    (forall x, In x (fdesc j1) -> named (s "canvas") x = false) /\
    rest = k1 ++ k2 ++ j1 ++ j2.

(** Two lists whose members are related one by one *)
Definition both {A B} (R : B -> A -> Prop) : list A -> list B -> Prop :=
  fix both l m {struct m} :=
  match m, l with
  | [], [] => True
  | y :: m', x :: l' => R y x /\ both l' m'
  | _, _ => False
  end.

(** The layer n has the number and the sublayers t says: they are directly on its own canvas,
    and there are no layers anywhere else in n. A layer with no canvas has none. *)
Fixpoint nested (t : ltree) (n : inode) : Prop :=
  match t with
  | LT u sub =>
      is_layer n = true /\ iuid n = u /\
      ((exists c rest, canvas_and_rest n c rest /\ no_layers rest /\
         no_layers (filter (fun x => negb (is_layer x)) (ikids c)) /\
         both nested (rev (filter is_layer (ikids c))) sub)
       \/ (sub = [] /\ no_layers (ikids n) /\ forall c, layer_class n = Ok c -> kind_of c = KPlain))
  end.
(** An animation, with the layers in it *)
Definition nested_root (sub : list ltree) (n : inode) : Prop :=
  itag n = true /\ no_layers (filter (fun x => negb (is_layer x)) (ikids n)) /\
  both nested (rev (filter is_layer (ikids n))) sub.

(** Only groups have sublayers (there are other classes that can: Filter_Group, Switch, Duplicate, ...) *)
Definition groups_only (n : inode) : Prop :=
  forall x c, In x (idesc n) -> is_layer x = true -> layer_class x = Ok c -> kind_of c = KPlain -> no_layers (ikids x).

(** The layers of a tree in the order of the document: the topmost child is the last *)
Fixpoint ldoc (t : ltree) : list N := match t with LT u k => u :: concat (rev (map ldoc k)) end.

(** The layers a tag is inside, outermost first *)
Definition enclosing (F : forest) (u : N) : list inode :=
  filter (fun x => is_layer x && existsb (N.eqb u) (fuids (ikids x))) (fdesc F).

(** ** Parameters *)

(** p is the param called f of the layer n itself, and nothing before it is called so. *)
Definition own_param (n : inode) (f : pstr) (p : inode) : Prop :=
  exists k1 k2, ikids n = k1 ++ p :: k2 /\ is_param f p = true /\ forall x, In x (fdesc k1) -> is_param f x = false.

(** The forest with the tag o replaced by the tag t *)
Fixpoint iput (o : N) (t : inode) (n : inode) : inode :=
  match n with
  | IT x => IT x
  | IE v nm a k => IE v nm a (map (fun c => if is_ o c then t else iput o t c) k)
  end.
Definition fput (o : N) (t : inode) (F : forest) : forest := map (fun c => if is_ o c then t else iput o t c) F.

(** The forest without the attribute k of the tag u *)
Definition without_attr (u : N) (k : pstr) (F : forest) : forest :=
  fat u (with_iattrs (filter (fun kv => negb (pstr_eqb (fst kv) k)))) F.

(** A layer meets one criterion of find_all: its field k can be read, and equals v. *)
Definition meets (st : lcls) (F : forest) (n : inode) (kv : pstr * pyval) : Prop :=
  exists c found, layer_class n = Ok c /\ read_for_match st F n c (fst kv) = Ok found /\ field_eq found (snd kv) = Ok true.

(** ** Indexes and moves *)

(** A Python index that can be used on a list of this length *)
Definition in_range (i : Z) (len : nat) : Prop := (- Z.of_nat len <= i < Z.of_nat len)%Z.
(** The layer a move moves *)
Definition moved_layer (m : move) : N := match m with MAppend _ _ l | MInsert _ _ _ l => l end.
(** The names of the params directly in a layer *)
Definition param_names (n : inode) : list (option aval) :=
  map (fun p => aget (s "name") (iattrs p)) (filter (named (s "param")) (ikids n)).
(** The class has a parameter called type_, which hides the type of the layer. *)
Definition own_type (c : lcls) : bool := has_key (s "type_") (all_fields c).
(** The type written in the document *)
Definition type_is (n : inode) (x : pstr) : Prop := aget (s "type") (iattrs n) = Some (AStr x).
(** A value of the class c' is one of the class c: it is of that class or of a subclass. *)
Definition is_a (c' c : vcls) : Prop := c' = c \/ (c' = VBlendMethod /\ c = VInteger).

(** ** New layers *)

(** The names of the parameters a class declares *)
Definition declared (c : lcls) : list pstr :=
  flat_map (fun f => match snd f with FParam _ _ => [fst f] | _ => [] end) (all_fields c).

(** The tag m holds the default d: the value equals it; or, for the values of several parts, m is what
    the constructor makes of d. A time holds the text of d. *)
Definition simple_types : list vcls := [VReal; VInteger; VBool; VAngle; VString; VColor].
Definition default_kept (ty : vcls) (d : pyval) (m : node) : Prop :=
  if existsb (vcls_eqb ty) simple_types then value_eq ty m None d = Ok true
  else match ty with
       | VTime => exists x, py_str d = Ok x /\ m = El (s "time") [(s "value", AStr x)] []
       | _ => new_value ty d = Ok m
       end.
