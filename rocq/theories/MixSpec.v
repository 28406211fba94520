(** Moves of layers and assignments to parameters, in any order. *)
From Verif Require Import LayModel LaySpec LoopModel MovSpec VarSpec.
Local Open Scope N_scope.

(** [g.append(l)], [g.insert(i, l)], [l.k = v] or [l['k'] = v] *)
Inductive step := SMove (m : move) | SAssign (a : assignment).
Definition do_step (F : forest) (x : step) : change := match x with SMove m => try_move F m | SAssign a => do_assign F a end.
Fixpoint doc_steps (F : forest) (l : list step) : forest * list (res unit) :=
  match l with
  | [] => (F, [])
  | x :: l' => let (F1, r) := do_step F x in let (F2, rs) := doc_steps F1 l' in (F2, r :: rs)
  end.

(** The same for lists of children (MovSpec.v) and variables (VarSpec.v): a move changes only lists, an assignment one variable. *)
Inductive lstep := LMove (m : move) | LAssign (q : N) (how : manner) (v : pyval).
Definition list_step (hs : shelf * store) (x : lstep) : (shelf * store) * res unit :=
  let (h, st) := hs in
  match x with
  | LMove m => let (h', r) := list_move h m in ((h', st), r)
  | LAssign q how v => let (st', r) := store_assign st q how v in ((h, st'), r)
  end.
Fixpoint list_steps (hs : shelf * store) (l : list lstep) : (shelf * store) * list (res unit) :=
  match l with
  | [] => (hs, [])
  | x :: l' => let (h1, r) := list_step hs x in let (h2, rs) := list_steps h1 l' in (h2, r :: rs)
  end.

(** No tag of it is a layer or a canvas. *)
Fixpoint flat_value (t : node) : bool :=
  match t with Txt _ => true | El nm _ k => negb (pstr_eqb nm (s "layer")) && negb (pstr_eqb nm (s "canvas")) && forallb flat_value k end.
(** The lists and variables are those of the document. *)
Record reflects (F : forest) (hs : shelf * store) : Prop := {
  rf_lists : shows F (fst hs);
  rf_vars : agrees F (snd hs);
  rf_flat : forall q c t, snd hs q = Some (c, t) -> flat_value t = true }.
(** The steps that the user takes on the document, as steps on lists and variables: which variable is meant depends on the document. *)
Fixpoint means (F : forest) (st : store) (l : list step) (l' : list lstep) : Prop :=
  match l, l' with
  | [], [] => True
  | SMove m :: l1, LMove m' :: l1' => m' = m /\ fits F m /\ means (do_move F m) st l1 l1'
  | SAssign a :: l1, LAssign q how v :: l1' =>
      place F (as_layer_ a) (as_name a) = Some q /\ st q <> None /\ how = as_how a /\ v = as_value_ a /\ means (fst (do_assign F a)) st l1 l1'
  | _, _ => False
  end.
(** A layer without layers in it, nor a place for them: its parameters are its own. *)
Definition single (F : forest) (u : N) : Prop :=
  exists n, fget u F = Some n /\ is_layer n = true /\ forall x, In x (idesc n) -> is_layer x = false /\ named (s "canvas") x = false.
Definition lstep_of (F : forest) (x : step) : lstep :=
  match x with
  | SMove m => LMove m
  | SAssign a => LAssign (match place F (as_layer_ a) (as_name a) with Some q => q | None => 0 end) (as_how a) (as_value_ a)
  end.
(** An assignment to a parameter of a layer without layers in it *)
Definition to_single (F : forest) (st : store) (a : assignment) : Prop :=
  single F (as_layer_ a) /\ exists q, place F (as_layer_ a) (as_name a) = Some q /\ st q <> None.
(** No move puts a layer into itself. *)
Fixpoint moves_fit (F : forest) (l : list step) : Prop :=
  match l with
  | [] => True
  | SMove m :: l' => fits F m /\ moves_fit (do_move F m) l'
  | SAssign a :: l' => moves_fit (fst (do_assign F a)) l'
  end.
(** All the variables of a document that hold flat values *)
Definition flat_variables (F : forest) : store := fun q => match variables F q with Some (c, t) => if flat_value t then Some (c, t) else None | None => None end.
