(** The parameters of layers as variables for values of any class but Canvas, animated or not, in a document whose layers are moved. *)
From Verif Require Import AnimModel LayModel LaySpec LoopModel MovSpec VarSpec MixSpec WrSpec TlModel.
From Verif Require TlSpec.
Local Open Scope N_scope.

(** ** Values without layers *)

(** Not the name of a canvas, a layer or a param, in any spelling *)
Definition plain_name (nm : pstr) : bool := negb (existsb (pstr_eqb (normalise nm)) [s "canvas"; s "layer"; s "param"]).
Definition plain_type (a : attrs) : bool := match aget (s "type") a with Some (AStr x) => plain_name x | _ => true end.
(** There is none of these in it, and it isn't of that type. *)
Fixpoint bare (t : node) : bool :=
  match t with Txt _ => true | El nm a k => plain_name nm && plain_type a && forallb bare k end.
(** Nor in what is assigned *)
Fixpoint bare_val (v : pyval) : Prop :=
  match v with
  | PTuple l | PList l => (fix all l := match l with [] => True | y :: l' => bare_val y /\ all l' end) l
  | PDict l => (fix all (l : list (pstr * pyval)) := match l with [] => True | (k, y) :: l' => plain_name k = true /\ bare_val y /\ all l' end) l
  | PDictF l => (fix all (l : list (Q * pyval)) := match l with [] => True | (_, y) :: l' => bare_val y /\ all l' end) l
  | PVal _ n _ => bare n = true /\ is_tag n = true
  | _ => True
  end.
Definition bare_wp (w : wp) : Prop := bare (w_val w) = true.
Definition bare_tlarg (x : tlarg) : Prop := match x with AWp w => bare_wp w | AVal v => bare_val v end.
Definition bare_vedit (e : vedit) : Prop :=
  match e with
  | VSet v | VItem _ v => bare_val v
  | VAnimated _ | VTlDel _ => True
  | VTlSet _ x => bare_tlarg x
  | VTlAdd ws _ | VTlIadd ws => Forall bare_wp ws
  | VTlAssign l => match l with SList ws => Forall bare_wp ws | _ => True end
  end.

(** ** What a user does *)

(** Moving a layer; assigning to a parameter; or doing something to [layer['k']]: assigning to its value, its items, its timeline, or to
    [is_animated] *)
Inductive act := AMove (m : move) | AAssign (a : assignment) | AEdit (u : N) (k : pstr) (e : vedit).
Definition do_edit (F : forest) (u : N) (k : pstr) (e : vedit) : change :=
  match fget u F with
  | None => (F, Err EUnmodelled)
  | Some n => match layer_getitem n k with
              | Err x => (F, Err x)
              | Ok (w, c) => apply_edit F (EValue (iuid w) c e)
              end
  end.
Definition do_act (F : forest) (x : act) : change :=
  match x with AMove m => try_move F m | AAssign a => do_assign F a | AEdit u k e => do_edit F u k e end.
Fixpoint acts (F : forest) (l : list act) : forest * list (res unit) :=
  match l with
  | [] => (F, [])
  | x :: l' => let (F1, r) := do_act F x in let (F2, rs) := acts F1 l' in (F2, r :: rs)
  end.

(** ** The same for variables *)

(** A variable holds a value, as it is written in a file. Its class is seen from that. *)
Definition vstore := N -> option node.
Definition vput (h : vstore) (q : N) (t : node) : vstore := fun z => if N.eqb z q then Some t else h z.
(** What a single value becomes; cx is the canvas that it is in, for its speed (C28 says what the operations on timelines mean) *)
Definition val_assign (t : node) (how : manner) (v : pyval) : outcome :=
  match from_tag t with
  | Err x => (t, Err x)
  | Ok c => match how with
            | ByField => set_value c t v
            | ByItem => match new_value c v with Ok m => (m, Ok tt) | Err x => (t, Err x) end
            end
  end.
Definition val_edit (t : node) (cx : ctx) (e : vedit) : outcome :=
  match from_tag t with Err x => (t, Err x) | Ok c => vapply c t cx true e end.
(** Acts on lists of children (MovSpec.v) and variables *)
Inductive lact := LMv (m : move) | LAs (q : N) (how : manner) (v : pyval) | LEd (q : N) (cx : ctx) (e : vedit).
Definition on_var (st : vstore) (q : N) (f : node -> outcome) : vstore * res unit :=
  match st q with None => (st, Err EUnmodelled) | Some t => let (m, r) := f t in (vput st q m, r) end.
Definition list_act (hs : shelf * vstore) (x : lact) : (shelf * vstore) * res unit :=
  let (h, st) := hs in
  match x with
  | LMv m => let (h', r) := list_move h m in ((h', st), r)
  | LAs q how v => let (st', r) := on_var st q (fun t => val_assign t how v) in ((h, st'), r)
  | LEd q cx e => let (st', r) := on_var st q (fun t => val_edit t cx e) in ((h, st'), r)
  end.
Fixpoint list_acts (hs : shelf * vstore) (l : list lact) : (shelf * vstore) * list (res unit) :=
  match l with
  | [] => (hs, [])
  | x :: l' => let (h1, r) := list_act hs x in let (h2, rs) := list_acts h1 l' in (h2, r :: rs)
  end.

(** ** The variables of a document *)

(** The param q has a name and one value, which is bare. *)
Definition holder_of (F : forest) (q : N) (w : inode) : Prop :=
  exists p, fget q F = Some p /\ named (s "param") p = true /\ aget (s "name") (iattrs p) <> None /\ filter itag (ikids p) = [w] /\ bare (forget w) = true.
Definition holds (F : forest) (st : vstore) : Prop := forall q t, st q = Some t -> exists w, holder_of F q w /\ forget w = t.
(** All of them *)
Definition values (F : forest) : vstore := fun q =>
  match fget q F with
  | Some p =>
      if named (s "param") p && match aget (s "name") (iattrs p) with Some _ => true | None => false end
      then match filter itag (ikids p) with [w] => if bare (forget w) then Some (forget w) else None | _ => None end
      else None
  | None => None
  end.
(** The lists and variables are those of the document. *)
Definition mirrors (F : forest) (hs : shelf * vstore) : Prop := shows F (fst hs) /\ holds F (snd hs).
(** What the user does, as acts on lists and variables: which variable is meant depends on the document, and so does the canvas it is in. *)
Fixpoint acts_mean (F : forest) (st : vstore) (l : list act) (l' : list lact) : Prop :=
  match l, l' with
  | [], [] => True
  | AMove m :: l1, LMv m' :: l1' => m' = m /\ fits F m /\ acts_mean (do_move F m) st l1 l1'
  | AAssign a :: l1, LAs q how v :: l1' =>
      place F (as_layer_ a) (as_name a) = Some q /\ st q <> None /\ how = as_how a /\ v = as_value_ a /\ bare_val v /\ acts_mean (fst (do_assign F a)) st l1 l1'
  | AEdit u k e :: l1, LEd q cx e' :: l1' =>
      place F u k = Some q /\ st q <> None /\ cx = ctx_of F q /\ e' = e /\ bare_vedit e /\ acts_mean (fst (do_edit F u k e)) st l1 l1'
  | _, _ => False
  end.

(** ** The history of one variable *)

Fixpoint history (q : N) (l : list lact) (t : node) : node :=
  match l with
  | [] => t
  | LAs q' how v :: l' => history q l' (if N.eqb q' q then fst (val_assign t how v) else t)
  | LEd q' cx e :: l' => history q l' (if N.eqb q' q then fst (val_edit t cx e) else t)
  | LMv _ :: l' => history q l' t
  end.
Definition touches (q : N) (x : lact) : bool := match x with LMv _ => false | LAs q' _ _ | LEd q' _ _ => N.eqb q' q end.
(** The operations on timelines of TlSpec.v *)
Definition vedit_of (o : TlSpec.op) : vedit :=
  match o with TlSpec.OSet k x => VTlSet k x | TlSpec.ODel k => VTlDel k | TlSpec.OAdd ws ow => VTlAdd ws ow end.
