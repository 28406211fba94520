(** Several Value objects for one parameter of a layer: [a = layer['k']], [b = layer['k']]. Each [layer['k']] makes a new object for the tag that is
    there at that time. *)
From Verif Require Import AnimModel LayModel WrSpec TlModel.
Local Open Scope N_scope.

(** value.py:69-88 [_set_animated(False)]: whether it comes to [replace_with], and the object takes another tag *)
Definition goes_still (n : node) (cx : ctx) (par : bool) : bool :=
  par && is_animated n && match tl_values n cx with Ok (_ :: _) => true | _ => false end.
(** value.py:45-47, :96-109 with :168-172, :424-435: the ways there. All else is written into the tag that the object has. *)
Definition takes_new_tag (n : node) (cx : ctx) (par : bool) (e : vedit) : bool :=
  match e with
  | VAnimated false | VTlAssign (SList []) => goes_still n cx par
  | VTlDel KeyOther => false
  | VTlDel k => match (let* t := ensure_fps cx k in let* d := waypoints n cx in tdel t d) with Ok [] => goes_still n cx par | _ => false end
  | _ => false
  end.

(** Tags by number, the class and the tag of each object, and the tag that is in the document. The other tags are in no document: they have been
    replaced. *)
Record objs := mkObjs { tags : N -> node; held : N -> option (vcls * N); here : N; next : N }.
Definition put_tag (h : N -> node) (q : N) (t : node) : N -> node := fun z => if N.eqb z q then t else h z.
Definition hold (h : N -> option (vcls * N)) (i : N) (x : vcls * N) : N -> option (vcls * N) := fun z => if N.eqb z i then Some x else h z.

(** What is done to object i (WrSpec.v). A tag out of the document has no parent (bs4 raises ValueError from [replace_with]), and no canvas for the
    speed. The old tag was cleared (value.py:77) before it was replaced. *)
Definition do_use (cx : ctx) (S : objs) (i : N) (e : vedit) : objs * res unit :=
  match held S i with
  | None => (S, Err EUnmodelled)
  | Some (c, q) =>
      let par := N.eqb q (here S) in
      let cy := if par then cx else None in
      let n := tags S q in
      let (m, r) := vapply c n cy par e in
      if takes_new_tag n cy par e
      then (mkObjs (put_tag (put_tag (tags S) q (with_kids n [])) (next S) m) (hold (held S) i (c, next S)) (next S) (N.succ (next S)), r)
      else (mkObjs (put_tag (tags S) q m) (held S) (here S) (next S), r)
  end.
(** layer.py:84-95 and :420-446 [i = layer['k']] *)
Definition do_get (S : objs) (i : N) : objs * res unit :=
  match from_tag (tags S (here S)) with
  | Err x => (S, Err x)
  | Ok c => (mkObjs (tags S) (hold (held S) i (c, here S)) (here S) (next S), Ok tt)
  end.
(** layer.py:97-111 [layer['k'] = v], for what isn't a Value *)
Definition do_item (S : objs) (v : pyval) : objs * res unit :=
  match from_tag (tags S (here S)) with
  | Err x => (S, Err x)
  | Ok c => match new_value c v with
            | Err x => (S, Err x)
            | Ok t => (mkObjs (put_tag (tags S) (next S) t) (held S) (next S) (N.succ (next S)), Ok tt)
            end
  end.
(** The same for object i *)
Definition do_put (S : objs) (i : N) : objs * res unit :=
  match held S i with
  | None => (S, Err EUnmodelled)
  | Some (c', q) =>
      match from_tag (tags S (here S)) with
      | Err x => (S, Err x)
      | Ok c => if inst c c' then (mkObjs (tags S) (held S) q (next S), Ok tt) else (S, Err TypeError)
      end
  end.

Inductive use := UEdit (i : N) (e : vedit) | UGet (i : N) | UItem (v : pyval) | UPut (i : N).
Definition do_one (cx : ctx) (S : objs) (x : use) : objs * res unit :=
  match x with UEdit i e => do_use cx S i e | UGet i => do_get S i | UItem v => do_item S v | UPut i => do_put S i end.
(** A program that catches every exception and goes on *)
Fixpoint uses (cx : ctx) (S : objs) (l : list use) : objs * list (res unit) :=
  match l with
  | [] => (S, [])
  | x :: l' => let (S1, r) := do_one cx S x in let (S2, rs) := uses cx S1 l' in (S2, r :: rs)
  end.
