(** Objects for one parameter: what a user sees. *)
From Verif Require Import AnimModel LayModel WrSpec TlModel AliModel.
Local Open Scope N_scope.

(** What is in the document, what object i shows *)
Definition stored (S : objs) : node := tags S (here S).
Definition shown (S : objs) (i : N) : option node := option_map (fun x => tags S (snd x)) (held S i).
Definition class_at (S : objs) (i : N) : option vcls := option_map fst (held S i).
(** Object i is for the tag that is in the document. *)
Definition views (S : objs) (i : N) : Prop := exists c, held S i = Some (c, here S).
(** The numbers that were given out are below the next one. *)
Definition numbered (S : objs) : Prop := here S < next S /\ forall i c q, held S i = Some (c, q) -> q < next S.

(** One object and its tag in the document: what a history of acts makes of it *)
Fixpoint alone (c : vcls) (cx : ctx) (t : node) (l : list vedit) : node * list (res unit) :=
  match l with
  | [] => (t, [])
  | e :: l' => let (t1, r) := vapply c t cx true e in let (t2, rs) := alone c cx t1 l' in (t2, r :: rs)
  end.

(** The same out of the document: without a parent, and without a canvas to give the speed *)
Fixpoint apart (c : vcls) (t : node) (l : list vedit) : node * list (res unit) :=
  match l with
  | [] => (t, [])
  | e :: l' => let (t1, r) := vapply c t None false e in let (t2, rs) := apart c t1 l' in (t2, r :: rs)
  end.

(** Acts which end an animation: [is_animated = False], [timeline = []], or [del timeline[k]] if there is one waypoint *)
Definition ends (n : node) (cx : ctx) (e : vedit) : Prop :=
  is_animated n = true /\ (e = VAnimated false \/ e = VTlAssign (SList []) \/ exists k w, e = VTlDel k /\ tl_values n cx = Ok [w]).
(** None of the acts of a history does. *)
Fixpoint goes_on (c : vcls) (cx : ctx) (t : node) (l : list vedit) : Prop :=
  match l with [] => True | e :: l' => ~ ends t cx e /\ goes_on c cx (fst (vapply c t cx true e)) l' end.
