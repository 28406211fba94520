(** The children of all groups as lists: what moving layers should do to them. *)
From Verif Require Import LayModel LaySpec LoopModel.
Local Open Scope N_scope.

(** ** Lists of children, without a document *)

(** The list of children of each group, by number. The animation has the number 1. *)
Definition shelf := N -> list N.
(** The list with l put in before b *)
Fixpoint put_before (b l : N) (k : list N) : list N :=
  match k with
  | [] => []
  | x :: k' => if N.eqb x b then l :: x :: k' else x :: put_before b l k'
  end.
Definition last_is (l : N) (k : list N) : bool := match rev k with x :: _ => N.eqb x l | [] => false end.
(** Whatever list l is in, it is taken out and the list of g becomes k. *)
Definition move_to (h : shelf) (g l : N) (k : list N) : shelf := fun x => if N.eqb x g then k else without l (h x).
(** [g.append(l)] moves l to the end of the list of g. It raises ValueError if it is already there.
    [g.insert(i, l)] moves l to just before the child that was g[i], and raises ValueError if that is l itself. *)
Definition list_move (h : shelf) (m : move) : shelf * res unit :=
  match m with
  | MAppend _ g l => if last_is l (h g) then (h, Err ValueError) else (move_to h g l (without l (h g) ++ [l]), Ok tt)
  | MInsert _ g i l =>
      match py_index (h g) i with
      | Err e => (h, Err e)
      | Ok b => if N.eqb l b then (h, Err ValueError) else (move_to h g l (put_before b l (without l (h g))), Ok tt)
      end
  end.
(** What all the calls return, and the lists then *)
Fixpoint list_moves (h : shelf) (ms : list move) : shelf * list (res unit) :=
  match ms with
  | [] => (h, [])
  | m :: ms' => let (h1, r) := list_move h m in let (h2, rs) := list_moves h1 ms' in (h2, r :: rs)
  end.

(** ** Documents *)

Fixpoint doc_moves (F : forest) (ms : list move) : forest * list (res unit) :=
  match ms with
  | [] => (F, [])
  | m :: ms' => let (F1, r) := try_move F m in let (F2, rs) := doc_moves F1 ms' in (F2, r :: rs)
  end.
(** x is the animation, or a group *)
Definition holder (F : forest) (x : N) (kd : okind) (n : inode) : Prop :=
  fget x F = Some n /\
  (x = 1 /\ kd = KAnim \/ kd = KGroup /\ is_layer n = true /\ exists c, layer_class n = Ok c /\ kind_of c = KGroup).
(** A document as Synfig writes it: the animation is a canvas and isn't in a layer, all types are known, and every group has a canvas. *)
Record usual (F : forest) : Prop := {
  us_wf : wf F;
  us_root : exists r, fget 1 F = Some r /\ named (s "canvas") r = true;
  us_top : forall z n, fget z F = Some n -> is_layer n = true -> ~ In 1 (uids n);
  us_known : forall z n, fget z F = Some n -> is_layer n = true -> known n;
  us_own : forall z n k, fget z F = Some n -> is_layer n = true -> layer_class n = Ok k -> kind_of k = KGroup -> exists c, own_canvas n c }.
(** The children of each group are those of the list. *)
Definition shows (F : forest) (h : shelf) : Prop := forall x kd n, holder F x kd n -> exists ch, children kd n = Ok ch /\ ids ch = h x.
(** Something is moved into a group: a layer that the group isn't in *)
Definition fits (F : forest) (m : move) : Prop :=
  match m with
  | MAppend kd g l | MInsert kd g _ l =>
      (exists n, holder F g kd n) /\ exists t, fget l F = Some t /\ is_layer t = true /\ ~ In g (uids t)
  end.
Fixpoint all_fit (F : forest) (ms : list move) : Prop :=
  match ms with [] => True | m :: ms' => fits F m /\ all_fit (do_move F m) ms' end.

(** ** Loops over the children *)

(** As [all_fit], up to the first exception *)
Fixpoint run_fits (F : forest) (ms : list move) : Prop :=
  match ms with [] => True | m :: ms' => fits F m /\ (snd (try_move F m) = Ok tt -> run_fits (do_move F m) ms') end.
(** The group a move moves something to *)
Definition target (m : move) : N := match m with MAppend _ g _ | MInsert _ g _ _ => g end.
