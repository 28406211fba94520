(** value/canvas.py: the layers of a canvas, as its value *)
From Verif Require Import LayModel.
Local Open Scope N_scope.

(** value/canvas.py:6-22 [value]; [c] is the tag *)
Definition canvas_layers (c : inode) : res (list inode) :=
  let l := filter itag (ikids c) in
  if existsb (fun n => negb (pstr_eqb (iname n) (s "layer"))) l then Err ValueError else mapM as_layer l.

(** bs4 [clear()]: everything in the tag is taken out of it. The tags aren't destroyed, and are nowhere then. *)
Definition emptied (c : N) (F : forest) : forest :=
  match fget c F with
  | Some n => fat c (with_ikids (fun _ => [])) F ++ filter itag (ikids n)
  | None => F
  end.

(** What a program puts in a list: a layer object, or something else *)
Inductive citem := CLayer (l : N) | COther (v : pyval).
(** bs4 4.12.2 [Tag.append(x)], where [x] is a layer object (not its tag): asks for [x.parent] (layer.py:66-73), which for a layer in
    a layer isn't None, and then for [x.extract], which layers don't have; or sets [x.parent], which can't be set. *)
Definition append_object (F : forest) (l : N) : res unit :=
  match parent_of F l with
  | Err AttributeError => Err AttributeError
  | Err e => Err e
  | Ok (Some _) => Err AttributeError
  | Ok None => Err AttributeError
  end.
(** value/canvas.py:24-35 the setter, for lists. The list is made before the tag is cleared. *)
Definition canvas_assign (F : forest) (c : N) (v : list citem) : change :=
  let F1 := emptied c F in
  match v with
  | [] => (F1, Ok tt)
  | COther _ :: _ => (F1, Err TypeError)
  | CLayer l :: _ => (F1, append_object F1 l)
  end.
