(** Loops over the children of a group, which is a generator: sangfroid/layer/group.py. *)
From Verif Require Import LayModel LaySpec.

(** Calls one after another. An exception ends them. *)
Fixpoint run (F : forest) (ms : list move) : change :=
  match ms with [] => (F, Ok tt) | m :: ms' => andthen (try_move F m) (fun F1 => run F1 ms') end.
(** group.py:75-102: children is a generator. Each step takes the tag before the last one that was taken, of those that are then in the canvas c
    ([reversed] of a list, which may have changed: i is the index of the last tag, plus one), until it is a layer. *)
Fixpoint each (F : forest) (c : N) (i : nat) (body : N -> list move) : change :=
  match i with
  | O => (F, Ok tt)
  | S j =>
      match fget c F with
      | None => (F, Err EUnmodelled)
      | Some cn =>
          match nth_error (ikids cn) j with
          | None => (F, Ok tt)
          | Some x => if is_layer x
                      then match as_layer x with
                           | Ok _ => andthen (run F (body (iuid x))) (fun F1 => each F1 c j body)
                           | Err e => (F, Err e)
                           end
                      else each F c j body
          end
      end
  end.
(** [for l in g.children: body(l)] *)
Definition for_children (F : forest) (kd : okind) (g : N) (body : N -> list move) : change :=
  match fget g F with
  | None => (F, Err EUnmodelled)
  | Some n => match kd with
              | KPlain => (F, Ok tt)
              | _ => match canvas_of kd n with Err e => (F, Err e) | Ok c => each F (iuid c) (length (ikids c)) body end
              end
  end.
