(** append and insert of a layer into itself. DocModel.v leaves that out (EUnmodelled), as the layer then
    is in a cycle, which is no tree. What remains of the document is a tree, and is modelled here. *)
From Verif Require Import LayModel LaySpec.
Local Open Scope N_scope.

(** [x.next_sibling is not None] in bs4; texts are siblings, too *)
Definition has_next (F : forest) (u : N) : bool :=
  match fparent u F with
  | Some p => match index_of u (ikids p) with Some j => Nat.ltb (S j) (length (ikids p)) | None => false end
  | None => false
  end.
(** bs4 4.12.2 [Tag.insert] at the end of the contents of [c] looks for the next tag, going from [c] to its parents until one has
    a next sibling. When the new child [l] is one of these parents, it has no next sibling (it was extracted) and [c] is
    its parent, so the search goes round for ever unless there is such a sibling on the way from [c] to [l]. *)
Fixpoint until (l : N) (anc : list inode) : list N :=
  match anc with [] => [] | x :: r => if N.eqb (iuid x) l then [] else iuid x :: until l r end.
Definition way_out (F : forest) (c l : N) : bool :=
  match fanc c F with Some anc => existsb (has_next F) (c :: until l anc) | None => false end.

(** group.py:104-122 [append] for a layer [l] that has the canvas of the group [g] inside it. The result is the rest of
    the document, without [l]. None: it never returns.
    bs4 [insert_before] extracts the layer, and puts it before another child: no search is needed there. *)
Definition append_within (F : forest) (kd : okind) (g l : N) : option change :=
  match kd with
  | KPlain => Some (F, Err NotImplementedError)
  | _ =>
      match fget g F with
      | None => Some (F, Err EUnmodelled)
      | Some n =>
          match canvas_of kd n with
          | Err e => Some (F, Err e)
          | Ok c => match find is_layer (ikids c) with
                    | None => if N.eqb l (iuid c) then Some (F, Err ValueError)
                              else if way_out F (iuid c) l then Some (fdel l F, Ok tt) else None
                    | Some a => if N.eqb l (iuid a) then Some (F, Err ValueError) else Some (fdel l F, Ok tt)
                    end
          end
      end
  end.
(** group.py:124-133 [insert], likewise. The first "\n" makes sure that something follows the child [b], so the layer isn't put at the end. *)
Definition insert_within (F : forest) (kd : okind) (g : N) (i : Z) (l : N) : option change :=
  match kd with
  | KPlain => Some (F, Err AttributeError)
  | _ =>
      match fget g F with
      | None => Some (F, Err EUnmodelled)
      | Some n =>
          match group_index kd n i with
          | Err e => Some (F, Err e)
          | Ok b => if N.eqb l (iuid b) then Some (fst (insert_text_after F (iuid b) nl), Err ValueError) else Some (fdel l F, Ok tt)
          end
      end
  end.

(** The canvas of the group is inside the layer that is moved: the layer is the group, or has it inside it (or the group has no canvas
    of its own, so that the canvas found is one in a layer inside it). *)
Definition within (F : forest) (kd : okind) (g l : N) : bool :=
  match fget g F, fget l F with
  | Some n, Some t => match kd, canvas_of kd n with KPlain, _ | _, Err _ => false | _, Ok c => existsb (N.eqb (iuid c)) (uids t) end
  | _, _ => false
  end.
(** append and insert, whatever the layer *)
Definition move_any (F : forest) (m : move) : option change :=
  match m with
  | MAppend kd g l => if within F kd g l then append_within F kd g l else Some (group_append F kd g l)
  | MInsert kd g i l => if within F kd g l then insert_within F kd g i l else Some (group_insert F kd g i l)
  end.
(** A history of moves, in a program that catches their exceptions *)
Fixpoint moves_any (F : forest) (ms : list move) : option forest :=
  match ms with
  | [] => Some F
  | m :: ms' => match move_any F m with Some (F', _) => moves_any F' ms' | None => None end
  end.
