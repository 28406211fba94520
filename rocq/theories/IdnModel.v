(** Layer objects as Python objects. [Layer.from_tag] (layer.py:322-334) makes a new object whenever a layer is got, by [children] (group.py:75-97),
    [group[i]] (group.py:135-139) or [parent] (layer.py:66-73). The class Layer (layer.py:23-416) has no [__eq__] and no [__hash__], so that Python
    compares the objects by what they are, not by their layers. *)
From Verif Require Import DocModel LayModel.
From Coq Require Import Arith.

(** The document, and the objects by number: each is of a kind, and holds a tag. Objects are not forgotten. *)
Record idoc := mkI { i_doc : forest; i_objs : list (okind * N) }.
(** [Animation(...)] (animation.py:109-129) *)
Definition opened (F : forest) (u : N) : idoc := mkI F [(KAnim, u)].

(** layer.py:322-334: one new object for each tag *)
Definition kind_at (l : inode) : okind := match layer_class l with Ok c => kind_of c | Err _ => KPlain end.
Definition new_objs (S : idoc) (l : list inode) : idoc * list nat :=
  (mkI (i_doc S) (i_objs S ++ map (fun x => (kind_at x, iuid x)) l), seq (length (i_objs S)) (length l)).

Inductive iact :=
| IChildren (o : nat)                (* list(o.children) *)
| IItem (o : nat) (i : Z)            (* o[i] *)
| IParent (o : nat)                  (* o.parent *)
| IAppend (g o : nat)                (* g.append(o) *)
| IInsert (g : nat) (i : Z) (o : nat).

Definition got (S : idoc) (r : res (list inode)) : idoc * res (list nat) :=
  match r with Err e => (S, Err e) | Ok l => let (S', ids) := new_objs S l in (S', Ok ids) end.
Definition changed (S : idoc) (c : change) : idoc * res (list nat) :=
  (mkI (fst c) (i_objs S), let* _ := snd c in Ok []).
(** The objects that the call gives are its result. *)
Definition istep (S : idoc) (a : iact) : idoc * res (list nat) :=
  match a with
  | IChildren o => match nth_error (i_objs S) o with
                   | Some (kd, u) => got S (match fget u (i_doc S) with Some n => children kd n | None => Err EUnmodelled end)
                   | None => (S, Err NameError)
                   end
  | IItem o i => match nth_error (i_objs S) o with
                 | Some (kd, u) => got S (match fget u (i_doc S) with
                                          | Some n => match kd with KPlain => Err EUnmodelled | _ => let* x := group_index kd n i in Ok [x] end
                                          | None => Err EUnmodelled
                                          end)
                 | None => (S, Err NameError)
                 end
  | IParent o => match nth_error (i_objs S) o with
                 | Some (_, u) => got S (let* p := parent_of (i_doc S) u in Ok match p with Some x => [x] | None => [] end)
                 | None => (S, Err NameError)
                 end
  | IAppend g o => match nth_error (i_objs S) g, nth_error (i_objs S) o with
                   | Some (kd, ug), Some (_, u) => changed S (group_append (i_doc S) kd ug u)
                   | _, _ => (S, Err NameError)
                   end
  | IInsert g i o => match nth_error (i_objs S) g, nth_error (i_objs S) o with
                     | Some (kd, ug), Some (_, u) => changed S (group_insert (i_doc S) kd ug i u)
                     | _, _ => (S, Err NameError)
                     end
  end.
Fixpoint isteps (S : idoc) (l : list iact) : idoc * list (res (list nat)) :=
  match l with
  | [] => (S, [])
  | a :: l' => let (S1, r) := istep S a in let (S2, rs) := isteps S1 l' in (S2, r :: rs)
  end.

(** Python's [a == b] and [a in l] for objects without [__eq__] *)
Definition py_same (a b : nat) : bool := Nat.eqb a b.
Definition py_in (a : nat) (l : list nat) : bool := existsb (py_same a) l.
(** [a.tag is b.tag] (layer.py:40, field.py TagField: the tag that the object holds) *)
Definition same_tag (S : idoc) (a b : nat) : bool :=
  match nth_error (i_objs S) a, nth_error (i_objs S) b with Some (_, u), Some (_, v) => N.eqb u v | _, _ => false end.
