(** Changing a part of a value in place: [layer['transformation']['angle'].value = 45], [transformation.offset.timeline[24] = (1, 2)],
    [gradient[0.5].value = 'ff0000']. The parts that are read are views of the tags within the value
    (value/transformation.py:116 [Value.from_tag(values[0])], value/gradient.py:14 [Color(c)], value.py:12-15). *)
From Verif Require Import AnimModel LayModel WrSpec TlModel WpvModel.
Local Open Scope Z_scope.

(** value/transformation.py:94-118: the only tag in the only tag with that name, replaced by m *)
Definition with_part (n : node) (key : pstr) (m : node) : node :=
  with_kids n (map (fun f => if is_tag f && has_name key f then with_value m f else f) (tag_kids n)).
(** [composite[key]], and then what is done to that (WrSpec.v) *)
Definition part_edit (n : node) (cx : ctx) (key : pstr) (e : vedit) : outcome :=
  match composite_getitem n cx key with
  | Err x => (n, Err x)
  | Ok (PVal c t _) => let (m, r) := vapply c t cx true e in (with_part n key m, r)
  | Ok _ => (n, Err EUnmodelled)
  end.
Fixpoint part_edits (n : node) (cx : ctx) (l : list (pstr * vedit)) : node * list (res unit) :=
  match l with
  | [] => (n, [])
  | (k, e) :: l' => let (n1, r) := part_edit n cx k e in let (n2, rs) := part_edits n1 cx l' in (n2, r :: rs)
  end.

(** value/gradient.py:13-15: of the colours at one position, the dictionary keeps the last. *)
Fixpoint last_stop (q : Q) (l : list node) : option nat :=
  match l with
  | [] => None
  | t :: l' => match last_stop q l' with
               | Some i => Some (S i)
               | None => match aget (s "pos") (tag_attrs t) with
                         | Some v => match float_of_aval v with Ok p => if Qeq_bool q p then Some O else None | Err _ => None end
                         | None => None
                         end
               end
  end.
(** [gradient[q].value = v]. Simplified: the colours are those directly in the gradient. *)
Definition stop_assign (n : node) (cx : ctx) (q : Q) (v : pyval) : outcome :=
  match gradient_getitem n cx q with
  | Err x => (n, Err x)
  | Ok (PVal c t _) => match last_stop q (child_tags n) with
                       | None => (n, Err EUnmodelled)
                       | Some i => let (m, r) := set_value c t v in (with_kids n (at_tag i (fun _ => m) (tag_kids n)), r)
                       end
  | Ok _ => (n, Err EUnmodelled)
  end.
