(** Assigning a value to itself: [layer.k = layer.k], or [v.value = v]. Both sides are views of one tag, so what is read on the right is what is
    in the tag at that time, while ValModel.v takes values on the right from other tags. *)
From Verif Require Import ValModel.

(** value/transformation.py:56-78 setter: [new_value.items()] is read for the keys, and again (:71) after [self.tag.clear()] (:69), which empties it. *)
Definition composite_set_same (n : node) (cx : ctx) : outcome :=
  match composite_val n cx with
  | Err e => (n, Err e)
  | Ok _ => let cleared := El (tag_name n) (tag_attrs n) [] in
            match composite_val cleared cx with Err e => (cleared, Err e) | Ok l => let (k, r) := composite_append [] l in (El (tag_name n) (tag_attrs n) k, r) end
  end.
(** For the other classes all of it is read before the tag is changed: simple.py:36-49, string.py:16, color.py:82-84, gradient.py:21-22; or what is changed
    before (vector.py:64-65) isn't read (vector.py:67, a list of items). Canvases: as in ValModel.v *)
Definition set_same (c : vcls) (n : node) (cx : ctx) : outcome :=
  match c with
  | VTransformation => composite_set_same n cx
  | _ => set_value c n (PVal c n cx)
  end.
