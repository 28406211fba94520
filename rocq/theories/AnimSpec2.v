(** What the theorems of AnimProps2.v say, apart from the functions they are about. *)
From Verif Require Import AnimModel AnimSpec.

(** Strings written one after the other, with a blank in between *)
Definition blank_between (l : list pstr) : pstr := join [32%N] l.
(** The attribute [k] of the tag is a text that says these numbers. *)
Definition says_numbers (n : inode) (k : pstr) (qs : list Q) : Prop :=
  exists xs, aget k (iattrs n) = Some (AStr (blank_between xs)) /\ xs <> [] /\
    Forall2 (fun x q => ~ In 32%N x /\ parse_float x = Ok q) xs qs.

(** [t] is the first tag called [x] in the text of [n]. *)
Definition first_called (x : pstr) (n t : inode) : Prop :=
  inside t n /\ named x t = true /\ forall u, inside u n -> named x u = true -> u = t \/ precedes n t u.

(** The second tree is the first, but for the tag [t] somewhere in it, whose content is now only the text [x]. *)
Inductive text_put (t : inode) (x : pstr) : inode -> inode -> Prop :=
| put_here : text_put t x t (IE (iuid t) (iname t) (iattrs t) [IT x])
| put_below n c c' k1 k2 : ikids n = k1 ++ c :: k2 -> text_put t x c c' ->
    text_put t x n (IE (iuid n) (iname n) (iattrs n) (k1 ++ c' :: k2)).

(** The metadata that an Animation has fields for *)
Definition metadata_fields : list pstr :=
  [s "background_first_color"; s "background_rendering"; s "background_second_color"; s "background_size"; s "grid_color"; s "grid_show"; s "grid_size"; s "grid_snap";
   s "guide_color"; s "guide_show"; s "guide_snap"; s "jack_offset"; s "onion_skin"; s "onion_skin_future"; s "onion_skin_keyframes"; s "onion_skin_past"].
