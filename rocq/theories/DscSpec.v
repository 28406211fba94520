(** What a text of an animation becomes when the file is saved and loaded again.
    A text that shows something is kept as it is; one of only white space becomes one newline or one
    blank, and an empty one is lost. *)
From Verif Require Import AnimModel AnimSpec.
Local Open Scope N_scope.

Inductive comes_back : pstr -> pyval -> Prop :=
| back_empty : comes_back [] PNone
| back_shown x : dark x <> [] -> comes_back x (PStr x)
| back_line x : dark x = [] -> In 10 x -> comes_back x (PStr [10])
| back_blank x : x <> [] -> dark x = [] -> ~ In 10 x -> comes_back x (PStr [32]).

(** The second tree is the first, but for the tag [t] somewhere in it, whose content is now [ks]. *)
Inductive content_put (t : inode) (ks : list inode) : inode -> inode -> Prop :=
| content_here : content_put t ks t (IE (iuid t) (iname t) (iattrs t) ks)
| content_below n c c' k1 k2 : ikids n = k1 ++ c :: k2 -> content_put t ks c c' ->
    content_put t ks n (IE (iuid n) (iname n) (iattrs n) (k1 ++ c' :: k2)).

(** What assigning a value to the description gives, what is in the tag after it, and what the description then reads as *)
Inductive desc_told : pyval -> res unit -> list inode -> pyval -> Prop :=
| told_str x : desc_told (PStr x) (Ok tt) [IT x] (PStr x)
| told_none : desc_told PNone (Err TypeError) [] PNone
| told_bool b : desc_told (PBool b) (Err AttributeError) [] PNone
| told_int z : desc_told (PInt z) (Err AttributeError) [] PNone
| told_float q : desc_told (PFlo q) (Err AttributeError) [] PNone
| told_tuple l : desc_told (PTuple l) (Err AttributeError) [] PNone
| told_list l : desc_told (PList l) (Err AttributeError) [] PNone
| told_dict l : desc_told (PDict l) (Err AttributeError) [] PNone
| told_dictf l : desc_told (PDictF l) (Err AttributeError) [] PNone.
