(** What the programs of the tutorial should do, in terms of layers and of the variables that their parameters are (PrmSpec.v, WldSpec.v). *)
From Verif Require Import LayModel LaySpec ClsTable MovSpec VarSpec PrmSpec WldSpec DocModel.
Local Open Scope N_scope.

(** The parameter k of the layer y is the variable q, which holds a value of the class c, written t. *)
Definition called (F : forest) (w : world) (y : inode) (k : pstr) (q : N) (c : vcls) (t : node) : Prop :=
  place F (iuid y) k = Some q /\ snd (fst w) q = Some t /\ from_tag t = Ok c.
(** The layer is a text layer. *)
Definition is_text (y : inode) : Prop := is_layer y = true /\ layer_class y = Ok cls_Text.
(** It says x: this is what its text reads as. *)
Definition says (F : forest) (w : world) (y : inode) (x : pstr) : Prop :=
  is_text y /\ exists q t, called F w y (s "text") q VString t /\ forall cx, get_value VString t cx = Ok (PStr x).
(** Every text layer below n has a text. *)
Definition texts_said (F : forest) (w : world) (n : inode) : Prop := forall y, In y (idesc n) -> is_text y -> exists x, says F w y x.
(** All variables but those in c have their old values; all layers have their attributes, and all groups their children. *)
Definition only (w w' : world) (c : N -> Prop) : Prop :=
  fst (fst w') = fst (fst w) /\ snd w' = snd w /\ forall q, ~ c q -> snd (fst w') q = snd (fst w) q.
