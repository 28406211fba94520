(** What it means that a layer is the same after saving and loading. *)
From Verif Require Import LayModel SerModel.

(** No tabs and no ends of lines: XML reads these, in attributes, as blanks. (It has no other control characters.) *)
Definition one_line (x : pstr) : Prop := Forall (fun c => (32 <= c)%N) x.
(** The values of all attributes are so, those called type and name are strings, as they are if they come from a file, and no
    attribute is there twice. *)
Definition clean_attrs (a : attrs) : Prop :=
  NoDup (map fst a) /\ Forall (fun kv => one_line (aval_str (snd kv)) /\ (In (fst kv) [s "type"; s "name"] -> exists y, snd kv = AStr y)) a.
Definition clean (n : inode) : Prop := forall x, x = n \/ In x (idesc n) -> clean_attrs (iattrs x).

(** The tag m, in the document that was loaded, is what was written for the tag n. *)
Definition image (n m : inode) : Prop := forget m = reload (forget n).

(** Both give something, and these are in the relation R; or both raise the same exception. *)
Definition same_result {A B} (R : A -> B -> Prop) (x : res A) (y : res B) : Prop :=
  match x, y with Ok a, Ok b => R a b | Err e, Err e' => e = e' | _, _ => False end.
(** The same class, and the tag written for the tag *)
Definition same_value (v w : inode * vcls) : Prop := image (fst v) (fst w) /\ snd v = snd w.
(** The same key, too *)
Definition same_entry (v w : pstr * (inode * vcls)) : Prop := fst v = fst w /\ same_value (snd v) (snd w).
Definition same_parent (p q : option inode) : Prop :=
  match p, q with Some a, Some b => image a b | None, None => True | _, _ => False end.

(** The layer m of the document G has the class, the attributes, the length, the depth, the parent, the children, the names and the
    parameters of the layer n of the document F. *)
Record same_layer (F : forest) (n : inode) (G : forest) (m : inode) : Prop := mkSame {
  sl_image : image n m;
  sl_class : layer_class m = layer_class n;
  sl_strings : forall k d, attr_get k TStrA d m = attr_get k TStrA d n;
  sl_bools : forall k d, attr_get k TBoolA d m = attr_get k TBoolA d n;
  sl_floats : forall k d x, aget k (iattrs n) = Some (AStr x) -> attr_get k TFloatA d m = attr_get k TFloatA d n;
  sl_len : layer_len m = layer_len n;
  sl_depth : depth_of G (iuid m) = depth_of F (iuid n);
  sl_parent : same_result same_parent (parent_of F (iuid n)) (parent_of G (iuid m));
  sl_children : forall kd, same_result (Forall2 image) (children kd n) (children kd m);
  sl_contains : forall f, layer_contains m f = layer_contains n f;
  sl_keys : layer_keys m = layer_keys n;
  sl_items : same_result (Forall2 same_entry) (layer_items n) (layer_items m);
  sl_param : forall f, same_result same_value (layer_getitem n f) (layer_getitem m f)
}.
