(** What can't be assigned, and what is lost when it is. *)
From Verif Require Import LayModel LaySpec LayProofs5 ClsProofs AnimModel LayProps WrProofs3.

(** ** C152 Attributes that are worked out *)

(** [tag], [type_], [parent], [tag_depth] and [children] of any layer, and [canvas_tag] and [descendants] of a group,
    can't be assigned: it raises and the document stays as it is. The exception is [type_] of the layers that have a parameter of that name. *)
Theorem C152_layers : forall F u n c v, In c layer_classes ->
  field_set F u n c (s "tag") v = (F, Err KeyError) /\
  (own_type c = false -> field_set F u n c (s "type_") v = (F, Err ValueError)) /\
  (forall k, In k [s "parent"; s "tag_depth"; s "children"] -> field_set F u n c k v = (F, Err AttributeError)) /\
  (c_name c = s "Group" -> forall k, In k [s "canvas_tag"; s "descendants"] -> field_set F u n c k v = (F, Err AttributeError)).
Proof.
  intros F u n c v I.
  assert (X : forallb (fun c => forallb (fun k => match aget k (all_fields c) with None => true | _ => false end)
                         [s "tag"; s "parent"; s "tag_depth"; s "children"; s "canvas_tag"; s "descendants"]) layer_classes = true) by (vm_compute; reflexivity).
  rewrite forallb_forall in X. specialize (X c I). rewrite forallb_forall in X.
  assert (Y : forall k, In k [s "tag"; s "parent"; s "tag_depth"; s "children"; s "canvas_tag"; s "descendants"] -> aget k (all_fields c) = None)
    by (intros k K; specialize (X k K); destruct (aget k (all_fields c)); [discriminate|reflexivity]).
  unfold field_set. split; [|split; [|split]].
  - rewrite Y by (cbn; auto). reflexivity.
  - unfold own_type. rewrite has_key_aget. intros O. destruct (aget (s "type_") (all_fields c)); [discriminate|reflexivity].
  - intros k [<-|[<-|[<-|[]]]]; (rewrite Y by (cbn; tauto); reflexivity).
  - intros G k [<-|[<-|[]]]; (rewrite Y by (cbn; tauto); unfold read_only, kind_of; rewrite G; reflexivity).
Qed.
Print Assumptions C152_layers.

(** [type_] of a Blur layer is not the type of the layer but its parameter of that name, and can be assigned. *)
Theorem C152_blur_refuted : exists F u n c F', fget u F = Some n /\ layer_class n = Ok c /\ c_name c = s "Blur" /\
  field_set F u n c (s "type_") (PInt 3) = (F', Ok tt) /\ F' <> F.
Proof.
  exists [IE 1 (s "layer") [(s "type", AStr (s "blur"))] [IE 2 (s "param") [(s "name", AStr (s "type_"))] [IE 3 (s "integer") [(s "value", AStr (s "1"))] []]]], 1%N.
  eexists. eexists. eexists. split; [vm_compute; reflexivity|]. split; [vm_compute; reflexivity|]. split; [vm_compute; reflexivity|]. split; [vm_compute; reflexivity|]. vm_compute. discriminate.
Qed.
Print Assumptions C152_blur_refuted.

(** Nor can they in an animation, nor its size, view box, background, name, first frame, number of frames or keyframes. *)
Theorem C152_animations : forall F n v,
  anim_set F n (s "tag") v = (F, Err KeyError) /\
  anim_set F n (s "type_") v = (F, Err ValueError) /\
  (forall k, In k [s "parent"; s "tag_depth"; s "children"; s "descendants"; s "canvas_tag"; s "begin_time"; s "name"; s "size"; s "viewbox"; s "framecount"; s "background"; s "keyframes"] ->
     anim_set F n k v = (F, Err AttributeError)).
Proof.
  intros F n v. split; [reflexivity|]. split; [reflexivity|].
  intros k H. repeat (destruct H as [<-|H]; [reflexivity|]). destruct H.
Qed.
Print Assumptions C152_animations.

Example C152_nonvacuous : In cls_Group layer_classes /\ c_name cls_Group = s "Group" /\ In cls_Text layer_classes /\ own_type cls_Text = false.
Proof. split; [apply group_known|]. split; [reflexivity|]. split; [apply text_known|vm_compute; reflexivity]. Qed.

(** ** C153 Misspelt fields *)

(** Fields of all layers *)
Definition common_fields : list pstr := [s "type_"; s "version"; s "active"; s "exclude_from_rendering"; s "desc"].

(** If the class of a layer has no field of that name, assigning to it changes nothing in the document... *)
Theorem C153_partial : forall F u n c k v, aget k (all_fields c) = None -> ~ In k common_fields -> fst (field_set F u n c k v) = F.
Proof.
  intros F u n c k v H N. unfold field_set. rewrite H.
  assert (X : forall x, In x common_fields -> pstr_eqb k x = false) by (intros x Hx; apply pstr_eqb_neq; intros ->; now apply N).
  rewrite !X by (cbn; tauto). cbn [orb].
  repeat match goal with |- context[if ?b then _ else _] => destruct b end; reflexivity.
Qed.
Print Assumptions C153_partial.
(** ... and reading it raises, if it isn't the name of something else. *)
Theorem C153_read : forall st F n c k, aget k (all_fields c) = None -> ~ In k common_fields -> ~ In k other_attrs -> starts_with (s "_") k = false ->
  field_get st F n c k = Err AttributeError.
Proof.
  intros st F n c k H N O U. unfold field_get. rewrite H.
  assert (X : forall x, In x common_fields -> pstr_eqb k x = false) by (intros x Hx; apply pstr_eqb_neq; intros ->; now apply N).
  rewrite !X by (cbn; tauto). rewrite U. cbn [orb].
  assert (Z : existsb (pstr_eqb k) other_attrs = false) by (destruct (existsb (pstr_eqb k) other_attrs) eqn:E; [|reflexivity]; apply existsb_exists in E as (x & I & E); apply pstr_eqb_spec in E as <-; now destruct O).
  now rewrite Z.
Qed.
Print Assumptions C153_read.

(** But the assignment doesn't raise: [circle.radus = 5] is lost without a word, although [circle.radus] raises before it. *)
Theorem C153_refuted : exists F u n c, fget u F = Some n /\ layer_class n = Ok c /\ c_name c = s "Circle" /\
  field_get c F n c (s "radus") = Err AttributeError /\ field_set F u n c (s "radus") (PFlo 5) = (F, Ok tt).
Proof.
  exists [xcircle 1 (s "1.0")], 1%N, (xcircle 1 (s "1.0")). eexists.
  split; [vm_compute; reflexivity|]. split; [vm_compute; reflexivity|]. split; [vm_compute; reflexivity|]. split; vm_compute; reflexivity.
Qed.
Print Assumptions C153_refuted.
Example C153_nonvacuous : aget (s "radus") (all_fields cls_Text) = None /\ ~ In (s "radus") common_fields /\ ~ In (s "radus") other_attrs /\ starts_with (s "_") (s "radus") = false.
Proof.
  split; [vm_compute; reflexivity|]. split; [|split; [|reflexivity]]; intros H; cbn in H; repeat (destruct H as [H|H]; [discriminate H|]); exact H.
Qed.
