(** C146: the layers of a document are the same after saving and loading it. *)
From Coq Require Import Lia.
From Verif Require Import XpSpec AnimModel AnimSpec AnimProofs3 AnimProofs5 LayModel LaySpec SerModel SavSpec SavProofs DocProofs SerProofs ValModel WrSpec XpProofs AnimProofs2 AnimProps WrProofs2 WrProofs3 WrProofs4 WrProofs5 WrProps.
Local Open Scope N_scope.

Lemma depth_top n r : is_tag n = true -> doc_top (doc_forest n) = Some r -> depth_of (doc_forest n) (iuid r) = Ok 0%Z /\ In r (fdesc (doc_forest n)) /\ wf (doc_forest n) /\ forget r = n /\ root_of (doc_forest n) r.
Proof.
  intros T D. destruct (doc_forest_root n r T D) as (W & R & E & _). destruct (root_anc _ r W R) as (d & A & _ & I). split; [|repeat split; assumption].
  unfold depth_of. rewrite A. destruct n as [|nm a k]; [discriminate|]. destruct (AnimProofs5.doc_forest_top nm a k) as (k' & EF & _ & _).
  assert (X : d = IE 0 (s "[document]") [] [IE 1 nm a k']).
  { rewrite EF in A, D. cbn [doc_top] in D. injection D as <-. cbn [iuid] in A. rewrite fanc_IE in A. cbn [N.eqb] in A. rewrite fanc_IE in A. cbn in A. injection A as <-. reflexivity. }
  rewrite X. reflexivity.
Qed.

(** Layers in the same order, each with the same class, attributes, length, depth, parent, children, and parameters. [r] is the tag of the animation in the
    document F. It isn't in a layer, and no attribute contains tabs or ends of lines. *)
Theorem C146_layers : forall void can fs a name x kd F r, target_of a name x kd -> can x = true -> am_root a = forget r -> writable (am_root a) ->
  wf F -> fget (iuid r) F = Some r -> itag r = true -> depth_of F (iuid r) = Ok 0%Z -> clean r ->
  exists fs' a2 r2, save void can fs a name = (fs', mkAnim (am_root a) kd (Some x), Ok tt) /\ load fs' x = Ok a2 /\
    doc_top (doc_forest (am_root a2)) = Some r2 /\
    Forall2 (fun n m => same_layer F n (doc_forest (am_root a2)) m) (ifind_all is_layer r) (ifind_all is_layer r2).
Proof.
  intros void can fs a name x kd F r T C E W Wf G Tr D Cl.
  assert (Ta : is_tag (am_root a) = true) by (rewrite E; destruct r; [discriminate|reflexivity]).
  destruct (saved_loads void can fs a name x kd T C W Ta) as (fs' & S1 & _ & S2).
  assert (T2 : is_tag (reload (am_root a)) = true) by (now rewrite SerProofs.reload_is_tag).
  assert (X : exists r2, doc_top (doc_forest (reload (am_root a))) = Some r2).
  { destruct (reload (am_root a)) as [|nm at_ k]; [discriminate|]. destruct (AnimProofs5.doc_forest_top nm at_ k) as (k' & -> & _). cbn [doc_top]. now eexists. }
  destruct X as (r2 & D2). exists fs', (mkAnim (reload (am_root a)) kd (Some x)), r2. split; [exact S1|]. split; [exact S2|]. cbn [am_root]. split; [exact D2|].
  destruct (depth_top _ _ T2 D2) as (Z & I2 & W2 & F2 & _).
  apply layers_same; auto.
  - now apply fget_In in G.
  - unfold image. now rewrite F2, E.
Qed.
Print Assumptions C146_layers.
(** A layer that is as it was read from a file - as are all those that haven't been changed - has fields with the same values. Times in them mean the same if the
    attributes of the animation are also as read. *)
Theorem C146_fields : forall F r n G r2 m, wf F -> root_of F r -> iname r = s "canvas" -> reload_attrs (iattrs r) = iattrs r -> clean r ->
  wf G -> root_of G r2 -> image r r2 -> In n (idesc r) -> In m (idesc r2) -> image n m -> reload (forget n) = forget n ->
  forall st c k, field_get st G m c k = field_get st F n c k.
Proof.
  intros F r n G r2 m W R N A C W2 R2 H I I2 E S st c k.
  assert (Hd : forall z, idesc z = fdesc (ikids z)) by (intros [|u nm a0 k0]; [reflexivity|apply idesc_IE]).
  apply image_fields; auto.
  - now apply (clean_below r).
  - apply (desc_tags (ikids r)). now rewrite <- Hd.
  - intros v w Iv Iw. destruct (image_tag r r2 H) as (_ & N2 & A2). rewrite N in N2.
    rewrite (ctx_in_doc F r v W R N), (ctx_in_doc G r2 w W2 R2 N2); [now rewrite A2, A| |].
    + right. rewrite <- Hd. destruct r2; [destruct I2|]. rewrite idesc_IE in *. exact (desc_trans _ m w I2 Iw).
    + right. rewrite <- Hd. destruct r; [destruct I|]. rewrite idesc_IE in *. exact (desc_trans _ n v I Iv).
Qed.
Print Assumptions C146_fields.
(** Without the condition on attributes: a line feed in a description becomes a blank. *)
Theorem C146_condition_needed : exists n, writable (forget n) /\ forall m, image n m -> attr_get (s "desc") TStrA PNone n = Ok (PStr (s "a" ++ [10] ++ s "b")) /\ attr_get (s "desc") TStrA PNone m = Ok (PStr (s "a b")).
Proof.
  exists (IE 5 (s "layer") [(s "desc", AStr (s "a" ++ [10] ++ s "b"))] []). split.
  - cbn [forget map]. apply writable_El. split; [|split; [split|]].
    + split; [discriminate|]. repeat constructor; vm_compute; split; reflexivity.
    + repeat constructor. intros [].
    + repeat constructor; try discriminate; vm_compute; reflexivity.
    + constructor.
  - intros m H. split; [vm_compute; reflexivity|]. apply image_tag in H as (_ & _ & H). unfold attr_get. rewrite H. vm_compute. reflexivity.
Qed.
Print Assumptions C146_condition_needed.

(** *** The example of an edited animation *)

Definition one_lineb (x : pstr) : bool := forallb (fun c => 32 <=? c) x.
Definition clean_attrsb (a : attrs) : bool :=
  ClsProofs.nodupb (map fst a) && forallb (fun kv => one_lineb (aval_str (snd kv)) && (negb (pstr_eqb (fst kv) (s "type") || pstr_eqb (fst kv) (s "name")) || match snd kv with AStr _ => true | _ => false end)) a.
Lemma clean_check n : forallb (fun x => clean_attrsb (iattrs x)) (n :: idesc n) = true -> clean n.
Proof.
  intros H x Hx. rewrite forallb_forall in H. assert (I : In x (n :: idesc n)) by (destruct Hx; [left; now symmetry|now right]). specialize (H x I).
  unfold clean_attrsb in H. apply andb_prop in H as [H1 H2]. split; [now apply ClsProofs.nodupb_ok|]. rewrite forallb_forall in H2. apply Forall_forall. intros kv Ik. specialize (H2 kv Ik). apply andb_prop in H2 as [H2 H3]. split.
  - unfold one_lineb in H2. rewrite forallb_forall in H2. apply Forall_forall. intros c Ic. specialize (H2 c Ic). now apply N.leb_le in H2.
  - intros Hk. apply orb_prop in H3 as [H3|H3]; [|destruct (snd kv) as [y| | |]; try discriminate; now exists y].
    exfalso. apply negb_true_iff, orb_false_iff in H3 as [H3 H4]. destruct Hk as [Hk|[Hk|[]]]; rewrite <- Hk, pstr_eqb_refl in *; discriminate.
Qed.
Definition xr : inode := match fget 1 xF with Some r => r | None => IT [] end.
(** The animation of C127 with two layers that were made, one of them with a timeline *)
Example C146_nonvacuous : fget 1 xF = Some xr /\ clean xr /\ wf xF /\ depth_of xF (iuid xr) = Ok 0%Z /\ writable (forget xr) /\ root_of xF xr /\ length (ifind_all is_layer xr) = 2%nat.
Proof.
  assert (W : wf xF) by (apply (C128_tree xblank xcalls); [apply xblank_ok|exact xcalls_meant]).
  split; [vm_compute; reflexivity|]. split; [apply clean_check; vm_compute; reflexivity|]. split; [exact W|]. split; [vm_compute; reflexivity|]. split.
  - apply (fget_good 1 xF xr (edits_good xcalls _ (doc_good _ (proj1 xblank_ok)) xcalls_meant xcalls_good)); [discriminate|vm_compute; reflexivity].
  - split; [|vm_compute; reflexivity]. exists (hd (IT []) xF). split; [vm_compute; now left|]. repeat split; vm_compute; reflexivity.
Qed.
(** The same animation when it has been loaded *)
Definition xl : inode := match doc_top (doc_forest (reload (forget xr))) with Some r => r | None => IT [] end.
Example C146_fields_nonvacuous : wf (doc_forest (reload (forget xr))) /\ root_of (doc_forest (reload (forget xr))) xl /\ iname xl = s "canvas" /\ reload_attrs (iattrs xl) = iattrs xl /\ clean xl /\ length (ifind_all is_layer xl) = 2%nat /\ Forall (fun n => reload (forget n) = forget n) (idesc xl).
Proof.
  destruct (depth_top (reload (forget xr)) xl) as (_ & _ & W & _ & R); [vm_compute; reflexivity|vm_compute; reflexivity|].
  split; [exact W|]. split; [exact R|]. split; [vm_compute; reflexivity|]. split; [vm_compute; reflexivity|]. split; [apply clean_check; vm_compute; reflexivity|]. split; [vm_compute; reflexivity|].
  apply Forall_forall. intros x. apply settled_below. vm_compute. reflexivity.
Qed.
