(** Which layers can have children, what raises in timelines with the letters x_y, in groups with texts without a description,
    and in vectors that are animated. *)
From Coq Require Import Permutation Sorting.Sorted.
From Verif Require Import LayModel LaySpec LayProofs5 ClsProofs TlModel TlSpec TlProofs2 TlProps ValModel ViewModel ViewProps MoreSpec.
From Verif Require Import BywModel BywSpec BywProofs11 BywProofs12 LayProps BywProps.

(** ** C45 *)

(** Only a layer of the type group can have children: [children] of any other layer is empty, even if it has a canvas with layers on it. *)
Theorem C45_only_groups : forall n ty c, aget (s "type") (iattrs n) = Some (AStr ty) -> layer_class n = Ok c ->
  (normalise ty = s "group" -> kind_of c = KGroup) /\
  (normalise ty <> s "group" -> kind_of c = KPlain /\ children (kind_of c) n = Ok [] /\ descendants_of (kind_of c) n = Err AttributeError).
Proof.
  intros n ty c A H. unfold layer_class in H. rewrite A in H. pose proof (class_name_type _ _ H) as E. apply registry_in in H.
  assert (X : forallb (fun c => Bool.eqb (pstr_eqb (normalise (c_name c)) (s "group")) (match kind_of c with KGroup => true | _ => false end)
                        && match kind_of c with KAnim => false | _ => true end) layer_classes = true) by (vm_compute; reflexivity).
  rewrite forallb_forall in X. specialize (X c H). rewrite <- E in X. apply andb_true_iff in X as [X1 X2]. apply Bool.eqb_prop in X1.
  split.
  - intros G. rewrite G, pstr_eqb_refl in X1. destruct (kind_of c); congruence.
  - intros G. rewrite (proj2 (pstr_eqb_neq _ _) G) in X1. destruct (kind_of c); try discriminate. repeat split.
Qed.
Print Assumptions C45_only_groups.
Example C45_only_nonvacuous : exists n c, aget (s "type") (iattrs n) = Some (AStr (s "Switch")) /\ layer_class n = Ok c /\ normalise (s "Switch") <> s "group" /\
  filter is_layer (idesc n) <> [] /\ normalise (s "Gro_up") = s "group".
Proof.
  exists (IE 5 (s "layer") [(s "type", AStr (s "Switch"))] [IE 6 (s "param") [(s "name", AStr (s "canvas"))] [IE 7 (s "canvas") [] [xlayer 8 (s "text") []]]]).
  eexists. split; [reflexivity|]. split; [vm_compute; reflexivity|]. split; [discriminate|]. split; [vm_compute; discriminate|reflexivity].
Qed.

(** ** C28 *)

Lemma starts_spec p x : starts_with p x = true <-> exists b, x = p ++ b.
Proof.
  revert x. induction p as [|c p IH]; intros x; [split; [intros _; now exists x|destruct x; reflexivity]|].
  destruct x as [|d x]; [split; [discriminate|intros (b & E); discriminate]|]. cbn [starts_with]. rewrite andb_true_iff, N.eqb_eq, IH. split.
  - intros [-> (b & ->)]. now exists b.
  - intros (b & E). cbn in E. injection E as -> ->. split; [reflexivity|]. now exists b.
Qed.
Lemma contains_spec p x : PyBase.contains p x = true <-> occurs p x.
Proof.
  induction x as [|c x IH]; cbn [PyBase.contains].
  - rewrite orb_false_r, starts_spec. split; [intros (b & E); exists [], b; exact E|]. intros (a & b & E). destruct a; [|discriminate]. now exists b.
  - rewrite orb_true_iff, starts_spec, IH. split.
    + intros [(b & E)|(a & b & E)]; [exists [], b; exact E|]. exists (c :: a), b. rewrite E. reflexivity.
    + intros (a & b & E). destruct a as [|d a]; [left; now exists b|]. cbn in E. injection E as <- ->. right. now exists a, b.
Qed.
Lemma str_contains_spec x n : str_contains x n = true <-> mentions x n.
Proof.
  induction n as [y|nm a k IH] using node_ind'; cbn [str_contains].
  - rewrite contains_spec. split; [now constructor|now inversion 1].
  - rewrite !orb_true_iff, contains_spec, !existsb_exists. rewrite Forall_forall in IH. split.
    + intros [[H|(kv & I & H)]|(c & I & H)]; [now apply in_name| |].
      * apply orb_true_iff in H as [H|H]; apply contains_spec in H; [now apply (in_key x nm a k kv)|now apply (in_attr x nm a k kv)].
      * apply (in_child x nm a k c I). now apply IH.
    + inversion 1; subst; [now left; left| | |].
      * left; right. exists kv. split; [assumption|]. apply orb_true_iff. left. now apply contains_spec.
      * left; right. exists kv. split; [assumption|]. apply orb_true_iff. right. now apply contains_spec.
      * right. exists c. split; [assumption|]. now apply IH.
Qed.

(** C28: getting a time works exactly if the letters x_y occur nowhere in the value: then it's the waypoint with this time, or a KeyError if there is none.
    Otherwise it is always a ValueError, even if there is such a waypoint. *)
Theorem C28_x_y : forall n cx f l k q, timeline_is n cx f l -> names cx f k q -> not_str k ->
  (mentions (s "x_y") n -> tl_getitem n cx k = Err ValueError) /\
  (~ mentions (s "x_y") n -> tl_getitem n cx k = match find_at q l with Some w => Ok w | None => Err KeyError end).
Proof.
  intros n cx f l k q T K S. split; intros M.
  - unfold tl_getitem. now rewrite (proj2 (str_contains_spec _ _) M).
  - apply (getitem_is n cx f l k q T K S). destruct (str_contains (s "x_y") n) eqn:E; [|reflexivity]. exfalso. apply M. now apply str_contains_spec.
Qed.
Print Assumptions C28_x_y.
Example C28_x_y_nonvacuous : (exists l, timeline_is TlProps.anim doc (Some 24%Q) l) /\ ~ mentions (s "x_y") TlProps.anim /\
  mentions (s "x_y") (El (s "animated") [(s "type", AStr (s "string"))] [El (s "waypoint") [] [El (s "string") [] [Txt (s "pixy_x_yz")]]]).
Proof.
  split; [eexists; exact (proj1 example_timeline)|]. split.
  - intros H. apply str_contains_spec in H. vm_compute in H. discriminate.
  - apply str_contains_spec. vm_compute. reflexivity.
Qed.

(** ** C95 *)

Lemma make_texts_error k l : forall i, (exists r, make_texts k i l = Ok r) \/ make_texts k i l = Err AttributeError.
Proof.
  induction l as [|n l IH]; intros i; [left; now eexists|]. cbn [make_texts]. unfold make_text, attr_get.
  destruct (aget (s "desc") (iattrs n)) as [v|]; cbn [attr_conv bind]; [|now right]. destruct (IH (S i)) as [(r & ->)| ->]; [left; now eexists|now right].
Qed.
Lemma make_groups_error st F l : Forall plainly l -> forall k, (exists r, make_groups st F k l = Ok r) \/ make_groups st F k l = Err AttributeError.
Proof.
  induction 1 as [|n l [P1 P2] _ IH]; intros k; [left; now eexists|]. cbn [make_groups]. unfold attr_get.
  destruct (aget (s "desc") (iattrs n)) as [v|]; cbn [attr_conv bind]; [|apply IH]. destruct (starts_with (s "bywords") (lower (aval_str v))); [|apply IH].
  unfold make_group. rewrite find_type by assumption. cbn [bind].
  destruct (make_texts_error k (rev (filter (typed (normalise (s "text"))) (idesc n))) 0) as [(r & ->)| ->]; [|now right]. cbn [bind].
  destruct (IH (S k)) as [(r' & ->)| ->]; [left; now eexists|now right].
Qed.
(** C95: if a text layer in one of the groups has no description, there's an AttributeError, and nothing has changed. *)
Theorem C95_no_description : forall st letter F root srt n m, plainly root ->
  In n (idesc root) -> bywords_layer n = true -> In m (idesc n) -> layer_of_type (s "text") m = true -> desc_of m = None ->
  bywords st letter F root srt = (F, Err AttributeError).
Proof.
  intros st letter F root srt n m P In_ Bn Im Tm Dm. unfold bywords.
  assert (X : (exists gs, bywords_groups st F root = Ok gs) \/ bywords_groups st F root = Err AttributeError).
  { pose proof P as [P1 P2]. unfold bywords_groups. rewrite find_groups, find_type by assumption. cbn [bind].
    destruct (make_groups_error st F (filter (typed (normalise (s "group"))) (idesc root))) with (k := 0%nat) as [(gs & ->)| ->]; [|left; now eexists|now right].
    apply Forall_forall. intros x Hx. apply filter_In in Hx as [Hx _]. now apply (plainly_in root). }
  destruct X as [(gs & E)| ->]; [|reflexivity]. exfalso.
  destruct (groups_found _ _ _ _ P E) as (gs0 & _ & G & _).
  destruct (Forall2_In_r _ _ _ n G) as (g & _ & _ & T); [apply filter_In; now split|].
  destruct (Forall2_In_r _ _ _ m T) as (t & _ & _ & D); [apply in_rev; rewrite rev_involutive; apply filter_In; now split|]. congruence.
Qed.
Print Assumptions C95_no_description.
Example C95_no_description_nonvacuous : exists root n m, plainly root /\ In n (idesc root) /\ bywords_layer n = true /\ In m (idesc n) /\ layer_of_type (s "text") m = true /\ desc_of m = None.
Proof.
  pose (m := xlayer 8 (s "text") []).
  pose (n := IE 5 (s "layer") [(s "type", AStr (s "group")); (s "desc", AStr (s "Bywords 1"))] [IE 6 (s "param") [(s "name", AStr (s "canvas"))] [IE 7 (s "canvas") [] [m]]]).
  exists (IE 1 (s "canvas") [] [n]), n, m. split.
  - split; [apply LayProps.all_known_check; vm_compute; reflexivity|]. apply no_type_check. vm_compute. reflexivity.
  - repeat split; vm_compute; tauto.
Qed.

(** ** C134 *)

(** A vector that is animated has no x and no y: what needs them raises. *)
Theorem C134_animated : forall n, is_animated n = true -> vector_iter n = Err TypeError.
Proof. intros n H. unfold vector_iter, vector_values. rewrite H. reflexivity. Qed.
Print Assumptions C134_animated.
Example C134_animated_nonvacuous : let n := El (s "animated") [(s "type", AStr (s "vector"))] [] in is_animated n = true /\ from_tag n = Ok VXY.
Proof. split; vm_compute; reflexivity. Qed.

(** ** C74 *)

(** A text, a transformation, a gradient or a canvas stays one whatever is assigned, even if that raises an exception. *)
Theorem C74_kept : forall c prior v, In c [VString; VTransformation; VGradient; VCanvas] -> from_tag prior = Ok c -> from_tag (fst (set_value c prior v)) = Ok c.
Proof.
  intros c prior v Hc H.
  assert (T : tag_name (fst (set_value c prior v)) = tag_name prior /\ tag_attrs (fst (set_value c prior v)) = tag_attrs prior).
  { destruct Hc as [<-|[<-|[<-|[<-|[]]]]]; cbn [set_value].
    - unfold string_set. destruct (py_str v); split; reflexivity.
    - unfold composite_set. destruct (py_items v) as [[l|e]|]; try (split; reflexivity). destruct (str_keys l) as [l'|]; try (split; reflexivity).
      destruct (forallb _ l'); try (split; reflexivity). destruct (composite_append [] l'). split; reflexivity.
    - assert (G : forall d, tag_name (fst (gradient_set_dict prior d)) = tag_name prior /\ tag_attrs (fst (gradient_set_dict prior d)) = tag_attrs prior).
      { intros d. unfold gradient_set_dict. destruct (_ <? 2)%Z; [split; reflexivity|]. destruct (gradient_append _ _). split; reflexivity. }
      unfold gradient_set. destruct v; try (split; reflexivity); [destruct (_ <? 2)%Z; split; reflexivity|apply G|].
      destruct c; try (split; reflexivity). destruct (gradient_val n _); [apply G|split; reflexivity].
    - unfold canvas_set. repeat match goal with |- context [match ?x with _ => _ end] => destruct x end; split; reflexivity. }
  destruct T as [T1 T2]. assert (A : is_animated (fst (set_value c prior v)) = is_animated prior) by (unfold is_animated; now rewrite T1).
  unfold from_tag in *. rewrite A, T1, T2. destruct (if is_animated prior then _ else _) as [nm|e]; [|discriminate]. cbn [bind] in *. destruct (from_name value_registry nm) as [c'|e]; [|discriminate]. cbn [bind] in *.
  destruct c'; try exact H.
  - exfalso. destruct Hc as [<-|[<-|[<-|[<-|[]]]]]; unfold vector_construct in H; repeat match type of H with context [match ?x with _ => _ end] => destruct x end; discriminate.
  - unfold composite_construct in *. now rewrite T2.
Qed.
Print Assumptions C74_kept.
(** And so does a vector that isn't animated, for pairs of numbers. With a dictionary of something else than x and y the tag can't be used any more (refuted). *)
Theorem C74_vector : forall prior a b, is_animated prior = false -> from_tag prior = Ok VXY -> is_number a = true -> is_number b = true ->
  exists n, set_value VXY prior (PTuple [a; b]) = (n, Ok tt) /\ from_tag n = Ok VXY.
Proof.
  intros prior a b A H Ha Hb. cbn [set_value]. unfold vector_set. cbn [vector_members]. rewrite Ha, Hb. cbn [andb py_items].
  assert (E : forall v, is_number v = true -> exists x, (match v with PFlo q => Ok (fmt_f 10 q) | _ => py_str v end) = Ok x) by (intros []; try discriminate; intros _; eexists; reflexivity).
  destruct (E a Ha) as (xa & Ea), (E b Hb) as (xb & Eb). cbn [vector_append]. rewrite Ea, Eb. eexists. split; [reflexivity|].
  unfold from_tag in *. rewrite A in H. cbn [bind] in H. change (is_animated (El (s "vector") [] _)) with false. cbn [tag_name bind].
  replace (from_name value_registry (s "vector")) with (@Ok vcls VXY) by (vm_compute; reflexivity). cbn [bind].
  assert (V : vector_construct prior = Ok VXY).
  { destruct (from_name value_registry (tag_name prior)) as [c|]; [|discriminate]. cbn [bind] in H. destruct c; try discriminate; [exact H|]. unfold composite_construct in H. repeat match type of H with context [match ?x with _ => _ end] => destruct x end; discriminate. }
  unfold vector_construct in *. change (is_animated (El (s "vector") [] _)) with false. rewrite A in V. cbn [tag_name].
  unfold child_tags in *. cbn [tag_kids]. rewrite <- app_assoc, filter_app, map_app. cbn [app filter is_tag map tag_name].
  set (L := map tag_name (filter is_tag (tag_kids prior))) in *. clearbody L. destruct L as [|z L']; [discriminate|].
  match type of V with context [if ?x then _ else _] => destruct x eqn:X; [|discriminate] end. apply andb_prop in X as [X X3]. apply andb_prop in X as [X1 X2].
  cbn [app]. change (z :: L' ++ [s "x"; s "y"]) with ((z :: L') ++ [s "x"; s "y"]). rewrite forallb_app, !existsb_app, X1, X2, X3. reflexivity.
Qed.
Print Assumptions C74_vector.
Theorem C74_vector_refuted : exists prior v n, is_animated prior = false /\ from_tag prior = Ok VXY /\ set_value VXY prior v = (n, Ok tt) /\ from_tag n = Err TypeError.
Proof.
  exists (El (s "vector") [] [El (s "x") [] [Txt (s "1")]; El (s "y") [] [Txt (s "2")]]), (PDict [(s "z", PFlo 1)]). eexists. split; [reflexivity|]. split; [vm_compute; reflexivity|]. split; vm_compute; reflexivity.
Qed.
Print Assumptions C74_vector_refuted.
Example C74_kept_nonvacuous : from_tag (empty_tag VTransformation) = Ok VTransformation /\ from_tag (empty_tag VGradient) = Ok VGradient /\ from_tag (empty_tag VString) = Ok VString /\
  from_tag (empty_tag VCanvas) = Ok VCanvas /\ is_number (PInt 3) = true /\ from_tag (El (s "vector") [] [El (s "y") [] [Txt (s "1")]; El (s "x") [] [Txt (s "2")]]) = Ok VXY.
Proof. vm_compute. repeat split. Qed.
