(** Layers after saving and loading. *)
From Coq Require Import ZifyBool ZifyN ZifyNat.
From Verif Require Import PyBase XmlModel DocModel LayModel SerModel SavSpec DocProofs DocProofs2 LaySpec LayProofs3 AnimSpec AnimProofs3 AnimProofs6 ClsProofs SerProofs TlProofs3.
Local Open Scope N_scope.

Lemma image_all l m : map forget m = map reload (map forget l) -> Forall2 image l m.
Proof.
  revert m. induction l as [|x l IH]; intros [|y m] H; try discriminate; [constructor|]. cbn [map] in H. injection H as H1 H2. constructor; [exact H1|now apply IH].
Qed.
Lemma image_tag n m : image n m -> itag m = itag n /\ iname m = iname n /\ iattrs m = reload_attrs (iattrs n).
Proof.
  unfold image. destruct n as [x|u nm a k], m as [y|v nm' a' k']; cbn [forget reload]; intros H; try discriminate; [repeat split|]. injection H as -> -> _. repeat split.
Qed.
Lemma child_tags_forget n : child_tags (forget n) = map forget (filter itag (ikids n)).
Proof.
  destruct n as [x|u nm a k]; [reflexivity|]. unfold child_tags. cbn [forget tag_kids ikids]. induction k as [|c k IH]; [reflexivity|]. cbn [map filter]. rewrite IH. destruct c; reflexivity.
Qed.
Lemma image_kids n m : image n m -> Forall2 image (filter itag (ikids n)) (filter itag (ikids m)).
Proof. intros H. apply image_all. rewrite <- !child_tags_forget. rewrite H. apply child_tags_reload. Qed.
Lemma image_desc n m : image n m -> Forall2 image (idesc n) (idesc m).
Proof. intros H. apply image_all. rewrite <- !desc_forget. rewrite H. apply desc_reload. Qed.

Lemma Forall2_filter {A B} (R : A -> B -> Prop) p q l m : Forall2 R l m -> (forall x y, In x l -> R x y -> p x = q y) -> Forall2 R (filter p l) (filter q m).
Proof.
  induction 1 as [|x y l m Hxy _ IH]; intros E; [constructor|]. cbn [filter]. rewrite <- (E x y (or_introl eq_refl) Hxy).
  assert (Forall2 R (filter p l) (filter q m)) by (apply IH; intros a b Ha; apply E; now right). destruct (p x); [now constructor|assumption].
Qed.
Lemma Forall2_rev {A B} (R : A -> B -> Prop) l m : Forall2 R l m -> Forall2 R (rev l) (rev m).
Proof. induction 1; [constructor|]. cbn [rev]. apply Forall2_app; [assumption|]. repeat constructor. assumption. Qed.
Lemma Forall2_hd {A B} (R : A -> B -> Prop) l m : Forall2 R l m -> match hd_error l, hd_error m with Some a, Some b => R a b | None, None => True | _, _ => False end.
Proof. destruct 1; cbn; auto. Qed.

Lemma Forall2_len {A B} (R : A -> B -> Prop) l m : Forall2 R l m -> length l = length m.
Proof. induction 1; cbn; congruence. Qed.

(** ** Attributes *)

Lemma clean_get a k : clean_attrs a -> aget k (reload_attrs a) = option_map (fun v => AStr (aval_str v)) (aget k a).
Proof.
  intros [N H]. rewrite aget_reload by assumption. destruct (aget k a) as [v|] eqn:E; [|reflexivity]. cbn [option_map].
  apply aget_In in E. rewrite Forall_forall in H. destruct (H _ E) as [H1 _]. cbn [snd] in H1. rewrite norm_attr_id; [reflexivity|exact H1].
Qed.
Lemma clean_str a k : clean_attrs a -> In k [s "type"; s "name"] -> aget k (reload_attrs a) = aget k a.
Proof.
  intros C K. rewrite clean_get by assumption. destruct C as [_ H]. destruct (aget k a) as [v|] eqn:E; [|reflexivity]. apply aget_In in E. rewrite Forall_forall in H.
  destruct (proj2 (H _ E) K) as (y & E2). cbn [snd] in E2. subst v. reflexivity.
Qed.
Lemma clean_below n x : clean n -> In x (idesc n) -> clean x.
Proof.
  intros C I y [->|Hy]; apply C; right; [exact I|]. destruct n as [|u nm a k]; [destruct I|]. rewrite idesc_IE in *. exact (desc_trans k x y I Hy).
Qed.
Lemma clean_own n : clean n -> clean_attrs (iattrs n).
Proof. intros C. apply C. now left. Qed.

Lemma image_named x n m : image n m -> named x n = named x m.
Proof. intros H. apply image_tag in H as (H1 & H2 & _). unfold named. now rewrite H1, H2. Qed.
Lemma image_layer n m : image n m -> is_layer n = is_layer m.
Proof. apply image_named. Qed.
Lemma image_param f n m : clean n -> image n m -> is_param f n = is_param f m.
Proof.
  intros C H. apply image_tag in H as (H1 & H2 & H3). unfold is_param. rewrite H1, H2, H3. unfold has_name_attr. cbn [tag_name tag_attrs has_name].
  rewrite (clean_str (iattrs n) (s "name") (clean_own _ C)) by (right; left; reflexivity). reflexivity.
Qed.
Lemma image_class n m : clean n -> image n m -> layer_class m = layer_class n.
Proof.
  intros C H. apply image_tag in H as (_ & _ & H3). unfold layer_class. rewrite H3, (clean_str (iattrs n) (s "type") (clean_own _ C)) by (left; reflexivity). reflexivity.
Qed.
Lemma image_attr n m k ty d : clean n -> image n m -> ty = TStrA \/ ty = TBoolA \/ (exists x, aget k (iattrs n) = Some (AStr x)) -> attr_get k ty d m = attr_get k ty d n.
Proof.
  intros C H T. apply image_tag in H as (_ & _ & H3). unfold attr_get. rewrite H3, clean_get by now apply clean_own.
  destruct (aget k (iattrs n)) as [v|]; [|reflexivity]. cbn [option_map]. destruct T as [->|[->|(x & [= ->])]]; reflexivity.
Qed.

(** ** Searching *)

Lemma image_find_all p n m : (forall x y, In x (idesc n) -> image x y -> p x = p y) -> image n m -> Forall2 image (ifind_all p n) (ifind_all p m).
Proof. intros E H. apply Forall2_filter; [now apply image_desc|exact E]. Qed.
Lemma image_find p n m : (forall x y, In x (idesc n) -> image x y -> p x = p y) -> image n m ->
  match ifind p n, ifind p m with Some a, Some b => image a b | None, None => True | _, _ => False end.
Proof. intros E H. unfold ifind. apply Forall2_hd. now apply image_find_all. Qed.
Lemma image_len n m : image n m -> layer_len m = layer_len n.
Proof.
  intros H. unfold layer_len. pose proof (image_find_all is_layer n m (fun x y _ => image_layer x y) H) as F. apply Forall2_len in F. now rewrite F.
Qed.
Lemma find_desc p n x : ifind p n = Some x -> In x (idesc n) /\ p x = true.
Proof.
  unfold ifind, ifind_all. intros H. assert (In x (filter p (idesc n))) by (destruct (filter p (idesc n)); [discriminate|injection H as ->; now left]). now apply filter_In.
Qed.

(** ** Values *)

Lemma first_reload n : first_child_tag (reload n) = option_map reload (first_child_tag n).
Proof. unfold first_child_tag. rewrite child_tags_reload. destruct (child_tags n); reflexivity. Qed.
Lemma names_reload l : map tag_name (map reload l) = map tag_name l.
Proof. induction l as [|x l IH]; [reflexivity|]. cbn [map]. now rewrite tag_name_reload, IH. Qed.
Lemma from_tag_same v : clean_attrs (tag_attrs v) -> from_tag (reload v) = from_tag v.
Proof.
  intros C. unfold from_tag. rewrite is_animated_reload, tag_attrs_reload, (clean_str _ (s "type") C) by (left; reflexivity). rewrite tag_name_reload.
  destruct (if is_animated v then _ else _) as [nm|e]; [|reflexivity]. cbn [bind]. destruct (from_name value_registry nm) as [c|]; [|reflexivity]. cbn [bind].
  destruct c; try reflexivity.
  - unfold vector_construct. rewrite is_animated_reload, first_reload, child_tags_reload, names_reload. destruct (is_animated v); [|reflexivity].
    destruct (first_child_tag v) as [w|]; [|reflexivity]. cbn [option_map]. rewrite first_reload. destruct (first_child_tag w) as [t|]; [|reflexivity]. cbn [option_map].
    rewrite child_tags_reload, names_reload. reflexivity.
  - unfold composite_construct. rewrite tag_attrs_reload, (clean_str _ (s "type") C) by (left; reflexivity). reflexivity.
Qed.
Lemma kid_desc n x : In x (ikids n) -> itag x = true -> In x (idesc n).
Proof.
  destruct n as [|u nm a k]; [intros []|]. cbn [ikids]. intros I T. cbn [idesc]. apply in_flat_map. exists x. split; [exact I|]. destruct x; [discriminate|now left].
Qed.
Lemma image_value p q : clean p -> image p q -> same_result same_value (value_of p) (value_of q).
Proof.
  intros C H. pose proof (image_kids _ _ H) as K. apply image_tag in H as (_ & _ & H3). unfold value_of.
  rewrite H3, (clean_str _ (s "name") (clean_own _ C)) by (right; left; reflexivity). destruct (aget (s "name") (iattrs p)); [|reflexivity].
  assert (D : forall x, In x (filter itag (ikids p)) -> clean x) by (intros x Hx; apply filter_In in Hx as [Hx Tx]; apply (clean_below p); [exact C|now apply kid_desc]).
  destruct K as [|v w l m Hvw Hl]; [reflexivity|]. destruct Hl; [|reflexivity].
  specialize (D v (or_introl eq_refl)). rewrite Hvw. rewrite from_tag_same.
  - destruct (from_tag (forget v)) as [c|e]; cbn [bind same_result]; [split; [exact Hvw|reflexivity]|reflexivity].
  - destruct v; [split; constructor|exact (clean_own _ D)].
Qed.
Lemma image_getitem n m f : clean n -> image n m -> same_result same_value (layer_getitem n f) (layer_getitem m f).
Proof.
  intros C H. unfold layer_getitem.
  pose proof (image_find (is_param f) n m (fun x y I E => image_param f x y (clean_below n x C I) E) H) as X.
  destruct (ifind (is_param f) n) as [p|] eqn:E; destruct (ifind (is_param f) m) as [q|]; try contradiction; [|reflexivity].
  apply find_desc in E as [I _]. apply image_value; [now apply (clean_below n)|exact X].
Qed.
Lemma image_contains n m f : clean n -> image n m -> layer_contains m f = layer_contains n f.
Proof.
  intros C H. unfold layer_contains.
  pose proof (image_find (is_param f) n m (fun x y I E => image_param f x y (clean_below n x C I) E) H) as X.
  destruct (ifind (is_param f) n), (ifind (is_param f) m); try contradiction; reflexivity.
Qed.

Lemma same_mapM {A B C D} (R : A -> B -> Prop) (S : C -> D -> Prop) f g l m : Forall2 R l m -> (forall x y, In x l -> R x y -> same_result S (f x) (g y)) ->
  same_result (Forall2 S) (mapM f l) (mapM g m).
Proof.
  induction 1 as [|x y l m Hxy _ IH]; intros E; [constructor|]. cbn [mapM]. pose proof (E x y (or_introl eq_refl) Hxy) as X.
  destruct (f x) as [a|e], (g y) as [b|e']; cbn [same_result bind] in *; try contradiction; [|exact X].
  specialize (IH (fun x y I => E x y (or_intror I))). destruct (mapM f l) as [a'|e], (mapM g m) as [b'|e']; cbn [same_result bind] in *; try contradiction; [now constructor|exact IH].
Qed.
Lemma same_aset k v w l m : same_value v w -> Forall2 same_entry l m -> Forall2 same_entry (aset k v l) (aset k w m).
Proof.
  intros V. induction 1 as [|[a x] [b y] l m [H1 H2] Hl IH]; cbn [aset]; [repeat constructor; apply V|]. cbn [fst snd] in *. subst b.
  destruct (pstr_eqb k a); constructor; auto; split; auto.
Qed.
Lemma same_adict l m : Forall2 same_entry l m -> Forall2 same_entry (adict l) (adict m).
Proof.
  unfold adict. intros H. assert (X : Forall2 same_entry [] []) by constructor. revert X. generalize (@nil (pstr * (inode * vcls))) at 1 3 as a. generalize (@nil (pstr * (inode * vcls))) as b.
  induction H as [|[k v] [k' w] l m [H1 H2] _ IH]; intros b a X; cbn [fold_left]; [exact X|]. apply IH. cbn [fst snd] in *. subst k'. now apply same_aset.
Qed.
Lemma image_children_named x n m : image n m -> Forall2 image (ifind_children (named x) n) (ifind_children (named x) m).
Proof.
  intros H. unfold ifind_children. apply Forall2_filter; [now apply image_kids|]. intros a b _. apply image_named.
Qed.
Lemma image_items n m : clean n -> image n m -> same_result (Forall2 same_entry) (layer_items n) (layer_items m).
Proof.
  intros C H. unfold layer_items.
  match goal with |- same_result _ (let* _ := mapM ?f ?l1 in _) (let* _ := mapM ?g ?l2 in _) => pose proof (same_mapM image same_entry f g l1 l2 (image_children_named (s "param") n m H)) as X end.
  match type of X with ?P -> _ => assert (Y : P) end.
  { intros x y I E. assert (Cx : clean x). { apply (clean_below n); [exact C|]. apply filter_In in I as [I _]. apply filter_In in I as [I T]. now apply kid_desc. }
    pose proof (image_value x y Cx E) as V. destruct (value_of x) as [v|e], (value_of y) as [w|e']; cbn [same_result bind] in *; try contradiction; [|exact V].
    apply image_tag in E as (_ & _ & E3). rewrite E3, (clean_str _ (s "name") (clean_own _ Cx)) by (right; left; reflexivity).
    destruct (aget (s "name") (iattrs x)) as [[z| | |]|]; cbn [same_result]; try reflexivity. split; [reflexivity|exact V]. }
  specialize (X Y). clear Y. destruct (mapM _ _) as [l|e]; destruct (mapM _ _) as [l'|e']; cbn [same_result bind] in *; try contradiction; [|exact X]. now apply same_adict.
Qed.
Lemma image_keys n m : clean n -> image n m -> layer_keys m = layer_keys n.
Proof.
  intros C H. pose proof (image_items n m C H) as X. unfold layer_keys. destruct (layer_items n) as [l|e], (layer_items m) as [l'|e']; cbn [same_result bind] in *; try contradiction; [|now rewrite X].
  f_equal. induction X as [|a b l l' [E _] _ IH]; [reflexivity|]. cbn [map]. now rewrite E, IH.
Qed.

(** ** Children *)

Lemma image_as_layer n m : clean n -> image n m -> same_result image (as_layer n) (as_layer m).
Proof. intros C H. unfold as_layer. rewrite (image_class n m C H). destruct (layer_class n); cbn [bind same_result]; [exact H|reflexivity]. Qed.
Lemma image_canvas kd n m : clean n -> image n m -> same_result (fun a b => image a b /\ clean a) (canvas_of kd n) (canvas_of kd m).
Proof.
  intros C H. pose proof (image_find (is_param (s "canvas")) n m (fun x y I E => image_param _ x y (clean_below n x C I) E) H) as X.
  assert (G : same_result (fun a b => image a b /\ clean a) (match ifind (is_param (s "canvas")) n with None => Err ValueError | Some p => match ifind (named (s "canvas")) p with None => Err AttributeError | Some c => Ok c end end)
     (match ifind (is_param (s "canvas")) m with None => Err ValueError | Some p => match ifind (named (s "canvas")) p with None => Err AttributeError | Some c => Ok c end end)).
  { destruct (ifind (is_param (s "canvas")) n) as [p|] eqn:Ep; destruct (ifind (is_param (s "canvas")) m) as [q|]; try contradiction; [|reflexivity].
    apply find_desc in Ep as [Ip _]. pose proof (clean_below n p C Ip) as Cp. pose proof (image_find (named (s "canvas")) p q (fun x y _ E => image_named _ x y E) X) as Y.
    destruct (ifind (named (s "canvas")) p) as [c|] eqn:Ec; destruct (ifind (named (s "canvas")) q) as [d|]; try contradiction; [|reflexivity].
    apply find_desc in Ec as [Ic _]. split; [exact Y|now apply (clean_below p)]. }
  destruct kd; cbn [canvas_of]; [split; [exact H|exact C]|exact G|exact G].
Qed.
Lemma layers_in_tags c : layers_in c = rev (filter is_layer (filter itag (ikids c))).
Proof.
  unfold layers_in. f_equal. induction (ikids c) as [|x l IH]; [reflexivity|]. destruct x as [y|u nm a k]; cbn [filter itag]; [exact IH|]. rewrite IH. reflexivity.
Qed.
Lemma image_layers_in c d : image c d -> Forall2 image (layers_in c) (layers_in d).
Proof. intros H. rewrite !layers_in_tags. apply Forall2_rev, Forall2_filter; [now apply image_kids|]. intros x y _. apply image_layer. Qed.
Lemma image_children kd n m : clean n -> image n m -> same_result (Forall2 image) (children kd n) (children kd m).
Proof.
  intros C H. assert (G : same_result (Forall2 image) (let* c := canvas_of kd n in mapM as_layer (layers_in c)) (let* c := canvas_of kd m in mapM as_layer (layers_in c))).
  { pose proof (image_canvas kd n m C H) as X. destruct (canvas_of kd n) as [c|e], (canvas_of kd m) as [d|e']; cbn [same_result bind] in *; try contradiction; [|exact X].
    destruct X as [X Cc]. apply (same_mapM image); [now apply image_layers_in|]. intros x y I E. apply image_as_layer; [|exact E]. apply (clean_below c); [exact Cc|].
    rewrite layers_in_tags in I. apply in_rev in I. apply filter_In in I as [I _]. apply filter_In in I as [I T]. now apply kid_desc. }
  destruct kd; cbn [children]; [exact G|exact G|constructor].
Qed.

(** ** What a tag is in *)

(** All tags, each with those it is in *)
Fixpoint paths (anc : list inode) (n : inode) : list (list inode * inode) :=
  match n with
  | IT _ => []
  | IE _ _ _ k => (anc, n) :: flat_map (paths (n :: anc)) k
  end.
Definition related (x y : inode) : Prop := image x y /\ clean x.
Definition on_path (p q : list inode * inode) : Prop := Forall2 related (filter is_layer (fst p)) (filter is_layer (fst q)) /\ image (snd p) (snd q).

Lemma flat_tags {B} (f : inode -> list B) l : (forall x, f (IT x) = []) -> flat_map f l = flat_map f (filter itag l).
Proof. intros H. induction l as [|c l IH]; [reflexivity|]. cbn [flat_map filter]. destruct c; cbn [itag flat_map]; rewrite IH; [now rewrite H|reflexivity]. Qed.
Lemma paths_image n : forall anc anc' m, clean n -> image n m -> Forall2 related (filter is_layer anc) (filter is_layer anc') -> Forall2 on_path (paths anc n) (paths anc' m).
Proof.
  revert n. fix IH 1. intros n anc anc' m C H A. destruct n as [x|u nm a k]; destruct m as [y|v nm' a' k']; try discriminate H; [constructor|]. cbn [paths]. constructor; [split; [exact A|exact H]|].
  set (n := IE u nm a k) in *. set (m := IE v nm' a' k') in *.
  assert (A' : Forall2 related (filter is_layer (n :: anc)) (filter is_layer (m :: anc'))).
  { cbn [filter]. rewrite <- (image_layer n m H). destruct (is_layer n); [constructor; [split; assumption|exact A]|exact A]. }
  assert (Ck : forall c, In c k -> itag c = true -> clean c) by (intros c I T; apply (clean_below n); [exact C|now apply kid_desc]).
  pose proof (image_kids n m H) as K. cbn [n m ikids] in K. rewrite (flat_tags (paths (m :: anc')) k') by reflexivity. clearbody m. clear H C. clearbody n. revert K.
  generalize (filter itag k') as l'. induction k as [|c k IHk]; intros l' K.
  - inversion K; subst. constructor.
  - cbn [flat_map filter] in *. assert (Ck' : forall c, In c k -> itag c = true -> clean c) by (intros; apply Ck; [now right|assumption]).
    destruct (itag c) eqn:T.
    + inversion K as [|? d ? l Hcd Hl]; subst. cbn [flat_map]. apply Forall2_app; [apply IH; [apply Ck; [now left|exact T]|exact Hcd|exact A']|now apply IHk].
    + destruct c; [|discriminate]. cbn [paths app]. now apply IHk.
Qed.
Lemma paths_all n : forall anc, map snd (paths anc n) = match n with IT _ => [] | _ => n :: idesc n end.
Proof.
  revert n. fix IH 1. intros [x|u nm a k] anc; [reflexivity|]. cbn [paths map snd idesc]. f_equal. generalize (IE u nm a k :: anc) as b. intros b. clear anc.
  induction k as [|c k IHk]; [reflexivity|]. cbn [flat_map]. rewrite map_app, IHk, IH. reflexivity.
Qed.
Lemma paths_anc F n : wf F -> forall anc, In n (fdesc F) -> fanc (iuid n) F = Some anc -> Forall (fun p => fanc (iuid (snd p)) F = Some (fst p)) (paths anc n).
Proof.
  intros W. revert n. fix IH 1. intros [x|u nm a k] anc I A; [constructor|]. cbn [paths]. constructor; [exact A|].
  set (n := IE u nm a k) in *.
  assert (K : forall c, In c k -> itag c = true -> In c (fdesc F) /\ fanc (iuid c) F = Some (n :: anc)).
  { intros c Ic Tc. split; [apply (desc_trans F n c I); now apply kid_desc|].
    destruct (child_anc F (iuid n) n c W (fget_desc F n W I) Ic Tc) as (r & E1 & E2). rewrite A in E1. injection E1 as <-. exact E2. }
  clearbody n. clear I A. induction k as [|c k IHk]; [constructor|]. cbn [flat_map]. apply Forall_app. split; [|apply IHk; intros; apply K; [now right|assumption]].
  destruct (itag c) eqn:T; [|destruct c; [constructor|discriminate]]. destruct (K c (or_introl eq_refl) T) as [K1 K2]. now apply IH.
Qed.

Lemma find_filter {A} (p : A -> bool) l : find p l = hd_error (filter p l).
Proof. induction l as [|x l IH]; [reflexivity|]. cbn [find filter]. destruct (p x); [reflexivity|exact IH]. Qed.
Lemma anc_same F G x y a b : fanc (iuid x) F = Some a -> fanc (iuid y) G = Some b -> Forall2 related (filter is_layer a) (filter is_layer b) ->
  depth_of G (iuid y) = depth_of F (iuid x) /\ same_result same_parent (parent_of F (iuid x)) (parent_of G (iuid y)).
Proof.
  intros E1 E2 R. unfold depth_of, parent_of. rewrite E1, E2. split; [now rewrite (Forall2_len _ _ _ R)|]. rewrite !find_filter.
  destruct R as [|p q l m [I C] _]; cbn [hd_error]; [exact Logic.I|].
  pose proof (image_as_layer p q C I) as X. destruct (as_layer p), (as_layer q); cbn [same_result bind] in *; try contradiction; exact X.
Qed.
Lemma Forall2_pair {A B} (R S T : A -> B -> Prop) l m : Forall2 R l m -> Forall2 S l m -> (forall x y, R x y -> S x y -> T x y) -> Forall2 T l m.
Proof. intros H. induction H as [|x y l m Hxy _ IH]; intros K E; inversion K; subst; constructor; auto. Qed.
Lemma Forall2_both {A B} (R : A -> B -> Prop) (P : A -> Prop) (Q : B -> Prop) l m : Forall2 R l m -> Forall P l -> Forall Q m -> Forall2 (fun x y => R x y /\ P x /\ Q y) l m.
Proof. induction 1; intros H1 H2; inversion H1; inversion H2; subst; constructor; auto. Qed.
Lemma Forall2_maps {A B C D} (R : C -> D -> Prop) (f : A -> C) (g : B -> D) l m : Forall2 (fun x y => R (f x) (g y)) l m -> Forall2 R (map f l) (map g m).
Proof. induction 1; constructor; auto. Qed.

Lemma all_tags_same F G r r2 : wf F -> wf G -> In r (fdesc F) -> In r2 (fdesc G) -> depth_of F (iuid r) = Ok 0%Z -> depth_of G (iuid r2) = Ok 0%Z -> clean r -> image r r2 ->
  Forall2 (fun x y => image x y /\ depth_of G (iuid y) = depth_of F (iuid x) /\ same_result same_parent (parent_of F (iuid x)) (parent_of G (iuid y))) (r :: idesc r) (r2 :: idesc r2).
Proof.
  intros W1 W2 I1 I2 D1 D2 C H.
  assert (Z : forall F u, depth_of F u = Ok 0%Z -> exists a, fanc u F = Some a /\ filter is_layer a = []).
  { intros F0 u D. unfold depth_of in D. destruct (fanc u F0) as [a|]; [|discriminate]. exists a. split; [reflexivity|]. injection D as D. destruct (filter is_layer a); [reflexivity|discriminate]. }
  destruct (Z _ _ D1) as (a & A1 & N1). destruct (Z _ _ D2) as (b & A2 & N2).
  pose proof (paths_image r a b r2 C H) as P. rewrite N1, N2 in P. specialize (P (Forall2_nil _)).
  pose proof (Forall2_both _ _ _ _ _ P (paths_anc F r W1 a I1 A1) (paths_anc G r2 W2 b I2 A2)) as Q.
  assert (T1 : itag r = true) by (apply (desc_tags F); exact I1). assert (T2 : itag r2 = true) by (apply (desc_tags G); exact I2).
  assert (M1 : r :: idesc r = map snd (paths a r)) by (rewrite paths_all; destruct r; [discriminate|reflexivity]).
  assert (M2 : r2 :: idesc r2 = map snd (paths b r2)) by (rewrite paths_all; destruct r2; [discriminate|reflexivity]).
  rewrite M1, M2. apply Forall2_maps. revert Q. generalize (paths a r) (paths b r2). induction 1 as [|x y l m [[X1 X2] [X3 X4]] _ IH]; constructor; [|exact IH].
  split; [exact X2|]. exact (anc_same F G _ _ _ _ X3 X4 X1).
Qed.

Lemma layers_same F G r r2 : wf F -> wf G -> In r (fdesc F) -> In r2 (fdesc G) -> depth_of F (iuid r) = Ok 0%Z -> depth_of G (iuid r2) = Ok 0%Z -> clean r -> image r r2 ->
  Forall2 (fun n m => same_layer F n G m) (ifind_all is_layer r) (ifind_all is_layer r2).
Proof.
  intros W1 W2 I1 I2 D1 D2 C H. pose proof (all_tags_same F G r r2 W1 W2 I1 I2 D1 D2 C H) as A. inversion A as [|? ? ? ? _ B]; subst. clear A.
  unfold ifind_all. pose proof (fun x => clean_below r x C) as Cb. revert B Cb. generalize (idesc r) (idesc r2). intros l m B Cb.
  apply (Forall2_filter _ is_layer is_layer) in B; [|intros x y _ [E _]; now apply image_layer].
  assert (Cf : Forall clean (filter is_layer l)) by (apply Forall_forall; intros x Hx; apply filter_In in Hx as [Hx _]; now apply Cb).
  induction B as [|x y l' m' [E [Dp Pr]] _ IH]; [constructor|]. inversion Cf as [|? ? Cx Cl]; subst. constructor; [|now apply IH].
  constructor.
  - exact E.
  - now apply image_class.
  - intros k d. apply image_attr; auto.
  - intros k d. apply image_attr; auto.
  - intros k d z Ez. apply image_attr; auto. right. right. now exists z.
  - now apply image_len.
  - exact Dp.
  - exact Pr.
  - intros kd. now apply image_children.
  - intros f. now apply image_contains.
  - now apply image_keys.
  - now apply image_items.
  - intros f. now apply image_getitem.
Qed.

(** ** Layers that are as they were read from a file *)

Lemma map_same {A} (f : A -> A) l : map f l = l -> forall x, In x l -> f x = x.
Proof. induction l as [|a l IH]; intros H x []; cbn [map] in H; injection H as H1 H2; subst; auto. Qed.
Lemma settled_below n x : reload (forget n) = forget n -> In x (idesc n) -> reload (forget x) = forget x.
Proof.
  intros H I. pose proof (desc_reload (forget n)) as E. rewrite H in E. symmetry in E. apply (map_same _ _ E). rewrite desc_forget. now apply in_map.
Qed.
Lemma image_param_get F G n m k : clean n -> image n m ->
  same_result (fun v w => image (fst v) (fst w) /\ snd v = snd w /\ In (fst v) (idesc n) /\ In (fst w) (idesc m)) (param_get F n k) (param_get G m k).
Proof.
  intros C H. unfold param_get. pose proof (image_find (is_param k) n m (fun x y I E => image_param k x y (clean_below n x C I) E) H) as X.
  destruct (ifind (is_param k) n) as [p|] eqn:Ep; destruct (ifind (is_param k) m) as [q|] eqn:Eq; try contradiction; [|reflexivity].
  apply find_desc in Ep as [Ip _]. apply find_desc in Eq as [Iq _]. pose proof (image_kids p q X) as K.
  assert (Dp : forall x, In x (filter itag (ikids p)) -> In x (idesc p)) by (intros x Hx; apply filter_In in Hx as [Hx Tx]; now apply kid_desc).
  assert (Dq : forall x, In x (filter itag (ikids q)) -> In x (idesc q)) by (intros x Hx; apply filter_In in Hx as [Hx Tx]; now apply kid_desc).
  assert (Tr : forall z y x, In y (idesc z) -> In x (idesc y) -> In x (idesc z)).
  { intros z y x Iy Ix. destruct z as [|u nm a0 k0]; [destruct Iy|]. rewrite idesc_IE in *. exact (desc_trans k0 y x Iy Ix). }
  destruct K as [|v w l l' Hvw Hl]; [reflexivity|]. destruct Hl; [|reflexivity].
  specialize (Dp v (or_introl eq_refl)). specialize (Dq w (or_introl eq_refl)). pose proof (clean_below p v (clean_below n p C Ip) Dp) as Cv.
  rewrite Hvw, from_tag_same.
  - destruct (from_tag (forget v)) as [c|e]; cbn [bind same_result fst snd]; [|reflexivity]. split; [exact Hvw|]. split; [reflexivity|]. split; [exact (Tr n p v Ip Dp)|exact (Tr m q w Iq Dq)].
  - destruct v; [split; constructor|exact (clean_own _ Cv)].
Qed.
Lemma image_param_field F G n m k ty : clean n -> image n m -> reload (forget n) = forget n ->
  (forall v w, In v (idesc n) -> In w (idesc m) -> ctx_of G (iuid w) = ctx_of F (iuid v)) -> param_field G m k ty = param_field F n k ty.
Proof.
  intros C H S X. unfold param_field. pose proof (image_param_get F G n m k C H) as P.
  destruct (param_get F n k) as [[v c]|e], (param_get G m k) as [[w c']|e']; cbn [same_result bind fst snd] in *; try contradiction; [|now subst].
  destruct P as (P1 & <- & P3 & P4).
  assert (E : as_value G (w, c) = as_value F (v, c)) by (unfold as_value; cbn [fst snd]; f_equal; [rewrite P1; exact (settled_below n v S P3)|now apply X]).
  rewrite E. now destruct (inst ty c).
Qed.
Lemma image_fields F G n m st c k : clean n -> image n m -> reload (forget n) = forget n -> itag n = true ->
  (forall v w, In v (idesc n) -> In w (idesc m) -> ctx_of G (iuid w) = ctx_of F (iuid v)) -> field_get st G m c k = field_get st F n c k.
Proof.
  intros C H S T X. assert (A : iattrs m = iattrs n).
  { unfold image in H. rewrite S in H. destruct n as [|u nm a kk], m as [|v nm' a' k']; try discriminate; try reflexivity. cbn [forget] in H. now injection H. }
  unfold field_get. destruct (aget k (all_fields c)) as [[ty d| |up]|].
  - now apply image_param_field.
  - reflexivity.
  - now rewrite (image_param_field F G n m up VTransformation C H S X).
  - unfold attr_get. rewrite A. reflexivity.
Qed.
