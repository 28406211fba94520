(** The properties of layers: C40 to C53. *)
From Verif Require Import LayModel DocProofs DocProofs2 LaySpec LayProofs LayProofs2 LayProofs3 LayProofs4 LayProofs5 LayProofs6 LayProofs7.
From Coq Require Import Permutation Lia.
Local Open Scope N_scope.

(** ** A document for the examples *)

Definition xlayer (u : N) (ty : pstr) (k : list inode) : inode := IE u (s "layer") [(s "type", AStr ty)] k.
Definition xparam (u : N) (f : pstr) (v : inode) : inode := IE u (s "param") [(s "name", AStr f)] [v].
Definition xreal (u : N) (x : pstr) : inode := IE u (s "real") [(s "value", AStr x)] [].
Definition xgroup (u : N) (k : list inode) : inode := xlayer u (s "group") [xparam (u + 1) (s "canvas") (IE (u + 2) (s "canvas") [] k)].
Definition xcircle (u : N) (r : pstr) : inode := xlayer u (s "circle") [xparam (u + 1) (s "radius") (xreal (u + 2) r)].

(** Inside the animation 0: the circle 1 at the bottom, the group 10, and the circle 70 on top *)
Definition xinner : inode := xgroup 30 [IT nl; xcircle 40 (s "2.0"); xgroup 50 [xlayer 60 (s "rectangle") []]].
Definition xgroup10 : inode := xgroup 10 [xlayer 20 (s "text") []; IT nl; xinner].
Definition xdoc : inode := IE 0 (s "canvas") [(s "fps", AStr (s "24.000"))] [IT nl; xcircle 1 (s "1.0"); IT nl; xgroup10; xcircle 70 (s "3.0"); IT nl].
(** and a layer that is nowhere *)
Definition xforest : forest := [xdoc; xcircle 100 (s "5.0")].
Definition xsub : list ltree := [LT 70 []; LT 10 [LT 30 [LT 50 [LT 60 []]; LT 40 []]; LT 20 []]; LT 1 []].

Lemma xforest_wf : wf xforest.
Proof. unfold wf. vm_compute. repeat constructor; cbn; lia. Qed.
Lemma no_layers_check l : forallb (fun x => negb (is_layer x)) (fdesc l) = true -> no_layers l.
Proof. intros H x Hx. rewrite forallb_forall in H. specialize (H x Hx). now destruct (is_layer x). Qed.
Lemma all_known_check l : forallb (fun x => negb (is_layer x) || match layer_class x with Ok _ => true | Err _ => false end) l = true -> all_known l.
Proof.
  intros H. apply Forall_forall. intros x Hx Hl. rewrite forallb_forall in H. specialize (H x Hx). rewrite Hl in H. cbn [negb orb] in H.
  unfold known. destruct (layer_class x) as [c|]; [now exists c|discriminate].
Qed.
Lemma own_canvas_xgroup u k : own_canvas (xgroup u k) (IE (u + 2) (s "canvas") [] k).
Proof.
  exists [], (xparam (u + 1) (s "canvas") (IE (u + 2) (s "canvas") [] k)), [], [], []. repeat split; auto; intros x [].
Qed.
Lemma nested_xgroup u k sub : no_layers (filter (fun x => negb (is_layer x)) k) -> both nested (rev (filter is_layer k)) sub -> nested (LT u sub) (xgroup u k).
Proof.
  intros H1 H2. cbn [nested]. split; [reflexivity|]. split; [reflexivity|]. left.
  exists (IE (u + 2) (s "canvas") [] k), []. split; [|split; [intros x []|split; auto]].
  exists [], (xparam (u + 1) (s "canvas") (IE (u + 2) (s "canvas") [] k)), [], [], []. repeat split; auto; intros x [].
Qed.
Lemma nested_xplain u ty k : (forall c, layer_class (xlayer u ty k) = Ok c -> kind_of c = KPlain) -> no_layers k -> nested (LT u []) (xlayer u ty k).
Proof. intros H1 H2. cbn [nested]. split; [reflexivity|]. split; [reflexivity|]. right. auto. Qed.
Ltac xplain := apply nested_xplain; [intros c H; vm_compute in H; injection H as <-; vm_compute; reflexivity|apply no_layers_check; vm_compute; reflexivity].
Lemma nested_xgroup10 : nested (LT 10 [LT 30 [LT 50 [LT 60 []]; LT 40 []]; LT 20 []]) xgroup10.
Proof.
  apply nested_xgroup; [apply no_layers_check; vm_compute; reflexivity|]. cbn -[nested xinner xlayer]. change (filter is_layer [xinner]) with [xinner]. cbn [rev app].
  split; [|split; [xplain|exact I]].
  apply nested_xgroup; [apply no_layers_check; vm_compute; reflexivity|].
  split; [|split; [xplain|exact I]].
  apply nested_xgroup; [apply no_layers_check; vm_compute; reflexivity|].
  split; [xplain|exact I].
Qed.
Lemma nested_xdoc : nested_root xsub xdoc.
Proof.
  split; [reflexivity|]. split; [apply no_layers_check; vm_compute; reflexivity|].
  split; [xplain|]. split; [apply nested_xgroup10|]. split; [xplain|exact I].
Qed.

(** ** C40 children *)

(** [children] lists the layers directly on the canvas, each once, the last first.
    [holds_children] says what the canvas of an object is (LaySpec.v). *)
Theorem C40_children : forall F kd g n c, wf F -> fget g F = Some n -> holds_children kd n c -> all_known (ikids c) ->
  children kd n = Ok (rev (filter is_layer (ikids c))) /\ NoDup (ids (rev (filter is_layer (ikids c)))).
Proof. exact children_are. Qed.
Print Assumptions C40_children.
Example C40_nonvacuous : wf xforest /\ fget 10 xforest = Some xgroup10 /\
  holds_children KGroup xgroup10 (IE 12 (s "canvas") [] [xlayer 20 (s "text") []; IT nl; xinner]) /\
  children KGroup xgroup10 = Ok [xinner; xlayer 20 (s "text") []].
Proof. split; [exact xforest_wf|]. split; [vm_compute; reflexivity|]. split; [exact (own_canvas_xgroup 10 _)|vm_compute; reflexivity]. Qed.

(** ** C41 append *)

(** A layer that isn't a child yet (and that the group isn't inside of) becomes the last child.
    The layer itself, and the document without it, stay as they were. *)
Theorem C41_append : forall F kd g l n c t ch, wf F -> fget g F = Some n -> holds_children kd n c -> children kd n = Ok ch ->
  fget l F = Some t -> is_layer t = true -> known t -> ~ In g (uids t) -> ~ In l (ids ch) ->
  exists F' n' ch', group_append F kd g l = (F', Ok tt) /\ wf F' /\
    fget g F' = Some n' /\ children kd n' = Ok ch' /\ ids ch' = ids ch ++ [l] /\
    fget l F' = fget l F /\ fdel l F' = fdel l F.
Proof. exact append_new. Qed.
Print Assumptions C41_append.
Example C41_nonvacuous : fget 100 xforest = Some (xcircle 100 (s "5.0")) /\ known (xcircle 100 (s "5.0")) /\ ~ In 10 (uids (xcircle 100 (s "5.0"))) /\
  (let F' := fst (group_append xforest KGroup 10 100) in
   match fget 10 F' with Some n' => match children KGroup n' with Ok ch => ids ch | Err _ => [] end | None => [] end) = [30; 20; 100].
Proof. split; [vm_compute; reflexivity|]. split; [eexists; vm_compute; reflexivity|]. split; [cbn; lia|vm_compute; reflexivity]. Qed.

(** ** C42 insert *)

(** A layer that isn't a child yet. What is missing: a layer that is the very child at that
    index makes insert raise a ValueError (below). A child at another index is in C43. *)
Theorem C42_insert_partial : forall F kd g l n c t ch i, wf F -> fget g F = Some n -> holds_children kd n c -> children kd n = Ok ch ->
  fget l F = Some t -> is_layer t = true -> known t -> ~ In g (uids t) -> ~ In l (ids ch) -> in_range i (length ch) ->
  let k := Z.to_nat (i mod Z.of_nat (length ch))%Z in
  exists F' n' ch', group_insert F kd g i l = (F', Ok tt) /\ wf F' /\
    fget g F' = Some n' /\ children kd n' = Ok ch' /\ ids ch' = firstn k (ids ch) ++ l :: skipn k (ids ch) /\
    fget l F' = fget l F /\ same_but_space (fdel l F) (fdel l F').
Proof. exact insert_at. Qed.
Print Assumptions C42_insert_partial.
Theorem C42_insert_out_of_range : forall F kd g l n ch i, fget g F = Some n -> kd <> KPlain -> children kd n = Ok ch -> ~ in_range i (length ch) ->
  group_insert F kd g i l = (F, Err IndexError).
Proof. exact insert_out. Qed.
Print Assumptions C42_insert_out_of_range.
Example C42_nonvacuous : in_range (-1) 2 /\ ~ in_range 2 2 /\
  (let F' := fst (group_insert xforest KGroup 10 (-1) 100) in
   match fget 10 F' with Some n' => match children KGroup n' with Ok ch => ids ch | Err _ => [] end | None => [] end) = [30; 100; 20].
Proof. split; [unfold in_range; lia|]. split; [unfold in_range; lia|vm_compute; reflexivity]. Qed.
(** Inserting a layer where it already is raises an exception, after changing the document. *)
Theorem C42_insert_refuted : exists F kd g n ch i l, wf F /\ fget g F = Some n /\ children kd n = Ok ch /\ in_range i (length ch) /\
  fget l F <> None /\ snd (group_insert F kd g i l) = Err ValueError /\ fst (group_insert F kd g i l) <> F.
Proof.
  exists xforest, KGroup, 10, xgroup10, [xinner; xlayer 20 (s "text") []], 1%Z, 20.
  split; [exact xforest_wf|]. split; [vm_compute; reflexivity|]. split; [vm_compute; reflexivity|]. split; [unfold in_range; cbn; lia|].
  split; [vm_compute; discriminate|]. split; [vm_compute; reflexivity|vm_compute; discriminate].
Qed.
Print Assumptions C42_insert_refuted.
(** Nor can insert add at the end, as list.insert does. *)
Theorem C42_no_insert_at_end : forall F kd g l n ch, fget g F = Some n -> kd <> KPlain -> children kd n = Ok ch ->
  group_insert F kd g (Z.of_nat (length ch)) l = (F, Err IndexError).
Proof. intros F kd g l n ch Hg Hk Hch. apply (insert_out F kd g l n ch); auto. unfold in_range. lia. Qed.
Print Assumptions C42_no_insert_at_end.

(** ** C43 moving *)

(** Whatever is appended and inserted, in whatever order: the same tags are there, each once, each with
    its name and attributes. What is missing: a layer put inside itself, which the model leaves out. *)
Theorem C43_moves_partial : forall F ms, wf F -> moves_modelled F ms ->
  let F' := fold_left do_move ms F in
  wf F' /\ Permutation (fuids F') (fuids F) /\
  forall u n, fget u F = Some n -> exists n', fget u F' = Some n' /\ iname n' = iname n /\ iattrs n' = iattrs n.
Proof. intros F ms W _. exact (keeps_moves ms F W). Qed.
Print Assumptions C43_moves_partial.
(** One move, successful or not, leaves everything but the layer moved where it was, in its order, up to white space. *)
Theorem C43_others_stay_partial : forall F m, wf F -> snd (try_move F m) <> Err EUnmodelled ->
  same_but_space (fdel (moved_layer m) F) (fdel (moved_layer m) (do_move F m)).
Proof. intros F m W _. exact (spares_do_move F m W). Qed.
Print Assumptions C43_others_stay_partial.
(** A child that is moved inside its group: append takes it to the end... *)
Theorem C43_append_moves : forall F kd g l n c t ch, wf F -> fget g F = Some n -> holds_children kd n c -> children kd n = Ok ch ->
  fget l F = Some t -> is_layer t = true -> known t -> ~ In g (uids t) -> (forall a, ids ch <> a ++ [l]) ->
  exists F' n' ch', group_append F kd g l = (F', Ok tt) /\ wf F' /\
    fget g F' = Some n' /\ children kd n' = Ok ch' /\ ids ch' = without l (ids ch) ++ [l] /\
    fget l F' = fget l F /\ fdel l F' = fdel l F.
Proof. exact append_move. Qed.
Print Assumptions C43_append_moves.
(** ... and insert just before the child that had the index i. *)
Theorem C43_insert_moves : forall F kd g l n t ch i b, wf F -> fget g F = Some n -> kd <> KPlain -> children kd n = Ok ch ->
  fget l F = Some t -> is_layer t = true -> known t -> ~ In g (uids t) -> (exists c, holds_children kd n c) ->
  py_index ch i = Ok b -> l <> iuid b ->
  exists F' n' ch' A B, group_insert F kd g i l = (F', Ok tt) /\ wf F' /\
    fget g F' = Some n' /\ children kd n' = Ok ch' /\
    without l (ids ch) = A ++ iuid b :: B /\ ids ch' = A ++ l :: iuid b :: B /\
    fget l F' = fget l F /\ same_but_space (fdel l F) (fdel l F').
Proof. exact insert_move. Qed.
Print Assumptions C43_insert_moves.
(** Appending the layer that is already the last one raises a ValueError. *)
Theorem C43_append_last_raises : forall F kd g l n ch a, wf F -> fget g F = Some n -> children kd n = Ok ch -> kd <> KPlain ->
  ids ch = a ++ [l] -> group_append F kd g l = (F, Err ValueError).
Proof. exact append_last. Qed.
Print Assumptions C43_append_last_raises.
Example C43_nonvacuous : let ms := [MAppend KGroup 30 1; MInsert KAnim 0 1 40; MAppend KAnim 0 60; MAppend KAnim 0 60; MInsert KGroup 10 7 20] in
  moves_modelled xforest ms /\
  match fget 0 (fold_left do_move ms xforest) with Some n' => match children KAnim n' with Ok ch => ids ch | Err _ => [] end | None => [] end = [70; 40; 10; 60] /\
  snd (try_move (fold_left do_move (firstn 3 ms) xforest) (MAppend KAnim 0 60)) = Err ValueError.
Proof. split; [|split; vm_compute; reflexivity]. repeat split; vm_compute; discriminate. Qed.

(** ** C44 len *)

(** len(group) counts the layers at all depths. So it is the number of children exactly if no child has children. *)
Theorem C44_len_partial : forall t n c, nested t n -> layer_class n = Ok c -> kind_of c = KGroup -> all_known (idesc n) ->
  exists ch, children KGroup n = Ok ch /\ layer_len n = Z.of_nat (list_sum (map lcount (lsub t))) /\
    (layer_len n = Z.of_nat (length ch) <-> Forall (fun x => lsub x = []) (lsub t)).
Proof. exact len_flat. Qed.
Print Assumptions C44_len_partial.
Theorem C44_len_refuted : exists n c ch, layer_class n = Ok c /\ kind_of c = KGroup /\ children KGroup n = Ok ch /\
  length ch = 2%nat /\ layer_len n = 5%Z.
Proof.
  exists xgroup10, cls_Group, [xinner; xlayer 20 (s "text") []]. split; [vm_compute; reflexivity|]. split; [vm_compute; reflexivity|].
  split; [vm_compute; reflexivity|]. split; [reflexivity|vm_compute; reflexivity].
Qed.
Print Assumptions C44_len_refuted.
Example C44_nonvacuous : nested (LT 10 [LT 30 [LT 50 [LT 60 []]; LT 40 []]; LT 20 []]) xgroup10 /\ all_known (idesc xgroup10).
Proof. split; [exact nested_xgroup10|]. apply all_known_check. vm_compute. reflexivity. Qed.

(** ** C45 descendants *)

(** [descendants] is each child, followed by its children: complete exactly down to the second level.
    Only layers of the class Group have children. *)
Theorem C45_descendants_partial : forall sub n, nested_root sub n -> all_known (idesc n) -> groups_only n ->
  exists l, descendants_of KAnim n = Ok l /\ ids l = flat_map (fun t => lid t :: map lid (lsub t)) sub /\
    (Forall (fun t => Forall (fun x => lsub x = []) (lsub t)) sub -> ids l = flat_map lall sub).
Proof.
  intros sub n H HK Hg. destruct (nested_root_desc sub n H HK Hg) as (l & E & Ei). exists l. split; [exact E|]. split; [exact Ei|].
  intros H2. rewrite Ei. now apply two_levels.
Qed.
Print Assumptions C45_descendants_partial.
Theorem C45_descendants_group_partial : forall t n c, nested t n -> layer_class n = Ok c -> kind_of c = KGroup -> all_known (idesc n) -> groups_only n ->
  exists l, descendants_of KGroup n = Ok l /\ ids l = flat_map (fun t => lid t :: map lid (lsub t)) (lsub t) /\
    (Forall (fun t => Forall (fun x => lsub x = []) (lsub t)) (lsub t) -> ids l = flat_map lall (lsub t)).
Proof.
  intros t n c H Hc Hk HK Hg. destruct (nested_desc t n c H Hc Hk HK Hg) as (l & E & Ei). exists l. split; [exact E|]. split; [exact Ei|].
  intros H2. rewrite Ei. now apply two_levels.
Qed.
Print Assumptions C45_descendants_group_partial.
Theorem C45_descendants_refuted : exists n l, nested_root xsub n /\ descendants_of KAnim n = Ok l /\ ids l = [70; 10; 30; 20; 1] /\
  In 50 (flat_map lall xsub) /\ ~ In 50 (ids l).
Proof.
  exists xdoc. eexists. split; [exact nested_xdoc|]. split; [vm_compute; reflexivity|]. split; [vm_compute; reflexivity|]. split; [vm_compute; tauto|].
  vm_compute. intuition discriminate.
Qed.
Print Assumptions C45_descendants_refuted.
Lemma groups_only_xdoc : groups_only xdoc.
Proof.
  intros x c Hx Hl Hc Hk.
  assert (H : forallb (fun x => negb (is_layer x) || match layer_class x with Ok c => match kind_of c with KPlain => forallb (fun y => negb (is_layer y)) (fdesc (ikids x)) | _ => true end | Err _ => true end) (idesc xdoc) = true) by (vm_compute; reflexivity).
  rewrite forallb_forall in H. specialize (H x Hx). rewrite Hl, Hc, Hk in H. now apply no_layers_check.
Qed.
Example C45_nonvacuous : nested_root xsub xdoc /\ all_known (idesc xdoc) /\ groups_only xdoc.
Proof. split; [exact nested_xdoc|]. split; [apply all_known_check; vm_compute; reflexivity|exact groups_only_xdoc]. Qed.

(** ** C46 find_all(True) *)

Theorem C46_find_all_true : forall st F sub n, nested_root sub n -> all_known (idesc n) ->
  exists l, layer_find_all st F n [PaBool true] true [] None = Ok l /\
    ids l = concat (rev (map ldoc sub)) /\ Permutation (ids l) (flat_map lall sub) /\
    layer_find st F n [PaBool true] true [] None = Ok (hd_error l).
Proof. exact find_true_root. Qed.
Print Assumptions C46_find_all_true.
Theorem C46_find_all_true_layer : forall st F t n, nested t n -> all_known (idesc n) ->
  exists l, layer_find_all st F n [PaBool true] true [] None = Ok l /\
    ids l = concat (rev (map ldoc (lsub t))) /\ Permutation (ids l) (flat_map lall (lsub t)) /\
    layer_find st F n [PaBool true] true [] None = Ok (hd_error l).
Proof. exact find_true. Qed.
Print Assumptions C46_find_all_true_layer.
Theorem C46_find_all_none : forall st F n (rec : bool) l, l = (if rec then idesc n else filter itag (ikids n)) -> all_known l ->
  layer_find_all st F n [PaBool false] rec [] None = Ok [] /\ layer_find_all st F n [] rec [] None = Ok [] /\
  layer_find st F n [PaBool false] rec [] None = Ok None.
Proof. exact find_none_all. Qed.
Print Assumptions C46_find_all_none.
(** With any arguments, find is the first of find_all. *)
Theorem C46_find_is_first : forall st F n pos rec kw at_ l, layer_find_all st F n pos rec kw at_ = Ok l ->
  layer_find st F n pos rec kw at_ = Ok (match l with [] => None | x :: _ => Some x end).
Proof. intros st F n pos rec kw at_ l H. unfold layer_find. rewrite H. now destruct l. Qed.
Print Assumptions C46_find_is_first.
Example C46_nonvacuous : nested_root xsub xdoc /\ concat (rev (map ldoc xsub)) = [1; 10; 20; 30; 40; 50; 60; 70].
Proof. split; [exact nested_xdoc|reflexivity]. Qed.

(** ** C47 find_all by type *)

(** What it finds: the layers whose type attribute is the name looked for, which is first made lower-case and
    robbed of its underscores, unless their class has a parameter called type_. So it is right if all the
    types in the document are without upper-case letters and underscores. *)
Theorem C47_find_type_exact : forall st F n x, all_known (idesc n) -> (forall z, In z (idesc n) -> is_param (s "type_") z = false) ->
  exists l, layer_find_all st F n [PaStr x] true [] None = Ok l /\
    forall y, In y l <-> In y (idesc n) /\ is_layer y = true /\ type_is y (normalise x) /\ exists c, layer_class y = Ok c /\ own_type c = false.
Proof. exact find_type_exact. Qed.
Print Assumptions C47_find_type_exact.
Theorem C47_find_type_partial : forall st F n x, (forall z, In z (idesc n) -> is_param (s "type_") z = false) ->
  (forall y, In y (idesc n) -> is_layer y = true -> exists t c, type_is y t /\ normalise t = t /\ layer_class y = Ok c /\ own_type c = false) ->
  exists l, layer_find_all st F n [PaStr x] true [] None = Ok l /\
    forall y, In y l <-> In y (idesc n) /\ is_layer y = true /\ exists t, type_is y t /\ normalise t = normalise x.
Proof. exact find_type_canonical. Qed.
Print Assumptions C47_find_type_partial.
Theorem C47_find_type_refuted : exists n y, In y (idesc n) /\ is_layer y = true /\ type_is y (s "solid_color") /\
  forall st F, layer_find_all st F n [PaStr (s "solid_color")] true [] None = Ok [].
Proof.
  exists (xgroup 1 [xlayer 5 (s "solid_color") []]), (xlayer 5 (s "solid_color") []). split; [vm_compute; tauto|]. split; [reflexivity|]. split; [reflexivity|].
  intros st F. rewrite find_type; [vm_compute; reflexivity|apply all_known_check; vm_compute; reflexivity|].
  intros z Hz. assert (H : forallb (fun z => negb (is_param (s "type_") z)) (idesc (xgroup 1 [xlayer 5 (s "solid_color") []])) = true) by (vm_compute; reflexivity).
  rewrite forallb_forall in H. specialize (H z Hz). now destruct (is_param _ z).
Qed.
Print Assumptions C47_find_type_refuted.
(** The classes whose layers it never finds: they have a parameter called type_. *)
Theorem C47_find_blur_refuted : exists n y, In y (idesc n) /\ is_layer y = true /\ type_is y (s "blur") /\
  forall st F, layer_find_all st F n [PaStr (s "blur")] true [] None = Ok [].
Proof.
  exists (xgroup 1 [xlayer 5 (s "blur") []]), (xlayer 5 (s "blur") []). split; [vm_compute; tauto|]. split; [reflexivity|]. split; [reflexivity|].
  intros st F. rewrite find_type; [vm_compute; reflexivity|apply all_known_check; vm_compute; reflexivity|].
  intros z Hz. assert (H : forallb (fun z => negb (is_param (s "type_") z)) (idesc (xgroup 1 [xlayer 5 (s "blur") []])) = true) by (vm_compute; reflexivity).
  rewrite forallb_forall in H. specialize (H z Hz). now destruct (is_param _ z).
Qed.
Print Assumptions C47_find_blur_refuted.
Example C47_nonvacuous : layer_find_all cls_Layer xforest xdoc [PaStr (s "Circ_le")] true [] None =
  Ok [xcircle 1 (s "1.0"); xcircle 40 (s "2.0"); xcircle 70 (s "3.0")] /\
  map c_name (filter own_type layer_classes) = map s ["Blur"; "Shade"; "Bevel"; "Halftone3"; "Halftone2"; "Spherize"]%string.
Proof. split; vm_compute; reflexivity. Qed.

(** ** C48 several criteria *)

(** A layer that meets all is found, but every layer that meets one is, too. *)
Theorem C48_criteria_partial : forall st F n crit l, (forall kv, In kv crit -> fst kv <> s "type") -> crit <> [] ->
  layer_find_all st F n [] true (map (fun kv => (fst kv, WVal (snd kv))) crit) None = Ok l ->
  (forall y, In y l -> In y (idesc n) /\ is_layer y = true /\ exists kv, In kv crit /\ meets st F y kv) /\
  (forall y, In y (idesc n) -> is_layer y = true -> (forall kv, In kv crit -> meets st F y kv) -> In y l).
Proof. exact find_criteria. Qed.
Print Assumptions C48_criteria_partial.
(** With one criterion it is exact. *)
Theorem C48_one_criterion : forall st F n k v l, k <> s "type" ->
  layer_find_all st F n [] true [(k, WVal v)] None = Ok l ->
  forall y, In y l <-> In y (idesc n) /\ is_layer y = true /\ meets st F y (k, v).
Proof. exact find_one. Qed.
Print Assumptions C48_one_criterion.
Theorem C48_criteria_refuted : exists st F n crit l y kv, layer_find_all st F n [] true (map (fun kv => (fst kv, WVal (snd kv))) crit) None = Ok l /\
  In y l /\ In kv crit /\ ~ meets st F y kv.
Proof.
  exists cls_Layer, xforest, xdoc, [(s "active", PBool true); (s "radius", PFlo 3)]. eexists. exists (xlayer 20 (s "text") []), (s "radius", PFlo 3).
  split; [vm_compute; reflexivity|]. split; [vm_compute; tauto|]. split; [now right; left|].
  intros (c & found & Hc & Hf & _). vm_compute in Hc. injection Hc as <-. vm_compute in Hf. discriminate.
Qed.
Print Assumptions C48_criteria_refuted.
Example C48_nonvacuous : layer_find_all cls_Layer xforest xdoc [] true [(s "radius", WVal (PFlo 3))] None = Ok [xcircle 70 (s "3.0")].
Proof. vm_compute. reflexivity. Qed.

(** ** C49 recursive=False *)

Theorem C49_not_recursive_partial : forall st F n ch, children KAnim n = Ok ch ->
  layer_find_all st F n [PaBool true] false [] None = Ok (rev ch).
Proof. exact find_flat. Qed.
Print Assumptions C49_not_recursive_partial.
Theorem C49_not_recursive_refuted : exists st F n c ch, layer_class n = Ok c /\ kind_of c = KGroup /\ children KGroup n = Ok ch /\ ch <> [] /\
  layer_find_all st F n [PaBool true] false [] None = Ok [].
Proof.
  exists cls_Layer, xforest, xgroup10, cls_Group, [xinner; xlayer 20 (s "text") []].
  split; [vm_compute; reflexivity|]. split; [vm_compute; reflexivity|]. split; [vm_compute; reflexivity|]. split; [discriminate|vm_compute; reflexivity].
Qed.
Print Assumptions C49_not_recursive_refuted.
Example C49_nonvacuous : exists ch, children KAnim xdoc = Ok ch /\ ids ch = [70; 10; 1].
Proof. eexists. split; vm_compute; reflexivity. Qed.

(** ** C50 parameters are the layer's own *)

(** If the layer's own param comes before any other of that name inside it, then [layer[f]], [f in layer], the
    field f and [items()] all agree on it. If there is no param of that name anywhere in the layer, they agree, too.
    What is missing: a param of the same name in a layer nested in this one, and coming first (below). *)
Theorem C50_own_param_partial : forall F n f p l, itag n = true -> own_param n f p -> layer_items n = Ok l -> NoDup (param_names n) ->
  exists v, value_of p = Ok v /\ layer_getitem n f = Ok v /\ layer_contains n f = true /\ param_get F n f = Ok v /\ aget f l = Some v.
Proof. exact own_reads. Qed.
Print Assumptions C50_own_param_partial.
Theorem C50_no_param_partial : forall F n f l, (forall x, In x (idesc n) -> is_param f x = false) -> layer_items n = Ok l -> NoDup (param_names n) ->
  layer_getitem n f = Err KeyError /\ layer_contains n f = false /\ param_get F n f = Err AttributeError /\ aget f l = None.
Proof. exact none_reads. Qed.
Print Assumptions C50_no_param_partial.
(** A group whose time_dilation comes after its canvas, as in the documents Synfig writes *)
Definition xstolen : inode :=
  xlayer 1 (s "group") [xparam 2 (s "canvas") (IE 3 (s "canvas") [] [xlayer 4 (s "group") [xparam 5 (s "time_dilation") (xreal 6 (s "7.0"))]]);
                        xparam 8 (s "time_dilation") (xreal 9 (s "1.0"))].
Theorem C50_own_param_refuted : exists n f l, layer_items n = Ok l /\
  aget f l = Some (xreal 9 (s "1.0"), VReal) /\ layer_getitem n f = Ok (xreal 6 (s "7.0"), VReal) /\
  (forall st, field_get st [n] n cls_Group f = Ok (PVal VReal (forget (xreal 6 (s "7.0"))) None)) /\
  (exists F', layer_setitem [n] 1 f (SPlain (PFlo 2)) = (F', Ok tt) /\ fget 9 F' = Some (xreal 9 (s "1.0")) /\ fanc 6 F' = Some []) /\
  layer_getitem (xgroup 20 [xstolen]) f <> Err KeyError.
Proof.
  exists xstolen, (s "time_dilation"). eexists. split; [vm_compute; reflexivity|]. split; [vm_compute; reflexivity|]. split; [vm_compute; reflexivity|].
  split; [intros st; vm_compute; reflexivity|]. split; [|vm_compute; discriminate].
  exists (fst (layer_setitem [xstolen] 1 (s "time_dilation") (SPlain (PFlo 2)))). split; [vm_compute; reflexivity|]. split; vm_compute; reflexivity.
Qed.
Print Assumptions C50_own_param_refuted.
Example C50_nonvacuous : own_param (xcircle 1 (s "1.0")) (s "radius") (xparam 2 (s "radius") (xreal 3 (s "1.0"))) /\
  layer_items (xcircle 1 (s "1.0")) = Ok [(s "radius", (xreal 3 (s "1.0"), VReal))] /\ NoDup (param_names (xcircle 1 (s "1.0"))).
Proof.
  split; [exists [], []; split; [reflexivity|]; split; [vm_compute; reflexivity|intros x []]|]. split; [vm_compute; reflexivity|].
  vm_compute. constructor; [intros []|constructor].
Qed.

(** ** C51 setting a parameter *)

(** [layer[f] = v] with something that isn't a Value object: a new tag with the new value takes the place of
    the old one, and nothing else in the document changes; the old one is left on its own.
    What is missing: assigning a Value object that already belongs to a layer takes it away from there (below). *)
Theorem C51_set_plain_partial : forall F u n f old c v t, wf F -> fget u F = Some n -> layer_getitem n f = Ok (old, c) ->
  In c [VReal; VInteger; VBool; VAngle; VTime; VString; VColor] -> new_value c v = Ok t ->
  exists F' n' t', layer_setitem F u f (SPlain v) = (F', Ok tt) /\ wf F' /\ fget u F' = Some n' /\
    layer_getitem n' f = Ok (t', c) /\ forget t' = t /\ F' = fput (iuid old) t' F ++ [old].
Proof. exact set_simple_plain. Qed.
Print Assumptions C51_set_plain_partial.
(** A Value object: its tag t takes the place of the old one. *)
Theorem C51_set_object_partial : forall F u n f old c w c' k t, wf F -> fget u F = Some n -> layer_getitem n f = Ok (old, c) ->
  is_a c' c -> w <> iuid old -> fget w F = Some t -> from_tag (forget t) = Ok k -> ~ In u (uids t) ->
  (forall p, ifind (is_param f) n = Some p -> ~ In (iuid p) (uids t)) ->
  let F' := fput (iuid old) t (fdel w F) ++ [idel w old] in
  layer_setitem F u f (SValue w c') = (F', Ok tt) /\ wf F' /\
  exists n', fget u F' = Some n' /\ layer_getitem n' f = Ok (t, k) /\ iname n' = iname n /\ iattrs n' = iattrs n.
Proof. exact set_value_obj. Qed.
Print Assumptions C51_set_object_partial.
(** What goes wrong leaves the document alone: no such parameter, a Value object of another class, a value
    that can't be converted. *)
Theorem C51_set_errors : forall F u n f old c, fget u F = Some n ->
  (forall a, (forall x, In x (idesc n) -> is_param f x = false) -> layer_setitem F u f a = (F, Err KeyError)) /\
  (layer_getitem n f = Ok (old, c) ->
     (forall w c', ~ is_a c' c -> layer_setitem F u f (SValue w c') = (F, Err TypeError)) /\
     (forall v e, new_value c v = Err e -> layer_setitem F u f (SPlain v) = (F, Err e))).
Proof. exact set_errors. Qed.
Print Assumptions C51_set_errors.
(** [layer.k = v], for a field that is a parameter: the tag of the value is changed as assigning to [value] does
    (C12 to C29), and nothing else changes. *)
Theorem C51_set_field_partial : forall F u n k v w c m r, wf F -> fget u F = Some n -> param_get F n k = Ok (w, c) -> set_value c (forget w) v = (m, r) ->
  exists w', iuid w' = iuid w /\ forget w' = m /\
    let F' := fput (iuid w) w' F in
    param_set F n k v = (F', r) /\ wf F' /\
    exists n', fget u F' = Some n' /\ iname n' = iname n /\ iattrs n' = iattrs n /\
      param_get F' n' k = (let* c' := from_tag m in Ok (w', c')) /\
      (r = Ok tt -> In c [VReal; VInteger; VBool; VAngle; VTime; VString; VColor] -> param_get F' n' k = Ok (w', c)).
Proof. exact set_field. Qed.
Print Assumptions C51_set_field_partial.
(** [a['radius'] = b['radius']]: after this, b has no radius. *)
Theorem C51_set_object_refuted : exists F w n2, wf F /\ layer_getitem (xcircle 1 (s "1.0")) (s "radius") = Ok (xreal 3 (s "1.0"), VReal) /\
  layer_getitem (xcircle 70 (s "3.0")) (s "radius") = Ok (w, VReal) /\
  (let (F', r) := layer_setitem F 1 (s "radius") (SValue (iuid w) VReal) in
   r = Ok tt /\ fget 70 F' = Some n2 /\ layer_getitem n2 (s "radius") = Err AttributeError).
Proof.
  exists xforest, (xreal 72 (s "3.0")), (xlayer 70 (s "circle") [IE 71 (s "param") [(s "name", AStr (s "radius"))] []]).
  split; [exact xforest_wf|]. split; [vm_compute; reflexivity|]. split; [vm_compute; reflexivity|]. vm_compute. auto.
Qed.
Print Assumptions C51_set_object_refuted.
Example C51_nonvacuous : layer_getitem (xcircle 1 (s "1.0")) (s "radius") = Ok (xreal 3 (s "1.0"), VReal) /\
  new_value VReal (PFlo 2) = Ok (El (s "real") [(s "value", AStr (s "2.0000000000"))] []) /\
  is_a VReal VReal /\ ~ is_a VReal VInteger /\ param_get xforest (xcircle 1 (s "1.0")) (s "radius") = Ok (xreal 3 (s "1.0"), VReal).
Proof.
  split; [vm_compute; reflexivity|]. split; [vm_compute; reflexivity|]. split; [now left|]. split; [|vm_compute; reflexivity].
  intros [H|[H _]]; discriminate.
Qed.

(** ** C52 attribute fields *)

Theorem C52_bool_fields : forall st F u n c k v b, wf F -> fget u F = Some n -> layer_class n = Ok c ->
  (k = s "active" \/ k = s "exclude_from_rendering") -> py_bool v = Ok b ->
  exists F' n', field_set F u n c k v = (F', Ok tt) /\ fget u F' = Some n' /\ field_get st F' n' c k = Ok (PBool b) /\
    without_attr u k F' = without_attr u k F.
Proof. exact set_bool_attr. Qed.
Print Assumptions C52_bool_fields.
Theorem C52_desc : forall st F u n c x, wf F -> fget u F = Some n -> layer_class n = Ok c ->
  exists F' n', field_set F u n c (s "desc") (PStr x) = (F', Ok tt) /\ fget u F' = Some n' /\ field_get st F' n' c (s "desc") = Ok (PStr x) /\
    without_attr u (s "desc") F' = without_attr u (s "desc") F.
Proof. exact set_desc. Qed.
Print Assumptions C52_desc.
Theorem C52_no_desc : forall st F u n c, wf F -> fget u F = Some n -> layer_class n = Ok c -> NoDup (map fst (iattrs n)) ->
  exists F' n', field_set F u n c (s "desc") PNone = (F', Ok tt) /\ fget u F' = Some n' /\ field_get st F' n' c (s "desc") = Ok PNone /\
    without_attr u (s "desc") F' = without_attr u (s "desc") F.
Proof. exact unset_desc. Qed.
Print Assumptions C52_no_desc.
Example C52_nonvacuous : layer_class (xcircle 1 (s "1.0")) = Ok cls_Circle /\ py_bool (PInt 0) = Ok false /\
  field_get cls_Layer xforest (xcircle 1 (s "1.0")) cls_Circle (s "active") = Ok (PBool true) /\
  NoDup (map fst (iattrs (xcircle 1 (s "1.0")))).
Proof. repeat split; try (vm_compute; reflexivity). vm_compute. constructor; [intros []|constructor]. Qed.

(** ** C53 depth and parent *)

(** [enclosing F u] is the list of the layers around u, outermost first (LaySpec.v). *)
Theorem C53_depth_parent : forall F u, wf F -> In u (fuids F) ->
  depth_of F u = Ok (Z.of_nat (length (enclosing F u))) /\
  ((enclosing F u = [] /\ parent_of F u = Ok None) \/
   exists p, enclosing F u = enclosing F (iuid p) ++ [p] /\ is_layer p = true /\
     depth_of F (iuid p) = Ok (Z.of_nat (length (enclosing F u)) - 1)%Z /\
     (known p -> parent_of F u = Ok (Some p))).
Proof. exact depth_parent. Qed.
Print Assumptions C53_depth_parent.
Example C53_nonvacuous : map iuid (enclosing xforest 60) = [10; 30; 50] /\ depth_of xforest 60 = Ok 3%Z /\ In 60 (fuids xforest).
Proof. split; [vm_compute; reflexivity|]. split; [vm_compute; reflexivity|]. vm_compute. tauto. Qed.

(** ** C25, for the shortcuts of a group *)

(** [group.angle = 30] on a new group: the other parts of its transformation are gone. *)
Theorem C25_shortcut_refuted : exists F n F' n', new_layer [] cls_Group = (F, Ok 1) /\ fget 1 F = Some n /\
  field_set F 1 n cls_Group (s "angle") (PFlo 30) = (F', Ok tt) /\ fget 1 F' = Some n' /\
  (exists v, field_get cls_Group F n cls_Group (s "scale") = Ok v) /\
  field_get cls_Group F' n' cls_Group (s "scale") = Err KeyError.
Proof.
  set (F := fst (new_layer [] cls_Group)). vm_compute in F.
  set (n := match fget 1 F with Some n => n | None => IT [] end). vm_compute in n.
  set (F' := fst (field_set F 1 n cls_Group (s "angle") (PFlo 30))). vm_compute in F'.
  set (n' := match fget 1 F' with Some n => n | None => IT [] end). vm_compute in n'.
  exists F, n, F', n'. split; [vm_compute; reflexivity|]. split; [vm_compute; reflexivity|]. split; [vm_compute; reflexivity|].
  split; [vm_compute; reflexivity|]. split; [eexists; vm_compute; reflexivity|vm_compute; reflexivity].
Qed.
Print Assumptions C25_shortcut_refuted.
