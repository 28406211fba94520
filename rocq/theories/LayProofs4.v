(** Proofs about histories of moves, nesting, and searching. *)
From Verif Require Import LayModel DocProofs DocProofs2 LaySpec LayProofs LayProofs2 LayProofs3.
From Coq Require Import Permutation Lia.
Local Open Scope N_scope.

(** ** Nothing is lost *)

Definition keeps (F F' : forest) : Prop :=
  wf F -> wf F' /\ Permutation (fuids F') (fuids F) /\
  forall u n, fget u F = Some n -> exists n', fget u F' = Some n' /\ iname n' = iname n /\ iattrs n' = iattrs n.

Lemma keeps_refl F : keeps F F. Proof. intros H. repeat split; eauto. Qed.
Lemma keeps_trans F G K : keeps F G -> keeps G K -> keeps F K.
Proof.
  intros H1 H2 W. destruct (H1 W) as (W1 & P1 & G1). destruct (H2 W1) as (W2 & P2 & G2). split; [auto|]. split; [now rewrite P2|].
  intros u n Hu. destruct (G1 u n Hu) as (n1 & Hn1 & A1 & B1). destruct (G2 u n1 Hn1) as (n2 & Hn2 & A2 & B2).
  exists n2. split; [auto|]. split; congruence.
Qed.
Lemma keeps_move F l c t pn i : fget l F = Some t -> fget c (fdel l F) = Some pn -> keeps F (fat c (ins i t) (fdel l F)).
Proof.
  intros Hl Hc W. split; [now apply (mv_wf F l c t pn)|]. split; [now apply (mv_perm F l c t pn)|].
  intros u n Hu. destruct (in_dec N.eq_dec u (uids t)) as [Hi|Hi].
  - exists n. split; auto. rewrite (mv_inside F l c t pn i W Hl Hc u Hi). exact Hu.
  - rewrite (mv_get F l c t pn i W Hl Hc u Hi), Hu. eexists. split; [reflexivity|].
    pose proof (iat_shallow c _ (ins_shallow i t) (idel l n)) as (_ & _ & A & B). rewrite A, B. split; [apply idel_name|apply idel_attrs].
Qed.
Lemma keeps_text F c i x y : fget c F = Some y -> keeps F (fat c (ins i (IT x)) F).
Proof.
  intros Hc W. destruct (ins_text_wf F c i x y W Hc) as [W' P]. split; [auto|]. split; [auto|].
  intros u n Hu. rewrite (fget_ins_old c i (IT x) F y u W Hc) by auto. rewrite Hu. eexists. split; [reflexivity|].
  pose proof (iat_shallow c _ (ins_shallow i (IT x)) n) as (_ & _ & A & B). auto.
Qed.

Lemma keeps_put F l t p i : fget l F = Some t -> keeps F (fst (put_in F (fdel l F) p i t)).
Proof. intros Hl. unfold put_in. destruct (fget p (fdel l F)) as [x|] eqn:E; [now apply (keeps_move F l p t x)|apply keeps_refl]. Qed.
Lemma keeps_tag_insert F p i u : keeps F (fst (tag_insert F p i u)).
Proof.
  unfold tag_insert. destruct (u =? p); [apply keeps_refl|]. destruct (fget u F) as [t|] eqn:E; [|apply keeps_refl].
  destruct (fget p F); [now apply keeps_put|apply keeps_refl].
Qed.
Lemma keeps_tag_append F p u : keeps F (fst (tag_append F p u)).
Proof. unfold tag_append. destruct (fget p F); [apply keeps_tag_insert|apply keeps_refl]. Qed.
Lemma keeps_beside off F b u : keeps F (fst (insert_beside off F b u)).
Proof.
  unfold insert_beside. destruct (fparent b F) as [[|p pn pa pk]|]; [apply keeps_refl| |apply keeps_refl].
  destruct (u =? b); [apply keeps_refl|]. destruct (fget u F) as [t|] eqn:E; [|apply keeps_refl].
  destruct (fget p (fdel u F)) as [x|]; [|apply keeps_refl].
  destruct (index_of b (ikids x)); [now apply keeps_put|apply keeps_refl].
Qed.
Lemma keeps_text_after F b x : keeps F (fst (insert_text_after F b x)).
Proof.
  unfold insert_text_after. destruct (fparent b F) as [[|p pn pa pk]|] eqn:E; [|destruct (index_of b _); [|apply keeps_refl]|apply keeps_refl].
  - destruct (index_of b (ikids (IT x0))); apply keeps_refl.
  - unfold put_in. destruct (fget p F) as [y|] eqn:Ep; [now apply (keeps_text F p _ x y)|apply keeps_refl].
Qed.
Lemma keeps_andthen F c k : keeps F (fst c) -> (forall G, keeps G (fst (k G))) -> keeps F (fst (andthen c k)).
Proof.
  intros H1 H2. destruct c as [G [x|e]]; cbn [andthen fst] in *; auto. eapply keeps_trans; eauto.
Qed.
Lemma keeps_do_move F m : keeps F (do_move F m).
Proof.
  destruct m as [kd g l|kd g i l]; unfold do_move; cbn [try_move].
  - unfold group_append. destruct kd; try apply keeps_refl.
    all: destruct (fget g F) as [n|]; [|apply keeps_refl]; destruct (canvas_of _ n) as [c|]; [|apply keeps_refl];
      destruct (find is_layer (ikids c)); [apply keeps_beside|apply keeps_tag_append].
  - unfold group_insert. destruct kd; try apply keeps_refl.
    all: destruct (fget g F) as [n|]; [|apply keeps_refl]; destruct (group_index _ n i) as [b|]; [|apply keeps_refl].
    all: apply keeps_andthen; [apply keeps_text_after|]; intros G; apply keeps_andthen; [apply keeps_beside|]; intros K; apply keeps_text_after.
Qed.
Lemma keeps_moves ms F : keeps F (fold_left do_move ms F).
Proof.
  revert F. induction ms as [|m ms IH]; intros F; [apply keeps_refl|]. cbn [fold_left].
  eapply keeps_trans; [apply keeps_do_move|apply IH].
Qed.

(** ** Nesting *)

Lemma ltree_ind' (P : ltree -> Prop) : (forall u k, Forall P k -> P (LT u k)) -> forall t, P t.
Proof.
  intros H. fix IH 1. intros [u k]. apply H. induction k as [|t k IHk]; constructor; auto.
Qed.
Lemma both_F2 {A B} (R : B -> A -> Prop) l m : both R l m <-> Forall2 (fun y x => R y x) m l.
Proof.
  revert l. induction m as [|y m IH]; intros [|x l]; cbn; split; intros H; auto; try contradiction; try (inversion H; fail).
  - destruct H. constructor; auto. now apply IH.
  - inversion H; subst. split; auto. now apply IH.
Qed.
Lemma F2_app {A B} (R : A -> B -> Prop) a b c d : Forall2 R a b -> Forall2 R c d -> Forall2 R (a ++ c) (b ++ d).
Proof. induction 1; cbn; auto. Qed.
Lemma F2_rev {A B} (R : A -> B -> Prop) a b : Forall2 R a b -> Forall2 R (rev a) (rev b).
Proof. induction 1; cbn; auto. apply F2_app; auto. Qed.

Lemma no_layers_filter l : no_layers l -> filter is_layer (fdesc l) = [].
Proof. apply filter_none. Qed.
Lemma no_layers_app a b : no_layers (a ++ b) <-> no_layers a /\ no_layers b.
Proof.
  unfold no_layers. rewrite fdesc_app. split.
  - intros H. split; intros x Hx; apply H; apply in_or_app; auto.
  - intros [H1 H2] x Hx. apply in_app_or in Hx as [Hx|Hx]; auto.
Qed.
Lemma param_not_layer f n : is_param f n = true -> is_layer n = false.
Proof. intros H. apply param_named in H. apply (named_diff _ _ _ H). vm_compute. discriminate. Qed.
Lemma canvas_not_layer n : named (s "canvas") n = true -> is_layer n = false.
Proof. intros H. apply (named_diff _ _ _ H). vm_compute. discriminate. Qed.

(** The layers below some tags, if those that are not layers have none *)
Lemma layers_below k : no_layers (filter (fun x => negb (is_layer x)) k) ->
  filter is_layer (fdesc k) = flat_map (fun x => x :: filter is_layer (idesc x)) (filter is_layer k).
Proof.
  induction k as [|x k IH]; intros H; auto. change (x :: k) with ([x] ++ k) at 1. rewrite fdesc_app, filter_app. cbn [filter] in *.
  destruct (is_layer x) eqn:E; cbn [negb] in H.
  - rewrite (fdesc_one x) by now apply is_layer_tag. cbn [filter]. rewrite E. cbn [flat_map]. now rewrite IH.
  - change (x :: filter (fun x => negb (is_layer x)) k) with ([x] ++ filter (fun x => negb (is_layer x)) k) in H.
    apply no_layers_app in H as [H1 H2]. rewrite (no_layers_filter [x] H1). cbn [app]. auto.
Qed.
Lemma canvas_rest_layers n c rest : itag n = true -> canvas_and_rest n c rest -> no_layers rest ->
  filter is_layer (idesc n) = filter is_layer (fdesc (ikids c)).
Proof.
  intros Hn (k1 & p & k2 & j1 & j2 & E1 & Hp & E2 & Hc & _ & _ & ->) H.
  apply no_layers_app in H as [N1 H]. apply no_layers_app in H as [N2 H]. apply no_layers_app in H as [N3 N4].
  rewrite idesc_kids, E1 by auto. rewrite fdesc_app, filter_app. rewrite (no_layers_filter _ N1). cbn [app].
  change (p :: k2) with ([p] ++ k2). rewrite fdesc_app, filter_app, (no_layers_filter _ N2), app_nil_r.
  pose proof (param_tag _ _ Hp) as Hpt. pose proof (named_tag _ _ Hc) as Hct.
  rewrite (fdesc_one p Hpt). cbn [filter]. rewrite (param_not_layer _ _ Hp). rewrite (idesc_kids p Hpt), E2.
  rewrite fdesc_app, filter_app. rewrite (no_layers_filter _ N3). cbn [app].
  change (c :: j2) with ([c] ++ j2). rewrite fdesc_app, filter_app, (no_layers_filter _ N4), app_nil_r.
  rewrite (fdesc_one c Hct). cbn [filter]. rewrite (canvas_not_layer _ Hc). now rewrite (idesc_kids c Hct).
Qed.

Lemma nested_id t n : nested t n -> iuid n = lid t /\ is_layer n = true.
Proof. destruct t. cbn. tauto. Qed.

Lemma sub_order (sub : list ltree) (L : list inode) :
  Forall (fun t => forall n, nested t n -> ids (filter is_layer (idesc n)) = concat (rev (map ldoc (lsub t)))) sub ->
  Forall2 (fun y x => nested y x) sub (rev L) ->
  ids (flat_map (fun x => x :: filter is_layer (idesc x)) L) = concat (rev (map ldoc sub)).
Proof.
  intros HF H2. apply F2_rev in H2. rewrite rev_involutive in H2. apply Forall_rev in HF. rewrite <- map_rev.
  set (m := rev sub) in *. clearbody m. clear sub. induction H2 as [|t x m L Hx H2 IH]; auto. inversion HF as [|? ? Ht HF']; subst.
  cbn [flat_map map concat]. rewrite ids_app. cbn [ids map]. fold (ids (filter is_layer (idesc x))). rewrite (Ht x Hx), IH by auto.
  destruct (nested_id _ _ Hx) as [-> _]. destruct t; reflexivity.
Qed.

(** The layers below a layer in document order *)
Lemma nested_order t n : nested t n -> ids (filter is_layer (idesc n)) = concat (rev (map ldoc (lsub t))).
Proof.
  revert n. induction t as [u sub IH] using ltree_ind'. intros n (Hl & Hu & [(c & rest & H1 & H2 & H3 & H4)|(-> & H1 & _)]).
  - rewrite (canvas_rest_layers n c rest (is_layer_tag _ Hl) H1 H2), (layers_below _ H3). cbn [lsub]. apply sub_order; auto.
    now apply both_F2.
  - cbn. rewrite (idesc_kids n (is_layer_tag _ Hl)), (no_layers_filter _ H1). reflexivity.
Qed.
Lemma nested_root_order sub n : nested_root sub n -> ids (filter is_layer (idesc n)) = concat (rev (map ldoc sub)).
Proof.
  intros (Ht & H3 & H4). rewrite (idesc_kids n Ht), (layers_below _ H3). apply sub_order.
  - apply Forall_forall. intros t _ x Hx. now apply nested_order.
  - now apply both_F2.
Qed.
Lemma ldoc_perm t : Permutation (ldoc t) (lall t).
Proof.
  induction t as [u k IH] using ltree_ind'. cbn [ldoc lall]. apply perm_skip. rewrite flat_map_concat_map.
  rewrite <- map_rev. transitivity (concat (map ldoc k)).
  - rewrite <- !flat_map_concat_map. apply Permutation_flat_map. symmetry. apply Permutation_rev.
  - induction IH as [|t k Ht IH IHk]; auto. cbn [map concat]. now apply Permutation_app.
Qed.
Lemma lall_count t : length (lall t) = lcount t.
Proof.
  induction t as [u k IH] using ltree_ind'. cbn [lall lcount length]. f_equal. rewrite flat_map_concat_map.
  induction IH as [|t k Ht IH IHk]; auto. cbn [map concat list_sum fold_right]. rewrite app_length, Ht, IHk. reflexivity.
Qed.

Lemma nested_len t n : nested t n -> layer_len n = Z.of_nat (lcount t - 1).
Proof.
  intros H. unfold layer_len, ifind_all. f_equal. rewrite <- (map_length iuid). fold (ids (filter is_layer (idesc n))).
  rewrite (nested_order _ _ H). destruct t as [u k]. cbn [lsub].
  pose proof (Permutation_length (ldoc_perm (LT u k))) as P. rewrite lall_count in P. cbn [ldoc length] in P. rewrite <- P. lia.
Qed.

Lemma nested_canvas t n c : nested t n -> layer_class n = Ok c -> kind_of c = KGroup ->
  exists cv, canvas_of KGroup n = Ok cv /\ both nested (layers_in cv) (lsub t).
Proof.
  destruct t as [u sub]. intros (Hl & Hu & [(cv & rest & H1 & H2 & H3 & H4)|(-> & H1 & H2)]) Hc Hk.
  - exists cv. split; auto. apply own_canvas_of; [now apply is_layer_tag|].
    destruct H1 as (k1 & p & k2 & j1 & j2 & E1 & Hp & E2 & Hcv & N1 & N2 & _). now exists k1, p, k2, j1, j2.
  - exfalso. specialize (H2 c Hc). congruence.
Qed.
Lemma both_ids l sub : both nested l sub -> ids l = map lid sub.
Proof.
  intros H. apply both_F2 in H. induction H as [|t x m L Hx H IH]; auto. cbn. f_equal; auto. now apply nested_id.
Qed.
Lemma nested_children t n c : nested t n -> layer_class n = Ok c -> kind_of c = KGroup ->
  all_known (idesc n) -> exists ch, children KGroup n = Ok ch /\ ids ch = map lid (lsub t) /\ both nested ch (lsub t).
Proof.
  intros H Hc Hk HK. destruct (nested_canvas t n c H Hc Hk) as (cv & E & Hb). exists (layers_in cv). split; [|split; auto].
  - apply canvas_children; auto; [discriminate|]. intros x Hx. apply in_layers in Hx as [Hx Hxl].
    unfold all_known in HK. rewrite Forall_forall in HK. apply HK; auto.
    destruct (nested_id _ _ H) as [_ Hl]. destruct (canvas_desc _ _ _ (is_layer_tag _ Hl) E) as [->|Hd].
    + rewrite (idesc_kids n) by now apply is_layer_tag. destruct n as [|u nm a k]; [discriminate|]. cbn [ikids] in *.
      apply in_split in Hx as (k1 & k2 & ->). rewrite fdesc_app. apply in_or_app. right.
      destruct x; [discriminate|]. rewrite fdesc_IE. now left.
    + destruct n as [|u nm a k]; [contradiction|]. rewrite idesc_IE in *. apply (kid_desc k cv); auto. now apply is_layer_tag.
  - now apply both_ids.
Qed.
Lemma nested_root_children sub n : nested_root sub n -> all_known (idesc n) ->
  exists ch, children KAnim n = Ok ch /\ ids ch = map lid sub /\ both nested ch sub.
Proof.
  intros (Ht & H3 & H4) HK. exists (layers_in n). split; [|split; auto].
  - apply canvas_children; auto; [discriminate|]. intros x Hx. apply in_layers in Hx as [Hx Hxl].
    unfold all_known in HK. rewrite Forall_forall in HK. apply HK; auto.
    rewrite (idesc_kids n Ht). destruct n as [|u nm a k]; [discriminate|]. cbn [ikids] in *.
    apply in_split in Hx as (k1 & k2 & ->). rewrite fdesc_app. apply in_or_app. right.
    destruct x; [discriminate|]. rewrite fdesc_IE. now left.
  - now apply both_ids.
Qed.

(** ** descendants *)

Lemma all_known_sub n x : In x (idesc n) -> all_known (idesc n) -> all_known (idesc x).
Proof.
  unfold all_known. rewrite !Forall_forall. intros Hx H y Hy. apply H. eapply idesc_trans; eauto.
Qed.
Lemma groups_only_sub n x : In x (idesc n) -> groups_only n -> groups_only x.
Proof. intros Hx H y c Hy. apply H. eapply idesc_trans; eauto. Qed.

Lemma kind_cases c : kind_of c = KGroup \/ kind_of c = KPlain.
Proof. unfold kind_of. destruct (pstr_eqb _ _); auto. Qed.

Lemma child_sees t n c : nested t n -> layer_class n = Ok c -> all_known (idesc n) ->
  (kind_of c = KPlain -> no_layers (ikids n)) ->
  exists ch, children (kind_of c) n = Ok ch /\ ids ch = map lid (lsub t).
Proof.
  intros H Hc HK Hg. destruct (kind_cases c) as [E|E]; rewrite E.
  - destruct (nested_children t n c H Hc E HK) as (ch & A & B & _). eauto.
  - exists []. split; auto. specialize (Hg E). pose proof (nested_order _ _ H) as O. destruct (nested_id _ _ H) as [_ Hl].
    rewrite (idesc_kids n (is_layer_tag _ Hl)), (no_layers_filter _ Hg) in O. destruct t as [u sub]. cbn [lsub] in *.
    destruct sub as [|[v k] sub]; auto. exfalso. cbn [map] in O. cbn [rev] in O. rewrite concat_app in O. cbn [ids map concat ldoc] in O.
    symmetry in O. apply app_eq_nil in O as [_ O]. discriminate.
Qed.
Lemma desc_list L sub : Forall2 (fun y x => nested y x) sub L ->
  (forall x, In x L -> known x /\ all_known (idesc x) /\ forall c, layer_class x = Ok c -> kind_of c = KPlain -> no_layers (ikids x)) ->
  exists l, mapM (fun l => let* k := layer_class l in let* ch := children (kind_of k) l in Ok (l :: ch)) L = Ok l /\
    ids (concat l) = flat_map (fun t => lid t :: map lid (lsub t)) sub.
Proof.
  induction 1 as [|t x m L Hx H IH]; intros HH.
  - exists []. auto.
  - destruct (HH x) as ((c & Hc) & HK & Hg); [now left|].
    destruct (child_sees t x c Hx Hc HK (Hg c Hc)) as (ch & A & B).
    destruct IH as (l & C & D); [intros; apply HH; now right|].
    exists ((x :: ch) :: l). cbn [mapM]. rewrite Hc. cbn [bind]. rewrite A. cbn [bind]. rewrite C. cbn [bind]. split; auto.
    cbn [concat flat_map]. rewrite ids_app, D. cbn [ids map app]. destruct (nested_id _ _ Hx) as [-> _]. unfold ids in B. now rewrite B.
Qed.
Lemma desc_canvas kd n cv sub : kd <> KPlain -> canvas_of kd n = Ok cv -> both nested (layers_in cv) sub ->
  itag n = true -> all_known (idesc n) -> groups_only n ->
  exists l, descendants_of kd n = Ok l /\ ids l = flat_map (fun t => lid t :: map lid (lsub t)) sub.
Proof.
  intros Hk Hc Hb Ht HK Hg. apply both_F2 in Hb.
  assert (Hin : forall x, In x (layers_in cv) -> In x (idesc n) /\ is_layer x = true).
  { intros x Hx. apply in_layers in Hx as [Hx Hxl]. split; auto. destruct n as [|u nm a k]; [discriminate|].
    destruct (canvas_desc _ _ _ Ht Hc) as [->|Hd].
    - rewrite idesc_IE. cbn [ikids] in Hx. apply in_split in Hx as (k1 & k2 & ->). rewrite fdesc_app. apply in_or_app. right.
      destruct x; [discriminate|]. rewrite fdesc_IE. now left.
    - rewrite idesc_IE in *. apply (kid_desc k cv); auto. now apply is_layer_tag. }
  destruct (desc_list _ _ Hb) as (l & A & B).
  - intros x Hx. destruct (Hin x Hx) as [Hd Hl]. split; [|split].
    + unfold all_known in HK. rewrite Forall_forall in HK. now apply HK.
    + now apply (all_known_sub n).
    + intros c Hxc Hp. now apply (Hg x c).
  - exists (concat l). split; auto. destruct kd; [| |congruence]; cbn [descendants_of]; rewrite Hc; cbn [bind]; rewrite A; reflexivity.
Qed.
Lemma nested_desc t n c : nested t n -> layer_class n = Ok c -> kind_of c = KGroup -> all_known (idesc n) -> groups_only n ->
  exists l, descendants_of KGroup n = Ok l /\ ids l = flat_map (fun t => lid t :: map lid (lsub t)) (lsub t).
Proof.
  intros H Hc Hk HK Hg. destruct (nested_canvas t n c H Hc Hk) as (cv & E & Hb). apply (desc_canvas KGroup n cv); auto; [discriminate|].
  apply is_layer_tag. now apply (nested_id t).
Qed.
Lemma nested_root_desc sub n : nested_root sub n -> all_known (idesc n) -> groups_only n ->
  exists l, descendants_of KAnim n = Ok l /\ ids l = flat_map (fun t => lid t :: map lid (lsub t)) sub.
Proof. intros (Ht & H3 & H4) HK Hg. apply (desc_canvas KAnim n n); auto. discriminate. Qed.

(** ** find_all with a bool *)

Lemma filterM_all {A} (p : A -> res bool) q l : (forall x, In x l -> p x = Ok (q x)) -> filterM p l = Ok (filter q l).
Proof.
  induction l as [|x l IH]; intros H; auto. cbn [filterM filter]. rewrite H by now left. cbn [bind].
  rewrite IH by (intros; apply H; now right). cbn [bind]. now destruct (q x).
Qed.
Lemma matches_bool st F b n : (is_layer n = true -> known n) -> matches st F (CBool b) n = Ok (is_layer n && b).
Proof. intros H. unfold matches. destruct (is_layer n); auto. destruct H as (c & ->); auto. Qed.
Lemma find_bool st F n (rec b : bool) l : l = (if rec then idesc n else filter itag (ikids n)) -> all_known l ->
  layer_find_all st F n [PaBool b] rec [] None = Ok (if b then filter is_layer l else []).
Proof.
  intros El HK. unfold layer_find_all. cbn [criterion_of with_positional bind snd fst mapM]. rewrite <- El.
  unfold all_known in HK. rewrite Forall_forall in HK.
  rewrite (filterM_all _ (fun x => is_layer x && b)).
  - cbn [bind]. destruct b.
    + rewrite (filter_ext _ is_layer) by (intros; apply andb_true_r). apply mapM_as_layer.
      intros x Hx. apply filter_In in Hx as [Hx Hl]. auto.
    + rewrite filter_none by (intros; apply andb_false_r). reflexivity.
  - intros x Hx. apply matches_bool. auto.
Qed.
Lemma find_nothing st F n (rec : bool) l : l = (if rec then idesc n else filter itag (ikids n)) -> all_known l ->
  layer_find_all st F n [] rec [] None = Ok [].
Proof.
  intros El HK. unfold layer_find_all. cbn [criterion_of with_positional bind snd fst mapM]. rewrite <- El.
  unfold all_known in HK. rewrite Forall_forall in HK.
  rewrite (filterM_all _ (fun _ : inode => false)).
  - cbn [bind]. rewrite filter_none by auto. reflexivity.
  - intros x Hx. unfold matches. destruct (is_layer x) eqn:E; auto. destruct (HK x Hx E) as (c & ->). reflexivity.
Qed.

(** ** Depth and parent *)

Lemma enclosing_anc F u l : wf F -> fanc u F = Some l -> enclosing F u = rev (filter is_layer l).
Proof.
  intros Hw H. unfold enclosing.
  rewrite (filter_ext _ (fun x => above u x && is_layer x)) by (intros; apply andb_comm).
  assert (E : forall L, filter (fun x => above u x && is_layer x) L = filter is_layer (filter (above u) L)).
  { induction L as [|x L IH]; auto. cbn [filter]. destruct (above u x); cbn [andb filter]; [destruct (is_layer x); congruence|auto]. }
  rewrite E, (anc_above u F l Hw H). clear. induction l as [|x l IH]; auto. cbn [rev filter]. rewrite filter_app, IH. cbn [filter].
  destruct (is_layer x); cbn; [reflexivity|apply app_nil_r].
Qed.
Lemma depth_encl F u : wf F -> In u (fuids F) -> depth_of F u = Ok (Z.of_nat (length (enclosing F u))).
Proof.
  intros Hw Hu. destruct (fanc_ex u F Hu) as (l & El). unfold depth_of. rewrite El, (enclosing_anc F u l Hw El), rev_length. reflexivity.
Qed.
Lemma parent_encl F u : wf F -> In u (fuids F) ->
  (enclosing F u = [] /\ parent_of F u = Ok None) \/
  (exists p, enclosing F u = enclosing F (iuid p) ++ [p] /\ In (iuid p) (fuids F) /\ is_layer p = true /\
     parent_of F u = let* p := as_layer p in Ok (Some p)).
Proof.
  intros Hw Hu. destruct (fanc_ex u F Hu) as (l & El). unfold parent_of. rewrite El, (enclosing_anc F u l Hw El).
  destruct (find is_layer l) as [p|] eqn:Ef.
  - right. destruct (find_split _ _ _ Ef) as (l1 & r & -> & Hp & Hn). exists p.
    destruct (anc_suffix u F l1 p r Hw El) as [A B]. rewrite (enclosing_anc F (iuid p) r Hw A).
    rewrite filter_app, filter_none by auto. cbn [app filter]. rewrite Hp. cbn [rev].
    split; [reflexivity|]. split; [now apply fget_uids in B|]. auto.
  - left. split; auto. rewrite filter_none; auto. intros x Hx. now apply (find_none _ _ Ef).
Qed.
