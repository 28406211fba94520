(** Proofs: the statements about layers, put together. *)
From Verif Require Import LayModel DocProofs DocProofs2 LaySpec LayProofs LayProofs2 LayProofs3 LayProofs4 LayProofs5 LayProofs6 TlProofs3.
From Coq Require Import Permutation Lia.
Local Open Scope N_scope.

(** ** children *)

Lemma children_are F kd g n c : wf F -> fget g F = Some n -> holds_children kd n c -> all_known (ikids c) ->
  children kd n = Ok (rev (filter is_layer (ikids c))) /\ NoDup (ids (rev (filter is_layer (ikids c)))).
Proof.
  intros W Hg Hh HK. pose proof (fget_In _ _ _ Hg) as (_ & _ & Hn). destruct (holds_canvas kd n c Hn Hh) as [Hk Hc].
  assert (E : children kd n = Ok (layers_in c)).
  { apply canvas_children; auto. intros x Hx. unfold layers_in in Hx. apply in_rev, filter_In in Hx as [Hx Hl].
    unfold all_known in HK. rewrite Forall_forall in HK. now apply HK. }
  split; [exact E|]. now apply (children_nodup F kd g n).
Qed.

(** ** append and insert *)

Lemma append_new F kd g l n c t ch : wf F -> fget g F = Some n -> holds_children kd n c -> children kd n = Ok ch ->
  fget l F = Some t -> is_layer t = true -> known t -> ~ In g (uids t) -> ~ In l (ids ch) ->
  exists F' n' ch', group_append F kd g l = (F', Ok tt) /\ wf F' /\
    fget g F' = Some n' /\ children kd n' = Ok ch' /\ ids ch' = ids ch ++ [l] /\
    fget l F' = fget l F /\ fdel l F' = fdel l F.
Proof.
  intros W Hg Hh Hch Hl Htl Htk Ho Hni.
  destruct (append_works F kd g l n c t ch W Hg Hh Hch Hl Htl Ho) as (F' & E).
  { intros a Ha. apply Hni. rewrite Ha. apply in_or_app. right. now left. }
  pose proof (fget_In _ _ _ Hg) as (_ & _ & Hn). destruct (holds_canvas kd n c Hn Hh) as [Hk Hc].
  destruct (append_ok F kd g l n t ch F' W Hg Hk Hch Hl Htl Htk E) as (W' & P & D & G & n' & c' & Hn' & Hc' & Ei).
  exists F', n', c'. rewrite (without_out _ _ Hni) in Ei. repeat (split; [assumption|]). assumption.
Qed.

Lemma insert_out F kd g l n ch i : fget g F = Some n -> kd <> KPlain -> children kd n = Ok ch -> ~ in_range i (length ch) ->
  group_insert F kd g i l = (F, Err IndexError).
Proof.
  intros Hg Hk Hch Hr. unfold group_insert, group_index. rewrite Hg, Hch. cbn [bind]. rewrite (py_index_out _ _ Hr). destruct kd; congruence.
Qed.

Lemma insert_at F kd g l n c t ch i : wf F -> fget g F = Some n -> holds_children kd n c -> children kd n = Ok ch ->
  fget l F = Some t -> is_layer t = true -> known t -> ~ In g (uids t) -> ~ In l (ids ch) -> in_range i (length ch) ->
  let k := Z.to_nat (i mod Z.of_nat (length ch))%Z in
  exists F' n' ch', group_insert F kd g i l = (F', Ok tt) /\ wf F' /\
    fget g F' = Some n' /\ children kd n' = Ok ch' /\ ids ch' = firstn k (ids ch) ++ l :: skipn k (ids ch) /\
    fget l F' = fget l F /\ same_but_space (fdel l F) (fdel l F').
Proof.
  intros W Hg Hh Hch Hl Htl Htk Ho Hni Hr k.
  pose proof (fget_In _ _ _ Hg) as (_ & _ & Hn). destruct (holds_canvas kd n c Hn Hh) as [Hk Hc].
  pose proof (canvas_outside F kd g l n c t W Hg Hh Hl Htl Ho) as Hco.
  destruct (py_index_in ch i Hr) as (b & Hi & Hb). fold k in Hb.
  destruct (insert_is F kd g l n t ch i b W Hg Hk Hch Hl Htl Htk Hi) as [(El & _)|[(F' & _ & _ & _ & _ & c' & Hc' & Hx)|(_ & F' & n' & ch' & E & W' & P & D & G & Hn' & Hch' & A & B & EA & EB)]].
  - exfalso. apply Hni. rewrite El. apply (nth_error_In _ k). now apply ids_nth.
  - exfalso. rewrite Hc in Hc'. injection Hc' as <-. contradiction.
  - exists F', n', ch'. repeat (split; [assumption|]). split; [|auto].
    rewrite (without_out _ _ Hni) in EA.
    destruct (split_at (ids ch) A (iuid b) B k (children_nodup F kd g n ch W Hg Hk Hch) EA (ids_nth _ _ _ Hb)) as [-> E2].
    now rewrite EB, E2.
Qed.

(** Moving a layer that is already a child *)
Lemma insert_move F kd g l n t ch i b : wf F -> fget g F = Some n -> kd <> KPlain -> children kd n = Ok ch ->
  fget l F = Some t -> is_layer t = true -> known t -> ~ In g (uids t) -> (exists c, holds_children kd n c) ->
  py_index ch i = Ok b -> l <> iuid b ->
  exists F' n' ch' A B, group_insert F kd g i l = (F', Ok tt) /\ wf F' /\
    fget g F' = Some n' /\ children kd n' = Ok ch' /\
    without l (ids ch) = A ++ iuid b :: B /\ ids ch' = A ++ l :: iuid b :: B /\
    fget l F' = fget l F /\ same_but_space (fdel l F) (fdel l F').
Proof.
  intros W Hg Hk Hch Hl Htl Htk Ho (c & Hh) Hi Hne.
  pose proof (fget_In _ _ _ Hg) as (_ & _ & Hn). destruct (holds_canvas kd n c Hn Hh) as [_ Hc].
  pose proof (canvas_outside F kd g l n c t W Hg Hh Hl Htl Ho) as Hco.
  destruct (insert_is F kd g l n t ch i b W Hg Hk Hch Hl Htl Htk Hi) as [(El & _)|[(F' & _ & _ & _ & _ & c' & Hc' & Hx)|(_ & F' & n' & ch' & E & W' & P & D & G & Hn' & Hch' & A & B & EA & EB)]].
  - contradiction.
  - exfalso. rewrite Hc in Hc'. injection Hc' as <-. contradiction.
  - exists F', n', ch', A, B. repeat (split; [assumption|]). assumption.
Qed.
Lemma append_move F kd g l n c t ch : wf F -> fget g F = Some n -> holds_children kd n c -> children kd n = Ok ch ->
  fget l F = Some t -> is_layer t = true -> known t -> ~ In g (uids t) -> (forall a, ids ch <> a ++ [l]) ->
  exists F' n' ch', group_append F kd g l = (F', Ok tt) /\ wf F' /\
    fget g F' = Some n' /\ children kd n' = Ok ch' /\ ids ch' = without l (ids ch) ++ [l] /\
    fget l F' = fget l F /\ fdel l F' = fdel l F.
Proof.
  intros W Hg Hh Hch Hl Htl Htk Ho Hni.
  destruct (append_works F kd g l n c t ch W Hg Hh Hch Hl Htl Ho Hni) as (F' & E).
  pose proof (fget_In _ _ _ Hg) as (_ & _ & Hn). destruct (holds_canvas kd n c Hn Hh) as [Hk Hc].
  destruct (append_ok F kd g l n t ch F' W Hg Hk Hch Hl Htl Htk E) as (W' & P & D & G & n' & c' & Hn' & Hc' & Ei).
  exists F', n', c'. repeat (split; [assumption|]). assumption.
Qed.

(** ** len and descendants *)

Lemma len_flat t n c : nested t n -> layer_class n = Ok c -> kind_of c = KGroup -> all_known (idesc n) ->
  exists ch, children KGroup n = Ok ch /\ layer_len n = Z.of_nat (list_sum (map lcount (lsub t))) /\
    (layer_len n = Z.of_nat (length ch) <-> Forall (fun x => lsub x = []) (lsub t)).
Proof.
  intros H Hc Hk HK. destruct (nested_children t n c H Hc Hk HK) as (ch & E & Ei & _). exists ch. split; [auto|].
  rewrite (nested_len t n H). destruct t as [u sub]. cbn [lcount lsub] in *. split; [f_equal; lia|].
  assert (length ch = length sub) as -> by (unfold ids in Ei; rewrite <- (map_length iuid ch), Ei; apply map_length).
  clear. replace (S (list_sum (map lcount sub)) - 1)%nat with (list_sum (map lcount sub)) by lia.
  assert (L : (length sub <= list_sum (map lcount sub))%nat).
  { induction sub as [|[u k] sub IH]; cbn [map list_sum fold_right length lcount]; [lia|]. fold (list_sum (map lcount sub)). lia. }
  split.
  - intros E. apply Nat2Z.inj in E. revert E L. induction sub as [|[u k] sub IH]; intros E L; [constructor|].
    cbn [map list_sum fold_right length lcount] in *. fold (list_sum (map lcount sub)) in *. fold (list_sum (map lcount k)) in *.
    assert (L' : (length sub <= list_sum (map lcount sub))%nat).
    { clear. induction sub as [|[u k] sub IH]; cbn [map list_sum fold_right length lcount]; [lia|]. fold (list_sum (map lcount sub)). lia. }
    constructor; [|apply IH; lia]. cbn [lsub]. destruct k as [|[v j] k]; auto. cbn [map list_sum fold_right lcount] in E. lia.
  - intros HF. f_equal. clear L. induction HF as [|[u k] sub Hk HF IH]; auto. cbn [lsub] in Hk. subst k.
    cbn [map list_sum fold_right length lcount]. fold (list_sum (map lcount sub)). lia.
Qed.

Lemma two_levels sub : Forall (fun t => Forall (fun x => lsub x = []) (lsub t)) sub ->
  flat_map (fun t => lid t :: map lid (lsub t)) sub = flat_map lall sub.
Proof.
  induction 1 as [|[u k] sub Hk HF IH]; auto. cbn [flat_map lid lsub lall] in *. rewrite IH. f_equal. f_equal.
  clear -Hk. induction Hk as [|[v j] k Hj HF IH]; auto. cbn [lsub] in Hj. subst j. cbn. now rewrite IH.
Qed.

(** ** Setting parameters *)

Lemma new_value_tag c v t : new_value c v = Ok t -> is_tag t = true.
Proof.
  intros H.
  assert (G : forall n r, set_value c (empty_tag c) v = (n, r) -> is_tag n = true).
  { intros n r E. pose proof (set_value_tag c (empty_tag c) v) as G. rewrite E in G. apply G. destruct c; reflexivity. }
  destruct c; cbn [new_value] in H; unfold new_flat in H; try discriminate H;
    try (match type of H with (let (_, _) := ?x in _) = _ => destruct x as [n r] eqn:E end; first [specialize (G n r E)|specialize (G n r eq_refl)];
         destruct r; [|discriminate]; cbn [bind] in H; injection H as <-; auto).
Qed.

Lemma set_errors F u n f old c : fget u F = Some n ->
  (forall a, (forall x, In x (idesc n) -> is_param f x = false) -> layer_setitem F u f a = (F, Err KeyError)) /\
  (layer_getitem n f = Ok (old, c) ->
     (forall w c', ~ is_a c' c -> layer_setitem F u f (SValue w c') = (F, Err TypeError)) /\
     (forall v e, new_value c v = Err e -> layer_setitem F u f (SPlain v) = (F, Err e))).
Proof.
  intros Hu. split.
  - intros a Hn. unfold layer_setitem. rewrite Hu. destruct (no_param_keyerror n f Hn) as [-> _]. reflexivity.
  - intros Hg. split; intros; unfold layer_setitem; rewrite Hu, Hg.
    + destruct (inst c c') eqn:E; [|reflexivity]. now apply inst_is_a in E.
    + now rewrite H.
Qed.

Lemma set_simple_plain F u n f old c v t : wf F -> fget u F = Some n -> layer_getitem n f = Ok (old, c) ->
  In c [VReal; VInteger; VBool; VAngle; VTime; VString; VColor] -> new_value c v = Ok t ->
  exists F' n' t', layer_setitem F u f (SPlain v) = (F', Ok tt) /\ wf F' /\ fget u F' = Some n' /\
    layer_getitem n' f = Ok (t', c) /\ forget t' = t /\ F' = fput (iuid old) t' F ++ [old].
Proof.
  intros W Hu Hg Hc Hv. destruct (set_plain F u n f old c v t W Hu Hg Hv (new_value_tag _ _ _ Hv)) as (t' & Ht & _ & E & W' & n' & Hn' & Hr & _).
  exists (fput (iuid old) t' F ++ [old]), n', t'. repeat (split; [assumption|]). split; [|auto].
  rewrite Hr. destruct (new_value_fits c v t (mkT 0 None) Hc Hv) as (_ & _ & _ & _ & _ & Hf). cbn [w_val w_cls] in Hf. rewrite Hf. reflexivity.
Qed.

(** ** Depth *)

Lemma depth_parent F u : wf F -> In u (fuids F) ->
  depth_of F u = Ok (Z.of_nat (length (enclosing F u))) /\
  ((enclosing F u = [] /\ parent_of F u = Ok None) \/
   exists p, enclosing F u = enclosing F (iuid p) ++ [p] /\ is_layer p = true /\
     depth_of F (iuid p) = Ok (Z.of_nat (length (enclosing F u)) - 1)%Z /\
     (known p -> parent_of F u = Ok (Some p))).
Proof.
  intros W Hu. split; [now apply depth_encl|]. destruct (parent_encl F u W Hu) as [H|(p & E & Hp & Hl & HP)]; [now left|]. right.
  exists p. split; [auto|]. split; [auto|]. split.
  - rewrite (depth_encl F (iuid p) W Hp), E, app_length. cbn [length]. f_equal. lia.
  - intros (c & Hc). rewrite HP. unfold as_layer. now rewrite Hc.
Qed.

(** ** Types *)

Lemma find_type_canonical st F n x : (forall z, In z (idesc n) -> is_param (s "type_") z = false) ->
  (forall y, In y (idesc n) -> is_layer y = true -> exists t c, type_is y t /\ normalise t = t /\ layer_class y = Ok c /\ own_type c = false) ->
  exists l, layer_find_all st F n [PaStr x] true [] None = Ok l /\
    forall y, In y l <-> In y (idesc n) /\ is_layer y = true /\ exists t, type_is y t /\ normalise t = normalise x.
Proof.
  intros Hn Hc. eexists. split.
  - apply find_type; auto. apply Forall_forall. intros y Hy Hl. destruct (Hc y Hy Hl) as (t & c & _ & _ & H & _). now exists c.
  - intros y. rewrite filter_In. unfold typed. split.
    + intros [Hy H]. apply andb_prop in H as [H H3]. apply andb_prop in H as [H1 H2]. split; [auto|]. split; [auto|].
      destruct (Hc y Hy H1) as (t & c & Ht & Hnt & _). exists t. split; [auto|]. rewrite Ht in H3. apply pstr_eqb_spec in H3. congruence.
    + intros (Hy & Hl & t & Ht & E). split; [auto|]. rewrite Hl. destruct (Hc y Hy Hl) as (t' & c & Ht' & Hnt & Hcl & Ho).
      rewrite Hcl, Ho. cbn [negb andb]. rewrite Ht. unfold type_is in *. rewrite Ht in Ht'. injection Ht' as <-. rewrite <- E, Hnt. apply pstr_eqb_refl.
Qed.
Lemma find_type_exact st F n x : all_known (idesc n) -> (forall z, In z (idesc n) -> is_param (s "type_") z = false) ->
  exists l, layer_find_all st F n [PaStr x] true [] None = Ok l /\
    forall y, In y l <-> In y (idesc n) /\ is_layer y = true /\ type_is y (normalise x) /\ exists c, layer_class y = Ok c /\ own_type c = false.
Proof.
  intros HK Hn. eexists. split; [now apply find_type|]. intros y. rewrite filter_In. unfold typed, type_is. split.
  - intros [Hy H]. apply andb_prop in H as [H H3]. apply andb_prop in H as [H1 H2]. split; [auto|]. split; [auto|].
    destruct (aget (s "type") (iattrs y)) as [[t| | |]|]; try discriminate. apply pstr_eqb_spec in H3. subst t. split; [auto|].
    destruct (layer_class y) as [c|]; [|discriminate]. exists c. split; auto. now destruct (own_type c).
  - intros (Hy & Hl & Ht & c & Hc & Ho). split; [auto|]. now rewrite Hl, Hc, Ho, Ht, pstr_eqb_refl.
Qed.

(** ** Searching *)

Lemma find_layers st F n : all_known (idesc n) -> layer_find_all st F n [PaBool true] true [] None = Ok (filter is_layer (idesc n)).
Proof. intros HK. now rewrite (find_bool st F n true true (idesc n) eq_refl HK). Qed.
Lemma docs_perm sub : Permutation (concat (rev (map ldoc sub))) (flat_map lall sub).
Proof. pose proof (ldoc_perm (LT 0 sub)) as P. cbn [ldoc lall] in P. now apply Permutation_cons_inv in P. Qed.
Lemma find_true st F t n : nested t n -> all_known (idesc n) ->
  exists l, layer_find_all st F n [PaBool true] true [] None = Ok l /\
    ids l = concat (rev (map ldoc (lsub t))) /\ Permutation (ids l) (flat_map lall (lsub t)) /\
    layer_find st F n [PaBool true] true [] None = Ok (hd_error l).
Proof.
  intros H HK. exists (filter is_layer (idesc n)). split; [now apply find_layers|]. split; [now apply nested_order|]. split.
  - rewrite (nested_order t n H). apply docs_perm.
  - unfold layer_find. now rewrite find_layers.
Qed.
Lemma find_true_root st F sub n : nested_root sub n -> all_known (idesc n) ->
  exists l, layer_find_all st F n [PaBool true] true [] None = Ok l /\
    ids l = concat (rev (map ldoc sub)) /\ Permutation (ids l) (flat_map lall sub) /\
    layer_find st F n [PaBool true] true [] None = Ok (hd_error l).
Proof.
  intros H HK. exists (filter is_layer (idesc n)). split; [now apply find_layers|]. split; [now apply nested_root_order|]. split.
  - rewrite (nested_root_order sub n H). apply docs_perm.
  - unfold layer_find. now rewrite find_layers.
Qed.
Lemma find_none_all st F n (rec : bool) l : l = (if rec then idesc n else filter itag (ikids n)) -> all_known l ->
  layer_find_all st F n [PaBool false] rec [] None = Ok [] /\ layer_find_all st F n [] rec [] None = Ok [] /\
  layer_find st F n [PaBool false] rec [] None = Ok None.
Proof.
  intros E HK. split; [now rewrite (find_bool st F n rec false l E HK)|]. split; [now apply (find_nothing st F n rec l)|].
  unfold layer_find. now rewrite (find_bool st F n rec false l E HK).
Qed.
Lemma find_flat st F n ch : children KAnim n = Ok ch -> layer_find_all st F n [PaBool true] false [] None = Ok (rev ch).
Proof.
  intros H. destruct (children_canvas KAnim n ch H) as (c & Hc & -> & HK); [discriminate|]. cbn [canvas_of] in Hc. injection Hc as <-.
  assert (E : filter is_layer (filter itag (ikids n)) = filter is_layer (ikids n)).
  { induction (ikids n) as [|x k IH]; auto. cbn [filter]. destruct (itag x) eqn:Et; cbn [filter]; [now rewrite IH|].
    destruct x; [exact IH|discriminate]. }
  rewrite (find_bool st F n false true _ eq_refl).
  - rewrite E. unfold layers_in. now rewrite rev_involutive.
  - apply Forall_forall. intros x Hx Hl. apply HK. unfold layers_in. rewrite <- in_rev. apply filter_In in Hx as [Hx _]. now apply filter_In.
Qed.
Lemma find_one st F n k v l : k <> s "type" ->
  layer_find_all st F n [] true [(k, WVal v)] None = Ok l ->
  forall y, In y l <-> In y (idesc n) /\ is_layer y = true /\ meets st F y (k, v).
Proof.
  intros Hk H y. destruct (find_criteria st F n [(k, v)] l) as [A B]; auto.
  - intros kv [<-|[]]. exact Hk.
  - discriminate.
  - split.
    + intros Hy. destruct (A y Hy) as (H1 & H2 & kv & [<-|[]] & H3). auto.
    + intros (H1 & H2 & H3). apply B; auto. intros kv [<-|[]]. exact H3.
Qed.

(** ** Own parameters *)

Lemma own_reads F n f p l : itag n = true -> own_param n f p -> layer_items n = Ok l -> NoDup (param_names n) ->
  exists v, value_of p = Ok v /\ layer_getitem n f = Ok v /\ layer_contains n f = true /\ param_get F n f = Ok v /\ aget f l = Some v.
Proof.
  intros Hn Ho Hi Hnd. destruct (own_item n f p l Hi Hnd Ho) as (v & Hv & Hp). exists v.
  pose proof (own_param_find n f p Hn Ho) as Hf. split; [auto|]. unfold layer_getitem, layer_contains, param_get. rewrite Hf.
  split; [auto|]. split; [auto|]. split; [|auto]. destruct v as [w c]. destruct (value_of_inv _ _ _ Hp) as (E & Hc & _). rewrite E, Hc. reflexivity.
Qed.
Lemma none_reads F n f l : (forall x, In x (idesc n) -> is_param f x = false) -> layer_items n = Ok l -> NoDup (param_names n) ->
  layer_getitem n f = Err KeyError /\ layer_contains n f = false /\ param_get F n f = Err AttributeError /\ aget f l = None.
Proof.
  intros Hx Hi Hnd. destruct (no_param_keyerror n f Hx) as [A B]. split; [auto|]. split; [auto|]. split.
  - unfold param_get, ifind, ifind_all. rewrite filter_none by auto. reflexivity.
  - destruct (aget f l) as [v|] eqn:E; auto. exfalso. destruct (item_own n f v l Hi Hnd E) as (p & Hp & Hpp & _).
    pose proof (param_tag _ _ Hpp) as Ht.
    assert (In p (idesc n)) as Hd.
    { destruct n as [|u nm a k]; [contradiction|]. rewrite idesc_IE. cbn [ikids] in Hp. apply in_split in Hp as (k1 & k2 & ->).
      rewrite fdesc_app. apply in_or_app. right. destruct p; [discriminate|]. rewrite fdesc_IE. now left. }
    rewrite (Hx p Hd) in Hpp. discriminate.
Qed.
(** If no param called f is inside another layer's, layer[f] is the layer's own. *)
Lemma set_field F u n k v w c m r : wf F -> fget u F = Some n -> param_get F n k = Ok (w, c) -> set_value c (forget w) v = (m, r) ->
  exists w', iuid w' = iuid w /\ forget w' = m /\
    let F' := fput (iuid w) w' F in
    param_set F n k v = (F', r) /\ wf F' /\
    exists n', fget u F' = Some n' /\ iname n' = iname n /\ iattrs n' = iattrs n /\
      param_get F' n' k = (let* c' := from_tag m in Ok (w', c')) /\
      (r = Ok tt -> In c [VReal; VInteger; VBool; VAngle; VTime; VString; VColor] -> param_get F' n' k = Ok (w', c)).
Proof.
  intros W Hu Hg Hs. destruct (param_get_inv _ _ _ _ _ Hg) as (p & Hp & Hk & Hc).
  assert (Hwt : is_tag (forget w) = true).
  { assert (In w (filter itag (ikids p))) as Hi by (rewrite Hk; now left). apply filter_In in Hi as [_ Hi]. now destruct w. }
  assert (Hm : is_tag m = true) by (pose proof (set_value_tag c (forget w) v Hwt) as H; now rewrite Hs in H).
  destruct (param_set_is F u n k v w c m r W Hu Hg Hs Hm) as (w' & A & B & _ & C & D & n' & E1 & E2 & E3 & E4).
  exists w'. split; [auto|]. split; [auto|]. split; [auto|]. split; [auto|]. exists n'. repeat (split; [assumption|]).
  intros -> Hin. rewrite E4. rewrite (set_value_class c (forget w) v m Hin Hwt Hc Hs). reflexivity.
Qed.
