(** Proofs about insert, about when append works, and about histories. *)
From Verif Require Import LayModel DocProofs DocProofs2 LaySpec LayProofs LayProofs2.
From Coq Require Import Permutation Lia.
Local Open Scope N_scope.

(** ** Ancestors *)

Definition above (u : N) (x : inode) : bool := mem u (fuids (ikids x)).

Lemma above_none u F : ~ In u (fuids F) -> filter (above u) (fdesc F) = [].
Proof.
  intros H. apply filter_none. intros x Hx. apply mem_not. intros Hi. apply H. apply (desc_uids F x Hx).
  destruct x as [|v nm a k]; [contradiction|]. rewrite uids_IE. now right.
Qed.
Lemma anc_above u F l : wf F -> fanc u F = Some l -> filter (above u) (fdesc F) = rev l.
Proof.
  unfold wf. revert l. induction F as [|y F IH|v nm a k F IHk IH] using forest_ind; intros l Hnd H.
  - discriminate.
  - exact (IH l Hnd H).
  - pose proof (NoDup_kids _ _ _ _ _ Hnd) as (H1 & H2 & H3 & H4 & H5).
    rewrite fanc_IE in H. rewrite fdesc_IE. cbn [filter]. rewrite filter_app.
    destruct (N.eqb_spec u v) as [->|Hne].
    + injection H as <-. unfold above at 1. cbn [ikids]. rewrite (proj2 (mem_not v (fuids k)) H1).
      rewrite !above_none; auto.
    + unfold above at 1. cbn [ikids]. destruct (fanc u k) as [l'|] eqn:E.
      * assert (Hi : In u (fuids k)).
        { destruct (in_dec N.eq_dec u (fuids k)) as [Hi|Hi]; auto. apply fanc_None in Hi. congruence. }
        injection H as <-. rewrite (proj2 (mem_In u (fuids k)) Hi). rewrite (IHk l' H3 eq_refl).
        rewrite above_none by (intros Hj; eauto). rewrite app_nil_r, rev_app_distr. reflexivity.
      * apply fanc_None in E. rewrite (proj2 (mem_not u (fuids k)) E). rewrite above_none by auto.
        cbn [app]. now apply IH.
Qed.
Lemma anc_iff u F l x : wf F -> fanc u F = Some l -> In x l <-> In x (fdesc F) /\ In u (fuids (ikids x)).
Proof.
  intros Hw H. rewrite in_rev, <- (anc_above u F l Hw H), filter_In. unfold above. now rewrite mem_In.
Qed.
Lemma anc_suffix u F l1 p r : wf F -> fanc u F = Some (l1 ++ p :: r) -> fanc (iuid p) F = Some r /\ fget (iuid p) F = Some p.
Proof.
  intros Hw. revert u. induction l1 as [|q l1 IH]; cbn [app]; intros u H.
  - destruct (anc_parent F u p r Hw H) as (A & B & _). auto.
  - destruct (anc_parent F u q _ Hw H) as (_ & B & _). exact (IH _ B).
Qed.

(** ** The canvas of a group *)

Lemma hd_filter_none {A} (p : A -> bool) l : (forall x, In x l -> p x = false) -> hd_error (filter p l) = None.
Proof. intros H. now rewrite filter_none. Qed.
Lemma ifind_own p n k1 x k2 : itag n = true -> ikids n = k1 ++ x :: k2 -> itag x = true -> p x = true ->
  (forall y, In y (fdesc k1) -> p y = false) -> ifind p n = Some x.
Proof.
  intros Hn E Hx Hp Hk. unfold ifind, ifind_all. rewrite idesc_kids, E by auto. rewrite fdesc_app, hd_filter_app.
  rewrite hd_filter_none by auto. destruct x as [|u nm a k]; [discriminate|]. rewrite fdesc_IE. cbn [filter]. now rewrite Hp.
Qed.
Lemma own_canvas_of n c : itag n = true -> own_canvas n c -> canvas_of KGroup n = Ok c.
Proof.
  intros Hn (k1 & p & k2 & j1 & j2 & E1 & Hp & E2 & Hc & N1 & N2). cbn [canvas_of].
  rewrite (ifind_own _ n k1 p k2 Hn E1 (param_tag _ _ Hp) Hp N1).
  now rewrite (ifind_own _ p j1 c j2 (param_tag _ _ Hp) E2 (named_tag _ _ Hc) Hc N2).
Qed.
Lemma holds_canvas kd n c : itag n = true -> holds_children kd n c -> kd <> KPlain /\ canvas_of kd n = Ok c.
Proof.
  intros Hn H. destruct kd; cbn [holds_children] in H; [|split; [discriminate|now apply own_canvas_of]|contradiction].
  subst. split; [discriminate|reflexivity].
Qed.

Lemma named_diff x y n : named x n = true -> x <> y -> named y n = false.
Proof.
  unfold named. intros [_ H]%andb_prop Hne. apply pstr_eqb_spec in H. apply andb_false_iff. right.
  destruct (pstr_eqb (iname n) y) eqn:E; auto. apply pstr_eqb_spec in E. congruence.
Qed.
Lemma param_named f n : is_param f n = true -> named (s "param") n = true.
Proof.
  unfold is_param, named, has_name_attr. intros [H1 H2]%andb_prop. rewrite H1. cbn [andb].
  apply andb_prop in H2 as [H2 _]. exact H2.
Qed.

(** The children of g are not inside l unless g is. *)
Lemma canvas_outside F kd g l n c t : wf F -> fget g F = Some n -> holds_children kd n c ->
  fget l F = Some t -> is_layer t = true -> ~ In g (uids t) -> ~ In (iuid c) (uids t).
Proof.
  intros Hw Hg Hc Hl Htl Ho. pose proof (fget_In _ _ _ Hg) as (Hin & Hu & Hn).
  destruct kd; cbn [holds_children] in Hc; [subst; exact Ho| |contradiction].
  destruct Hc as (k1 & p & k2 & j1 & j2 & E1 & Hp & E2 & Hc & N1 & N2).
  pose proof (param_tag _ _ Hp) as Hpt. pose proof (named_tag _ _ Hc) as Hct.
  assert (Ip : In p (ikids n)) by (rewrite E1; apply in_or_app; right; now left).
  assert (Ic : In c (ikids p)) by (rewrite E2; apply in_or_app; right; now left).
  destruct (child_anc F g n p Hw Hg Ip Hpt) as (r & R1 & R2).
  assert (Hpf : fget (iuid p) F = Some p) by (apply fget_desc; auto; now apply (kid_desc F n)).
  destruct (child_anc F (iuid p) p c Hw Hpf Ic Hct) as (r' & R3 & R4). rewrite R2 in R3. injection R3 as <-.
  pose proof (fget_In _ _ _ Hl) as (Htd & Htu & Htt).
  intros Hi. destruct t as [|tu tn ta tk] eqn:Et; [contradiction|]. rewrite <- Et in *. rewrite Et, uids_IE in Hi.
  destruct Hi as [Hi|Hi].
  - (* t = c *)
    assert (t = c).
    { pose proof (fget_desc F c Hw) as G. rewrite <- Hi in G.
      assert (In c (fdesc F)) as Hcd by (apply (kid_desc F p); auto; now apply (kid_desc F n)).
      specialize (G Hcd). rewrite (fget_desc F t Hw Htd) in G || idtac.
      pose proof (fget_desc F t Hw Htd) as G2. rewrite Et in G2. cbn [iuid] in G2. rewrite <- Et in G2. congruence. }
    subst c. unfold is_layer in Htl. rewrite (named_diff _ (s "layer") t Hc) in Htl; [discriminate|]. vm_compute. discriminate.
  - assert (Ht : In t (p :: n :: r)).
    { apply (anc_iff (iuid c) F (p :: n :: r) t Hw R4). split; auto. rewrite Et. exact Hi. }
    destruct Ht as [Ht|[Ht|Ht]].
    + subst p. apply param_named in Hp. unfold is_layer in Htl. rewrite (named_diff _ (s "layer") t Hp) in Htl; [discriminate|].
      vm_compute. discriminate.
    + apply Ho. rewrite <- Ht, <- Hu. now apply tag_uid.
    + apply Ho. apply (anc_iff g F r t Hw R1) in Ht as [_ Ht]. rewrite Et in *. rewrite uids_IE. now right.
Qed.

Lemma put_in_ok F0 F p i n x : fget p F = Some x -> put_in F0 F p i n = (fat p (ins i n) F, Ok tt).
Proof. unfold put_in. now intros ->. Qed.

(** append works unless the layer is the last child already. *)
Lemma append_works F kd g l n c t ch : wf F -> fget g F = Some n -> holds_children kd n c -> children kd n = Ok ch ->
  fget l F = Some t -> is_layer t = true -> ~ In g (uids t) ->
  (forall a, ids ch <> a ++ [l]) -> exists F', group_append F kd g l = (F', Ok tt).
Proof.
  intros Hw Hg Hh Hch Hl Htl Ho Hlast.
  pose proof (canvas_outside F kd g l n c t Hw Hg Hh Hl Htl Ho) as Hco.
  pose proof (fget_In _ _ _ Hg) as (Hin & Hu & Hn).
  destruct (holds_canvas kd n c Hn Hh) as [Hk Hc].
  destruct (children_canvas kd n ch Hch Hk) as (c' & Hc' & Ech & HK). rewrite Hc in Hc'. injection Hc' as <-.
  destruct (canvas_known kd n c F g Hw Hg Hc) as (Hcf & Hct & Hcd).
  assert (Hcn : NoDup (uids c)) by now apply (NoDup_inside F).
  assert (Ecd : fget (iuid c) (fdel l F) = Some (idel l c)) by (rewrite (fget_fdel l F t); auto; now rewrite Hcf).
  unfold group_append. rewrite Hg, Hc.
  assert (forall A (x y : A), match kd with KPlain => x | _ => y end = y) as -> by (intros; destruct kd; congruence).
  destruct (find is_layer (ikids c)) as [a|] eqn:Ef.
  - destruct (find_split _ _ _ Ef) as (k1 & k2 & Ek & Hal & Hk1).
    pose proof (is_layer_tag _ Hal) as Hat.
    assert (Hain : In a (ikids c)) by (rewrite Ek; apply in_or_app; right; now left).
    unfold insert_before, insert_beside.
    rewrite (child_parent F (iuid c) c a Hw Hcf Hain Hat).
    destruct c as [|cu cn ca ck]; [discriminate|]. cbn [iuid ikids] in *.
    destruct (N.eqb_spec l (iuid a)) as [El|Hne].
    + exfalso. subst ch. unfold layers_in in Hlast. cbn [ikids] in Hlast. rewrite Ek, filter_app in Hlast.
      rewrite filter_none in Hlast by auto. cbn [filter app] in Hlast. rewrite Hal in Hlast. cbn [rev] in Hlast.
      rewrite ids_app in Hlast. cbn in Hlast. rewrite <- El in Hlast. now apply (Hlast (ids (rev (filter is_layer k2)))).
    + rewrite Hl, Ecd. destruct (index_of_ex (iuid a) (ikids (idel l (IE cu cn ca ck)))) as (j & Ej).
      { exists (idel l a). split; [|rewrite idel_is; now apply is_self]. rewrite idel_kids, fdel_map. apply in_map.
        apply filter_In. split; auto. destruct (is_ l a) eqn:Ei; auto. apply is_spec in Ei as [_ Ei]. congruence. }
      rewrite Ej. eexists. now apply (put_in_ok _ _ _ _ _ _ Ecd).
  - unfold tag_append. rewrite Hcf. unfold tag_insert.
    destruct (N.eqb_spec l (iuid c)) as [El|Hne].
    + exfalso. apply Hco. rewrite <- El. pose proof (fget_In _ _ _ Hl) as (_ & <- & Htt). now apply tag_uid.
    + rewrite Hl, Hcf. eexists. apply (put_in_ok _ _ _ _ _ _ Ecd).
Qed.

(** append of the last child fails, and changes nothing. *)
Lemma append_last F kd g l n ch a : wf F -> fget g F = Some n -> children kd n = Ok ch -> kd <> KPlain ->
  ids ch = a ++ [l] -> group_append F kd g l = (F, Err ValueError).
Proof.
  intros Hw Hg Hch Hk Ha.
  destruct (children_canvas kd n ch Hch Hk) as (c & Hc & -> & HK).
  destruct (canvas_known kd n c F g Hw Hg Hc) as (Hcf & Hct & Hcd).
  unfold group_append. rewrite Hg, Hc.
  assert (forall A (x y : A), match kd with KPlain => x | _ => y end = y) as -> by (intros; destruct kd; congruence).
  unfold layers_in in Ha. rewrite ids_rev in Ha. apply (f_equal (@rev N)) in Ha. rewrite rev_involutive, rev_app_distr in Ha. cbn in Ha.
  destruct (find is_layer (ikids c)) as [x|] eqn:Ef.
  - destruct (find_split _ _ _ Ef) as (k1 & k2 & Ek & Hal & Hk1). pose proof (is_layer_tag _ Hal) as Hat.
    assert (Hain : In x (ikids c)) by (rewrite Ek; apply in_or_app; right; now left).
    rewrite Ek, filter_app, filter_none in Ha by auto. cbn [filter app] in Ha. rewrite Hal in Ha. injection Ha as Ha _.
    unfold insert_before, insert_beside. rewrite (child_parent F (iuid c) c x Hw Hcf Hain Hat).
    destruct c as [|cu cn ca ck]; [discriminate|]. rewrite Ha, N.eqb_refl. reflexivity.
  - rewrite filter_none in Ha; [discriminate|]. intros y Hy. now apply (find_none _ _ Ef).
Qed.

(** ** Adding text *)

Lemma ins_text_wf F c i x y : wf F -> fget c F = Some y -> wf (fat c (ins i (IT x)) F) /\ Permutation (fuids (fat c (ins i (IT x)) F)) (fuids F).
Proof.
  intros Hw Hc. pose proof (fuids_ins c i (IT x) F y Hw Hc) as P. cbn [uids app] in P. split; auto.
  unfold wf. eapply Permutation_NoDup; [symmetry; exact P|auto].
Qed.
Lemma squeeze_ins i x k : blank (IT x) = true ->
  flat_map (fun c => if blank c then [] else [squeeze c]) (insert_nth i (IT x) k) =
  flat_map (fun c => if blank c then [] else [squeeze c]) k.
Proof.
  intros H. rewrite insert_nth_split. rewrite <- (firstn_skipn i k) at 3. rewrite !flat_map_app. f_equal.
  cbn [flat_map]. now rewrite H.
Qed.
Lemma squeeze_iat c i x n : blank (IT x) = true -> squeeze (iat c (ins i (IT x)) n) = squeeze n.
Proof.
  intros H. induction n as [y|u nm a k IH] using inode_ind'; auto. cbn [iat]. destruct (c =? u).
  - cbn [ins with_ikids squeeze]. now rewrite squeeze_ins.
  - cbn [squeeze]. f_equal. induction IH as [|n k Hn Hk IHk]; auto. cbn [map flat_map]. rewrite IHk.
    assert (blank (iat c (ins i (IT x)) n) = blank n) as ->.
    { destruct n; auto. cbn [iat]. destruct (c =? u0); auto. }
    now rewrite Hn.
Qed.
Lemma ins_text_space F c i x : blank (IT x) = true -> same_but_space F (fat c (ins i (IT x)) F).
Proof. intros H. unfold same_but_space, fat. rewrite map_map. apply map_ext. intros n. now rewrite squeeze_iat. Qed.

(** A tree without l, and with its blanks gone, in either order *)
Lemma squeeze_del l k : flat_map (fun c => if blank c then [] else [squeeze c]) (fdel l k) = fdel l (flat_map (fun c => if blank c then [] else [squeeze c]) k).
Proof.
  enough (H : forall n, squeeze (idel l n) = idel l (squeeze n) /\ blank (idel l n) = blank n /\ is_ l (squeeze n) = is_ l n).
  { induction k as [|n k IH]; auto. cbn [flat_map]. rewrite fdel_app, <- IH. destruct (H n) as (H1 & H2 & H3).
    destruct (is_ l n) eqn:E.
    - assert (Hf : fdel l (n :: k) = fdel l k) by (rewrite !fdel_map; cbn [filter]; now rewrite E). rewrite Hf.
      destruct (blank n) eqn:B; [reflexivity|]. rewrite (fdel_map l [squeeze n]). cbn [filter]. rewrite H3. reflexivity.
    - assert (Hf : fdel l (n :: k) = idel l n :: fdel l k) by (rewrite !fdel_map; cbn [filter]; now rewrite E). rewrite Hf.
      cbn [flat_map]. rewrite H2. destruct (blank n); [reflexivity|]. rewrite H1, (fdel_map l [squeeze n]). cbn [filter]. rewrite H3. reflexivity. }
  induction n as [y|u nm a k' IH] using inode_ind'; [auto|]. split; [|auto].
  cbn [idel squeeze]. f_equal. change (flat_map (fun c => if is_ l c then [] else [idel l c]) k') with (fdel l k').
  change (flat_map (fun c => if is_ l c then [] else [idel l c]) ?z) with (fdel l z).
  induction IH as [|n k' Hn Hk IHk]; auto. cbn [flat_map]. rewrite fdel_app, <- IHk. destruct Hn as (H1 & H2 & H3).
  destruct (is_ l n) eqn:E.
  - assert (Hf : fdel l (n :: k') = fdel l k') by (rewrite !fdel_map; cbn [filter]; now rewrite E). rewrite Hf.
    destruct (blank n) eqn:B; [reflexivity|]. rewrite (fdel_map l [squeeze n]). cbn [filter]. rewrite H3. reflexivity.
  - assert (Hf : fdel l (n :: k') = idel l n :: fdel l k') by (rewrite !fdel_map; cbn [filter]; now rewrite E). rewrite Hf.
    cbn [flat_map]. rewrite H2. destruct (blank n); [reflexivity|]. rewrite H1, (fdel_map l [squeeze n]). cbn [filter]. rewrite H3. reflexivity.
Qed.
Lemma squeeze_is l n : is_ l (squeeze n) = is_ l n. Proof. now destruct n. Qed.
Lemma squeeze_idel l n : squeeze (idel l n) = idel l (squeeze n).
Proof.
  destruct n as [|u nm a k]; auto. cbn [idel squeeze]. f_equal. exact (squeeze_del l k).
Qed.
Lemma same_space_del l F F' : same_but_space F F' -> same_but_space (fdel l F) (fdel l F').
Proof.
  unfold same_but_space. intros H.
  assert (E : forall G, map squeeze (fdel l G) = fdel l (map squeeze G)).
  { intros G. rewrite !fdel_map. induction G as [|n G IH]; auto. cbn [filter map]. rewrite squeeze_is.
    destruct (is_ l n); auto. cbn [negb map]. now rewrite squeeze_idel, IH. }
  now rewrite !E, H.
Qed.
Lemma same_space_trans F G K : same_but_space F G -> same_but_space G K -> same_but_space F K.
Proof. unfold same_but_space. congruence. Qed.
Lemma same_space_refl F : same_but_space F F. Proof. reflexivity. Qed.

(** ** insert *)

(** c is the canvas of the object g, and its layers have known types. *)
Definition view (F : forest) (kd : okind) (g : N) (c : inode) : Prop :=
  wf F /\ kd <> KPlain /\ (forall x, In x (layers_in c) -> known x) /\
  exists n, fget g F = Some n /\ canvas_of kd n = Ok c.

Lemma view_children F kd g c : view F kd g c -> exists n, fget g F = Some n /\ children kd n = Ok (layers_in c).
Proof. intros (Hw & Hk & HK & n & Hg & Hc). exists n. split; auto. now apply canvas_children. Qed.
Lemma in_layers b c : In b (layers_in c) <-> In b (ikids c) /\ is_layer b = true.
Proof. unfold layers_in. now rewrite <- in_rev, filter_In. Qed.

Lemma layers_text i x c : layers_in (ins i (IT x) c) = layers_in c.
Proof.
  destruct c as [|u nm a k]; auto. unfold layers_in. cbn [ins with_ikids ikids]. f_equal. rewrite insert_nth_split.
  rewrite <- (firstn_skipn i k) at 3. rewrite !filter_app. reflexivity.
Qed.

Lemma text_step F kd g c b x : view F kd g c -> In b (layers_in c) ->
  exists i, insert_text_after F (iuid b) x = (fat (iuid c) (ins i (IT x)) F, Ok tt) /\
    view (fat (iuid c) (ins i (IT x)) F) kd g (ins i (IT x) c) /\
    Permutation (fuids (fat (iuid c) (ins i (IT x)) F)) (fuids F) /\
    (forall z t, fget z F = Some t -> ~ In (iuid c) (uids t) -> fget z (fat (iuid c) (ins i (IT x)) F) = Some t).
Proof.
  intros (Hw & Hk & HK & n & Hg & Hc) Hb. apply in_layers in Hb as [Hb Hbl]. pose proof (is_layer_tag _ Hbl) as Hbt.
  destruct (canvas_known kd n c F g Hw Hg Hc) as (Hcf & Hct & Hcd).
  destruct (index_of_ex (iuid b) (ikids c)) as (j & Ej); [exists b; split; auto; now apply is_self|].
  exists (S j).
  assert (E : forall z, fget z (fat (iuid c) (ins (S j) (IT x)) F) = option_map (iat (iuid c) (ins (S j) (IT x))) (fget z F)).
  { intros z. apply (fget_ins_old _ _ _ _ c); auto. }
  split; [|split; [|split]].
  - unfold insert_text_after. rewrite (child_parent F (iuid c) c b Hw Hcf Hb Hbt), Ej.
    destruct c as [|cu cn ca ck]; [discriminate|]. unfold put_in. cbn [iuid] in *. now rewrite Hcf.
  - destruct (ins_text_wf F (iuid c) (S j) x c Hw Hcf) as [W P]. split; [exact W|]. split; [exact Hk|]. split; [now rewrite layers_text|].
    eexists. split; [rewrite E, Hg; reflexivity|]. pose proof (fget_In _ _ _ Hg) as (Hin & _ & Hn). apply canvas_iat; auto.
    + now apply (NoDup_inside F).
    + apply ins_shallow.
  - now apply (ins_text_wf F (iuid c) (S j) x c).
  - intros z t Hz Ho. rewrite E, Hz. cbn [option_map]. now rewrite iat_notin.
Qed.

Lemma after_step F kd g c b l t : view F kd g c -> In b (layers_in c) -> l <> iuid b -> fget l F = Some t ->
  is_layer t = true -> known t ->
  (In (iuid c) (uids t) /\ insert_after F (iuid b) l = (F, Err EUnmodelled)) \/
  (~ In (iuid c) (uids t) /\ exists i, let F' := fat (iuid c) (ins i t) (fdel l F) in
     insert_after F (iuid b) l = (F', Ok tt) /\ view F' kd g (ins i t (idel l c)) /\ In (idel l b) (layers_in (ins i t (idel l c))) /\
     Permutation (fuids F') (fuids F) /\ fdel l F' = fdel l F /\ fget l F' = Some t /\
     exists A B, without l (ids (layers_in c)) = A ++ iuid b :: B /\ ids (layers_in (ins i t (idel l c))) = A ++ l :: iuid b :: B).
Proof.
  intros (Hw & Hk & HK & n & Hg & Hc) Hb Hne Hl Htl Htk. apply in_layers in Hb as [Hb Hbl]. pose proof (is_layer_tag _ Hbl) as Hbt.
  destruct (canvas_known kd n c F g Hw Hg Hc) as (Hcf & Hct & Hcd).
  pose proof (fget_In _ _ _ Hl) as (Htd & Htu & Htt).
  assert (Hcn : NoDup (uids c)) by now apply (NoDup_inside F).
  unfold insert_after, insert_beside. rewrite (child_parent F (iuid c) c b Hw Hcf Hb Hbt).
  destruct c as [|cu cn ca ck]; [discriminate|]. cbn [iuid] in *.
  rewrite (proj2 (N.eqb_neq l (iuid b)) Hne), Hl.
  destruct (in_dec N.eq_dec cu (uids t)) as [Hi|Ho].
  - left. split; auto. rewrite (proj2 (fget_None cu (fdel l F))); auto. now apply (fdel_disjoint l F t).
  - right. split; auto.
    assert (Ep : fget cu (fdel l F) = Some (idel l (IE cu cn ca ck))) by (rewrite (fget_fdel l F t); auto; now rewrite Hcf).
    rewrite Ep. cbn [ikids] in Hb. destruct (in_split _ _ Hb) as (k1 & k2 & Ek).
    assert (Ekd : fdel l ck = fdel l k1 ++ idel l b :: fdel l k2).
    { rewrite Ek, fdel_app. f_equal. rewrite !fdel_map. cbn [filter].
      destruct (is_ l b) eqn:Ei; [apply is_spec in Ei as [_ Ei]; congruence|]. reflexivity. }
    assert (Eix : index_of (iuid b) (ikids (idel l (IE cu cn ca ck))) = Some (length (fdel l k1))).
    { rewrite idel_kids. cbn [ikids]. rewrite Ekd. apply index_here.
      - intros x Hx. rewrite fdel_map in Hx. apply in_map_iff in Hx as (y & <- & Hy). apply filter_In in Hy as [Hy _].
        rewrite idel_is. apply (kids_other k1 b k2 (IE cu cn ca ck)); auto. apply in_or_app. now left.
      - rewrite idel_is. now apply is_self. }
    rewrite Eix. exists (S (length (fdel l k1))).
    assert (Elay : layers_in (ins (S (length (fdel l k1))) t (idel l (IE cu cn ca ck))) =
                   rev (filter is_layer (fdel l k2)) ++ t :: idel l b :: rev (filter is_layer (fdel l k1))).
    { unfold layers_in. cbn [ins with_ikids idel ikids].
      change (flat_map (fun c => if is_ l c then [] else [idel l c]) ck) with (fdel l ck). rewrite Ekd, insert_nth_after, !filter_app.
      cbn [filter]. rewrite (shallow_idel is_layer l b is_layer_shallow), Hbl, Htl. rewrite rev_app_distr. cbn [rev].
      now rewrite <- !app_assoc. }
    pose proof (mv_canvas F l t kd g n (IE cu cn ca ck) (S (length (fdel l k1))) Hw Hl Hg Hc Ho) as (_ & n' & Hn' & Hc').
    split; [|split; [|split; [|split; [|split; [|split]]]]].
    + cbn [Nat.add]. apply (put_in_ok _ _ _ _ _ _ Ep).
    + split; [now apply (mv_wf F l cu t (idel l (IE cu cn ca ck)))|]. split; [auto|]. split; [|now exists n'].
      intros x Hx. apply in_layers in Hx as [Hx Hxl]. rewrite ins_kids, idel_kids in Hx by reflexivity.
      apply insert_nth_In in Hx as [->|Hx]; auto. cbn [ikids] in Hx.
      apply (fdel_known l ck); [|now apply filter_In]. intros y Hy. apply HK. unfold layers_in. now apply in_rev in Hy.
    + rewrite Elay. apply in_or_app. right. right. now left.
    + now apply (mv_perm F l cu t (idel l (IE cu cn ca ck))).
    + now apply (mv_del F l cu t).
    + now apply (mv_self F l cu t (idel l (IE cu cn ca ck))).
    + exists (without l (ids (rev (filter is_layer k2)))), (without l (ids (rev (filter is_layer k1)))). split.
      * unfold layers_in. cbn [ikids]. rewrite Ek, filter_app. cbn [filter]. rewrite Hbl, rev_app_distr. cbn [rev].
        rewrite !ids_app, <- app_assoc, !without_app. f_equal. cbn [ids map app]. unfold without at 1. cbn [filter].
        rewrite (proj2 (N.eqb_neq l (iuid b)) Hne). reflexivity.
      * rewrite Elay, ids_app. cbn [ids map]. rewrite Htu, idel_uid. fold (ids (rev (filter is_layer (fdel l k1)))).
        rewrite !ids_rev, !ids_layers_del, !without_rev. reflexivity.
Qed.

Lemma fget_same_uid F z t : fget z F = Some t -> In z (uids t).
Proof. intros H. apply fget_In in H as (_ & <- & H). now apply tag_uid. Qed.

(** What insert does *)
Lemma insert_is F kd g l n t ch i b : wf F -> fget g F = Some n -> kd <> KPlain -> children kd n = Ok ch ->
  fget l F = Some t -> is_layer t = true -> known t -> py_index ch i = Ok b ->
  (l = iuid b /\ exists F', group_insert F kd g i l = (F', Err ValueError) /\ wf F' /\ same_but_space F F' /\ Permutation (fuids F') (fuids F)) \/
  (exists F', group_insert F kd g i l = (F', Err EUnmodelled) /\ wf F' /\ same_but_space F F' /\ Permutation (fuids F') (fuids F) /\
     exists c, canvas_of kd n = Ok c /\ In (iuid c) (uids t)) \/
  (l <> iuid b /\ exists F' n' ch', group_insert F kd g i l = (F', Ok tt) /\ wf F' /\ Permutation (fuids F') (fuids F) /\
     same_but_space (fdel l F) (fdel l F') /\ fget l F' = fget l F /\
     fget g F' = Some n' /\ children kd n' = Ok ch' /\
     exists A B, without l (ids ch) = A ++ iuid b :: B /\ ids ch' = A ++ l :: iuid b :: B).
Proof.
  intros Hw Hg Hk Hch Hl Htl Htk Hi.
  destruct (children_canvas kd n ch Hch Hk) as (c & Hc & -> & HK).
  assert (V0 : view F kd g c) by (repeat split; eauto).
  assert (Hb : In b (layers_in c)).
  { unfold py_index in Hi. destruct (_ <? 0)%Z; [discriminate|]. destruct (nth_error _ _) as [b'|] eqn:E; [|discriminate].
    injection Hi as ->. eapply nth_error_In; eauto. }
  assert (Hblank : blank (IT nl) = true) by reflexivity.
  assert (Egi : group_insert F kd g i l =
     andthen (insert_text_after F (iuid b) nl) (fun F1 => andthen (insert_after F1 (iuid b) l) (fun F2 => insert_text_after F2 (iuid b) nl))).
  { unfold group_insert, group_index. rewrite Hg, Hch. cbn [bind]. rewrite Hi. destruct kd; congruence. }
  rewrite Egi. clear Egi.
  destruct (text_step F kd g c b nl V0 Hb) as (i1 & E1 & V1 & P1 & G1).
  set (F1 := fat (iuid c) (ins i1 (IT nl)) F) in *. set (c1 := ins i1 (IT nl) c) in *.
  assert (S1 : same_but_space F F1) by now apply ins_text_space.
  assert (Hb1 : In b (layers_in c1)) by (unfold c1; now rewrite layers_text).
  assert (Eu1 : iuid c1 = iuid c) by (unfold c1; now destruct c).
  rewrite E1. cbn [andthen].
  destruct (canvas_known kd n c F g Hw Hg Hc) as (Hcf & Hct & Hcd).
  destruct (N.eq_dec l (iuid b)) as [El|Hne].
  - left. split; auto. exists F1. split; [|split; [apply V1|auto]].
    assert (Hpar : fparent (iuid b) F1 = Some c1).
    { destruct V1 as (W1 & _ & _ & n1 & Hg1 & Hc1). destruct (canvas_known kd n1 c1 F1 g W1 Hg1 Hc1) as (Hcf1 & _ & _).
      apply in_layers in Hb1 as [Hb1 Hbl]. apply (child_parent F1 (iuid c1)); auto. now apply is_layer_tag. }
    unfold insert_after, insert_beside. rewrite Hpar, El, N.eqb_refl. unfold c1. destruct c; [discriminate|reflexivity].
  - destruct (in_dec N.eq_dec (iuid c) (uids t)) as [Hin|Hout].
    + right. left.
      assert (Ht1 : exists t1, fget l F1 = Some t1 /\ is_layer t1 = true /\ known t1 /\ In (iuid c) (uids t1)).
      { exists (iat (iuid c) (ins i1 (IT nl)) t). unfold F1.
        rewrite (fget_ins_old _ _ _ _ c l Hw Hcf) by auto. rewrite Hl. split; [reflexivity|].
        pose proof (iat_shallow (iuid c) _ (ins_shallow i1 (IT nl))) as Sh.
        split; [rewrite (shallow_eq is_layer _ t is_layer_shallow Sh); auto|]. split.
        - destruct Htk as (k & Hkk). exists k. rewrite <- Hkk. apply layer_class_attrs. apply Sh.
        - destruct (N.eq_dec l (iuid c)) as [->|Hlc].
          + assert (t = c) by congruence. subst t. rewrite iat_self by now apply is_self. destruct c; [discriminate|]. now left.
          + destruct t as [|tu tn ta tk]; [contradiction|]. pose proof (fget_In _ _ _ Hl) as (_ & Htu & _). cbn [iuid] in Htu. subst tu.
            cbn [iat]. rewrite (proj2 (N.eqb_neq _ _)) by congruence. rewrite uids_IE in *. right. destruct Hin as [|Hin]; [congruence|].
            change (map (iat (iuid c) (ins i1 (IT nl))) tk) with (fat (iuid c) (ins i1 (IT nl)) tk).
            destruct (fget_ex _ _ Hin) as (y & Hy).
            assert (NoDup (fuids tk)).
            { assert (Hnd : NoDup (uids (IE l tn ta tk))) by (apply (NoDup_inside F); auto; now apply fget_In in Hl).
              rewrite uids_IE in Hnd. now inversion Hnd. }
            eapply Permutation_in; [symmetry; now apply (fuids_ins (iuid c) i1 (IT nl) tk y)|]. exact Hin. }
      destruct Ht1 as (t1 & Hl1 & Hl1l & Hk1 & Hin1).
      destruct (after_step F1 kd g c1 b l t1 V1 Hb1 Hne Hl1 Hl1l Hk1) as [[_ E2]|[Hno _]]; [|rewrite Eu1 in Hno; contradiction].
      rewrite E2. exists F1. split; [reflexivity|]. split; [apply V1|]. split; [auto|]. split; [auto|]. exists c. auto.
    + right. right. split; auto.
      pose proof (G1 l t Hl Hout) as Hl1.
      destruct (after_step F1 kd g c1 b l t V1 Hb1 Hne Hl1 Htl Htk) as [[Hno _]|(Ho1 & i2 & E2 & V2 & Hb2 & P2 & D2 & L2 & A & B & EA & EB)];
        [rewrite Eu1 in Hno; contradiction|].
      set (F2 := fat (iuid c1) (ins i2 t) (fdel l F1)) in *. set (c2 := ins i2 t (idel l c1)) in *.
      rewrite E2. cbn [andthen].
      destruct (text_step F2 kd g c2 (idel l b) nl V2 Hb2) as (i3 & E3 & V3 & P3 & G3). rewrite idel_uid in E3. rewrite E3.
      set (F3 := fat (iuid c2) (ins i3 (IT nl)) F2) in *.
      destruct (view_children _ _ _ _ V3) as (n' & Hn' & Hch').
      assert (Eu2 : iuid c2 = iuid c) by (unfold c2; rewrite (proj1 (proj2 (ins_shallow i2 t (idel l c1)))), idel_uid; exact Eu1).
      exists F3, n', (layers_in (ins i3 (IT nl) c2)). split; [reflexivity|]. split; [apply V3|].
      split; [now rewrite P3, P2, P1|]. split.
      { apply same_space_trans with (fdel l F2); [|apply same_space_del; now apply ins_text_space].
        rewrite D2. now apply same_space_del. }
      split; [rewrite Hl; apply G3; [auto|now rewrite Eu2]|]. split; [auto|]. split; [auto|].
      exists A, B. split; [|now rewrite layers_text].
      rewrite <- EA. unfold c1. now rewrite layers_text.
Qed.

(** The index *)
Lemma py_index_in {A} (l : list A) i : in_range i (length l) ->
  exists x, py_index l i = Ok x /\ nth_error l (Z.to_nat (i mod Z.of_nat (length l))) = Some x.
Proof.
  unfold in_range, py_index. intros H.
  assert (E : (i mod Z.of_nat (length l) = if i <? 0 then i + Z.of_nat (length l) else i)%Z).
  { destruct (Z.ltb_spec i 0).
    - symmetry. apply (Z.mod_unique_pos _ _ (-1)); lia.
    - apply Z.mod_small. lia. }
  rewrite <- E. set (j := (i mod Z.of_nat (length l))%Z) in *.
  assert (0 <= j < Z.of_nat (length l))%Z by (apply Z.mod_pos_bound; lia).
  destruct (Z.ltb_spec j 0); [lia|]. destruct (nth_error l (Z.to_nat j)) as [x|] eqn:En; eauto.
  apply nth_error_None in En. lia.
Qed.
Lemma py_index_out {A} (l : list A) i : ~ in_range i (length l) -> py_index l i = Err IndexError.
Proof.
  unfold in_range, py_index. intros H. destruct (Z.ltb_spec i 0).
  - destruct (Z.ltb_spec (i + Z.of_nat (length l)) 0); [auto|lia].
  - destruct (Z.ltb_spec i 0); [lia|]. destruct (nth_error l (Z.to_nat i)) as [x|] eqn:En; auto.
    assert (nth_error l (Z.to_nat i) <> None) as G by congruence. apply nth_error_Some in G. lia.
Qed.
