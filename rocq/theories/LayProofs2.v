(** Proofs about append and insert. *)
From Verif Require Import LayModel DocProofs DocProofs2 LaySpec LayProofs.
From Coq Require Import Permutation Lia.
Local Open Scope N_scope.

(** ** Moving a tag *)

Section Move.
  Context (F : forest) (l c : N) (t pn : inode) (i : nat).
  Context (Hw : wf F) (Hl : fget l F = Some t) (Hc : fget c (fdel l F) = Some pn).
  Let F' := fat c (ins i t) (fdel l F).

  Lemma mv_outside : ~ In c (uids t).
  Proof. intros Hi. apply fget_uids in Hc. now apply (fdel_disjoint l F t c). Qed.
  Lemma mv_perm : Permutation (fuids F') (fuids F).
  Proof.
    unfold F'. rewrite (fuids_ins c i t _ pn); [|now apply fdel_NoDup|auto].
    symmetry. now apply fuids_fdel.
  Qed.
  Lemma mv_wf : wf F'.
  Proof. unfold wf. eapply Permutation_NoDup; [symmetry; apply mv_perm|auto]. Qed.
  Lemma mv_tree : NoDup (uids t).
  Proof. apply (NoDup_inside F); auto. now apply fget_In in Hl. Qed.
  Lemma mv_del : fdel l F' = fdel l F.
  Proof.
    pose proof (fget_In _ _ _ Hl) as (_ & Hu & Ht).
    unfold F'. apply fdel_ins; [now apply is_spec|]. apply (fdel_disjoint l F t); auto. rewrite <- Hu. now apply tag_uid.
  Qed.
  Lemma mv_inside z : In z (uids t) -> fget z F' = fget z F.
  Proof.
    intros Hz. unfold F'. rewrite (fget_ins_new c i t _ pn); auto.
    - symmetry. apply fget_inside; auto. now apply fget_In in Hl.
    - now apply fdel_NoDup.
    - apply mv_tree.
    - intros y Hy. now apply (fdel_disjoint l F t).
  Qed.
  Lemma mv_self : fget l F' = Some t.
  Proof. rewrite mv_inside; auto. pose proof (fget_In _ _ _ Hl) as (_ & <- & Ht). now apply tag_uid. Qed.
  Lemma mv_get z : ~ In z (uids t) -> fget z F' = option_map (iat c (ins i t)) (option_map (idel l) (fget z F)).
  Proof.
    intros Hz. unfold F'. rewrite (fget_ins_old c i t _ pn); auto; [|now apply fdel_NoDup].
    now rewrite (fget_fdel l F t z).
  Qed.
End Move.

(** The canvas after a move into it *)
Lemma mv_canvas F l t kd g n c i : wf F -> fget l F = Some t -> fget g F = Some n -> canvas_of kd n = Ok c ->
  ~ In (iuid c) (uids t) ->
  let F' := fat (iuid c) (ins i t) (fdel l F) in
  fget (iuid c) (fdel l F) = Some (idel l c) /\
  exists n', fget g F' = Some n' /\ canvas_of kd n' = Ok (ins i t (idel l c)).
Proof.
  intros Hw Hl Hg Hc Ho F'.
  destruct (canvas_known kd n c F g Hw Hg Hc) as (Hcf & Hct & Hcd).
  assert (E : fget (iuid c) (fdel l F) = Some (idel l c)) by (rewrite (fget_fdel l F t); auto; now rewrite Hcf).
  split; auto.
  pose proof (fget_In _ _ _ Hg) as (Hin & Hu & Hn).
  assert (Hgo : ~ In g (uids t)).
  { intros Hi. apply Ho. pose proof (fget_In _ _ _ Hl) as (Ht & _ & Htt).
    pose proof (fget_inside F t g Hw Ht Hi) as Eg. rewrite Hg in Eg. symmetry in Eg. apply fget_In in Eg as (Eg & _ & _).
    assert (In c (fdesc [t])).
    { destruct (canvas_desc _ _ _ Hn Hc) as [->|Hd]; auto. eapply desc_trans; eauto. }
    rewrite <- (fuids_one t). apply (desc_uids [t] c); auto. now apply tag_uid. }
  exists (iat (iuid c) (ins i t) (idel l n)). split.
  - unfold F'. rewrite (mv_get F l (iuid c) t (idel l c) i Hw Hl E g Hgo), Hg. reflexivity.
  - rewrite <- (idel_uid l c). apply canvas_iat.
    + now rewrite idel_tag.
    + assert (Hd : fget g (fdel l F) = Some (idel l n)) by (rewrite (fget_fdel l F t); auto; now rewrite Hg).
      apply (NoDup_inside (fdel l F)); [now apply fdel_NoDup|]. now apply fget_In in Hd.
    + apply ins_shallow.
    + eapply canvas_idel; eauto.
Qed.

Lemma ids_layers_del l k :
  ids (filter is_layer (fdel l k)) = without l (ids (filter is_layer k)).
Proof.
  induction k as [|x k IH]; auto. rewrite fdel_map in *. cbn [filter]. destruct (is_ l x) eqn:E; cbn [negb].
  - rewrite IH. destruct (is_layer x) eqn:El; auto. cbn [ids map without filter].
    apply is_spec in E as [_ <-]. rewrite N.eqb_refl. reflexivity.
  - cbn [map filter]. rewrite (shallow_idel is_layer l x is_layer_shallow). destruct (is_layer x) eqn:El; auto.
    cbn [ids map without filter]. rewrite idel_uid. fold (ids (filter is_layer k)). fold (ids (filter is_layer (map (idel l) (filter (fun c => negb (is_ l c)) k)))).
    destruct (N.eqb_spec l (iuid x)) as [->|_].
    + exfalso. apply is_layer_tag in El. rewrite is_self in E by auto. discriminate.
    + cbn [negb]. f_equal. exact IH.
Qed.
Lemma without_rev x l : without x (rev l) = rev (without x l).
Proof.
  induction l as [|y l IH]; auto. cbn [rev without filter]. unfold without in *. rewrite filter_app, IH. cbn [filter].
  destruct (x =? y); cbn; [apply app_nil_r|reflexivity].
Qed.
Lemma without_app x l1 l2 : without x (l1 ++ l2) = without x l1 ++ without x l2.
Proof. apply filter_app. Qed.
Lemma ids_rev l : ids (rev l) = rev (ids l). Proof. apply map_rev. Qed.
Lemma ids_app a b : ids (a ++ b) = ids a ++ ids b. Proof. apply map_app. Qed.

Lemma fdel_known l k : (forall x, In x (filter is_layer k) -> known x) -> (forall x, In x (filter is_layer (fdel l k)) -> known x).
Proof.
  intros H x Hx. apply filter_In in Hx as [Hx Hl]. rewrite fdel_map in Hx. apply in_map_iff in Hx as (y & <- & Hy).
  apply filter_In in Hy as [Hy _]. rewrite (shallow_idel is_layer l y is_layer_shallow) in Hl.
  destruct (H y) as (c & Hc); [now apply filter_In|]. exists c. rewrite <- Hc. apply layer_class_attrs, idel_attrs.
Qed.

Lemma index_here b k1 a k2 : (forall x, In x k1 -> is_ b x = false) -> is_ b a = true -> index_of b (k1 ++ a :: k2) = Some (length k1).
Proof.
  induction k1 as [|x k1 IH]; intros H Ha; cbn [app index_of length].
  - now rewrite Ha.
  - rewrite H by now left. rewrite IH; auto. intros y Hy. apply H. now right.
Qed.
Lemma find_split {A} (p : A -> bool) l x : find p l = Some x ->
  exists l1 l2, l = l1 ++ x :: l2 /\ p x = true /\ (forall y, In y l1 -> p y = false).
Proof.
  induction l as [|y l IH]; [discriminate|]. cbn [find]. destruct (p y) eqn:E; intros H.
  - injection H as ->. exists [], l. repeat split; auto. intros z [].
  - destruct (IH H) as (l1 & l2 & -> & Hx & Hn). exists (y :: l1), l2. repeat split; auto. intros z [<-|Hz]; auto.
Qed.
Lemma kids_uid_NoDup n : NoDup (uids n) -> NoDup (map iuid (filter itag (ikids n))).
Proof.
  destruct n as [|u nm a k]; [constructor|]. rewrite uids_IE. intros H. inversion H as [|? ? _ Hk]; subst. cbn [ikids].
  clear -Hk. induction k as [|x k IH]; [constructor|]. destruct x as [|u nm a k']; [exact (IH Hk)|].
  pose proof (NoDup_kids _ _ _ _ _ Hk) as (H1 & H2 & H3 & H4 & H5). cbn [filter itag map iuid]. constructor; auto.
  intros Hi. apply H2. apply in_map_iff in Hi as (y & <- & Hy). apply filter_In in Hy as [Hy Ht].
  unfold fuids. apply in_flat_map. exists y. split; auto. now apply tag_uid.
Qed.
Lemma kids_other k1 a k2 n : NoDup (uids n) -> itag a = true -> ikids n = k1 ++ a :: k2 -> forall x, In x (k1 ++ k2) -> is_ (iuid a) x = false.
Proof.
  intros Hnd Ha E x Hx. apply kids_uid_NoDup in Hnd. rewrite E, filter_app in Hnd. cbn [filter] in Hnd. rewrite Ha in Hnd.
  rewrite map_app in Hnd. cbn [map] in Hnd. apply NoDup_remove_2 in Hnd. destruct (is_ (iuid a) x) eqn:Ex; auto.
  exfalso. apply Hnd. apply is_spec in Ex as [Et Eu]. rewrite <- map_app, <- filter_app. rewrite <- Eu. apply in_map.
  now apply filter_In.
Qed.

(** ** append *)

Definition moved (kd : okind) (g l : N) (F F' : forest) (ch' : list N) : Prop :=
  wf F' /\ Permutation (fuids F') (fuids F) /\ fdel l F' = fdel l F /\ fget l F' = fget l F /\
  exists n' c', fget g F' = Some n' /\ children kd n' = Ok c' /\ ids c' = ch'.

Lemma ins_kids i t n : itag n = true -> ikids (ins i t n) = insert_nth i t (ikids n).
Proof. now destruct n. Qed.

(** Putting the layer l into the canvas of g *)
Lemma moved_in F kd g l n c t i ch : wf F -> fget g F = Some n -> kd <> KPlain -> canvas_of kd n = Ok c ->
  (forall x, In x (layers_in c) -> known x) ->
  fget l F = Some t -> is_layer t = true -> known t -> ~ In (iuid c) (uids t) ->
  ids (rev (filter is_layer (insert_nth i t (fdel l (ikids c))))) = ch ->
  moved kd g l F (fat (iuid c) (ins i t) (fdel l F)) ch.
Proof.
  intros Hw Hg Hk Hc HK Hl Htl Htk Ho Hch.
  destruct (mv_canvas F l t kd g n c i Hw Hl Hg Hc Ho) as (E & n' & Hn' & Hc').
  set (F' := fat (iuid c) (ins i t) (fdel l F)) in *.
  destruct (canvas_known kd n c F g Hw Hg Hc) as (_ & Hct & _).
  assert (HK' : forall x, In x (layers_in (ins i t (idel l c))) -> known x).
  { intros x Hx. unfold layers_in in Hx. apply in_rev in Hx. rewrite ins_kids in Hx by now rewrite idel_tag.
    apply filter_In in Hx as [Hx Hxl]. apply insert_nth_In in Hx as [->|Hx]; auto. rewrite idel_kids in Hx.
    apply (fdel_known l (ikids c)); [|now apply filter_In]. intros y Hy. apply HK. unfold layers_in. now apply in_rev in Hy. }
  repeat split.
  - now apply (mv_wf F l (iuid c) t (idel l c)).
  - now apply (mv_perm F l (iuid c) t (idel l c)).
  - now apply (mv_del F l (iuid c) t).
  - rewrite Hl. now apply (mv_self F l (iuid c) t (idel l c)).
  - exists n', (layers_in (ins i t (idel l c))). split; auto. split.
    + now apply canvas_children.
    + unfold layers_in. rewrite ins_kids by now rewrite idel_tag. now rewrite idel_kids.
Qed.

Lemma put_in_inv F0 F p i n F' : put_in F0 F p i n = (F', Ok tt) -> F' = fat p (ins i n) F /\ exists x, fget p F = Some x.
Proof. unfold put_in. destruct (fget p F); intros H; [|discriminate]. injection H as <-. eauto. Qed.

Lemma fdel_shorter l k : (length (fdel l k) <= length k)%nat.
Proof. rewrite fdel_map, map_length. induction k as [|x k IH]; auto. cbn [filter]. destruct (is_ l x); cbn; lia. Qed.

Lemma index_layer l k : is_layer l = true -> filter is_layer k = [] -> (forall x, In x k -> is_ (iuid l) x = true -> x = l) -> index_of (iuid l) k = None.
Proof.
  intros Hl. induction k as [|x k IH]; intros Hf Hu; auto. cbn [index_of filter] in *. destruct (is_layer x) eqn:E; [discriminate|].
  destruct (is_ (iuid l) x) eqn:Ei.
  - rewrite (Hu x) in E by (auto; now left). congruence.
  - rewrite IH; auto. intros y Hy. apply Hu. now right.
Qed.
Lemma kid_desc F c x : In c (fdesc F) -> In x (ikids c) -> itag x = true -> In x (fdesc F).
Proof.
  intros Hc Hx Ht. eapply desc_trans; eauto. destruct c as [|u nm a k]; [contradiction|]. rewrite idesc_IE. cbn [ikids] in Hx.
  apply in_split in Hx as (k1 & k2 & ->). rewrite fdesc_app. apply in_or_app. right.
  destruct x; [discriminate|]. rewrite fdesc_IE. now left.
Qed.
Lemma kid_same F c l t x : wf F -> In c (fdesc F) -> fget l F = Some t -> In x (ikids c) -> is_ l x = true -> x = t.
Proof.
  intros Hw Hc Hl Hx Hi. apply is_spec in Hi as [Ht <-].
  rewrite (fget_desc F x Hw) in Hl by now apply (kid_desc F c). now injection Hl.
Qed.

Lemma append_ok F kd g l n t ch F' : wf F -> fget g F = Some n -> kd <> KPlain -> children kd n = Ok ch ->
  fget l F = Some t -> is_layer t = true -> known t -> group_append F kd g l = (F', Ok tt) ->
  moved kd g l F F' (without l (ids ch) ++ [l]).
Proof.
  intros Hw Hg Hk Hch Hl Htl Htk H.
  destruct (children_canvas kd n ch Hch Hk) as (c & Hc & -> & HK).
  destruct (canvas_known kd n c F g Hw Hg Hc) as (Hcf & Hct & Hcd).
  assert (Hcn : NoDup (uids c)) by now apply (NoDup_inside F).
  pose proof (fget_In _ _ _ Hl) as (Htd & Htu & Htt).
  assert (Hga : group_append F kd g l = match find is_layer (ikids c) with
                    | None => tag_append F (iuid c) l
                    | Some a => insert_before F (iuid a) l end).
  { unfold group_append. rewrite Hg, Hc. destruct kd; congruence. }
  rewrite Hga in H. clear Hga.
  assert (Hout : forall i F1, put_in F (fdel l F) (iuid c) i t = (F1, Ok tt) ->
            F1 = fat (iuid c) (ins i t) (fdel l F) /\ ~ In (iuid c) (uids t)).
  { intros i F1 Hp. apply put_in_inv in Hp as (-> & x & Hx). split; auto. now apply (mv_outside F l (iuid c) t x). }
  destruct (find is_layer (ikids c)) as [a|] eqn:Ef.
  - (* before the first layer *)
    destruct (find_split _ _ _ Ef) as (k1 & k2 & Ek & Hal & Hk1).
    pose proof (is_layer_tag _ Hal) as Hat.
    assert (Hain : In a (ikids c)) by (rewrite Ek; apply in_or_app; right; now left).
    unfold insert_before, insert_beside in H.
    rewrite (child_parent F (iuid c) c a Hw Hcf Hain Hat) in H.
    destruct c as [|cu cn ca ck]; [discriminate|]. cbn [iuid ikids] in *.
    destruct (N.eqb_spec l (iuid a)) as [|Hne]; [discriminate|]. rewrite Hl in H.
    destruct (fget cu (fdel l F)) as [pn|] eqn:Ep; [|discriminate].
    assert (Ho : ~ In cu (uids t)) by now apply (mv_outside F l cu t pn).
    assert (Epn : pn = idel l (IE cu cn ca ck)).
    { rewrite (fget_fdel l F t cu Hw Hl Ho), Hcf in Ep. cbn [option_map] in Ep. now injection Ep as <-. }
    assert (Ekd : fdel l ck = fdel l k1 ++ idel l a :: fdel l k2).
    { rewrite Ek, fdel_app. f_equal. rewrite !fdel_map. cbn [filter].
      destruct (is_ l a) eqn:Ei; [apply is_spec in Ei as [_ Ei]; congruence|]. reflexivity. }
    assert (Eix : index_of (iuid a) (ikids pn) = Some (length (fdel l k1))).
    { rewrite Epn, idel_kids. cbn [ikids]. rewrite Ekd. apply index_here.
      - intros x Hx. rewrite fdel_map in Hx. apply in_map_iff in Hx as (y & <- & Hy). apply filter_In in Hy as [Hy _].
        rewrite idel_is. apply (kids_other k1 a k2 (IE cu cn ca ck)); auto. apply in_or_app. now left.
      - rewrite idel_is. now apply is_self. }
    rewrite Eix in H. cbn [Nat.add] in H.
    destruct (Hout _ _ H) as (-> & _).
    apply (moved_in F kd g l n (IE cu cn ca ck) t); auto. cbn [ikids]. rewrite Ekd, insert_nth_here.
    unfold layers_in. cbn [ikids]. rewrite Ek, !filter_app. cbn [filter].
    assert (Hno : filter is_layer k1 = []) by now apply filter_none.
    assert (Hno' : filter is_layer (fdel l k1) = []).
    { apply filter_none. intros x Hx. rewrite fdel_map in Hx. apply in_map_iff in Hx as (y & <- & Hy). apply filter_In in Hy as [Hy _].
      rewrite (shallow_idel is_layer l y is_layer_shallow). now apply Hk1. }
    rewrite Hno, Hno', Htl, Hal, (shallow_idel is_layer l a is_layer_shallow), Hal. cbn [app].
    rewrite !ids_rev. cbn [ids map]. fold (ids (filter is_layer (fdel l k2))). fold (ids (filter is_layer k2)).
    rewrite without_rev. unfold without. cbn [filter].
    destruct (N.eqb_spec l (iuid a)) as [|_]; [congruence|]. cbn [negb]. fold (without l (ids (filter is_layer k2))).
    rewrite idel_uid, Htu, ids_layers_del. cbn [rev]. now rewrite <- !app_assoc.
  - (* no layers yet *)
    assert (Hno : filter is_layer (ikids c) = []).
    { apply filter_none. intros x Hx. now apply (find_none _ _ Ef). }
    unfold tag_append in H. rewrite Hcf in H. unfold tag_insert in H.
    destruct (N.eqb_spec l (iuid c)) as [|Hne]; [discriminate|]. rewrite Hl, Hcf in H.
    rewrite <- Htu, (index_layer t (ikids c)) in H; auto.
    2: { intros x Hx Hi. rewrite Htu in Hi. now apply (kid_same F c l t). }
    rewrite Nat.min_id, Htu in H. destruct (Hout _ _ H) as (-> & Ho).
    apply (moved_in F kd g l n c t); auto. rewrite insert_nth_end by apply fdel_shorter.
    rewrite filter_app. cbn [filter]. rewrite Htl, rev_app_distr. cbn [rev app]. unfold layers_in. rewrite Hno.
    cbn [rev ids map without filter]. 
    assert (E : ids (filter is_layer (fdel l (ikids c))) = []) by (rewrite ids_layers_del, Hno; reflexivity).
    unfold ids in E. apply map_eq_nil in E. rewrite E. cbn. now rewrite Htu.
Qed.
