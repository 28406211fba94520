(** Proofs about children, append and insert. *)
From Verif Require Import LayModel DocProofs DocProofs2 LaySpec.
From Coq Require Import Permutation Lia.
Local Open Scope N_scope.

Lemma is_layer_shallow : shallow is_layer.
Proof. intros n m H1 H2 _. unfold is_layer, named. now rewrite H1, H2. Qed.
Lemma named_shallow x : shallow (named x).
Proof. intros n m H1 H2 _. unfold named. now rewrite H1, H2. Qed.
Lemma is_param_shallow f : shallow (is_param f).
Proof. intros n m H1 H2 H3. unfold is_param. now rewrite H1, H2, H3. Qed.
Lemma is_layer_tag n : is_layer n = true -> itag n = true.
Proof. unfold is_layer, named. now intros [H _]%andb_prop. Qed.
Lemma named_tag x n : named x n = true -> itag n = true.
Proof. unfold named. now intros [H _]%andb_prop. Qed.
Lemma param_tag f n : is_param f n = true -> itag n = true.
Proof. unfold is_param. now intros [H _]%andb_prop. Qed.
Lemma layer_class_attrs n m : iattrs n = iattrs m -> layer_class n = layer_class m.
Proof. unfold layer_class. now intros ->. Qed.

Lemma mapM_as_layer l : (forall x, In x l -> known x) -> mapM as_layer l = Ok l.
Proof.
  induction l as [|x l IH]; intros H; auto. cbn [mapM]. unfold as_layer at 1.
  destruct (H x) as (c & E); [now left|]. rewrite E. cbn [bind]. rewrite IH by (intros; apply H; now right). reflexivity.
Qed.
Lemma mapM_as_layer_inv l l' : mapM as_layer l = Ok l' -> l' = l /\ (forall x, In x l -> known x).
Proof.
  revert l'. induction l as [|x l IH]; cbn [mapM]; intros l' H.
  - injection H as <-. split; auto. intros x [].
  - unfold as_layer at 1 in H. destruct (layer_class x) as [c|] eqn:E; [|discriminate]. cbn [bind] in H.
    destruct (mapM as_layer l) as [r|] eqn:Er; [|discriminate]. injection H as <-.
    destruct (IH r eq_refl) as [-> K]. split; auto. intros y [<-|Hy]; auto. now exists c.
Qed.

(** ** The canvas *)

Definition canvas_in (kd : okind) (n c : inode) : Prop := kd <> KPlain /\ canvas_of kd n = Ok c.

Lemma children_canvas kd n ch : children kd n = Ok ch -> kd <> KPlain ->
  exists c, canvas_of kd n = Ok c /\ ch = layers_in c /\ (forall x, In x (layers_in c) -> known x).
Proof.
  intros H Hk. destruct kd; [| |congruence]; cbn [children] in H.
  all: destruct (canvas_of _ n) as [c|]; [|discriminate]; cbn [bind] in H;
    apply mapM_as_layer_inv in H as [-> K]; exists c; auto.
Qed.
Lemma canvas_children kd n c : kd <> KPlain -> canvas_of kd n = Ok c -> (forall x, In x (layers_in c) -> known x) ->
  children kd n = Ok (layers_in c).
Proof.
  intros Hk H K. destruct kd; [| |congruence]; cbn [children]; rewrite H; cbn [bind]; now apply mapM_as_layer.
Qed.

Lemma canvas_inside kd n c : itag n = true -> canvas_of kd n = Ok c ->
  itag c = true /\ (c = n /\ kd = KAnim \/ exists p, ifind (is_param (s "canvas")) n = Some p /\ ifind (named (s "canvas")) p = Some c /\ kd <> KAnim).
Proof.
  intros Hn H. destruct kd; cbn [canvas_of] in H.
  1: { injection H as <-. auto. }
  all: destruct (ifind _ n) as [p|] eqn:E1; [|discriminate]; destruct (ifind _ p) as [c'|] eqn:E2; [|discriminate];
    injection H as ->; split;
    [apply ifind_In in E2 as [_ E2]; now apply named_tag in E2|right; exists p; repeat split; auto; discriminate].
Qed.

Lemma idesc_trans x y n : In x (idesc n) -> In y (idesc x) -> In y (idesc n).
Proof.
  destruct n as [|u nm a k]; [contradiction|]. rewrite idesc_IE. intros Hx Hy. eapply desc_trans; eauto.
Qed.
Lemma idesc_uids x n : In x (idesc n) -> forall z, In z (uids x) -> In z (uids n).
Proof.
  destruct n as [|u nm a k]; [contradiction|]. rewrite idesc_IE, uids_IE. intros Hx z Hz. right. now apply (desc_uids _ _ Hx).
Qed.
Lemma idesc_NoDup x n : In x (idesc n) -> NoDup (uids n) -> NoDup (uids x).
Proof.
  destruct n as [|u nm a k]; [contradiction|]. rewrite idesc_IE, uids_IE. intros Hx H. inversion H; subst.
  now apply (NoDup_inside k).
Qed.
Lemma idesc_not_self x n : In x (idesc n) -> NoDup (uids n) -> ~ In (iuid n) (uids x).
Proof.
  destruct n as [|u nm a k]; [contradiction|]. rewrite idesc_IE, uids_IE. intros Hx H. inversion H; subst. cbn [iuid].
  intros Hi. apply H2. now apply (desc_uids _ _ Hx).
Qed.
Lemma tag_uid n : itag n = true -> In (iuid n) (uids n).
Proof. destruct n; [discriminate|]. now left. Qed.

Lemma canvas_desc kd n c : itag n = true -> canvas_of kd n = Ok c -> c = n \/ In c (idesc n).
Proof.
  intros Hn H. apply canvas_inside in H as [_ [[-> _]|(p & E1 & E2 & _)]]; auto. right.
  apply ifind_In in E1 as [E1 _]. apply ifind_In in E2 as [E2 _]. eapply idesc_trans; eauto.
Qed.
Lemma canvas_known kd n c F g : wf F -> fget g F = Some n -> canvas_of kd n = Ok c ->
  fget (iuid c) F = Some c /\ itag c = true /\ In c (fdesc F).
Proof.
  intros Hw Hg H. pose proof (fget_In _ _ _ Hg) as (Hin & _ & Ht).
  assert (Hc : In c (fdesc F)).
  { destruct (canvas_desc _ _ _ Ht H) as [->|Hd]; auto. eapply desc_trans; eauto. }
  assert (itag c = true) by (eapply canvas_inside in H; [apply H|auto]).
  split; [|auto]. apply fget_desc; auto.
Qed.

(** Inserting anything into the canvas leaves it the canvas. *)
Lemma canvas_iat kd n c f : itag n = true -> NoDup (uids n) -> shallow_pres f -> canvas_of kd n = Ok c ->
  canvas_of kd (iat (iuid c) f n) = Ok (f c).
Proof.
  intros Hn Hnd Hf H. pose proof (canvas_inside _ _ _ Hn H) as [Hc HH].
  assert (Hs : forall m, itag m = true -> iat (iuid m) f m = f m).
  { intros m Hm. apply iat_self. now apply is_spec. }
  destruct HH as [[-> ->]|(p & E1 & E2 & Hk)]; [cbn [canvas_of]; now rewrite Hs|].
  pose proof (ifind_In _ _ _ E1) as [I1 _]. pose proof (ifind_In _ _ _ E2) as [I2 _].
  assert (Hcp : In (iuid c) (uids p)) by (apply (idesc_uids _ _ I2), tag_uid, Hc).
  rewrite <- (Hs c Hc).
  destruct kd; [congruence| |]; cbn [canvas_of];
    rewrite (ifind_iat _ n (iuid c) f p (is_param_shallow _) Hf Hnd E1 Hcp);
    rewrite (ifind_iat _ p (iuid c) f c (named_shallow _) Hf (idesc_NoDup _ _ I1 Hnd) E2 (tag_uid c Hc)); reflexivity.
Qed.

(** And so does removing a layer which the canvas is not in. *)
Lemma ifind_idel' p n l t x : shallow p -> NoDup (uids n) -> itag n = true -> fget l [n] = Some t \/ ~ In l (uids n) ->
  ifind p n = Some x -> itag x = true -> ~ In (iuid x) (uids t) -> ifind p (idel l n) = Some (idel l x).
Proof.
  intros Hp Hnd Hn Ht Hx Hgx Hi. pose proof (ifind_In _ _ _ Hx) as [Ix _].
  destruct Ht as [Ht|Ht].
  - destruct n as [|u nm a k]; [discriminate|]. rewrite fget_IE in Ht. destruct (N.eqb_spec l u) as [->|Hne].
    + injection Ht as <-. exfalso. apply Hi. apply (idesc_uids _ _ Ix). now apply tag_uid.
    + destruct (fget l k) as [t'|] eqn:E; [|discriminate]. injection Ht as ->.
      now apply (ifind_idel p _ l t x).
  - assert (Hk : forall m, ~ In l (uids m) -> idel l m = m).
    { intros [|u nm a k] Hm; auto. apply idel_notin. cbn [ikids]. intros Hj. apply Hm. now right. }
    rewrite !Hk; auto. intros Hj. apply Ht. now apply (idesc_uids _ _ Ix).
Qed.
Lemma idel_none l n : ~ In l (uids n) -> fget l [n] = None.
Proof. intros H. apply fget_None. now rewrite fuids_one. Qed.
Lemma fget_sub F l t n : wf F -> fget l F = Some t -> In n (fdesc F) -> itag n = true -> fget l [n] = Some t \/ ~ In l (uids n).
Proof.
  intros Hw Ht Hn Hg. destruct (in_dec N.eq_dec l (uids n)) as [Hi|Hi]; auto. left.
  rewrite <- (fget_inside F n); auto.
Qed.
Lemma canvas_idel F kd n c g l t : wf F -> fget g F = Some n -> fget l F = Some t -> canvas_of kd n = Ok c ->
  ~ In (iuid c) (uids t) -> canvas_of kd (idel l n) = Ok (idel l c).
Proof.
  intros Hw Hg Hl H Hc. pose proof (fget_In _ _ _ Hg) as (Hin & _ & Hn).
  pose proof (canvas_inside _ _ _ Hn H) as [Hct HH].
  destruct HH as [[-> ->]|(p & E1 & E2 & Hk)]; [reflexivity|].
  pose proof (ifind_In _ _ _ E1) as [I1 Ip]. pose proof (ifind_In _ _ _ E2) as [I2 _]. apply param_tag in Ip.
  assert (Hpin : In p (fdesc F)) by (eapply desc_trans; eauto).
  assert (Hpt : ~ In (iuid p) (uids t)).
  { intros Hi. apply Hc.
    (* p inside t means that everything of p is inside t *)
    pose proof (fget_In _ _ _ Hl) as (Ht & _ & Htt).
    assert (Hp : In p (t :: idesc t)).
    { pose proof (fget_inside F t (iuid p) Hw Ht Hi) as E. rewrite (fget_desc F p) in E; auto.
      symmetry in E. apply fget_In in E as (E & _ & _). destruct t; [discriminate|]. rewrite fdesc_IE in E. cbn [app] in E.
      rewrite app_nil_r in E. rewrite idesc_IE. exact E. }
    destruct Hp as [->|Hp]; [|apply (idesc_uids _ _ Hp)]; apply (idesc_uids _ _ I2); now apply tag_uid. }
  assert (Hndn : NoDup (uids n)) by now apply (NoDup_inside F).
  assert (Hndp : NoDup (uids p)) by now apply (NoDup_inside F).
  destruct kd; [congruence| |]; cbn [canvas_of];
    rewrite (ifind_idel' _ n l t p (is_param_shallow _) Hndn Hn (fget_sub F l t n Hw Hl Hin Hn) E1 Ip Hpt);
    rewrite (ifind_idel' _ p l t c (named_shallow _) Hndp Ip (fget_sub F l t p Hw Hl Hpin Ip) E2 Hct Hc); reflexivity.
Qed.
