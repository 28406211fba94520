(** Facts about forests (DocModel.v). *)
From Verif Require Import DocModel.
From Coq Require Import Permutation Lia.
Local Open Scope N_scope.

Lemma NoDup_app_parts {A} (l1 l2 : list A) : NoDup (l1 ++ l2) ->
  NoDup l1 /\ NoDup l2 /\ forall x, In x l1 -> In x l2 -> False.
Proof.
  induction l1 as [|z l1 IH]; cbn [app]; intros H.
  - repeat split; auto. constructor.
  - inversion H as [|? ? H1 H2]; subst. destruct (IH H2) as (H3 & H4 & H5). repeat split; auto.
    + constructor; auto. intros Hi. apply H1. apply in_or_app. now left.
    + intros x [->|Hx] Hy; [|eauto]. apply H1. apply in_or_app. now right.
Qed.

(** ** Forests by induction *)

Lemma forest_ind (P : forest -> Prop) :
  P [] -> (forall x F, P F -> P (IT x :: F)) ->
  (forall u nm a k F, P k -> P F -> P (IE u nm a k :: F)) -> forall F, P F.
Proof.
  intros H0 Ht He.
  assert (H : forall n F, P F -> P (n :: F)).
  { induction n as [x|u nm a k IH] using inode_ind'; intros F HF; [now apply Ht|].
    apply He; auto. induction IH as [|c k Hc _ IHk]; auto. }
  induction F; auto.
Qed.

(** All tags of a forest, in document order *)
Definition fdesc (F : forest) : list inode :=
  flat_map (fun c => match c with IT _ => [] | IE _ _ _ _ => c :: idesc c end) F.

Lemma fdesc_IT x F : fdesc (IT x :: F) = fdesc F. Proof. reflexivity. Qed.
Lemma fdesc_IE u nm a k F : fdesc (IE u nm a k :: F) = IE u nm a k :: fdesc k ++ fdesc F.
Proof. reflexivity. Qed.
Lemma idesc_IE u nm a k : idesc (IE u nm a k) = fdesc k. Proof. reflexivity. Qed.
Lemma idesc_kids n : itag n = true -> idesc n = fdesc (ikids n).
Proof. now destruct n. Qed.
Lemma fuids_IT x F : fuids (IT x :: F) = fuids F. Proof. reflexivity. Qed.
Lemma fuids_IE u nm a k F : fuids (IE u nm a k :: F) = u :: fuids k ++ fuids F. Proof. reflexivity. Qed.
Lemma uids_IE u nm a k : uids (IE u nm a k) = u :: fuids k. Proof. reflexivity. Qed.
Lemma fuids_app F G : fuids (F ++ G) = fuids F ++ fuids G.
Proof. unfold fuids. now rewrite flat_map_app. Qed.
Lemma fdesc_app F G : fdesc (F ++ G) = fdesc F ++ fdesc G.
Proof. unfold fdesc. now rewrite flat_map_app. Qed.
Lemma fuids_one n : fuids [n] = uids n. Proof. unfold fuids. cbn. apply app_nil_r. Qed.
Lemma fdesc_one n : itag n = true -> fdesc [n] = n :: idesc n.
Proof. destruct n; [discriminate|]. intros _. unfold fdesc. cbn [flat_map]. now rewrite app_nil_r. Qed.

Lemma fget_IT x y F : fget x (IT y :: F) = fget x F. Proof. reflexivity. Qed.
Lemma fget_IE x u nm a k F : fget x (IE u nm a k :: F) =
  if x =? u then Some (IE u nm a k) else match fget x k with Some y => Some y | None => fget x F end.
Proof. unfold fget. cbn [first_some iget]. destruct (x =? u); auto. Qed.
Lemma fanc_IT x y F : fanc x (IT y :: F) = fanc x F. Proof. reflexivity. Qed.
Lemma fanc_IE x u nm a k F : fanc x (IE u nm a k :: F) =
  if x =? u then Some [] else match fanc x k with Some l => Some (l ++ [IE u nm a k]) | None => fanc x F end.
Proof.
  unfold fanc. cbn [first_some ianc]. destruct (x =? u); auto.
  destruct (first_some (ianc x) k); auto.
Qed.
Lemma fdel_IT l y F : fdel l (IT y :: F) = IT y :: fdel l F. Proof. reflexivity. Qed.
Lemma fdel_IE l u nm a k F : fdel l (IE u nm a k :: F) =
  if l =? u then fdel l F else IE u nm a (fdel l k) :: fdel l F.
Proof. unfold fdel, kdel. cbn [flat_map is_ idel]. destruct (l =? u); reflexivity. Qed.
Lemma fat_IT c f y F : fat c f (IT y :: F) = IT y :: fat c f F. Proof. reflexivity. Qed.
Lemma fat_IE c f u nm a k F : fat c f (IE u nm a k :: F) =
  (if c =? u then f (IE u nm a k) else IE u nm a (fat c f k)) :: fat c f F.
Proof. reflexivity. Qed.

Lemma fdel_app l F G : fdel l (F ++ G) = fdel l F ++ fdel l G.
Proof. unfold fdel, kdel. now rewrite flat_map_app. Qed.
Lemma fat_app c f F G : fat c f (F ++ G) = fat c f F ++ fat c f G.
Proof. unfold fat. apply map_app. Qed.
Lemma fdel_map l F : fdel l F = map (idel l) (filter (fun c => negb (is_ l c)) F).
Proof.
  induction F as [|c F IH]; auto. unfold fdel, kdel in *. cbn [flat_map filter].
  destruct (is_ l c); cbn [negb app map]; now rewrite IH.
Qed.
Lemma idel_kids l n : ikids (idel l n) = fdel l (ikids n). Proof. now destruct n. Qed.
Lemma idel_uid l n : iuid (idel l n) = iuid n. Proof. now destruct n. Qed.
Lemma idel_name l n : iname (idel l n) = iname n. Proof. now destruct n. Qed.
Lemma idel_attrs l n : iattrs (idel l n) = iattrs n. Proof. now destruct n. Qed.
Lemma idel_tag l n : itag (idel l n) = itag n. Proof. now destruct n. Qed.
Lemma idel_is l x n : is_ x (idel l n) = is_ x n. Proof. now destruct n. Qed.
Lemma is_spec x n : is_ x n = true <-> itag n = true /\ iuid n = x.
Proof.
  destruct n; cbn; [split; [discriminate|intros [? ?]; discriminate]|].
  rewrite N.eqb_eq. split; [intros ->; auto|intros [_ ?]; auto].
Qed.
Lemma is_self n : itag n = true -> is_ (iuid n) n = true.
Proof. intros H. now apply is_spec. Qed.

(** ** Tags and numbers *)

Lemma uids_desc F : map iuid (fdesc F) = fuids F.
Proof.
  induction F as [|x F IH|u nm a k F IHk IH] using forest_ind; auto.
  rewrite fdesc_IE, fuids_IE. cbn [map iuid]. now rewrite map_app, IHk, IH.
Qed.
Lemma desc_tags F x : In x (fdesc F) -> itag x = true.
Proof.
  induction F as [|y F IH|u nm a k F IHk IH] using forest_ind; [intros []|exact IH|].
  rewrite fdesc_IE. intros [<-|H]; auto. apply in_app_or in H as [H|H]; auto.
Qed.
Lemma fget_find x F : fget x F = find (is_ x) (fdesc F).
Proof.
  induction F as [|y F IH|u nm a k F IHk IH] using forest_ind; auto.
  rewrite fget_IE, fdesc_IE. cbn [find is_]. destruct (x =? u); auto.
  rewrite IHk, IH. generalize (fdesc k) as l. induction l as [|c l IHl]; auto.
  cbn [app find]. destruct (is_ x c); auto.
Qed.
Lemma fget_In x F t : fget x F = Some t -> In t (fdesc F) /\ iuid t = x /\ itag t = true.
Proof.
  rewrite fget_find. intros H. apply find_some in H as [H H2]. apply is_spec in H2. tauto.
Qed.
Lemma fget_uid x F t : fget x F = Some t -> iuid t = x. Proof. intros H. now apply fget_In in H. Qed.
Lemma fget_tag x F t : fget x F = Some t -> itag t = true. Proof. intros H. now apply fget_In in H. Qed.
Lemma fget_None x F : fget x F = None <-> ~ In x (fuids F).
Proof.
  rewrite fget_find, <- uids_desc. split.
  - intros H Hi. apply in_map_iff in Hi as (t & <- & Ht).
    eapply find_none in H; eauto. pose proof (desc_tags _ _ Ht) as Hg.
    now rewrite is_self in H.
  - intros H. destruct (find (is_ x) (fdesc F)) as [t|] eqn:E; auto.
    apply find_some in E as [E1 E2]. apply is_spec in E2 as [_ <-].
    exfalso. apply H. now apply in_map.
Qed.
Lemma fget_ex x F : In x (fuids F) -> exists t, fget x F = Some t.
Proof.
  intros H. destruct (fget x F) eqn:E; eauto. now apply fget_None in E.
Qed.
Lemma fget_uids x F t : fget x F = Some t -> In x (fuids F).
Proof. intros H. rewrite <- uids_desc. apply fget_In in H as (H & <- & _). now apply in_map. Qed.

Lemma desc_trans F t x : In t (fdesc F) -> In x (idesc t) -> In x (fdesc F).
Proof.
  induction F as [|y F IH|u nm a k F IHk IH] using forest_ind; auto.
  rewrite fdesc_IE. intros [<-|H] Hx.
  - rewrite idesc_IE in Hx. right. apply in_or_app. now left.
  - right. apply in_or_app. apply in_app_or in H as [H|H]; auto.
Qed.
Lemma desc_uids F t : In t (fdesc F) -> incl (uids t) (fuids F).
Proof.
  intros H x Hx. pose proof (desc_tags _ _ H) as Hg. destruct t as [|u nm a k]; [discriminate|].
  rewrite uids_IE in Hx. destruct Hx as [<-|Hx].
  - rewrite <- uids_desc. change u with (iuid (IE u nm a k)). now apply in_map.
  - rewrite <- uids_desc in Hx. apply in_map_iff in Hx as (y & <- & Hy).
    rewrite <- uids_desc. apply in_map. eapply desc_trans; eauto.
Qed.
Lemma fget_desc F t : NoDup (fuids F) -> In t (fdesc F) -> fget (iuid t) F = Some t.
Proof.
  intros Hnd H. pose proof (desc_tags _ _ H) as Hg. rewrite <- uids_desc in Hnd. rewrite fget_find.
  revert Hnd H. generalize (fdesc F) as l. induction l as [|c l IH]; [contradiction|].
  cbn [map find]. intros Hnd [->|H].
  - now rewrite is_self.
  - inversion Hnd; subst. destruct (is_ (iuid t) c) eqn:E; auto.
    apply is_spec in E as [_ E]. exfalso. apply H2. rewrite E. now apply in_map.
Qed.
Lemma fget_inside F t x : NoDup (fuids F) -> In t (fdesc F) -> In x (uids t) -> fget x F = fget x [t].
Proof.
  intros Hnd H Hx. pose proof (desc_tags _ _ H) as Hg.
  destruct (fget x [t]) as [y|] eqn:E.
  - destruct (fget_In _ _ _ E) as (Hy & <- & _).
    apply fget_desc; auto. rewrite fdesc_one in Hy by auto. destruct Hy as [<-|Hy]; auto.
    eapply desc_trans; eauto.
  - apply fget_None in E. rewrite fuids_one in E. contradiction.
Qed.
Lemma NoDup_inside F t : NoDup (fuids F) -> In t (fdesc F) -> NoDup (uids t).
Proof.
  induction F as [|y F IH|u nm a k F IHk IH] using forest_ind; auto.
  - contradiction.
  - rewrite fdesc_IE, fuids_IE. intros Hnd [<-|H].
    + rewrite uids_IE. inversion Hnd; subst. constructor.
      * intros Hi. apply H1. apply in_or_app. now left.
      * now apply NoDup_app_parts in H2.
    + inversion Hnd; subst. apply in_app_or in H as [H|H].
      * apply IHk; auto. now apply NoDup_app_parts in H3.
      * apply IH; auto. now apply NoDup_app_parts in H3.
Qed.
Lemma NoDup_kids u nm a k F : NoDup (fuids (IE u nm a k :: F)) ->
  ~ In u (fuids k) /\ ~ In u (fuids F) /\ NoDup (fuids k) /\ NoDup (fuids F) /\
  (forall x, In x (fuids k) -> In x (fuids F) -> False).
Proof.
  rewrite fuids_IE. intros H. inversion H as [|? ? H1 H2]; subst.
  repeat split.
  - intros Hi; apply H1; apply in_or_app; now left.
  - intros Hi; apply H1; apply in_or_app; now right.
  - now apply NoDup_app_parts in H2.
  - now apply NoDup_app_parts in H2.
  - apply NoDup_app_parts in H2. apply H2.
Qed.

(** ** Deleting *)

Lemma fdel_notin l F : ~ In l (fuids F) -> fdel l F = F.
Proof.
  induction F as [|y F IH|u nm a k F IHk IH] using forest_ind; intros H; auto.
  - rewrite fdel_IT. now rewrite IH.
  - rewrite fuids_IE in H. rewrite fdel_IE. destruct (N.eqb_spec l u) as [->|Hne].
    + exfalso. apply H. now left.
    + rewrite IHk, IH; auto; intros Hi; apply H; right; apply in_or_app; auto.
Qed.
Lemma idel_notin l n : ~ In l (fuids (ikids n)) -> idel l n = n.
Proof. destruct n as [|u nm a k]; auto. cbn [ikids]. intros H. cbn [idel]. f_equal. now apply fdel_notin. Qed.

(** [mem]: membership among the numbers, as a boolean *)
Definition mem (x : N) (l : list N) : bool := existsb (N.eqb x) l.
Lemma mem_In x l : mem x l = true <-> In x l.
Proof.
  unfold mem. rewrite existsb_exists. split.
  - intros (y & H & E). apply N.eqb_eq in E. now subst.
  - intros H. exists x. split; auto. apply N.eqb_refl.
Qed.
Lemma mem_not x l : mem x l = false <-> ~ In x l.
Proof.
  split; intros H.
  - intros Hi. apply mem_In in Hi. congruence.
  - destruct (mem x l) eqn:E; auto. apply mem_In in E. contradiction.
Qed.

Definition outside (t : inode) (y : inode) : bool := negb (mem (iuid y) (uids t)).

Lemma filter_all {A} (p : A -> bool) l : (forall x, In x l -> p x = true) -> filter p l = l.
Proof.
  induction l as [|x l IH]; intros H; auto. cbn [filter]. rewrite (H x) by now left.
  f_equal. apply IH. intros y Hy. apply H. now right.
Qed.
Lemma filter_none {A} (p : A -> bool) l : (forall x, In x l -> p x = false) -> filter p l = [].
Proof.
  induction l as [|x l IH]; intros H; auto. cbn [filter]. rewrite (H x) by now left.
  apply IH. intros y Hy. apply H. now right.
Qed.

Lemma fdesc_fdel l F t : NoDup (fuids F) -> fget l F = Some t ->
  fdesc (fdel l F) = map (idel l) (filter (outside t) (fdesc F)).
Proof.
  induction F as [|y F IH|u nm a k F IHk IH] using forest_ind; intros Hnd Ht; [reflexivity|exact (IH Hnd Ht)|].
  - pose proof (NoDup_kids _ _ _ _ _ Hnd) as (H1 & H2 & H3 & H4 & H5).
    rewrite fget_IE in Ht. rewrite fdel_IE. rewrite (fdesc_IE u nm a k F). cbn [filter].
    destruct (N.eqb_spec l u) as [->|Hne].
    + injection Ht as <-. unfold outside at 1. cbn [iuid uids mem existsb]. rewrite N.eqb_refl. cbn [orb negb].
      rewrite fdel_notin by auto. rewrite filter_app.
      rewrite (filter_none _ (fdesc k)), (filter_all _ (fdesc F)); cbn [app].
      * rewrite <- (map_id (fdesc F)) at 1. apply map_ext_in. intros y Hy. symmetry. apply idel_notin.
        intros Hi. apply H2. pose proof (desc_tags _ _ Hy). destruct y as [|? ? ? ky]; [discriminate|].
        apply (desc_uids _ _ Hy). right. exact Hi.
      * intros y Hy. unfold outside. apply negb_true_iff, mem_not. rewrite uids_IE.
        assert (Hi : In (iuid y) (fuids F)) by (rewrite <- uids_desc; now apply in_map).
        intros [E|Hk]; [congruence|eauto].
      * intros y Hy. unfold outside. apply negb_false_iff, mem_In. rewrite uids_IE. right.
        rewrite <- uids_desc. now apply in_map.
    + destruct (fget l k) as [t'|] eqn:E.
      * injection Ht as ->.
        pose proof (desc_uids k t (proj1 (fget_In _ _ _ E))) as Hinc.
        unfold outside at 1. cbn [iuid]. rewrite (proj2 (mem_not u (uids t))) by (intros Hi; auto).
        cbn [negb map idel]. rewrite fdesc_IE. f_equal. rewrite filter_app, map_app, IHk by auto.
        rewrite (fdel_notin l F) by (intros Hi; apply (H5 l); auto; now apply fget_uids in E).
        f_equal. rewrite (filter_all _ (fdesc F)).
        -- rewrite <- (map_id (fdesc F)) at 1. apply map_ext_in. intros y Hy. symmetry. apply idel_notin.
           intros Hi. apply (H5 l); [now apply fget_uids in E|].
           pose proof (desc_tags _ _ Hy). destruct y as [|? ? ? ky]; [discriminate|].
           apply (desc_uids _ _ Hy). right. exact Hi.
        -- intros y Hy. unfold outside. apply negb_true_iff, mem_not. intros Hi.
           apply (H5 (iuid y)); [auto|]. rewrite <- uids_desc. now apply in_map.
      * apply fget_None in E.
        pose proof (desc_uids F t (proj1 (fget_In _ _ _ Ht))) as Hinc.
        unfold outside at 1. cbn [iuid]. rewrite (proj2 (mem_not u (uids t))) by (intros Hi; auto).
        cbn [negb map idel]. rewrite fdesc_IE. f_equal. rewrite filter_app, map_app, IH by auto.
        rewrite (fdel_notin l k) by auto. f_equal. rewrite (filter_all _ (fdesc k)).
        -- rewrite <- (map_id (fdesc k)) at 1. apply map_ext_in. intros y Hy. symmetry. apply idel_notin.
           intros Hi. apply E. pose proof (desc_tags _ _ Hy). destruct y as [|? ? ? ky]; [discriminate|].
           apply (desc_uids _ _ Hy). right. exact Hi.
        -- intros y Hy. unfold outside. apply negb_true_iff, mem_not. intros Hi.
           apply (H5 (iuid y)); [|auto]. rewrite <- uids_desc. now apply in_map.
Qed.

Lemma fget_fdel l F t x : NoDup (fuids F) -> fget l F = Some t -> ~ In x (uids t) ->
  fget x (fdel l F) = option_map (idel l) (fget x F).
Proof.
  intros Hnd Ht Hx. rewrite !fget_find, (fdesc_fdel l F t) by auto.
  generalize (fdesc F) as L. induction L as [|c L IH]; auto.
  cbn [filter find]. unfold outside at 1. destruct (mem (iuid c) (uids t)) eqn:E; cbn [negb].
  - destruct (is_ x c) eqn:E2; auto. apply is_spec in E2 as [_ E2]. apply mem_In in E. congruence.
  - cbn [map find]. rewrite idel_is. destruct (is_ x c); auto.
Qed.

Lemma fuids_fdel l F t : NoDup (fuids F) -> fget l F = Some t ->
  Permutation (fuids F) (uids t ++ fuids (fdel l F)).
Proof.
  induction F as [|y F IH|u nm a k F IHk IH] using forest_ind; intros Hnd Ht; [discriminate|exact (IH Hnd Ht)|].
  - pose proof (NoDup_kids _ _ _ _ _ Hnd) as (H1 & H2 & H3 & H4 & H5).
    rewrite fget_IE in Ht. rewrite fdel_IE, (fuids_IE u nm a k F).
    destruct (N.eqb_spec l u) as [->|Hne].
    + injection Ht as <-. rewrite uids_IE, (fdel_notin u F) by auto. reflexivity.
    + rewrite fuids_IE. destruct (fget l k) as [t'|] eqn:E.
      * injection Ht as ->. rewrite (fdel_notin l F) by (intros Hi; apply (H5 l); auto; now apply fget_uids in E).
        rewrite <- Permutation_middle. apply perm_skip. rewrite (IHk H3 eq_refl) at 1. now rewrite app_assoc.
      * apply fget_None in E. rewrite (fdel_notin l k) by auto.
        rewrite <- Permutation_middle. apply perm_skip. rewrite (IH H4 Ht) at 1.
        rewrite !app_assoc. apply Permutation_app_tail, Permutation_app_comm.
Qed.

Lemma fdel_NoDup l F : NoDup (fuids F) -> NoDup (fuids (fdel l F)).
Proof.
  intros H. destruct (fget l F) as [t|] eqn:E.
  - pose proof (fuids_fdel l F t H E) as HP. apply (Permutation_NoDup HP) in H. now apply NoDup_app_parts in H.
  - apply fget_None in E. now rewrite fdel_notin.
Qed.
Lemma fdel_disjoint l F t x : NoDup (fuids F) -> fget l F = Some t -> In x (uids t) -> ~ In x (fuids (fdel l F)).
Proof.
  intros Hnd Ht Hx Hi. pose proof (fuids_fdel l F t Hnd Ht) as HP. apply (Permutation_NoDup HP) in Hnd.
  apply NoDup_app_parts in Hnd as (_ & _ & Hd). eauto.
Qed.

(** ** Inserting *)

Lemma insert_nth_split {A} i (x : A) l : insert_nth i x l = firstn i l ++ x :: skipn i l.
Proof.
  revert l. induction i as [|i IH]; intros l; auto. destruct l; cbn; auto. now rewrite IH.
Qed.
Lemma iat_notin c f n : ~ In c (uids n) -> iat c f n = n.
Proof.
  induction n as [x|u nm a k IH] using inode_ind'; auto.
  rewrite uids_IE. intros H. cbn [iat]. destruct (N.eqb_spec c u) as [->|Hne]; [exfalso; apply H; now left|].
  f_equal. rewrite <- (map_id k) at 2. apply map_ext_in. intros y Hy.
  rewrite Forall_forall in IH. apply IH; auto. intros Hi. apply H. right.
  unfold fuids. apply in_flat_map. eauto.
Qed.
Lemma fat_notin c f F : ~ In c (fuids F) -> fat c f F = F.
Proof.
  intros H. unfold fat. rewrite <- (map_id F) at 2. apply map_ext_in. intros y Hy.
  apply iat_notin. intros Hi. apply H. apply in_flat_map. eauto.
Qed.

Definition tagpres (f : inode -> inode) : Prop := forall n, itag (f n) = itag n /\ iuid (f n) = iuid n.

Lemma iat_tag c f n : tagpres f -> itag (iat c f n) = itag n.
Proof. intros H. destruct n as [|u nm a k]; auto. cbn [iat]. destruct (c =? u); auto. apply H. Qed.
Lemma iat_uid c f n : tagpres f -> iuid (iat c f n) = iuid n.
Proof. intros H. destruct n as [|u nm a k]; auto. cbn [iat]. destruct (c =? u); auto. apply H. Qed.
Lemma iat_is c f n x : tagpres f -> is_ x (iat c f n) = is_ x n.
Proof.
  intros H. pose proof (iat_tag c f n H) as H1. pose proof (iat_uid c f n H) as H2.
  destruct (is_ x n) eqn:E.
  - apply is_spec in E as [E1 E2]. apply is_spec. split; congruence.
  - destruct (is_ x (iat c f n)) eqn:E'; auto. apply is_spec in E' as [E1 E2].
    assert (is_ x n = true) by (apply is_spec; split; congruence). congruence.
Qed.

(** The tags of the changed forest, around the changed tag *)
Lemma fdesc_fat c f F x : tagpres f -> NoDup (fuids F) -> fget c F = Some x ->
  exists pre post, fdesc F = pre ++ x :: idesc x ++ post /\
    fdesc (fat c f F) = map (iat c f) pre ++ f x :: idesc (f x) ++ map (iat c f) post /\
    ~ In c (map iuid pre) /\ ~ In c (fuids (ikids x)) /\ (forall y, In y post -> ~ In c (uids y)).
Proof.
  intros Hf. induction F as [|y F IH|u nm a k F IHk IH] using forest_ind; intros Hnd Hx.
  - discriminate.
  - rewrite fat_IT, !fdesc_IT. now apply IH.
  - pose proof (NoDup_kids _ _ _ _ _ Hnd) as (H1 & H2 & H3 & H4 & H5).
    rewrite fget_IE in Hx. rewrite fat_IE. rewrite (fdesc_IE u nm a k F).
    destruct (N.eqb_spec c u) as [->|Hne].
    + injection Hx as <-. exists [], (fdesc F). cbn [map app ikids]. rewrite idesc_IE.
      split; [reflexivity|]. split.
      * pose proof (proj1 (Hf (IE u nm a k))) as Hg. destruct (f (IE u nm a k)) as [|u' nm' a' k'] eqn:Ef; [discriminate|].
        rewrite fdesc_IE, idesc_IE. f_equal. f_equal.
        rewrite fat_notin by auto. rewrite <- (map_id (fdesc F)) at 1. apply map_ext_in. intros y Hy.
        symmetry. apply iat_notin. intros Hi. apply H2. now apply (desc_uids _ _ Hy).
      * split; [auto|]. split; [auto|]. intros y Hy Hi. apply H2. now apply (desc_uids _ _ Hy).
    + rewrite fdesc_IE. destruct (fget c k) as [x'|] eqn:E.
      * injection Hx as ->. destruct (IHk H3 eq_refl) as (pre & post & E1 & E2 & E3 & E4 & E5).
        assert (Hc : ~ In c (fuids F)) by (intros Hi; apply (H5 c); auto; now apply fget_uids in E).
        exists (IE u nm a k :: pre), (post ++ fdesc F). rewrite E1, E2. cbn [map app iat iuid].
        destruct (N.eqb_spec c u); [contradiction|].
        split; [now rewrite <- !app_assoc; cbn [app]; rewrite <- app_assoc|]. split.
        -- f_equal. rewrite <- app_assoc. cbn [app]. rewrite <- app_assoc. rewrite map_app. f_equal. f_equal. f_equal. f_equal.
           rewrite fat_notin by auto. rewrite <- (map_id (fdesc F)) at 1. apply map_ext_in. intros y Hy.
           symmetry. apply iat_notin. intros Hi. apply Hc. now apply (desc_uids _ _ Hy).
        -- split; [intros [?|Hi]; auto|]. split; [auto|]. intros y Hy Hi.
           apply in_app_or in Hy as [Hy|Hy]; [exact (E5 y Hy Hi)|]. apply Hc. now apply (desc_uids _ _ Hy).
      * apply fget_None in E. destruct (IH H4 Hx) as (pre & post & E1 & E2 & E3 & E4 & E5).
        exists (IE u nm a k :: fdesc k ++ pre), post. rewrite E1, E2. cbn [map app iat iuid].
        destruct (N.eqb_spec c u); [contradiction|].
        split; [now rewrite <- app_assoc|]. split.
        -- f_equal. rewrite map_app, <- app_assoc. f_equal.
           rewrite fat_notin by auto. rewrite <- (map_id (fdesc k)) at 1. apply map_ext_in. intros y Hy.
           symmetry. apply iat_notin. intros Hi. apply E. now apply (desc_uids _ _ Hy).
        -- split; [|auto]. intros [?|Hi]; auto. rewrite map_app in Hi. apply in_app_or in Hi as [Hi|Hi]; auto.
           rewrite uids_desc in Hi. auto.
Qed.
