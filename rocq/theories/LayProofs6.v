(** Proofs: what moves leave alone, indexes, items(), and assigning to parameter fields. *)
From Verif Require Import LayModel DocProofs DocProofs2 LaySpec LayProofs LayProofs2 LayProofs3 LayProofs4 LayProofs5.
From Coq Require Import Permutation Lia.
Local Open Scope N_scope.

(** ** Everything but the layer moved *)

Definition spares (l : N) (F F' : forest) : Prop := wf F -> same_but_space (fdel l F) (fdel l F').
Lemma spares_refl l F : spares l F F. Proof. intros _. reflexivity. Qed.
Lemma spares_put l F t p i : fget l F = Some t -> spares l F (fst (put_in F (fdel l F) p i t)).
Proof.
  intros Hl W. unfold put_in. destruct (fget p (fdel l F)) as [x|] eqn:E; [|reflexivity]. cbn [fst].
  unfold same_but_space. symmetry. f_equal. now apply (mv_del F l p t i).
Qed.
Lemma spares_tag_insert F p i u : spares u F (fst (tag_insert F p i u)).
Proof.
  unfold tag_insert. destruct (u =? p); [apply spares_refl|]. destruct (fget u F) as [t|] eqn:E; [|apply spares_refl].
  destruct (fget p F); [now apply spares_put|apply spares_refl].
Qed.
Lemma spares_tag_append F p u : spares u F (fst (tag_append F p u)).
Proof. unfold tag_append. destruct (fget p F); [apply spares_tag_insert|apply spares_refl]. Qed.
Lemma spares_beside off F b u : spares u F (fst (insert_beside off F b u)).
Proof.
  unfold insert_beside. destruct (fparent b F) as [[|p pn pa pk]|]; [apply spares_refl| |apply spares_refl].
  destruct (u =? b); [apply spares_refl|]. destruct (fget u F) as [t|] eqn:E; [|apply spares_refl].
  destruct (fget p (fdel u F)) as [x|]; [|apply spares_refl].
  destruct (index_of b (ikids x)); [now apply spares_put|apply spares_refl].
Qed.
Lemma spares_text_after l F b : spares l F (fst (insert_text_after F b nl)).
Proof.
  intros W. apply same_space_del. unfold insert_text_after. destruct (fparent b F) as [[|p pn pa pk]|] eqn:E; [|destruct (index_of b _); [|reflexivity]|reflexivity].
  - destruct (index_of b _); reflexivity.
  - unfold put_in. destruct (fget p F) as [y|] eqn:Ep; [now apply ins_text_space|reflexivity].
Qed.
Lemma spares_andthen l F c k : (wf F -> wf (fst c)) -> spares l F (fst c) -> (forall G, spares l G (fst (k G))) -> spares l F (fst (andthen c k)).
Proof.
  intros HW H1 H2. destruct c as [G [x|e]]; cbn [andthen fst] in *; auto. intros W. eapply same_space_trans; [now apply H1|]. apply H2. now apply HW.
Qed.
Lemma spares_do_move F m : spares (moved_layer m) F (do_move F m).
Proof.
  destruct m as [kd g l|kd g i l]; unfold do_move; cbn [try_move moved_layer].
  - unfold group_append. destruct kd; try apply spares_refl.
    all: destruct (fget g F) as [n|]; [|apply spares_refl]; destruct (canvas_of _ n) as [c|]; [|apply spares_refl];
      destruct (find is_layer (ikids c)); [apply spares_beside|apply spares_tag_append].
  - unfold group_insert. destruct kd; try apply spares_refl.
    all: destruct (fget g F) as [n|]; [|apply spares_refl]; destruct (group_index _ n i) as [b|]; [|apply spares_refl].
    all: apply spares_andthen; [intros W; now apply keeps_text_after|apply spares_text_after|]; intros G;
         apply spares_andthen; [intros W; now apply keeps_beside|apply spares_beside|]; intros K; apply spares_text_after.
Qed.

(** ** insert at an index *)

Lemma without_out l x : ~ In l x -> without l x = x.
Proof.
  unfold without. induction x as [|y x IH]; auto. cbn [filter]. intros H. destruct (N.eqb_spec l y) as [->|]; [exfalso; apply H; now left|].
  cbn [negb]. f_equal. apply IH. intros Hi. apply H. now right.
Qed.
Lemma split_at (x : list N) A b B k : NoDup x -> x = A ++ b :: B -> nth_error x k = Some b -> A = firstn k x /\ b :: B = skipn k x.
Proof.
  intros Hn -> Hk. assert (k = length A) as ->.
  { apply (NoDup_nth_error (A ++ b :: B)); auto.
    - apply nth_error_Some. congruence.
    - rewrite Hk, nth_error_app2, Nat.sub_diag by lia. reflexivity. }
  rewrite firstn_app, skipn_app, firstn_all, skipn_all, Nat.sub_diag. cbn. now rewrite app_nil_r.
Qed.
Lemma children_nodup F kd g n ch : wf F -> fget g F = Some n -> kd <> KPlain -> children kd n = Ok ch -> NoDup (ids ch).
Proof.
  intros Hw Hg Hk Hch. destruct (children_canvas kd n ch Hch Hk) as (c & Hc & -> & _).
  destruct (canvas_known kd n c F g Hw Hg Hc) as (Hcf & Hct & Hcd).
  assert (Hcn : NoDup (uids c)) by now apply (NoDup_inside F).
  unfold layers_in. rewrite ids_rev. apply NoDup_rev. destruct c as [|cu cn ca ck]; [discriminate|]. rewrite uids_IE in Hcn.
  inversion Hcn as [|? ? _ Hck]; subst. cbn [ikids]. clear -Hck.
  change (NoDup (fuids (ck : forest))) in Hck. revert Hck. enough (G : forall L : forest, NoDup (fuids L) -> NoDup (ids (filter is_layer L))) by auto. clear ck. intros ck Hck.
  induction ck as [|y ck IH|v nm a k F IHk IH] using forest_ind; [constructor|now apply IH|].
  rewrite fuids_IE in Hck. inversion Hck as [|? ? H1 H2]; subst.
  assert (H3 : NoDup (fuids F)) by (clear -H2; induction (fuids k) as [|z l IHl]; auto; cbn in H2; inversion H2; auto).
  cbn [filter]. destruct (is_layer (IE v nm a k)); [|now apply IH]. cbn [ids map iuid]. constructor; [|now apply IH].
  intros Hi. apply H1, in_or_app. right. apply in_map_iff in Hi as (z & Ez & Hz). apply filter_In in Hz as [Hz Hl]. rewrite <- Ez.
  apply in_flat_map. exists z. split; auto. apply tag_uid. now apply is_layer_tag.
Qed.

Lemma ids_nth ch k b : nth_error ch k = Some b -> nth_error (ids ch) k = Some (iuid b).
Proof. intros H. unfold ids. now apply map_nth_error. Qed.

(** ** items *)

Lemma is_param_spec f p : is_param f p = true -> named (s "param") p = true /\ forall x, aget (s "name") (iattrs p) = Some (AStr x) -> x = f.
Proof.
  intros H. split; [now apply (param_named f)|]. unfold is_param, has_name_attr in H. apply andb_prop in H as [_ H]. apply andb_prop in H as [_ H].
  cbn [tag_attrs] in H. intros x Hx. rewrite Hx in H. now apply pstr_eqb_spec in H.
Qed.
Lemma filter_tag_param n : filter (named (s "param")) (filter itag (ikids n)) = filter (named (s "param")) (ikids n).
Proof.
  induction (ikids n) as [|x l IH]; auto. cbn [filter]. destruct (itag x) eqn:E; cbn [filter]; [now rewrite IH|].
  destruct x; [|discriminate]. cbn. exact IH.
Qed.
Lemma mapM_In {A B} (f : A -> res B) l r : mapM f l = Ok r -> forall x, In x l -> exists y, f x = Ok y /\ In y r.
Proof.
  revert r. induction l as [|a l IH]; intros r H x; [contradiction|]. cbn [mapM] in H. destruct (f a) as [b|] eqn:E; [|discriminate]. cbn [bind] in H.
  destruct (mapM f l) as [r'|] eqn:Er; [|discriminate]. cbn [bind] in H. injection H as <-. intros [->|Hx].
  - exists b. split; auto. now left.
  - destruct (IH r' eq_refl x Hx) as (y & Hy & Hi). exists y. split; auto. now right.
Qed.
Lemma mapM_In_rev {A B} (f : A -> res B) l r : mapM f l = Ok r -> forall y, In y r -> exists x, In x l /\ f x = Ok y.
Proof.
  revert r. induction l as [|a l IH]; intros r H y; cbn [mapM] in H; [injection H as <-; contradiction|]. destruct (f a) as [b|] eqn:E; [|discriminate]. cbn [bind] in H.
  destruct (mapM f l) as [r'|] eqn:Er; [|discriminate]. cbn [bind] in H. injection H as <-. intros [->|Hy].
  - exists a. split; auto. now left.
  - destruct (IH r' eq_refl y Hy) as (x & Hx & Hf). exists x. split; auto. now right.
Qed.
Definition item (p : inode) : res (pstr * (inode * vcls)) :=
  let* v := value_of p in match aget (s "name") (iattrs p) with Some (AStr x) => Ok (x, v) | _ => Err EUnmodelled end.
Lemma item_inv p x v : item p = Ok (x, v) -> value_of p = Ok v /\ aget (s "name") (iattrs p) = Some (AStr x).
Proof.
  unfold item. destruct (value_of p) as [w|]; [|discriminate]. cbn [bind]. destruct (aget (s "name") (iattrs p)) as [[y| | |]|]; try discriminate.
  intros [= -> ->]. auto.
Qed.
Lemma items_keys n L : mapM item L = Ok n -> map (fun p => aget (s "name") (iattrs p)) L = map (fun kv => Some (AStr (fst kv))) n.
Proof.
  revert n. induction L as [|p L IH]; intros n H; cbn [mapM] in H; [injection H as <-; auto|].
  destruct (item p) as [[x v]|] eqn:E; [|discriminate]. cbn [bind] in H. destruct (mapM item L) as [r|]; [|discriminate]. injection H as <-.
  apply item_inv in E as [_ E]. cbn [map fst]. rewrite E, (IH r); auto.
Qed.
Lemma items_inv n l : layer_items n = Ok l -> NoDup (param_names n) ->
  exists r, l = r /\ mapM item (filter (named (s "param")) (ikids n)) = Ok r /\ NoDup (map fst r).
Proof.
  unfold layer_items, ifind_children. rewrite filter_tag_param. fold item. change (mapM _ ?x) with (mapM item x).
  destruct (mapM item (filter (named (s "param")) (ikids n))) as [r|] eqn:E; [|discriminate]. cbn [bind]. intros [= <-] Hn.
  exists r. assert (NoDup (map fst r)).
  { unfold param_names in Hn. rewrite (items_keys r _ E) in Hn. rewrite <- (map_map fst (fun k => Some (AStr k))) in Hn. now apply NoDup_map_inv in Hn. }
  split; [now apply adict_id|auto].
Qed.
Lemma own_item n f p l : layer_items n = Ok l -> NoDup (param_names n) -> own_param n f p ->
  exists v, aget f l = Some v /\ value_of p = Ok v.
Proof.
  intros Hi Hn (k1 & k2 & E & Hp & _). destruct (items_inv n l Hi Hn) as (r & -> & Hr & Hnd).
  apply is_param_spec in Hp as [Hp Ha].
  destruct (mapM_In _ _ _ Hr p) as ([x v] & Hx & Hin).
  { apply filter_In. split; auto. rewrite E. apply in_or_app. right. now left. }
  apply item_inv in Hx as [Hv Hx]. apply Ha in Hx. subst x. exists v. split; auto. now apply In_aget.
Qed.
Lemma item_own n f v l : layer_items n = Ok l -> NoDup (param_names n) -> aget f l = Some v ->
  exists p, In p (ikids n) /\ is_param f p = true /\ value_of p = Ok v.
Proof.
  intros Hi Hn Ha. destruct (items_inv n l Hi Hn) as (r & -> & Hr & Hnd). apply aget_In in Ha.
  destruct (mapM_In_rev _ _ _ Hr _ Ha) as (p & Hp & Hv). apply filter_In in Hp as [Hp Hnm]. apply item_inv in Hv as [Hv Hx].
  exists p. split; auto. split; auto. unfold named in Hnm. apply andb_prop in Hnm as [Ht Hnm]. unfold is_param, has_name_attr. rewrite Ht. cbn [tag_attrs andb].
  rewrite Hx, pstr_eqb_refl, andb_true_r. exact Hnm.
Qed.

(** ** Assigning to the field of a parameter *)

Definition written (F : forest) (m : node) (n : inode) : inode :=
  match n, m with IE v _ _ _, El nm a k => IE v nm a (fst (label_all (fresh F) k)) | _, _ => n end.
Lemma written_pres F m : tagpres (written F m).
Proof. intros [x|u nm a k]; destruct m; repeat split. Qed.

Lemma fat_fput w f F x : wf F -> fget w F = Some x -> fat w f F = fput w (f x) F.
Proof.
  unfold wf. induction F as [|y F IH|u nm a k F IHk IH] using forest_ind; intros Hnd Hx.
  - discriminate.
  - rewrite fat_IT. cbn [fput map]. fold (fput w (f x) F). f_equal. now apply IH.
  - pose proof (NoDup_kids _ _ _ _ _ Hnd) as (H1 & H2 & H3 & H4 & H5). rewrite fget_IE in Hx. rewrite fat_IE. cbn [fput map]. fold (fput w (f x) F). cbn [is_].
    destruct (N.eqb_spec w u) as [->|Hne].
    + injection Hx as <-. rewrite fat_notin, fput_notin; auto.
    + cbn [iput]. fold (fput w (f x) k). destruct (fget w k) as [y|] eqn:E.
      * injection Hx as ->. rewrite IHk; auto. pose proof (fget_uids _ _ _ E) as Hi.
        rewrite (fat_notin w f F), (fput_notin w (f x) F); auto; intros Hi'; now apply (H5 w).
      * rewrite (fat_notin w f k), (fput_notin w _ k); [|intros Hi; apply fget_None in E; contradiction..]. now rewrite IH.
Qed.

Lemma iat_other c f n : tagpres f -> iuid n <> c -> itag (iat c f n) = itag n /\ iname (iat c f n) = iname n /\ iattrs (iat c f n) = iattrs n.
Proof. intros Hf Hn. destruct n as [|u nm a k]; auto. cbn [iat]. cbn [iuid] in Hn. destruct (N.eqb_spec c u); [congruence|auto]. Qed.

Lemma label_all_ok k : forall v, map forget (fst (label_all v k)) = k /\ v <= snd (label_all v k) /\ NoDup (fuids (fst (label_all v k))) /\
  (forall x, In x (fuids (fst (label_all v k))) -> v <= x < snd (label_all v k)).
Proof.
  induction k as [|c k IH]; intros v.
  - cbn. split; [auto|]. split; [lia|]. split; [constructor|contradiction].
  - cbn [label_all]. destruct (label_ok c v) as (A & B & C & D & _). destruct (label v c) as [c' u1]. cbn [fst snd] in *.
    destruct (IH u1) as (A1 & B1 & C1 & D1). destruct (label_all u1 k) as [r u2]. cbn [fst snd] in *.
    split; [cbn; congruence|]. split; [lia|]. change (fuids (c' :: r)) with (uids c' ++ fuids r). split.
    + clear A A1 IH. induction (uids c') as [|y l IHl]; auto. cbn [app]. inversion C; subst. constructor.
      * intros Hi. apply in_app_or in Hi as [Hi|Hi]; [contradiction|]. apply D1 in Hi. assert (v <= y < u1) by (apply D; now left). lia.
      * apply IHl; auto. intros x Hx. apply D. now right.
    + intros x Hx. apply in_app_or in Hx as [Hx|Hx]; [apply D in Hx|apply D1 in Hx]; lia.
Qed.

Section Write.
  Context (F : forest) (w : N) (x : inode) (m : node) (W : wf F) (Hx : fget w F = Some x) (Hm : is_tag m = true).
  Let f := written F m.
  Let F' := fat w f F.

  Lemma wr_tag : itag (f x) = true /\ iuid (f x) = w /\ forget (f x) = m /\ NoDup (uids (f x)) /\ forall y, In y (fuids (ikids (f x))) -> ~ In y (fuids F).
  Proof.
    pose proof (fget_In _ _ _ Hx) as (Hd & Hu & Ht). destruct x as [|xu xn xa xk]; [discriminate|]. cbn [iuid] in Hu. subst xu.
    destruct m as [|nm a k]; [discriminate|]. unfold f. cbn [written itag iuid forget ikids].
    destruct (label_all_ok k (fresh F)) as (A & _ & B & C).
    split; [auto|]. split; [auto|]. split; [now rewrite A|]. rewrite uids_IE. split.
    - constructor; auto. intros Hi. apply C in Hi. apply fget_uids, fresh_new in Hx. lia.
    - intros y Hy Hi. apply C in Hy. apply fresh_new in Hi. lia.
  Qed.
  Lemma wr_wf : wf F'.
  Proof.
    destruct (fdesc_fat w f F x (written_pres F m) W Hx) as (pre & post & E1 & E2 & E3 & E4 & E5).
    pose proof wr_tag as (T1 & T2 & T3 & T4 & T5). unfold wf in *. rewrite <- uids_desc. rewrite <- uids_desc in W. rewrite E1 in W. unfold F'. rewrite E2.
    assert (M : forall L, map iuid (map (iat w f) L) = map iuid L) by (intros L; rewrite map_map; apply map_ext; intros; apply iat_uid, written_pres).
    rewrite map_app in *. cbn [map] in *. rewrite map_app in *. rewrite !M, T2.
    pose proof (fget_In _ _ _ Hx) as (Hd & Hu & Ht). rewrite Hu in W.
    assert (Eu : map iuid (idesc (f x)) = fuids (ikids (f x))) by (rewrite idesc_kids by auto; apply uids_desc).
    rewrite Eu. assert (N1 : NoDup (fuids (ikids (f x)))).
    { destruct (f x) as [|fu fn fa fk]; [constructor|]. rewrite uids_IE in T4. now inversion T4. }
    assert (N2 : ~ In w (fuids (ikids (f x)))).
    { intros Hi. apply (T5 w Hi). now apply fget_uids in Hx. }
    assert (Hpre : forall y, In y (map iuid pre) -> In y (fuids F)) by (intros y Hy; rewrite <- uids_desc, E1, map_app; apply in_or_app; now left).
    assert (Hpost : forall y, In y (map iuid post) -> In y (fuids F)).
    { intros y Hy. rewrite <- uids_desc, E1, map_app. cbn [map]. rewrite map_app. apply in_or_app. right. right. apply in_or_app. now right. }
    clear -W N1 N2 T5 Hpre Hpost. set (P := map iuid pre) in *. set (Q := map iuid post) in *. set (D := map iuid (idesc x)) in *. set (L := fuids (ikids (f x))) in *.
    assert (G1 : NoDup (L ++ Q)).
    { assert (NQ : NoDup Q) by (apply NoDup_app_parts in W as (_ & W & _); inversion W; subst; now apply NoDup_app_parts in H2).
      clear -N1 NQ T5 Hpost. induction L as [|y L IH]; auto. cbn [app]. inversion N1; subst. constructor.
      - intros Hi. apply in_app_or in Hi as [Hi|Hi]; auto. apply (T5 y); [now left|auto].
      - apply IH; auto. intros z Hz. apply T5. now right. }
    assert (G2 : NoDup (w :: L ++ Q)).
    { constructor; auto. intros Hi. apply in_app_or in Hi as [Hi|Hi]; auto. apply NoDup_app_parts in W as (_ & W & _). inversion W; subst. apply H1, in_or_app. now right. }
    clear -W G2 T5 Hpre. induction P as [|y P IH]; auto. cbn [app] in *. inversion W; subst. constructor.
    - intros Hi. apply in_app_or in Hi as [Hi|[->|Hi]].
      + apply H1, in_or_app. now left.
      + apply H1, in_or_app. right. now left.
      + apply in_app_or in Hi as [Hi|Hi].
        * apply (T5 y Hi), Hpre. now left.
        * apply H1, in_or_app. right. right. apply in_or_app. now right.
    - apply IH; auto. intros z Hz. apply Hpre. now right.
  Qed.
  Lemma wr_get u n : fget u F = Some n -> u <> w -> ~ In u (uids x) -> fget u F' = Some (iat w f n).
  Proof.
    intros Hu Hne Hni. destruct (fdesc_fat w f F x (written_pres F m) W Hx) as (pre & post & E1 & E2 & E3 & E4 & E5).
    pose proof wr_tag as (T1 & T2 & T3 & T4 & T5). unfold F'. rewrite fget_find, E2. rewrite fget_find, E1 in Hu.
    rewrite find_app in *. rewrite find_iat by apply written_pres. destruct (find (is_ u) pre) as [y|]; cbn [option_map]; [congruence|].
    pose proof (fget_In _ _ _ Hx) as (Hd & Hxu & Ht).
    assert (I1 : is_ u x = false) by (destruct (is_ u x) eqn:E; auto; apply is_spec in E as [_ E]; congruence).
    assert (I2 : is_ u (f x) = false) by (destruct (is_ u (f x)) eqn:E; auto; apply is_spec in E as [_ E]; congruence).
    cbn [find] in *. rewrite I1 in Hu. rewrite I2. rewrite find_app in *. rewrite find_iat by apply written_pres.
    assert (find (is_ u) (idesc x) = None) as E0.
    { rewrite idesc_kids, <- fget_find by auto. apply fget_None. intros Hi. apply Hni. destruct x; [discriminate|]. now right. }
    assert (find (is_ u) (idesc (f x)) = None) as ->.
    { rewrite idesc_kids, <- fget_find by auto. apply fget_None. intros Hi. apply (T5 u Hi).
      rewrite E0 in Hu. apply find_some in Hu as [Hu Hs]. apply is_spec in Hs as [_ Hs]. rewrite <- uids_desc, E1, map_app. cbn [map]. rewrite map_app.
      apply in_or_app. right. right. apply in_or_app. right. rewrite <- Hs. now apply in_map. }
    rewrite E0 in Hu. now rewrite Hu.
  Qed.
End Write.

Lemma ifind_write q n w f p x : shallow q -> tagpres f -> NoDup (uids n) -> ifind q n = Some p -> In x (ikids p) -> itag x = true -> iuid x = w ->
  ifind q (iat w f n) = Some (iat w f p).
Proof.
  intros Hq Hf Hnd Hp Hx Hxt Hxu. destruct n as [|u nm a k]; [discriminate|].
  rewrite uids_IE in Hnd. inversion Hnd as [|? ? Hu Hk]; subst.
  unfold ifind, ifind_all in *. rewrite idesc_IE in Hp. pose proof (hd_filter_In _ _ _ Hp) as [Hin _].
  assert (Hxp : In x (idesc p)).
  { rewrite idesc_kids by (apply (desc_tags _ _ Hin)). apply in_split in Hx as (k1 & k2 & ->). rewrite fdesc_app. apply in_or_app. right.
    destruct x; [discriminate|]. rewrite fdesc_IE. now left. }
  assert (Hxk : In x (fdesc k)) by (eapply desc_trans; eauto).
  assert (Hxu : In (iuid x) (fuids k)) by (rewrite <- uids_desc; now apply in_map).
  cbn [iat]. destruct (N.eqb_spec (iuid x) u) as [E|_]; [subst u; contradiction|]. rewrite idesc_IE. change (map (iat (iuid x) f) k) with (fat (iuid x) f k).
  pose proof (fget_desc k x Hk Hxk) as Hxf.
  destruct (fdesc_fat (iuid x) f k x Hf Hk Hxf) as (pre & post & E1 & E2 & E3 & E4 & E5).
  assert (Hxx : In (iuid x) (uids x)) by now apply tag_uid.
  assert (Hnp : NoDup (uids p)) by now apply (NoDup_inside k).
  assert (Hpp : In p pre).
  { rewrite E1 in Hin. apply in_app_or in Hin as [Hin|[<-|Hin]]; auto.
    - exfalso. apply (idesc_not_self x x Hxp Hnp). exact Hxx.
    - exfalso. apply in_app_or in Hin as [Hin|Hin].
      + apply E4. destruct x as [|xu xn xa xk]; [contradiction|]. rewrite idesc_IE in Hin. cbn [ikids iuid].
        apply (desc_uids _ _ Hin). destruct p as [|pu pn pa pk]; [contradiction|]. rewrite uids_IE. right. rewrite <- uids_desc. apply in_map_iff. eexists. split; [|exact Hxp]. reflexivity.
      + apply (E5 p Hin). destruct p as [|pu pn pa pk]; [contradiction|]. rewrite uids_IE. right. rewrite <- uids_desc. now apply in_map. }
  rewrite E1, hd_filter_app in Hp. rewrite E2, hd_filter_app.
  assert (Hq' : forall y, In y pre -> q (iat (iuid x) f y) = q y).
  { intros y Hy. assert (iuid y <> iuid x) as Hne by (intros E; apply E3; rewrite <- E; now apply in_map).
    destruct (iat_other (iuid x) f y Hf Hne) as (A & B & C). now apply Hq. }
  clear -Hp Hpp Hq'. assert (Hpq : hd_error (filter q pre) = Some p).
  { destruct (hd_error (filter q pre)) as [y|] eqn:E; auto. exfalso.
    assert (filter q pre = []) as E0 by (destruct (filter q pre); [auto|discriminate]).
    assert (q p = true) as Hqp by (now apply hd_filter_In in Hp as [_ Hp]).
    assert (In p (filter q pre)) as Hi by now apply filter_In. rewrite E0 in Hi. contradiction. }
  assert (hd_error (filter q (map (iat (iuid x) f) pre)) = Some (iat (iuid x) f p)) as ->; [|reflexivity].
  clear Hp Hpp. induction pre as [|y pre IH]; [discriminate|]. cbn [map filter] in *. rewrite Hq' by now left.
  destruct (q y); [now injection Hpq as ->|]. apply IH; auto. intros z Hz. apply Hq'. now right.
Qed.

Lemma param_get_inv F n k w c : param_get F n k = Ok (w, c) -> exists p, ifind (is_param k) n = Some p /\ filter itag (ikids p) = [w] /\ from_tag (forget w) = Ok c.
Proof.
  unfold param_get. destruct (ifind (is_param k) n) as [p|]; [|discriminate]. destruct (filter itag (ikids p)) as [|x [|]] eqn:E; try discriminate.
  destruct (from_tag (forget x)) eqn:Ef; [|discriminate]. cbn [bind]. intros [= -> ->]. eauto.
Qed.
Lemma filter_iat_kids w f k x : tagpres f -> iuid x = w -> filter itag k = [x] -> filter itag (map (iat w f) k) = [f x].
Proof.
  intros Hf Hu. revert x Hu. induction k as [|y k IH]; [discriminate|]. intros x Hu. cbn [filter map]. rewrite iat_tag by auto. destruct (itag y) eqn:E.
  - intros [= -> H]. rewrite iat_self by (apply is_spec; auto). f_equal.
    assert (Hn : forall z, In z k -> itag z = false).
    { intros z Hz. destruct (itag z) eqn:Ez; auto. assert (In z (filter itag k)) as Hi by now apply filter_In. rewrite H in Hi. contradiction. }
    apply filter_none. intros z Hz. apply in_map_iff in Hz as (z' & <- & Hz). rewrite iat_tag; auto.
  - now apply IH.
Qed.

Lemma param_set_is F u n k v w c m r : wf F -> fget u F = Some n -> param_get F n k = Ok (w, c) -> set_value c (forget w) v = (m, r) -> is_tag m = true ->
  exists w', iuid w' = iuid w /\ forget w' = m /\ (forall y, In y (fuids (ikids w')) -> ~ In y (fuids F)) /\
    let F' := fput (iuid w) w' F in
    param_set F n k v = (F', r) /\ wf F' /\
    exists n', fget u F' = Some n' /\ iname n' = iname n /\ iattrs n' = iattrs n /\ param_get F' n' k = (let* c' := from_tag m in Ok (w', c')).
Proof.
  intros W Hu Hg Hs Hm. destruct (param_get_inv _ _ _ _ _ Hg) as (p & Hp & Hk & Hc).
  pose proof (ifind_In _ _ _ Hp) as [Hpn Hpp]. pose proof (param_tag _ _ Hpp) as Hpt.
  pose proof (fget_In _ _ _ Hu) as (Hun & Huu & Hnt).
  assert (Hpd : In p (fdesc F)) by (eapply desc_trans; eauto).
  assert (Hwk : In w (ikids p) /\ itag w = true) by (apply filter_In; rewrite Hk; now left). destruct Hwk as [Hwk Hwt].
  assert (Hwd : In w (fdesc F)) by now apply (kid_desc F p).
  pose proof (fget_desc F w W Hwd) as Hwf.
  assert (Hwn : In w (idesc n)) by (destruct n as [|nu nn na nk]; [contradiction|]; rewrite idesc_IE in *; now apply (kid_desc nk p)).
  pose proof (wr_tag F (iuid w) w m Hwf Hm) as (T1 & T2 & T3 & T4 & T5).
  exists (written F m w). split; [auto|]. split; [auto|]. split; [auto|]. intros F'.
  assert (EF : fat (iuid w) (written F m) F = F') by now apply fat_fput.
  assert (Hnu : ~ In u (uids w)) by (rewrite <- Huu; apply (idesc_not_self w n Hwn); now apply (NoDup_inside F)).
  assert (Hne : u <> iuid w) by (intros E; apply Hnu; rewrite E; now apply tag_uid).
  split; [|split].
  - unfold param_set. rewrite Hg, Hs. unfold write_tag. change (fat (iuid w) _ F) with (fat (iuid w) (written F m) F). now rewrite EF.
  - rewrite <- EF. now apply wr_wf with (x := w).
  - exists (iat (iuid w) (written F m) n). rewrite <- EF. split; [now apply (wr_get F (iuid w) w m)|].
    destruct (iat_other (iuid w) (written F m) n (written_pres F m)) as (_ & A & B); [congruence|]. split; [auto|]. split; [auto|].
    unfold param_get. rewrite (ifind_write _ n (iuid w) _ p w (is_param_shallow k) (written_pres F m) (NoDup_inside F n W Hun) Hp Hwk Hwt eq_refl).
    destruct p as [|pu pn pa pk]; [discriminate|]. cbn [iat]. assert ((iuid w =? pu) = false) as ->.
    { apply N.eqb_neq. intros E. pose proof (NoDup_inside F _ W Hpd) as Hnd. rewrite uids_IE in Hnd. inversion Hnd as [|? ? H1 H2]; subst.
      apply H1. cbn [ikids] in Hwk. apply in_split in Hwk as (k1 & k2 & ->). rewrite fuids_app. apply in_or_app. right.
      destruct w; [discriminate|]. rewrite fuids_IE. now left. }
    cbn [ikids] in *. rewrite (filter_iat_kids (iuid w) (written F m) pk w (written_pres F m) eq_refl Hk). now rewrite T3.
Qed.

Lemma set_value_tag c n v : is_tag n = true -> is_tag (fst (set_value c n v)) = true.
Proof.
  intros Hn. destruct c; cbn [set_value]; unfold simple_set, string_set, color_set, vector_set, composite_set, gradient_set, gradient_set_dict, canvas_set; auto.
  all: try (destruct (simple_str _ v); auto; fail).
  - destruct (py_str v); auto.
  - destruct (color_conv v); auto.
  - destruct (vector_members v); auto. destruct (py_items v) as [[|]|]; auto; destruct (vector_append _ _); auto.
  - destruct (py_items v) as [[l|]|]; auto. destruct (str_keys l); auto. destruct (forallb _ _); auto. destruct (composite_append _ _); auto.
  - destruct v; auto.
    + destruct (_ <? _)%Z; auto.
    + destruct (_ <? _)%Z; auto. destruct (gradient_append _ _); auto.
    + destruct c; auto. destruct (gradient_val n0 cx); auto. destruct (_ <? _)%Z; auto. destruct (gradient_append _ _); auto.
  - destruct v as [| | | |[|]|[|]|[|]|[|]|[|]| | |]; auto.
Qed.
Lemma vector_construct_xy n c : vector_construct n = Ok c -> c = VXY.
Proof.
  unfold vector_construct. intros H.
  repeat match type of H with
         | (match ?x with _ => _ end) = _ => destruct x; try discriminate H
         end; congruence.
Qed.
Lemma composite_construct_tr n c : composite_construct n = Ok c -> c = VTransformation.
Proof.
  unfold composite_construct. intros H.
  repeat match type of H with
         | (match ?x with _ => _ end) = _ => destruct x; try discriminate H
         end; congruence.
Qed.
Lemma set_value_class c n v m : In c [VReal; VInteger; VBool; VAngle; VTime; VString; VColor] -> is_tag n = true -> from_tag n = Ok c ->
  set_value c n v = (m, Ok tt) -> from_tag m = Ok c.
Proof.
  intros Hc Hn Hf H. cbn [In] in Hc.
  destruct Hc as [<-|[<-|[<-|[<-|[<-|[<-|[<-|[]]]]]]]]; cbn [set_value] in H;
    try (unfold simple_set in H; destruct (simple_str _ v); injection H as <-; [vm_compute; reflexivity|discriminate]).
  - unfold string_set in H. destruct (py_str v) as [x|]; injection H as <-; [|discriminate].
    destruct n as [|nm a k]; [discriminate|]. unfold from_tag, is_animated in *. cbn [tag_name tag_attrs] in *.
    revert Hf. match goal with |- (let* nm := ?r in _) = _ -> _ => destruct r as [nm'|]; [|discriminate] end. cbn [bind].
    destruct (from_name value_registry nm') as [c|]; [|discriminate]. cbn [bind]. destruct c; auto.
    intros H. now apply vector_construct_xy in H.
  - unfold color_set in H. destruct (color_conv v); injection H as <-; [vm_compute; reflexivity|discriminate].
Qed.
