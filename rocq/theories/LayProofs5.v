(** Proofs about parameters, fields and criteria. *)
From Verif Require Import LayModel DocProofs DocProofs2 LaySpec LayProofs LayProofs2 LayProofs3 LayProofs4 RegistryProofs TlProofs2.
From Coq Require Import Permutation Lia.
Local Open Scope N_scope.

(** ** New tags *)

Lemma label_El u nm a k : label u (El nm a k) = (IE u nm a (fst (label_all (N.succ u) k)), snd (label_all (N.succ u) k)).
Proof.
  cbn [label]. enough (H : forall l v, (fix go (u : N) (l : list node) : list inode * N :=
     match l with [] => ([], u) | c :: l' => let (c', u1) := label u c in let (r, u2) := go u1 l' in (c' :: r, u2) end) v l = label_all v l).
  { rewrite H. now destruct (label_all (N.succ u) k). }
  induction l as [|c l IH]; intros v; [reflexivity|]. cbn [label_all]. destruct (label v c) as [c' u1]. rewrite IH. reflexivity.
Qed.
Lemma label_ok n : forall u, forget (fst (label u n)) = n /\ u <= snd (label u n) /\ NoDup (uids (fst (label u n))) /\
  (forall x, In x (uids (fst (label u n))) -> u <= x < snd (label u n)) /\ itag (fst (label u n)) = is_tag n /\
  (is_tag n = true -> iuid (fst (label u n)) = u).
Proof.
  induction n as [x|nm a k IH] using node_ind'; intros u.
  - cbn. split; [reflexivity|]. split; [lia|]. split; [constructor|]. split; [contradiction|]. split; [reflexivity|discriminate].
  - rewrite label_El. cbn [fst snd forget itag iuid is_tag]. rewrite uids_IE.
    enough (H : forall v, map forget (fst (label_all v k)) = k /\ v <= snd (label_all v k) /\ NoDup (fuids (fst (label_all v k))) /\
      (forall x, In x (fuids (fst (label_all v k))) -> v <= x < snd (label_all v k))).
    { destruct (H (N.succ u)) as (A & B & C & D). split; [now rewrite A|]. split; [lia|]. split.
      - constructor; auto. intros Hi. apply D in Hi. lia.
      - split; [|auto]. intros x [<-|Hx]; [lia|]. apply D in Hx. lia. }
    induction IH as [|c k Hc Hk IH]; intros v.
    + cbn. split; [reflexivity|]. split; [lia|]. split; [constructor|contradiction].
    + cbn [label_all]. destruct (Hc v) as (A & B & C & D & _). destruct (label v c) as [c' u1]. cbn [fst snd] in *.
      destruct (IH u1) as (A' & B' & C' & D'). destruct (label_all u1 k) as [r u2]. cbn [fst snd] in *.
      change (fuids (c' :: r)) with (uids c' ++ fuids r). split; [cbn [map]; congruence|]. split; [lia|]. split.
      * clear -C C' D D'. induction (uids c') as [|z l IHl]; auto. cbn [app]. inversion C; subst. constructor.
        -- intros Hi. apply in_app_or in Hi as [Hi|Hi]; auto. apply D' in Hi. specialize (D z (or_introl eq_refl)). lia.
        -- apply IHl; auto. intros x Hx. apply D. now right.
      * intros x Hx. apply in_app_or in Hx as [Hx|Hx]; [apply D in Hx|apply D' in Hx]; lia.
Qed.
Lemma fresh_new F x : In x (fuids F) -> x < fresh F.
Proof.
  unfold fresh. intros H. enough (x <= fold_right N.max 0 (fuids F)) by lia.
  induction (fuids F) as [|y l IH]; [contradiction|]. cbn [fold_right]. destruct H as [->|H]; [lia|]. specialize (IH H). lia.
Qed.
Lemma label_fresh F n x : In x (uids (fst (label (fresh F) n))) -> ~ In x (fuids F).
Proof. intros H Hi. apply label_ok in H. apply fresh_new in Hi. lia. Qed.

(** ** Replacing *)

Lemma fput_notin o t F : ~ In o (fuids F) -> fput o t F = F.
Proof.
  induction F as [|y F IH|u nm a k F IHk IH] using forest_ind; intros H; auto.
  - cbn. f_equal. now apply IH.
  - rewrite fuids_IE in H. cbn [fput map]. fold (fput o t F). rewrite IH by (intros Hi; apply H; right; apply in_or_app; auto).
    cbn [is_]. destruct (N.eqb_spec o u) as [->|]; [exfalso; apply H; now left|]. cbn [iput]. fold (fput o t k).
    now rewrite IHk by (intros Hi; apply H; right; apply in_or_app; auto).
Qed.
Lemma fput_app o t F G : fput o t (F ++ G) = fput o t F ++ fput o t G. Proof. apply map_app. Qed.

(** Taking a tag out and putting another one in its place *)
Lemma put_fput o t p j F : wf F -> fget (iuid p) F = Some p -> index_of o (ikids p) = Some j ->
  fat (iuid p) (ins j t) (fdel o F) = fput o t F.
Proof.
  unfold wf. revert p. induction F as [|y F IH|u nm a k F IHk IH] using forest_ind; intros p Hnd Hp Hj.
  - discriminate.
  - rewrite fdel_IT, fat_IT. cbn [fput map]. f_equal. now apply IH.
  - pose proof (NoDup_kids _ _ _ _ _ Hnd) as (H1 & H2 & H3 & H4 & H5).
    destruct (index_of_split _ _ _ Hj) as (k1 & x & k2 & Ek & Hx & Hlen & Hno).
    assert (Hop : In o (fuids (ikids p))).
    { rewrite Ek. unfold fuids. apply in_flat_map. exists x. split; [apply in_or_app; right; now left|].
      apply is_spec in Hx as [Hx <-]. now apply tag_uid. }
    rewrite fget_IE in Hp. destruct (N.eqb_spec (iuid p) u) as [Eu|Hne].
    + injection Hp as <-. cbn [ikids iuid] in *.
      assert (o <> u) by congruence. rewrite fdel_IE. rewrite (proj2 (N.eqb_neq o u)) by auto. rewrite fat_IE, N.eqb_refl.
      cbn [ins with_ikids fput map is_]. rewrite (proj2 (N.eqb_neq o u)) by auto.
      rewrite (fdel_notin o F) by (intros Hi; eauto). rewrite (fat_notin u) by auto. fold (fput o t F). rewrite fput_notin by (intros Hi; eauto).
      f_equal. cbn [iput]. f_equal. fold (fput o t k). subst k. rewrite fdel_app, fput_app.
      assert (Hfx : fdel o (x :: k2) = fdel o k2) by (rewrite !fdel_map; cbn [filter]; now rewrite Hx). rewrite Hfx.
      rewrite fuids_app in H3. change (fuids (x :: k2)) with (uids x ++ fuids k2) in H3.
      assert (Hox : In o (uids x)) by (apply is_spec in Hx as [Hx <-]; now apply tag_uid).
      assert (~ In o (fuids k1) /\ ~ In o (fuids k2)) as [N1 N2].
      { apply NoDup_app_parts in H3 as (_ & H3 & D1). apply NoDup_app_parts in H3 as (_ & _ & D2). split; intros Hi.
        - apply (D1 o Hi). apply in_or_app. now left.
        - exact (D2 o Hox Hi). }
      rewrite !fdel_notin by auto. rewrite (fput_notin o t k1) by auto. cbn [fput map]. rewrite Hx. fold (fput o t k2).
      rewrite (fput_notin o t k2) by auto. rewrite <- Hlen. apply insert_nth_here.
    + destruct (fget (iuid p) k) as [p'|] eqn:E.
      * injection Hp as ->.
        assert (Hok : In o (fuids k)).
        { apply fget_In in E as (E & _ & _). apply (desc_uids _ _ E). destruct p; [contradiction|]. now right. }
        assert (o <> u) by congruence. rewrite fdel_IE. rewrite (proj2 (N.eqb_neq o u)) by auto. rewrite fat_IE.
        rewrite (proj2 (N.eqb_neq (iuid p) u)) by auto. cbn [fput map is_]. rewrite (proj2 (N.eqb_neq o u)) by auto.
        fold (fput o t F). cbn [iput]. fold (fput o t k). rewrite (IHk p H3 E Hj).
        rewrite (fdel_notin o F), (fput_notin o t F) by (intros Hi; eauto).
        rewrite fat_notin; auto. intros Hi. apply fget_uids in E. eauto.
      * assert (HoF : In o (fuids F)).
        { apply fget_In in Hp as (Hp & _ & _). apply (desc_uids _ _ Hp). destruct p; [contradiction|]. now right. }
        assert (o <> u) by congruence. assert (Hok : ~ In o (fuids k)) by (intros Hi; eauto).
        rewrite fdel_IE. rewrite (proj2 (N.eqb_neq o u)) by auto. rewrite fat_IE.
        rewrite (proj2 (N.eqb_neq (iuid p) u)) by auto. cbn [fput map is_]. rewrite (proj2 (N.eqb_neq o u)) by auto.
        fold (fput o t F). cbn [iput]. fold (fput o t k). rewrite (IH p H4 Hp Hj).
        rewrite (fdel_notin o k), (fput_notin o t k) by auto. rewrite fat_notin; auto. now apply fget_None.
Qed.

Lemma fdel_comm a b F : fdel a (fdel b F) = fdel b (fdel a F).
Proof.
  induction F as [|y F IH|u nm x k F IHk IH] using forest_ind; auto.
  - rewrite !fdel_IT. now rewrite IH.
  - rewrite !fdel_IE. destruct (a =? u) eqn:Ea, (b =? u) eqn:Eb; rewrite ?fdel_IE, ?Ea, ?Eb, ?IH, ?IHk; reflexivity.
Qed.
Lemma fget_app z (F G : forest) : fget z (F ++ G) = match fget z F with Some x => Some x | None => fget z G end.
Proof. rewrite !fget_find, fdesc_app. apply find_app. Qed.
Lemma fanc_app z (F G : forest) : fanc z (F ++ G) = match fanc z F with Some x => Some x | None => fanc z G end.
Proof.
  induction F as [|y F IH|u nm x k F IHk IH] using forest_ind; auto. cbn [app]. rewrite !fanc_IE. destruct (z =? u); auto.
  destruct (fanc z k); auto.
Qed.
Lemma index_texts o k old : filter itag k = [old] -> is_ o old = true ->
  exists k1 k2, k = k1 ++ old :: k2 /\ filter itag k1 = [] /\ filter itag k2 = [] /\ index_of o k = Some (length k1).
Proof.
  induction k as [|x k IH]; [discriminate|]. cbn [filter]. destruct (itag x) eqn:E; intros H Ho.
  - injection H as -> H. exists [], k. cbn [app index_of length]. rewrite Ho. auto.
  - destruct (IH H Ho) as (k1 & k2 & -> & N1 & N2 & Ei). exists (x :: k1), k2. cbn [app filter index_of length]. rewrite E, Ei.
    destruct x; [|discriminate]. auto.
Qed.
Lemma texts_del l k : filter itag k = [] -> fdel l k = k.
Proof. induction k as [|x k IH]; auto. cbn [filter]. destruct x; [|discriminate]. cbn [itag]. intros H. rewrite fdel_IT. now rewrite IH. Qed.
Lemma texts_index l k : filter itag k = [] -> index_of l k = None.
Proof. induction k as [|x k IH]; auto. cbn [filter]. destruct x; [|discriminate]. cbn. intros H. now rewrite IH. Qed.

Lemma wf_app_perm F G : Permutation (fuids F) (fuids G) -> wf F -> wf G.
Proof. unfold wf. intros P H. eapply Permutation_NoDup; eauto. Qed.

(** bs4's replace_with on a tag that is the only one in its parent *)
Lemma replace_is F o w p old t : wf F -> fparent o F = Some p -> filter itag (ikids p) = [old] -> is_ o old = true ->
  w <> o -> fget w F = Some t -> ~ In (iuid p) (uids t) ->
  let F' := fput o t (fdel w F) ++ [idel w old] in
  replace_with F o w = (F', Ok tt) /\ wf F' /\
  (forall u n, fget u F = Some n -> ~ In u (uids t) -> ~ In u (uids old) ->
     exists n', fget u F' = Some n' /\ iname n' = iname n /\ iattrs n' = iattrs n /\
       (forall q, shallow q -> ifind q n = Some p ->
          exists p', ifind q n' = Some p' /\ iattrs p' = iattrs p /\ filter itag (ikids p') = [t])).
Proof.
  intros Hw Hp Hold Ho Hne Hwt Hout F'.
  unfold fparent in Hp. destruct (fanc o F) as [[|p' r]|] eqn:Ea; [discriminate| |discriminate]. injection Hp as ->.
  destruct (anc_parent F o p r Hw Ea) as (Hpf & _ & _). pose proof (fget_tag _ _ _ Hpf) as Hpt.
  destruct (index_texts o (ikids p) old Hold Ho) as (k1 & k2 & Ek & N1 & N2 & Ej).
  pose proof (proj1 (is_spec o old) Ho) as [Hot Hou].
  assert (Hof : fget o F = Some old).
  { rewrite <- Hou. apply fget_desc; auto. apply (kid_desc F p); auto; [now apply fget_In in Hpf|]. rewrite Ek. apply in_or_app. right. now left. }
  assert (Hpo : ~ In (iuid p) (uids old)).
  { assert (In old (idesc p)) as Hio.
    { rewrite (idesc_kids p Hpt), Ek, fdesc_app. apply in_or_app. right. change (old :: k2) with ([old] ++ k2). rewrite fdesc_app, (fdesc_one old Hot).
      now left. }
    apply (idesc_not_self old p Hio). apply (NoDup_inside F); auto. now apply fget_In in Hpf. }
  assert (Hwp : w <> iuid p) by (intros ->; apply Hout; now apply (fget_same_uid F)).
  assert (Hot' : ~ In o (uids t)).
  { intros Hi. pose proof (fget_In _ _ _ Hwt) as (Htd & Htu & Htt).
    destruct t as [|tu tn ta tk] eqn:Et; [contradiction|]. rewrite <- Et in *. rewrite Et, uids_IE in Hi. destruct Hi as [Hi|Hi].
    - rewrite Et in Htu. cbn [iuid] in Htu. congruence.
    - assert (In t (p :: r)) as Ht by (apply (anc_iff o F (p :: r) t Hw Ea); split; auto; rewrite Et; exact Hi).
      destruct Ht as [->|Ht]; [apply Hout; now apply tag_uid|].
      destruct (anc_parent F o p r Hw Ea) as (_ & Ea' & _).
      apply (anc_iff (iuid p) F r t Hw Ea') in Ht as [_ Ht]. apply Hout. rewrite Et in *. rewrite uids_IE. now right. }
  set (G := fdel o F ++ [old]).
  assert (PG : Permutation (fuids F) (fuids G)).
  { unfold G. rewrite fuids_app, fuids_one. rewrite (fuids_fdel o F old Hw Hof). apply Permutation_app_comm. }
  assert (WG : wf G) by now apply (wf_app_perm F).
  assert (Hget : forall z n, fget z F = Some n -> ~ In z (uids old) -> fget z G = Some (idel o n)).
  { intros z n Hz Hzo. unfold G. rewrite fget_app, (fget_fdel o F old z Hw Hof Hzo), Hz. reflexivity. }
  assert (HwG : fget w G = Some t).
  { destruct (in_dec N.eq_dec w (uids old)) as [Hi|Hi].
    - unfold G. rewrite fget_app. assert (fget w (fdel o F) = None) as -> by (apply fget_None; now apply (fdel_disjoint o F old)).
      rewrite <- (fget_inside F old w); auto. now apply fget_In in Hof.
    - rewrite (Hget w t Hwt Hi). f_equal. destruct t as [|tu tn ta tk]; auto. apply idel_notin. cbn [ikids]. intros Hj. apply Hot'. now right. }
  assert (HpG : fget (iuid p) G = Some (idel o p)) by now apply Hget.
  assert (Ekd : ikids (idel o p) = k1 ++ k2).
  { rewrite idel_kids, Ek, fdel_app, (texts_del o k1 N1). f_equal.
    assert (fdel o (old :: k2) = fdel o k2) as -> by (rewrite !fdel_map; cbn [filter]; now rewrite Ho). now apply texts_del. }
  assert (Hpd : fget (iuid p) (fdel w G) = Some (idel w (idel o p))) by (rewrite (fget_fdel w G t); auto; now rewrite HpG).
  assert (EF : fat (iuid p) (ins (length k1) t) (fdel w G) = F').
  { unfold F', G. rewrite fdel_app, fat_app. f_equal.
    - rewrite fdel_comm.
      assert (Hpw : fget (iuid (idel w p)) (fdel w F) = Some (idel w p)) by (rewrite idel_uid, (fget_fdel w F t); auto; now rewrite Hpf).
      rewrite <- (idel_uid w p). apply put_fput; auto; [now apply fdel_NoDup|].
      rewrite idel_kids, Ek, fdel_app, (texts_del w k1 N1).
      assert (fdel w (old :: k2) = idel w old :: k2) as ->.
      { rewrite fdel_map. cbn [filter]. destruct (is_ w old) eqn:Ew; [apply is_spec in Ew as [_ Ew]; congruence|]. cbn [negb map].
        f_equal. pose proof (texts_del w k2 N2) as T. now rewrite fdel_map in T. }
      apply index_here.
      + intros x Hx. destruct x; auto. exfalso. assert (In (IE u name a kids) (filter itag k1)) by (apply filter_In; auto). rewrite N1 in H. contradiction.
      + now rewrite idel_is.
    - rewrite fdel_map. cbn [filter]. destruct (is_ w old) eqn:Ew; [apply is_spec in Ew as [_ Ew]; congruence|]. cbn [negb map].
      apply fat_notin. rewrite fuids_one. intros Hi. apply Hpo.
      destruct old as [|ou on oa ok]; [discriminate|]. cbn [idel] in Hi. rewrite uids_IE in *. destruct Hi as [Hi|Hi]; [now left|right].
      change (flat_map (fun c => if is_ w c then [] else [idel w c]) ok) with (fdel w ok) in Hi.
      destruct (in_dec N.eq_dec w (fuids ok)) as [Hiw|Hiw]; [|now rewrite fdel_notin in Hi].
      destruct (fget_ex _ _ Hiw) as (y & Hy). 
      assert (NoDup (fuids ok)).
      { assert (Hnd : NoDup (uids (IE ou on oa ok))) by (apply (NoDup_inside F); auto; now apply fget_In in Hof). rewrite uids_IE in Hnd. now inversion Hnd. }
      eapply Permutation_in; [symmetry; now apply (fuids_fdel w ok y)|]. apply in_or_app. now right. }
  split; [|split].
  - unfold replace_with, fparent. rewrite Ea. destruct p as [|pu pn pa pk]; [discriminate|]. cbn [iuid ikids] in *.
    rewrite (proj2 (N.eqb_neq o w)) by congruence. rewrite (proj2 (N.eqb_neq w pu)) by auto. rewrite Ej, Hof. fold G.
    unfold tag_insert. rewrite (proj2 (N.eqb_neq w pu)) by auto. rewrite HwG, HpG, Ekd.
    rewrite (texts_index w (k1 ++ k2)) by (rewrite filter_app, N1, N2; reflexivity).
    rewrite app_length, Nat.min_l by lia. unfold put_in. rewrite Hpd. fold (ins (length k1) t). now rewrite EF.
  - rewrite <- EF. now apply (mv_wf G w (iuid p) t (idel w (idel o p))).
  - intros u n Hu Hut Huo. exists (iat (iuid p) (ins (length k1) t) (idel w (idel o n))).
    pose proof (Hget u n Hu Huo) as HuG.
    pose proof (iat_shallow (iuid p) _ (ins_shallow (length k1) t) (idel w (idel o n))) as (_ & _ & Sn & Sa).
    split; [|split; [|split]].
    + rewrite <- EF. rewrite (mv_get G w (iuid p) t (idel w (idel o p)) (length k1) WG HwG Hpd u Hut), HuG. reflexivity.
    + now rewrite Sn, !idel_name.
    + now rewrite Sa, !idel_attrs.
    + intros q Hq Hf. pose proof (fget_In _ _ _ Hu) as (Hun & _ & Hnt). pose proof (fget_In _ _ _ HuG) as (HunG & _ & HntG).
      pose proof (ifind_idel' q n o old p Hq (NoDup_inside F n Hw Hun) Hnt (fget_sub F o old n Hw Hof Hun Hnt) Hf Hpt Hpo) as F1.
      assert (Hpt1 : itag (idel o p) = true) by now rewrite idel_tag.
      assert (Hout1 : ~ In (iuid (idel o p)) (uids t)) by now rewrite idel_uid.
      pose proof (ifind_idel' q (idel o n) w t (idel o p) Hq (NoDup_inside G _ WG HunG) HntG (fget_sub G w t _ WG HwG HunG HntG) F1 Hpt1 Hout1) as F2.
      assert (Hin : In (iuid p) (uids (idel w (idel o p)))).
      { rewrite <- (idel_uid o p), <- (idel_uid w (idel o p)). apply tag_uid. now rewrite !idel_tag. }
      assert (Hnd : NoDup (uids (idel w (idel o n)))).
      { assert (fget u (fdel w G) = Some (idel w (idel o n))) as Hz by (rewrite (fget_fdel w G t); auto; now rewrite HuG).
        apply (NoDup_inside (fdel w G)); [now apply fdel_NoDup|]. now apply fget_In in Hz. }
      pose proof (ifind_iat q _ (iuid p) (ins (length k1) t) _ Hq (ins_shallow _ _) Hnd F2 Hin) as F3.
      eexists. split; [exact F3|]. rewrite iat_self by (apply is_spec; rewrite !idel_tag, !idel_uid; auto).
      rewrite ins_attrs, !idel_attrs. split; [reflexivity|]. rewrite ins_kids by now rewrite !idel_tag.
      rewrite (idel_kids w), Ekd, (texts_del w) by (rewrite filter_app, N1, N2; reflexivity).
      rewrite insert_nth_here, filter_app. cbn [filter]. rewrite (fget_tag _ _ _ Hwt), N1, N2. reflexivity.
Qed.

(** ** layer[f] *)

Lemma value_of_inv p v c : value_of p = Ok (v, c) -> filter itag (ikids p) = [v] /\ from_tag (forget v) = Ok c /\ aget (s "name") (iattrs p) <> None.
Proof.
  unfold value_of. destruct (aget (s "name") (iattrs p)); [|discriminate]. destruct (filter itag (ikids p)) as [|x [|]]; try discriminate.
  destruct (from_tag (forget x)) as [c'|] eqn:E; [|discriminate]. cbn [bind]. intros [= -> ->]. split; auto. split; auto. discriminate.
Qed.
Lemma getitem_inv n f v c : layer_getitem n f = Ok (v, c) -> exists p, ifind (is_param f) n = Some p /\ value_of p = Ok (v, c).
Proof. unfold layer_getitem. destruct (ifind (is_param f) n) as [p|]; [|discriminate]. eauto. Qed.

Lemma param_sites F u n f v c p : wf F -> fget u F = Some n -> ifind (is_param f) n = Some p -> value_of p = Ok (v, c) ->
  fget (iuid p) F = Some p /\ itag v = true /\ fparent (iuid v) F = Some p /\ fget (iuid v) F = Some v /\ In v (idesc n) /\ In p (idesc n).
Proof.
  intros Hw Hu Hp Hv. apply value_of_inv in Hv as (Hk & _ & _). pose proof (ifind_In _ _ _ Hp) as [Hpn Hpp]. apply param_tag in Hpp.
  pose proof (fget_In _ _ _ Hu) as (Hun & _ & Hnt).
  assert (Hpd : In p (fdesc F)) by (eapply desc_trans; eauto).
  assert (Hpf : fget (iuid p) F = Some p) by now apply fget_desc.
  assert (Hvk : In v (ikids p) /\ itag v = true) by (apply filter_In; rewrite Hk; now left). destruct Hvk as [Hvk Hvt].
  assert (Hvd : In v (fdesc F)) by now apply (kid_desc F p).
  split; [auto|]. split; [auto|]. split; [now apply (child_parent F (iuid p))|]. split; [now apply fget_desc|]. split; [|auto].
  destruct n as [|nu nn na nk]; [contradiction|]. rewrite idesc_IE in *. now apply (kid_desc nk p).
Qed.

Lemma inst_is_a c c' : inst c c' = true <-> is_a c' c.
Proof.
  unfold inst, is_a. rewrite orb_true_iff. split.
  - intros [H|H]; [left; symmetry; now apply vcls_eqb_eq|]. destruct c, c'; try discriminate. now right.
  - intros [->|[-> ->]]; [left; apply vcls_eqb_refl|now right].
Qed.

Lemma set_value_obj F u n f old c w c' k t : wf F -> fget u F = Some n -> layer_getitem n f = Ok (old, c) ->
  is_a c' c -> w <> iuid old -> fget w F = Some t -> from_tag (forget t) = Ok k -> ~ In u (uids t) ->
  (forall p, ifind (is_param f) n = Some p -> ~ In (iuid p) (uids t)) ->
  let F' := fput (iuid old) t (fdel w F) ++ [idel w old] in
  layer_setitem F u f (SValue w c') = (F', Ok tt) /\ wf F' /\
  exists n', fget u F' = Some n' /\ layer_getitem n' f = Ok (t, k) /\ iname n' = iname n /\ iattrs n' = iattrs n.
Proof.
  intros Hw Hu Hg Hi0 Hne Hwt Hc' Hut Hpt F'. destruct (getitem_inv _ _ _ _ Hg) as (p & Hp & Hv). pose proof (proj2 (inst_is_a c c') Hi0) as Hi.
  destruct (param_sites F u n f old c p Hw Hu Hp Hv) as (Hpf & Hot & Hpar & Hof & Hod & _).
  pose proof (value_of_inv _ _ _ Hv) as (Hk & _ & Hnm).
  pose proof (fget_In _ _ _ Hu) as (Hun & Huu & Hnt).
  destruct (replace_is F (iuid old) w p old t Hw Hpar Hk (is_self _ Hot) Hne Hwt (Hpt p Hp)) as (E & W & G).
  split; [|split; [exact W|]].
  - unfold layer_setitem. rewrite Hu, Hg, Hi. exact E.
  - destruct (G u n Hu Hut) as (n' & Hn' & A & B & Q).
    { rewrite <- Huu. apply (idesc_not_self old n Hod). now apply (NoDup_inside F). }
    exists n'. split; [exact Hn'|]. destruct (Q _ (is_param_shallow f) Hp) as (p' & Hp' & Ha & Hkk). split; [|auto].
    unfold layer_getitem. rewrite Hp'. unfold value_of. rewrite Ha, Hkk, Hc'. destruct (aget (s "name") (iattrs p)); [reflexivity|congruence].
Qed.

Lemma set_plain F u n f old c v t : wf F -> fget u F = Some n -> layer_getitem n f = Ok (old, c) -> new_value c v = Ok t -> is_tag t = true ->
  exists t', forget t' = t /\ (forall x, In x (uids t') -> ~ In x (fuids F)) /\
  let F' := fput (iuid old) t' F ++ [old] in
  layer_setitem F u f (SPlain v) = (F', Ok tt) /\ wf F' /\
  exists n', fget u F' = Some n' /\ layer_getitem n' f = (let* c' := from_tag t in Ok (t', c')) /\ iname n' = iname n /\ iattrs n' = iattrs n.
Proof.
  intros Hw Hu Hg Hv Ht. destruct (getitem_inv _ _ _ _ Hg) as (p & Hp & Hvv).
  destruct (param_sites F u n f old c p Hw Hu Hp Hvv) as (Hpf & Hot & Hpar & Hof & Hod & Hpd).
  pose proof (value_of_inv _ _ _ Hvv) as (Hk & _ & Hnm).
  pose proof (fget_In _ _ _ Hu) as (Hun & Huu & Hnt).
  set (t' := fst (label (fresh F) t)). destruct (label_ok t (fresh F)) as (L1 & L2 & L3 & L4 & L5 & L6). fold t' in L1, L3, L4, L5, L6.
  rewrite Ht in L5. specialize (L6 Ht).
  assert (Hnew : forall x, In x (uids t') -> ~ In x (fuids F)) by (intros x; apply label_fresh).
  assert (Hold : forall x, In x (fuids F) -> ~ In x (uids t')) by (intros x Hx Hx'; now apply (Hnew x)).
  set (w := fresh F) in *. set (Fp := F ++ [t']).
  assert (Wp : wf Fp).
  { unfold wf, Fp. rewrite fuids_app, fuids_one. unfold wf in Hw. clear -Hw L3 Hold. induction (fuids F) as [|x l IH]; auto. cbn [app].
    inversion Hw; subst. constructor; auto.
    - intros Hi. apply in_app_or in Hi as [Hi|Hi]; auto. apply (Hold x); auto. now left.
    - apply IH; auto. intros y Hy. apply Hold. now right. }
  assert (Hgp : forall z m, fget z F = Some m -> fget z Fp = Some m) by (intros z m Hz; unfold Fp; now rewrite fget_app, Hz).
  assert (Hwt : fget w Fp = Some t').
  { unfold Fp. rewrite fget_app. assert (fget w F = None) as ->.
    { apply fget_None. intros Hi. apply (Hold w Hi). rewrite <- L6. now apply tag_uid. }
    destruct t' as [|tu tn ta tk]; [discriminate|]. cbn [iuid] in L6. subst tu. rewrite fget_IE, N.eqb_refl. reflexivity. }
  assert (Hdel : fdel w Fp = F).
  { unfold Fp. rewrite fdel_app, fdel_notin by (intros Hi; apply (Hold w Hi); rewrite <- L6; now apply tag_uid).
    rewrite fdel_map. cbn [filter]. rewrite (proj2 (is_spec w t')) by auto. apply app_nil_r. }
  assert (Hpar' : fparent (iuid old) Fp = Some p).
  { unfold fparent in *. unfold Fp. rewrite fanc_app. destruct (fanc (iuid old) F); [exact Hpar|discriminate]. }
  assert (Hne : w <> iuid old) by (intros E; apply (Hold (iuid old)); [now apply fget_uids in Hof|rewrite <- E, <- L6; now apply tag_uid]).
  destruct (replace_is Fp (iuid old) w p old t' Wp Hpar' Hk (is_self _ Hot) Hne Hwt (Hold _ (fget_uids _ _ _ Hpf))) as (E & W & G).
  rewrite Hdel in E, W, G.
  assert (Hio : idel w old = old).
  { apply idel_notin. intros Hi. apply (Hold w); [|rewrite <- L6; now apply tag_uid].
    apply fget_In in Hof as (Hof & _ & _). apply (desc_uids _ _ Hof). destruct old; [contradiction|]. now right. }
  rewrite Hio in E, W, G.
  exists t'. split; [auto|]. split; [auto|]. intros F'. split; [|split; [exact W|]].
  - unfold layer_setitem. rewrite Hu, Hg, Hv. fold w t'. rewrite L6. exact E.
  - destruct (G u n (Hgp _ _ Hu) (Hold _ (fget_uids _ _ _ Hu))) as (n' & Hn' & A & B & Q).
    { rewrite <- Huu. apply (idesc_not_self old n Hod). now apply (NoDup_inside F). }
    exists n'. split; [exact Hn'|]. destruct (Q _ (is_param_shallow f) Hp) as (p' & Hp' & Ha & Hkk). split; [|auto].
    unfold layer_getitem. rewrite Hp'. unfold value_of. rewrite Ha, Hkk, L1. destruct (aget (s "name") (iattrs p)); [reflexivity|congruence].
Qed.

(** ** Own parameters *)

Lemma own_param_find n f p : itag n = true -> own_param n f p -> ifind (is_param f) n = Some p.
Proof.
  intros Hn (k1 & k2 & E & Hp & H). apply (ifind_own _ n k1 p k2); auto. now apply (param_tag f).
Qed.
Lemma no_param_keyerror n f : (forall x, In x (idesc n) -> is_param f x = false) -> layer_getitem n f = Err KeyError /\ layer_contains n f = false.
Proof.
  intros H. unfold layer_getitem, layer_contains, ifind, ifind_all. rewrite filter_none by auto. auto.
Qed.

(** ** find_all with criteria *)

Lemma filterM_In {A} (p : A -> res bool) l r : filterM p l = Ok r -> forall x, In x r <-> In x l /\ p x = Ok true.
Proof.
  revert r. induction l as [|y l IH]; cbn [filterM]; intros r H x.
  - injection H as <-. cbn. tauto.
  - destruct (p y) as [b|] eqn:E; [|discriminate]. cbn [bind] in H. destruct (filterM p l) as [r'|] eqn:Er; [|discriminate].
    cbn [bind] in H. specialize (IH r' eq_refl x). destruct b; injection H as <-; cbn [In]; rewrite IH; split.
    + intros [->|[H1 H2]]; auto.
    + intros [[->|H1] H2]; auto.
    + intros [H1 H2]; auto.
    + intros [[->|H1] H2]; [congruence|auto].
Qed.
Lemma any_match_true st F n c l : any_match st F n c l = Ok true ->
  exists k v found, In (k, WVal v) l /\ read_for_match st F n c k = Ok found /\ field_eq found v = Ok true.
Proof.
  induction l as [|[k w] l IH]; [discriminate|]. cbn [any_match]. intros H.
  destruct (read_for_match st F n c k) as [found|e] eqn:E.
  - destruct w as [v|]; [|discriminate]. destruct (field_eq found v) as [b|] eqn:Eb; [|discriminate]. cbn [bind] in H. destruct b.
    + exists k, v, found. split; [now left|auto].
    + destruct (IH H) as (k' & v' & f' & A & B). exists k', v', f'. split; [now right|auto].
  - destruct e; try discriminate. destruct (IH H) as (k' & v' & f' & A & B). exists k', v', f'. split; [now right|auto].
Qed.
Lemma mapM_targets crit : (forall kv, In kv crit -> fst kv <> s "type") -> mapM target (map (fun kv => (fst kv, WVal (snd kv))) crit) = Ok (map (fun kv => (fst kv, WVal (snd kv))) crit).
Proof.
  induction crit as [|[k v] crit IH]; intros H; auto. cbn [map mapM fst snd]. unfold target at 1. cbn [fst snd].
  assert (pstr_eqb k (s "type") = false) as ->.
  { destruct (pstr_eqb k (s "type")) eqn:E; auto. apply pstr_eqb_spec in E. exfalso. apply (H (k, v)); [now left|auto]. }
  cbn [bind]. rewrite IH by (intros; apply H; now right). reflexivity.
Qed.
Lemma find_criteria st F n crit l : (forall kv, In kv crit -> fst kv <> s "type") -> crit <> [] ->
  layer_find_all st F n [] true (map (fun kv => (fst kv, WVal (snd kv))) crit) None = Ok l ->
  (forall y, In y l -> In y (idesc n) /\ is_layer y = true /\ exists kv, In kv crit /\ meets st F y kv) /\
  (forall y, In y (idesc n) -> is_layer y = true -> (forall kv, In kv crit -> meets st F y kv) -> In y l).
Proof.
  intros Hty Hne H. unfold layer_find_all, criterion_of in H. cbn [with_positional bind snd fst] in H.
  rewrite mapM_targets in H by auto. cbn [bind] in H.
  set (cr := CAny (map (fun kv => (fst kv, WVal (snd kv))) crit)) in *.
  destruct (filterM (matches st F cr) (idesc n)) as [r|] eqn:E; [|discriminate]. cbn [bind] in H.
  apply mapM_as_layer_inv in H as [-> _]. pose proof (filterM_In _ _ _ E) as HI. split.
  - intros y Hy. apply HI in Hy as [Hy Hm]. unfold matches in Hm. destruct (is_layer y) eqn:El; [|discriminate]. split; auto. split; auto.
    destruct (layer_class y) as [c|] eqn:Ec; [|discriminate]. cbn [bind] in Hm. unfold cr in Hm. cbn iota in Hm.
    apply any_match_true in Hm as (k & v & found & Hin & Hr & He). apply in_map_iff in Hin as ([k' v'] & [= <- <-] & Hin).
    exists (k', v'). split; auto. exists c, found. auto.
  - intros y Hy Hl Hall. apply HI. split; auto. unfold matches. rewrite Hl. destruct crit as [|[k v] crit]; [congruence|].
    destruct (Hall (k, v)) as (c & found & Hc & Hr & He); [now left|]. cbn [fst snd] in *. rewrite Hc. cbn [bind]. unfold cr. cbn [map any_match fst snd].
    now rewrite Hr, He.
Qed.

(** ** find_all with a type *)

Lemma has_key_aget {V} k (l : list (pstr * V)) : has_key k l = match aget k l with Some _ => true | None => false end.
Proof. induction l as [|[k' v] l IH]; auto. cbn. destruct (pstr_eqb k k'); auto. Qed.

Lemma match_type st F n c x : layer_class n = Ok c -> own_type c = false ->
  any_match st F n c [(s "type_", WVal (PStr x))] = Ok (match aget (s "type") (iattrs n) with Some (AStr y) => pstr_eqb y x | _ => false end).
Proof.
  intros Hc Ho. unfold own_type in Ho. rewrite has_key_aget in Ho. cbn [any_match]. unfold read_for_match, field_get.
  destruct (aget (s "type_") (all_fields c)); [discriminate|]. cbn [pstr_eqb].
  assert (pstr_eqb (s "type_") (s "type_") = true) as -> by apply pstr_eqb_refl. unfold attr_get.
  unfold layer_class in Hc. destruct (aget (s "type") (iattrs n)) as [[y| | |]|]; try discriminate. cbn [attr_conv aval_str bind field_eq].
  destruct (pstr_eqb y x); reflexivity.
Qed.
Lemma match_own_type st F n c x v : layer_class n = Ok c -> aget (s "type_") (all_fields c) = Some (FParam v x) ->
  forall y, (forall z, In z (idesc n) -> is_param (s "type_") z = false) ->
  any_match st F n c [(s "type_", WVal (PStr y))] = Ok false.
Proof.
  intros Hc Ha y Hn. cbn [any_match]. unfold read_for_match, field_get. rewrite Ha. unfold param_field, param_get, ifind, ifind_all.
  rewrite filter_none by auto. reflexivity.
Qed.
Lemma own_type_params : Forall (fun c => match aget (s "type_") (all_fields c) with Some (FParam _ _) | None => True | _ => False end) layer_classes.
Proof. vm_compute. repeat constructor. Qed.
Lemma registry_in x c : from_name layer_registry x = Ok c -> In c layer_classes.
Proof.
  intros H.
  assert (Forall (fun kv => In (snd kv) layer_classes) layer_registry) as HF.
  { unfold layer_registry, run, registry_new.
    assert (G : forall (L : list (option pstr * pstr * lcls)) r, (forall x, In x L -> In (snd x) layer_classes) -> Forall (fun kv : pstr * lcls => In (snd kv) layer_classes) r ->
              Forall (fun kv => In (snd kv) layer_classes) (fold_left (fun r '(n, cn, c) => registry_call r n cn c) L r)).
    { induction L as [|[[a b] d] L IH]; auto. cbn [fold_left]. intros r HL Hr. apply IH; [intros; apply HL; now right|].
      unfold registry_call. set (k := normalise _). assert (Hd : In d layer_classes) by (apply (HL (a, b, d)); now left).
      clear -Hr Hd. induction Hr as [|[k' v'] r Hv Hr IHr]; cbn [aset]; [constructor; auto|].
      destruct (pstr_eqb k k'); constructor; auto. }
    apply G; [|constructor]. intros z Hz. apply in_map_iff in Hz as (d & <- & Hd). exact Hd. }
  unfold from_name in H. destruct (aget (normalise x) layer_registry) as [d|] eqn:E; [|discriminate]. injection H as ->.
  clear -HF E. induction HF as [|[k v] r Hv Hr IH]; [discriminate|]. cbn [aget] in E. destruct (pstr_eqb _ k); auto. now injection E as <-.
Qed.
Lemma layer_class_in n c : layer_class n = Ok c -> In c layer_classes.
Proof. unfold layer_class. destruct (aget (s "type") (iattrs n)) as [[y| | |]|]; try discriminate. apply registry_in. Qed.

Definition typed (x : pstr) (n : inode) : bool :=
  is_layer n && match layer_class n with Ok c => negb (own_type c) | Err _ => false end &&
  match aget (s "type") (iattrs n) with Some (AStr y) => pstr_eqb y x | _ => false end.

Lemma find_type st F n x : all_known (idesc n) -> (forall z, In z (idesc n) -> is_param (s "type_") z = false) ->
  layer_find_all st F n [PaStr x] true [] None = Ok (filter (typed (normalise x)) (idesc n)).
Proof.
  intros HK Hn. unfold layer_find_all, criterion_of. cbn [with_positional has_key existsb app bind snd fst mapM target].
  assert (target (s "type", WVal (PStr x)) = Ok (s "type_", WVal (PStr (normalise x)))) as -> by reflexivity. cbn [bind].
  unfold all_known in HK. rewrite Forall_forall in HK.
  rewrite (filterM_all _ (typed (normalise x))).
  - cbn [bind]. apply mapM_as_layer. intros y Hy. apply filter_In in Hy as [Hy Ht]. apply HK; auto. unfold typed in Ht.
    apply andb_prop in Ht as [Ht _]. now apply andb_prop in Ht as [Ht _].
  - intros y Hy. unfold matches, typed. destruct (is_layer y) eqn:El; auto. destruct (HK y Hy El) as (c & Hc). rewrite Hc. cbn [bind andb].
    destruct (own_type c) eqn:Eo; cbn [negb andb].
    + unfold own_type in Eo. rewrite has_key_aget in Eo. pose proof own_type_params as OT. rewrite Forall_forall in OT.
      specialize (OT c (layer_class_in y c Hc)). destruct (aget (s "type_") (all_fields c)) as [[v d| |]|] eqn:Ea; try contradiction; try discriminate.
      apply (match_own_type st F y c d v Hc Ea). intros z Hz. apply Hn. eapply idesc_trans; eauto.
    + now apply match_type.
Qed.

(** ** Attribute fields *)

Lemma filter_aset k v a : filter (fun kv => negb (pstr_eqb (fst kv) k)) (aset k v a) = filter (fun kv : pstr * aval => negb (pstr_eqb (fst kv) k)) a.
Proof.
  induction a as [|[k' v'] a IH]; cbn [aset filter fst]; [now rewrite pstr_eqb_refl|].
  destruct (pstr_eqb k k') eqn:E; cbn [filter fst].
  - apply pstr_eqb_spec in E. subst. now rewrite pstr_eqb_refl.
  - now rewrite IH.
Qed.
Lemma filter_adel k a : filter (fun kv => negb (pstr_eqb (fst kv) k)) (adel k a) = filter (fun kv : pstr * aval => negb (pstr_eqb (fst kv) k)) a.
Proof.
  induction a as [|[k' v'] a IH]; cbn [adel filter fst]; auto.
  destruct (pstr_eqb k k') eqn:E; cbn [filter fst].
  - apply pstr_eqb_spec in E. subst. now rewrite pstr_eqb_refl.
  - now rewrite IH.
Qed.
Lemma attr_frame u k g F : (forall a, filter (fun kv => negb (pstr_eqb (fst kv) k)) (g a) = filter (fun kv : pstr * aval => negb (pstr_eqb (fst kv) k)) a) ->
  without_attr u k (fat u (with_iattrs g) F) = without_attr u k F.
Proof.
  intros H. unfold without_attr. induction F as [|y F IH|v nm a c F IHk IH] using forest_ind; auto.
  - rewrite !fat_IT. now rewrite IH.
  - rewrite !fat_IE. destruct (u =? v) eqn:E.
    + cbn [with_iattrs]. rewrite fat_IE, E, IH. cbn [with_iattrs]. now rewrite H.
    + rewrite fat_IE, E. now rewrite IHk, IH.
Qed.
Lemma fget_attr u g F n : wf F -> fget u F = Some n -> fget u (fat u (with_iattrs g) F) = Some (with_iattrs g n).
Proof.
  intros Hw H. assert (Hf : tagpres (with_iattrs g)) by (intros [|]; split; reflexivity).
  destruct (fdesc_fat u (with_iattrs g) F n Hf Hw H) as (pre & post & E1 & E2 & E3 & _).
  rewrite fget_find, E2, find_app, find_iat by auto.
  pose proof (fget_In _ _ _ H) as (_ & Hu & Ht).
  assert (find (is_ u) pre = None) as ->.
  { destruct (find (is_ u) pre) as [y|] eqn:Ey; auto. apply find_some in Ey as [Ey Ei]. apply is_spec in Ei as [_ Ei].
    exfalso. apply E3. rewrite <- Ei. now apply in_map. }
  cbn [option_map find]. destruct n as [|v nm a k]; [discriminate|]. cbn [iuid] in Hu. subst v. cbn [with_iattrs is_]. now rewrite N.eqb_refl.
Qed.
Lemma fuids_attr u g F : fuids (fat u (with_iattrs g) F) = fuids F.
Proof.
  induction F as [|y F IH|v nm a c F IHk IH] using forest_ind; auto.
  rewrite fat_IE, fuids_IE. destruct (u =? v); [cbn [with_iattrs]|]; now rewrite fuids_IE, ?IHk, IH.
Qed.
Lemma attr_fields_own : Forall (fun c => forall k, In k [s "active"; s "exclude_from_rendering"; s "desc"] -> aget k (all_fields c) = None) layer_classes.
Proof.
  assert (H : forallb (fun c => forallb (fun k => negb (has_key k (all_fields c))) [s "active"; s "exclude_from_rendering"; s "desc"]) layer_classes = true) by (vm_compute; reflexivity).
  apply Forall_forall. rewrite forallb_forall in H. intros c Hc k Hk. specialize (H c Hc). rewrite forallb_forall in H. specialize (H k Hk).
  rewrite has_key_aget in H. destruct (aget k (all_fields c)); [discriminate|auto].
Qed.
Lemma aget_adel_nodup k (a : attrs) : NoDup (map fst a) -> aget k (adel k a) = None.
Proof.
  induction a as [|[k' v'] a IH]; auto. cbn [map adel aget fst]. intros H. inversion H; subst. destruct (pstr_eqb k k') eqn:E.
  - apply pstr_eqb_spec in E. subst. destruct (aget k' a) as [v|] eqn:Ea; auto. exfalso. apply H2. apply aget_In in Ea. now apply (in_map fst) in Ea.
  - cbn [aget]. rewrite E. auto.
Qed.

Lemma set_bool_attr st F u n c k v b : wf F -> fget u F = Some n -> layer_class n = Ok c ->
  (k = s "active" \/ k = s "exclude_from_rendering") -> py_bool v = Ok b ->
  exists F' n', field_set F u n c k v = (F', Ok tt) /\ fget u F' = Some n' /\ field_get st F' n' c k = Ok (PBool b) /\
    without_attr u k F' = without_attr u k F.
Proof.
  intros Hw Hu Hc Hk Hb. pose proof attr_fields_own as A. rewrite Forall_forall in A. specialize (A c (layer_class_in n c Hc)).
  exists (fat u (with_iattrs (aset k (AStr (if b then s "true" else s "false")))) F), (with_iattrs (aset k (AStr (if b then s "true" else s "false"))) n).
  assert (Hn : aget k (all_fields c) = None) by (apply A; destruct Hk as [->| ->]; cbn; auto).
  split; [|split; [now apply fget_attr|split; [|apply attr_frame; intros; apply filter_aset]]].
  - unfold field_set. rewrite Hn. destruct Hk as [-> | ->]; cbn -[py_bool fat]; unfold bool_aval; rewrite Hb; reflexivity.
  - unfold field_get. rewrite Hn. pose proof (fget_tag _ _ _ Hu) as Ht. destruct n as [|nu nn na nk]; [discriminate|].
    destruct Hk as [-> | ->]; cbn -[aget aset]; unfold attr_get; cbn [with_iattrs iattrs]; rewrite aget_aset, pstr_eqb_refl; destruct b; reflexivity.
Qed.
Lemma set_desc st F u n c x : wf F -> fget u F = Some n -> layer_class n = Ok c ->
  exists F' n', field_set F u n c (s "desc") (PStr x) = (F', Ok tt) /\ fget u F' = Some n' /\ field_get st F' n' c (s "desc") = Ok (PStr x) /\
    without_attr u (s "desc") F' = without_attr u (s "desc") F.
Proof.
  intros Hw Hu Hc. pose proof attr_fields_own as A. rewrite Forall_forall in A. specialize (A c (layer_class_in n c Hc)).
  exists (fat u (with_iattrs (aset (s "desc") (AStr x))) F), (with_iattrs (aset (s "desc") (AStr x)) n).
  assert (Hn : aget (s "desc") (all_fields c) = None) by (apply A; cbn; auto).
  split; [|split; [now apply fget_attr|split; [|apply attr_frame; intros; apply filter_aset]]].
  - unfold field_set. rewrite Hn. reflexivity.
  - unfold field_get. rewrite Hn. pose proof (fget_tag _ _ _ Hu) as Ht. destruct n as [|nu nn na nk]; [discriminate|].
    cbn -[aget aset]; unfold attr_get; cbn [with_iattrs iattrs]; rewrite aget_aset, pstr_eqb_refl; reflexivity.
Qed.
Lemma unset_desc st F u n c : wf F -> fget u F = Some n -> layer_class n = Ok c -> NoDup (map fst (iattrs n)) ->
  exists F' n', field_set F u n c (s "desc") PNone = (F', Ok tt) /\ fget u F' = Some n' /\ field_get st F' n' c (s "desc") = Ok PNone /\
    without_attr u (s "desc") F' = without_attr u (s "desc") F.
Proof.
  intros Hw Hu Hc Hnd. pose proof attr_fields_own as A. rewrite Forall_forall in A. specialize (A c (layer_class_in n c Hc)).
  exists (fat u (with_iattrs (adel (s "desc"))) F), (with_iattrs (adel (s "desc")) n).
  assert (Hn : aget (s "desc") (all_fields c) = None) by (apply A; cbn; auto).
  split; [|split; [now apply fget_attr|split; [|apply attr_frame; intros; apply filter_adel]]].
  - unfold field_set. rewrite Hn. reflexivity.
  - unfold field_get. rewrite Hn. pose proof (fget_tag _ _ _ Hu) as Ht. destruct n as [|nu nn na nk]; [discriminate|].
    cbn -[aget adel]; unfold attr_get; cbn [with_iattrs iattrs]. cbn [iattrs] in Hnd. now rewrite (aget_adel_nodup _ _ Hnd).
Qed.
