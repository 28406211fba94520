(** Facts about the operations that move tags (DocModel.v). *)
From Verif Require Import DocModel DocProofs.
From Coq Require Import Permutation Lia.
Local Open Scope N_scope.

Definition ins (i : nat) (t : inode) : inode -> inode := with_ikids (insert_nth i t).

Lemma ins_pres i t : tagpres (ins i t).
Proof. intros [x|u nm a k]; split; reflexivity. Qed.
Lemma ins_name i t n : iname (ins i t n) = iname n. Proof. now destruct n. Qed.
Lemma ins_attrs i t n : iattrs (ins i t n) = iattrs n. Proof. now destruct n. Qed.

Lemma insert_nth_In {A} i (x y : A) l : In y (insert_nth i x l) <-> y = x \/ In y l.
Proof.
  rewrite insert_nth_split. rewrite <- (firstn_skipn i l) at 3. rewrite !in_app_iff. cbn. intuition.
Qed.
Lemma fdesc_insert i t k : fdesc (insert_nth i t k) = fdesc (firstn i k) ++ fdesc [t] ++ fdesc (skipn i k).
Proof. rewrite insert_nth_split. change (t :: skipn i k) with ([t] ++ skipn i k). now rewrite !fdesc_app. Qed.
Lemma fuids_insert i t k : Permutation (fuids (insert_nth i t k)) (uids t ++ fuids k).
Proof.
  rewrite insert_nth_split. change (t :: skipn i k) with ([t] ++ skipn i k). rewrite !fuids_app, fuids_one.
  rewrite <- (firstn_skipn i k) at 3. rewrite fuids_app. rewrite !app_assoc. apply Permutation_app_tail, Permutation_app_comm.
Qed.
Lemma find_app {A} (p : A -> bool) l1 l2 : find p (l1 ++ l2) = match find p l1 with Some x => Some x | None => find p l2 end.
Proof. induction l1 as [|x l1 IH]; auto. cbn [app find]. destruct (p x); auto. Qed.

(** ** Finding tags after an insertion *)

Lemma find_iat c f x L : tagpres f -> find (is_ x) (map (iat c f) L) = option_map (iat c f) (find (is_ x) L).
Proof.
  intros Hf. induction L as [|y L IH]; auto. cbn [map find]. rewrite iat_is by auto. destruct (is_ x y); auto.
Qed.
Lemma iat_self c f n : is_ c n = true -> iat c f n = f n.
Proof. destruct n; [discriminate|]. cbn. now intros ->. Qed.

Lemma fget_ins_old c i t F x z : NoDup (fuids F) -> fget c F = Some x -> ~ In z (uids t) ->
  fget z (fat c (ins i t) F) = option_map (iat c (ins i t)) (fget z F).
Proof.
  intros Hnd Hx Hz. destruct (fdesc_fat c (ins i t) F x (ins_pres i t) Hnd Hx) as (pre & post & E1 & E2 & E3 & E4 & E5).
  rewrite !fget_find, E1, E2. pose proof (fget_In _ _ _ Hx) as (_ & Hu & Hg).
  assert (Hs : is_ c x = true) by now apply is_spec.
  rewrite !find_app, find_iat by apply ins_pres.
  destruct (find (is_ z) pre); cbn [option_map]; auto. cbn [find].
  assert (Hi : is_ z (ins i t x) = is_ z x).
  { rewrite <- (iat_self c (ins i t) x Hs). apply iat_is, ins_pres. }
  rewrite Hi. destruct (is_ z x) eqn:Ez; cbn [option_map]; [now rewrite iat_self|].
  rewrite !find_app, find_iat by apply ins_pres.
  destruct x as [|u nm a k]; [discriminate|]. cbn [ins with_ikids]. rewrite !idesc_IE.
  rewrite fdesc_insert. rewrite <- (firstn_skipn i k) at 3. rewrite fdesc_app, !find_app.
  assert (Ht : find (is_ z) (fdesc [t]) = None).
  { rewrite <- fget_find. apply fget_None. now rewrite fuids_one. }
  rewrite Ht.
  assert (Hk : forall y, find (is_ z) (fdesc k) = Some y -> iat c (ins i t) y = y).
  { intros y Hy. apply find_some in Hy as [Hy _]. apply iat_notin. cbn [ikids] in E4.
    intros Hc. apply E4. now apply (desc_uids _ _ Hy). }
  rewrite <- (firstn_skipn i k), fdesc_app, find_app in Hk.
  fold (ins i t).
  destruct (find (is_ z) (fdesc (firstn i k))) as [y|]; cbn [option_map]; [now rewrite Hk|].
  destruct (find (is_ z) (fdesc (skipn i k))) as [y|]; cbn [option_map]; [now rewrite Hk|].
  reflexivity.
Qed.

Lemma fuids_ins c i t F x : NoDup (fuids F) -> fget c F = Some x ->
  Permutation (fuids (fat c (ins i t) F)) (uids t ++ fuids F).
Proof.
  intros Hnd Hx. destruct (fdesc_fat c (ins i t) F x (ins_pres i t) Hnd Hx) as (pre & post & E1 & E2 & E3 & E4 & E5).
  rewrite <- !uids_desc, E1, E2. rewrite !map_app. cbn [map]. rewrite !map_app, !map_map.
  assert (Hm : forall L, map (fun y => iuid (iat c (ins i t) y)) L = map iuid L).
  { intros L. apply map_ext. intros y. apply iat_uid, ins_pres. }
  rewrite !Hm.
  destruct x as [|u nm a k]; [now apply fget_tag in Hx|]. cbn [ins with_ikids iuid]. rewrite !idesc_IE, !uids_desc.
  rewrite (Permutation_app_comm (uids t)). rewrite <- app_assoc. apply Permutation_app_head. cbn [app]. apply perm_skip.
  rewrite <- app_assoc. rewrite fuids_insert. rewrite (Permutation_app_comm (uids t) (fuids k)), <- app_assoc.
  apply Permutation_app_head. apply Permutation_app_comm.
Qed.
Lemma ins_NoDup c i t F x : NoDup (fuids F) -> fget c F = Some x -> NoDup (uids t) ->
  (forall y, In y (uids t) -> ~ In y (fuids F)) -> NoDup (fuids (fat c (ins i t) F)).
Proof.
  intros Hnd Hx Ht Hd. eapply Permutation_NoDup; [symmetry; now apply (fuids_ins c i t F x)|].
  revert Ht Hd. generalize (uids t) as l. induction l as [|z l IH]; auto. cbn [app]. intros Hn Hd.
  inversion Hn; subst. constructor.
  - intros Hi. apply in_app_or in Hi as [Hi|Hi]; auto. apply (Hd z); auto. now left.
  - apply IH; auto. intros y Hy. apply Hd. now right.
Qed.
Lemma fget_ins_new c i t F x z : NoDup (fuids F) -> fget c F = Some x -> NoDup (uids t) ->
  (forall y, In y (uids t) -> ~ In y (fuids F)) -> In z (uids t) ->
  fget z (fat c (ins i t) F) = fget z [t].
Proof.
  intros Hnd Hx Ht Hd Hz. apply fget_inside; auto.
  - now apply (ins_NoDup c i t F x).
  - destruct (fdesc_fat c (ins i t) F x (ins_pres i t) Hnd Hx) as (pre & post & E1 & E2 & _).
    rewrite E2. apply in_or_app. right. right. apply in_or_app. left.
    destruct x as [|u nm a k]; [now apply fget_tag in Hx|]. cbn [ins with_ikids]. rewrite idesc_IE, fdesc_insert.
    apply in_or_app. right. apply in_or_app. left. destruct t; [contradiction|]. now left.
Qed.
Lemma fdel_ins l c i t F : is_ l t = true -> ~ In l (fuids F) -> fdel l (fat c (ins i t) F) = F.
Proof.
  intros Ht. apply is_spec in Ht as [Hg Hu].
  induction F as [|y F IH|u nm a k F IHk IH] using forest_ind; intros H; auto.
  - rewrite fat_IT, fdel_IT. now rewrite IH.
  - rewrite fuids_IE in H. rewrite fat_IE.
    assert (Hne : l <> u) by (intros ->; apply H; now left).
    assert (Hk : ~ In l (fuids k)) by (intros Hi; apply H; right; apply in_or_app; now left).
    assert (HF : ~ In l (fuids F)) by (intros Hi; apply H; right; apply in_or_app; now right).
    destruct (c =? u).
    + cbn [ins with_ikids]. rewrite fdel_IE. apply N.eqb_neq in Hne. rewrite Hne. rewrite IH by auto. f_equal. f_equal.
      rewrite insert_nth_split, fdel_app. destruct t as [|u' nm' a' k']; [discriminate|]. rewrite fdel_IE. cbn [iuid] in Hu. subst u'.
      rewrite N.eqb_refl. rewrite <- fdel_app, firstn_skipn. now apply fdel_notin.
    + rewrite fdel_IE. apply N.eqb_neq in Hne. rewrite Hne. now rewrite IHk, IH.
Qed.

(** ** Parents *)

Lemma fanc_None x F : fanc x F = None <-> ~ In x (fuids F).
Proof.
  induction F as [|y F IH|u nm a k F IHk IH] using forest_ind.
  - split; auto.
  - exact IH.
  - rewrite fanc_IE, fuids_IE. destruct (N.eqb_spec x u) as [->|Hne].
    + split; [discriminate|]. intros H. exfalso. apply H. now left.
    + destruct (fanc x k) as [l|] eqn:E.
      * split; [discriminate|]. intros H. exfalso. destruct IHk as [_ IHk]. discriminate IHk.
        intros Hi. apply H. right. apply in_or_app. now left.
      * rewrite IH. split.
        -- intros H [H1|H1]; [congruence|]. apply in_app_or in H1 as [H1|H1]; auto. now apply IHk.
        -- intros H Hi. apply H. right. apply in_or_app. now right.
Qed.
Lemma fanc_ex x F : In x (fuids F) -> exists l, fanc x F = Some l.
Proof. intros H. destruct (fanc x F) eqn:E; eauto. now apply fanc_None in E. Qed.

(** A child's first ancestor is its parent. *)
Lemma child_anc F c x a : NoDup (fuids F) -> fget c F = Some x -> In a (ikids x) -> itag a = true ->
  exists r, fanc c F = Some r /\ fanc (iuid a) F = Some (x :: r).
Proof.
  induction F as [|y F IH|u nm a0 k F IHk IH] using forest_ind; intros Hnd Hx Ha Hg.
  - discriminate.
  - exact (IH Hnd Hx Ha Hg).
  - pose proof (NoDup_kids _ _ _ _ _ Hnd) as (H1 & H2 & H3 & H4 & H5).
    rewrite fget_IE in Hx. rewrite !fanc_IE.
    assert (Hin : forall G, fget c G = Some x -> In (iuid a) (fuids G)).
    { intros G HG. apply fget_In in HG as (HG & _ & Hgx). apply (desc_uids _ _ HG).
      destruct x as [|ux nx ax kx]; [discriminate|]. rewrite uids_IE. right. cbn [ikids] in Ha.
      unfold fuids. apply in_flat_map. exists a. split; auto. destruct a; [discriminate|]. now left. }
    destruct (N.eqb_spec c u) as [->|Hne].
    + injection Hx as <-. cbn [ikids] in Ha. exists []. split; auto.
      assert (Hak : In (iuid a) (fuids k)).
      { unfold fuids. apply in_flat_map. exists a. split; auto. destruct a; [discriminate|]. now left. }
      destruct (N.eqb_spec (iuid a) u) as [E|_]; [congruence|].
      assert (Hf : fanc (iuid a) k = Some []).
      { clear -Ha Hg H3. induction k as [|c k IH]; [contradiction|]. destruct Ha as [->|Ha].
        - destruct a; [discriminate|]. rewrite fanc_IE. cbn [iuid]. now rewrite N.eqb_refl.
        - destruct c as [x|u nm a' k'].
          + now apply IH.
          + pose proof (NoDup_kids _ _ _ _ _ H3) as (G1 & G2 & G3 & G4 & G5).
            assert (Hi : In (iuid a) (fuids k)).
            { unfold fuids. apply in_flat_map. exists a. split; auto. destruct a; [discriminate|]. now left. }
            rewrite fanc_IE. destruct (N.eqb_spec (iuid a) u); [congruence|].
            rewrite (proj2 (fanc_None (iuid a) k')) by (intros Hj; eauto). now apply IH. }
      rewrite Hf. reflexivity.
    + destruct (fget c k) as [x'|] eqn:E.
      * injection Hx as ->. destruct (IHk H3 eq_refl Ha Hg) as (r & R1 & R2).
        pose proof (Hin k E) as Hk. destruct (N.eqb_spec (iuid a) u); [congruence|].
        rewrite R1, R2. exists (r ++ [IE u nm a0 k]). split; auto.
      * apply fget_None in E. rewrite (proj2 (fanc_None c k)) by auto.
        destruct (IH H4 Hx Ha Hg) as (r & R1 & R2). pose proof (Hin F Hx) as HF.
        destruct (N.eqb_spec (iuid a) u); [congruence|].
        rewrite (proj2 (fanc_None (iuid a) k)) by (intros Hj; eauto). exists r. split; auto.
Qed.
Lemma child_parent F c x a : NoDup (fuids F) -> fget c F = Some x -> In a (ikids x) -> itag a = true ->
  fparent (iuid a) F = Some x.
Proof.
  intros H1 H2 H3 H4. unfold fparent. destruct (child_anc F c x a H1 H2 H3 H4) as (r & _ & ->). reflexivity.
Qed.

(** The first ancestor of a tag is a tag of the forest that has it as a child. *)
Lemma anc_parent F b p r : NoDup (fuids F) -> fanc b F = Some (p :: r) ->
  fget (iuid p) F = Some p /\ fanc (iuid p) F = Some r /\ exists a, In a (ikids p) /\ is_ b a = true.
Proof.
  revert p r. induction F as [|y F IH|u nm a0 k F IHk IH] using forest_ind; intros p r Hnd Hb.
  - discriminate.
  - exact (IH p r Hnd Hb).
  - pose proof (NoDup_kids _ _ _ _ _ Hnd) as (H1 & H2 & H3 & H4 & H5).
    rewrite fanc_IE in Hb. destruct (N.eqb_spec b u) as [->|Hne]; [discriminate|].
    destruct (fanc b k) as [l|] eqn:E.
    + destruct l as [|p' r'].
      * injection Hb as <- <-. rewrite fget_IE, fanc_IE. cbn [iuid]. rewrite N.eqb_refl. repeat split; auto.
        cbn [ikids]. clear -E. revert E. induction k as [|c k IH]; [discriminate|]. destruct c as [x|v nm a k']; intros E.
        -- destruct (IH E) as (a & Ha & Hs). exists a. split; auto. now right.
        -- rewrite fanc_IE in E. destruct (N.eqb_spec b v) as [->|].
           ++ exists (IE v nm a k'). split; [now left|]. apply N.eqb_refl.
           ++ destruct (fanc b k') as [l|]; [destruct l; discriminate|].
              destruct (IH E) as (a' & Ha & Hs). exists a'. split; auto. now right.
      * injection Hb as <- <-. destruct (IHk _ _ H3 eq_refl) as (G1 & G2 & G3).
        rewrite fget_IE, fanc_IE. destruct (N.eqb_spec (iuid p') u) as [Eu|_].
        -- exfalso. apply H1. rewrite <- Eu. now apply fget_uids in G1.
        -- rewrite G1, G2. auto.
    + destruct (IH _ _ H4 Hb) as (G1 & G2 & G3). rewrite fget_IE, fanc_IE.
      pose proof (fget_uids _ _ _ G1) as Hp.
      destruct (N.eqb_spec (iuid p) u) as [Eu|_]; [congruence|].
      assert (Hk : ~ In (iuid p) (fuids k)) by (intros Hi; eauto).
      rewrite (proj2 (fget_None _ _) Hk), (proj2 (fanc_None _ _) Hk). auto.
Qed.

(** ** The first match *)

(** A test that looks only at the name and the attributes *)
Definition shallow (p : inode -> bool) : Prop :=
  forall n m, itag n = itag m -> iname n = iname m -> iattrs n = iattrs m -> p n = p m.
Definition shallow_pres (f : inode -> inode) : Prop :=
  forall n, itag (f n) = itag n /\ iuid (f n) = iuid n /\ iname (f n) = iname n /\ iattrs (f n) = iattrs n.
Lemma ins_shallow i t : shallow_pres (ins i t).
Proof. intros [x|u nm a k]; repeat split. Qed.
Lemma shallow_tagpres f : shallow_pres f -> tagpres f.
Proof. intros H n. split; apply H. Qed.
Lemma iat_shallow c f : shallow_pres f -> shallow_pres (iat c f).
Proof. intros H [x|u nm a k]; [repeat split|]. cbn [iat]. destruct (c =? u); [apply H|repeat split]. Qed.
Lemma shallow_eq p f n : shallow p -> shallow_pres f -> p (f n) = p n.
Proof. intros H1 H2. destruct (H2 n) as (A & _ & B & C). now apply H1. Qed.
Lemma shallow_idel p l n : shallow p -> p (idel l n) = p n.
Proof. intros H. apply H; [apply idel_tag|apply idel_name|apply idel_attrs]. Qed.

Lemma hd_filter_map {A} (p : A -> bool) g L : (forall x, p (g x) = p x) ->
  hd_error (filter p (map g L)) = option_map g (hd_error (filter p L)).
Proof.
  intros H. induction L as [|x L IH]; auto. cbn [map filter]. rewrite H. destruct (p x); auto.
Qed.
Lemma hd_filter_filter {A} (p q : A -> bool) L x : hd_error (filter p L) = Some x -> q x = true ->
  hd_error (filter p (filter q L)) = Some x.
Proof.
  induction L as [|y L IH]; auto. cbn [filter]. intros H Hq. destruct (p y) eqn:Ep.
  - injection H as ->. rewrite Hq. cbn [filter]. now rewrite Ep.
  - destruct (q y); auto. cbn [filter]. rewrite Ep. auto.
Qed.
Lemma hd_filter_app {A} (p : A -> bool) L1 L2 : hd_error (filter p (L1 ++ L2)) =
  match hd_error (filter p L1) with Some x => Some x | None => hd_error (filter p L2) end.
Proof. rewrite filter_app. destruct (filter p L1); reflexivity. Qed.
Lemma hd_filter_In {A} (p : A -> bool) L x : hd_error (filter p L) = Some x -> In x L /\ p x = true.
Proof.
  intros H. destruct (filter p L) eqn:E; [discriminate|]. injection H as ->.
  apply filter_In. rewrite E. now left.
Qed.
Lemma ifind_In p n x : ifind p n = Some x -> In x (idesc n) /\ p x = true.
Proof. apply hd_filter_In. Qed.

Lemma ifind_idel p n l t x : shallow p -> NoDup (uids n) -> fget l (ikids n) = Some t ->
  ifind p n = Some x -> ~ In (iuid x) (uids t) -> ifind p (idel l n) = Some (idel l x).
Proof.
  intros Hp Hnd Ht Hx Hi. destruct n as [|u nm a k]; [discriminate|]. cbn [ikids] in Ht.
  rewrite uids_IE in Hnd. inversion Hnd as [|? ? _ Hk]; subst.
  unfold ifind, ifind_all in *. cbn [idel]. change (flat_map _ k) with (fdel l k).
  rewrite idesc_IE in *. rewrite (fdesc_fdel l k t) by auto.
  rewrite hd_filter_map by (intros; now apply shallow_idel).
  rewrite (hd_filter_filter p _ _ x Hx); [reflexivity|]. unfold outside. now apply negb_true_iff, mem_not.
Qed.
Lemma ifind_iat p n c f x : shallow p -> shallow_pres f -> NoDup (uids n) ->
  ifind p n = Some x -> In c (uids x) -> ifind p (iat c f n) = Some (iat c f x).
Proof.
  intros Hp Hf Hnd Hx Hc. destruct n as [|u nm a k]; [discriminate|].
  rewrite uids_IE in Hnd. inversion Hnd as [|? ? Hu Hk]; subst.
  unfold ifind, ifind_all in *. rewrite idesc_IE in Hx. pose proof (hd_filter_In _ _ _ Hx) as [Hin _].
  assert (Hck : In c (fuids k)) by now apply (desc_uids _ _ Hin).
  cbn [iat]. destruct (N.eqb_spec c u) as [->|_]; [contradiction|]. rewrite idesc_IE. change (map (iat c f) k) with (fat c f k).
  destruct (fget_ex _ _ Hck) as (xc & Hxc).
  destruct (fdesc_fat c f k xc (shallow_tagpres _ Hf) Hk Hxc) as (pre & post & E1 & E2 & E3 & E4 & E5).
  rewrite E1, hd_filter_app in Hx. rewrite E2, hd_filter_app.
  rewrite hd_filter_map by (intros; apply shallow_eq; auto; now apply iat_shallow).
  destruct (hd_error (filter p pre)) as [y|]; cbn [option_map].
  - now injection Hx as ->.
  - pose proof (fget_In _ _ _ Hxc) as (_ & Huc & Hgc).
    cbn [filter] in *. rewrite shallow_eq by auto. destruct (p xc) eqn:Ep.
    + injection Hx as <-. cbn [hd_error]. rewrite iat_self; auto. now apply is_spec.
    + exfalso. apply hd_filter_In in Hx as [Hx _]. apply in_app_or in Hx as [Hx|Hx].
      * apply E4. rewrite idesc_kids in Hx by auto. now apply (desc_uids _ _ Hx).
      * now apply (E5 x Hx).
Qed.

(** ** Positions *)

Lemma index_of_split b k j : index_of b k = Some j ->
  exists k1 a k2, k = k1 ++ a :: k2 /\ is_ b a = true /\ length k1 = j /\ forallb (fun c => negb (is_ b c)) k1 = true.
Proof.
  revert j. induction k as [|c k IH]; [discriminate|]. cbn [index_of]. intros j H. destruct (is_ b c) eqn:E.
  - injection H as <-. exists [], c, k. auto.
  - destruct (index_of b k) as [j'|]; [|discriminate]. injection H as <-.
    destruct (IH j' eq_refl) as (k1 & a & k2 & -> & H2 & H3 & H4).
    exists (c :: k1), a, k2. cbn [app length forallb]. rewrite E, H4. repeat split; auto.
Qed.
Lemma index_of_ex b k : (exists a, In a k /\ is_ b a = true) -> exists j, index_of b k = Some j.
Proof.
  intros (a & Ha & Hs). induction k as [|c k IH]; [contradiction|]. cbn [index_of].
  destruct (is_ b c) eqn:E; eauto. destruct Ha as [->|Ha]; [congruence|].
  destruct (IH Ha) as (j & ->). cbn. eauto.
Qed.
Lemma insert_nth_here {A} (x : A) k1 l : insert_nth (length k1) x (k1 ++ l) = k1 ++ x :: l.
Proof. induction k1 as [|y k1 IH]; auto. cbn. now rewrite IH. Qed.
Lemma insert_nth_after {A} (x a : A) k1 l : insert_nth (S (length k1)) x (k1 ++ a :: l) = k1 ++ a :: x :: l.
Proof. induction k1 as [|y k1 IH]; auto. cbn [length app]. rewrite <- IH. reflexivity. Qed.
Lemma insert_nth_end {A} (x : A) k i : (length k <= i)%nat -> insert_nth i x k = k ++ [x].
Proof. revert k. induction i as [|i IH]; intros [|y k] H; cbn in *; auto; [lia|]. now rewrite IH by lia. Qed.
