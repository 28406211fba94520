(** Writing the texts of some layers. *)
From Verif Require Import DocProofs DocProofs2 LaySpec LayProofs LayProofs2 LayProofs5 LayProofs6 AnimSpec AnimProofs3.
From Verif Require Import BywModel BywSpec BywProofs.
Local Open Scope N_scope.

Lemma is_param_name p : is_param (s "text") p = true -> aget (s "name") (iattrs p) <> None.
Proof.
  unfold is_param, has_name_attr. intros H. apply andb_prop in H as [_ H]. apply andb_prop in H as [_ H]. cbn [tag_attrs] in H.
  destruct (aget (s "name") (iattrs p)); discriminate.
Qed.
Lemma text_value_at F u v m c : text_at F u v m -> from_tag m = Ok c -> exists x, text_value F u = Ok (x, c) /\ iuid x = v /\ forget x = m.
Proof.
  intros (n & p & x & Hn & Hp & Hk & Hv & Hm) Hc. exists x. split; [|auto]. unfold text_value. rewrite Hn. unfold layer_getitem. rewrite Hp. unfold value_of.
  apply ifind_In in Hp as [_ Hp]. apply is_param_name in Hp. destruct (aget (s "name") (iattrs p)); [|contradiction]. rewrite Hk, Hm, Hc. reflexivity.
Qed.

(** Where the tags are *)
Lemma text_at_desc F u v m : wf F -> text_at F u v m -> exists n x, fget u F = Some n /\ fget v F = Some x /\ forget x = m /\ In x (idesc n) /\ incl (uids x) (uids n) /\ ~ In u (uids x).
Proof.
  intros W (n & p & x & Hn & Hp & Hk & Hv & Hm). exists n, x. pose proof (fget_In _ _ _ Hn) as (Hd & Hu & Ht).
  pose proof (ifind_In _ _ _ Hp) as [Hpn Hpp]. pose proof (param_tag _ _ Hpp) as Hpt.
  assert (Hwk : In x (ikids p) /\ itag x = true) by (apply filter_In; rewrite Hk; now left). destruct Hwk as [Hwk Hwt].
  assert (Hxn : In x (idesc n)) by (destruct n as [|nu nn na nk]; [contradiction|]; rewrite idesc_IE in *; now apply (kid_desc nk p)).
  assert (HxF : In x (fdesc F)) by (eapply desc_trans; eauto).
  split; [auto|]. split; [rewrite <- Hv; now apply fget_desc|]. split; [auto|]. split; [auto|]. split.
  - destruct n as [|nu nn na nk]; [contradiction|]. rewrite idesc_IE in Hxn. intros y Hy. rewrite uids_IE. right. now apply (desc_uids nk x).
  - rewrite <- Hu. apply (idesc_not_self x n Hxn). now apply (NoDup_inside F).
Qed.

Section One.
  Context (F : forest) (u v : N) (m0 m : node) (W : wf F) (H : text_at F u v m0) (Hm : is_tag m = true).
  Let F' := write_tag F v m.

  Lemma write_wf : wf F'.
  Proof. destruct (text_at_desc F u v m0 W H) as (n & x & _ & Hx & _). exact (wr_wf F v x m W Hx Hm). Qed.
  Lemma write_self : text_at F' u v m.
  Proof.
    destruct H as (n & p & x & Hn & Hp & Hk & Hv & Hf). pose proof (fget_In _ _ _ Hn) as (Hun & Huu & Hnt).
    pose proof (ifind_In _ _ _ Hp) as [Hpn Hpp]. pose proof (param_tag _ _ Hpp) as Hpt.
    destruct (text_at_desc F u v m0 W H) as (n1 & x1 & Hn1 & Hx & _ & Hxn & _ & Hnu). rewrite Hn in Hn1. injection Hn1 as <-.
    assert (Hpd : In p (fdesc F)) by (eapply desc_trans; eauto).
    assert (Hwk : In x (ikids p) /\ itag x = true) by (apply filter_In; rewrite Hk; now left). destruct Hwk as [Hwk Hwt].
    assert (x1 = x) as ->.
    { pose proof (kid_desc F p x Hpd Hwk Hwt) as HxF. apply (fget_desc F x W) in HxF. rewrite Hv, Hx in HxF. now injection HxF. }
    pose proof (wr_tag F v x m Hx Hm) as (T1 & T2 & T3 & T4 & T5).
    exists (iat v (written F m) n), (iat v (written F m) p), (written F m x).
    assert (Hne : u <> v) by (intros E; apply Hnu; rewrite E, <- Hv; now apply tag_uid).
    split; [now apply (wr_get F v x m)|]. split; [|split; [|auto]].
    - apply (ifind_write _ n v _ p x (is_param_shallow _) (written_pres F m) (NoDup_inside F n W Hun) Hp Hwk Hwt Hv).
    - destruct p as [|pu pn pa pk]; [discriminate|]. cbn [iat]. assert ((v =? pu) = false) as ->.
      { apply N.eqb_neq. intros E. pose proof (NoDup_inside F _ W Hpd) as Hnd. rewrite uids_IE in Hnd. inversion Hnd as [|? ? H1 H2]; subst.
        apply H1. cbn [ikids] in Hwk. apply in_split in Hwk as (k1 & k2 & ->). rewrite fuids_app. apply in_or_app. right.
        destruct x; [discriminate|]. rewrite fuids_IE. now left. }
      cbn [ikids] in *. now apply (filter_iat_kids v (written F m) pk x (written_pres F m)).
  Qed.
  (** A tag that has nothing in common with the layer stays. *)
  Lemma write_keeps u' n' : fget u' F = Some n' -> apart F u u' -> fget u' F' = Some n'.
  Proof.
    intros Hu' A. destruct (text_at_desc F u v m0 W H) as (n & x & Hn & Hx & _ & Hxn & Hi & Hnu). specialize (A n n').
    pose proof (fget_In _ _ _ Hx) as (_ & Hxv & Hxt). pose proof (fget_In _ _ _ Hu') as (_ & Huu & Hut).
    assert (Hvn : In v (uids n)) by (apply Hi; rewrite <- Hxv; now apply tag_uid).
    assert (Hnv : ~ In v (uids n')) by (apply A; auto).
    assert (Hun : ~ In u' (uids x)) by (intros E; apply (A u'); auto; rewrite <- Huu; now apply tag_uid).
    change F' with (fat v (written F m) F). rewrite (wr_get F v x m W Hx Hm u' n' Hu'); [now rewrite iat_notin| |exact Hun].
    intros ->. apply Hun. rewrite <- Hxv. now apply tag_uid.
  Qed.
  Lemma write_other u' v' m' : text_at F u' v' m' -> apart F u u' -> text_at F' u' v' m'.
  Proof. intros (n' & p & x' & Hu' & Hr) A. exists n', p, x'. split; [now apply write_keeps|exact Hr]. Qed.
  (** What's in the layer afterwards was in it, or is new. *)
  Lemma write_uids n n' : fget u F = Some n -> fget u F' = Some n' -> forall y, In y (uids n') -> In y (uids n) \/ ~ In y (fuids F).
  Proof.
    intros Hn Hn' y Hy. destruct (text_at_desc F u v m0 W H) as (n1 & x & Hn1 & Hx & _ & Hxn & Hi & Hnu). rewrite Hn in Hn1. injection Hn1 as <-.
    pose proof (fget_In _ _ _ Hx) as (_ & Hxv & Hxt). pose proof (fget_In _ _ _ Hn) as (Hun & Huu & Hnt).
    assert (Hne : u <> v) by (intros E; apply Hnu; rewrite E, <- Hxv; now apply tag_uid).
    change F' with (fat v (written F m) F) in Hn'. rewrite (wr_get F v x m W Hx Hm u n Hn Hne Hnu) in Hn'. injection Hn' as <-.
    destruct n as [|nu nn na nk]; [discriminate|]. cbn [iuid] in Huu. subst nu. cbn [iat] in Hy. apply N.eqb_neq in Hne. rewrite N.eqb_sym in Hne. rewrite Hne in Hy.
    rewrite uids_IE in Hy |- *. destruct Hy as [<-|Hy]; [left; now left|]. rewrite idesc_IE in Hxn.
    pose proof (NoDup_inside F _ W Hun) as Hnd. rewrite uids_IE in Hnd. apply NoDup_cons_iff in Hnd as [_ Hnd].
    pose proof (fget_desc nk x Hnd Hxn) as Hxk. rewrite Hxv in Hxk.
    destruct (fdesc_fat v (written F m) nk x (written_pres F m) Hnd Hxk) as (pre & post & E1 & E2 & _).
    change (map (iat v (written F m)) nk) with (fat v (written F m) nk) in Hy. rewrite <- uids_desc, E2 in Hy.
    assert (M : forall L, map iuid (map (iat v (written F m)) L) = map iuid L) by (intros L; rewrite map_map; apply map_ext; intros; apply iat_uid, written_pres).
    pose proof (wr_tag F v x m Hx Hm) as (T1 & T2 & T3 & T4 & T5).
    rewrite map_app in Hy. cbn [map] in Hy. rewrite map_app, !M, T2 in Hy. rewrite <- uids_desc, E1, map_app. cbn [map]. rewrite map_app.
    apply in_app_or in Hy as [Hy|[Hy|Hy]].
    - left. right. apply in_or_app. now left.
    - left. right. apply in_or_app. right. left. congruence.
    - apply in_app_or in Hy as [Hy|Hy].
      + right. apply T5. rewrite idesc_kids in Hy by exact T1. now rewrite uids_desc in Hy.
      + left. right. apply in_or_app. right. right. apply in_or_app. now right.
  Qed.
End One.

Lemma apart_sym F u u' : apart F u u' -> apart F u' u.
Proof. intros A n n' y H1 H2 H3 H4. now apply (A n' n y). Qed.

(** The layers us have texts with the tags val, and these are st; they are in a document with the attributes A. *)
Definition in_canvas (A : attrs) (F : forest) (V : list N) : Prop :=
  exists root, root_of F root /\ iname root = s "canvas" /\ iattrs root = A /\ forall v, In v V -> In v (fuids (ikids root)).
Record texts (A : attrs) (us : list N) (val : N -> N) (F : forest) (st : N -> node) : Prop := {
  tx_wf : wf F;
  tx_canvas : in_canvas A F (map val us);
  tx_at : forall u, In u us -> text_at F u (val u) (st u);
  tx_apart : forall u u', In u us -> In u' us -> u <> u' -> apart F u u'
}.
Definition upd (st : N -> node) (u : N) (m : node) : N -> node := fun u' => if u' =? u then m else st u'.

Lemma canvas_ctx A F V v : wf F -> in_canvas A F V -> In v V -> ctx_of F v = Some A.
Proof.
  intros W (root & R & C & <- & I) Hv. specialize (I v Hv). rewrite <- uids_desc in I. apply in_map_iff in I as (x & <- & Hx).
  apply ctx_in_doc with (n := root); auto.
Qed.

Lemma fat_keeps v f K x y : tagpres f -> NoDup (fuids K) -> fget v K = Some x -> In y (fuids K) -> ~ In y (fuids (ikids x)) -> In y (fuids (fat v f K)).
Proof.
  intros Hf N Hx Hy Hn. destruct (fdesc_fat v f K x Hf N Hx) as (pre & post & E1 & E2 & _).
  pose proof (fget_In _ _ _ Hx) as (_ & Hxv & Hxt).
  assert (M : forall L, map iuid (map (iat v f) L) = map iuid L) by (intros L; rewrite map_map; apply map_ext; intros; now apply iat_uid).
  rewrite <- uids_desc, E1, map_app in Hy. cbn [map] in Hy. rewrite map_app in Hy. rewrite <- uids_desc, E2, map_app. cbn [map]. rewrite map_app, !M.
  apply in_app_or in Hy as [Hy|[Hy|Hy]].
  - apply in_or_app. now left.
  - apply in_or_app. right. left. rewrite <- Hy. destruct (Hf x) as (_ & E). exact E.
  - apply in_app_or in Hy as [Hy|Hy].
    + exfalso. apply Hn. rewrite idesc_kids in Hy by exact Hxt. now rewrite uids_desc in Hy.
    + apply in_or_app. right. right. apply in_or_app. now right.
Qed.

Lemma write_texts A us val F st u m : texts A us val F st -> In u us -> is_tag m = true -> texts A us val (write_tag F (val u) m) (upd st u m).
Proof.
  intros [W C T P] Hu Hm. pose proof (T u Hu) as Tu. pose proof (write_wf F u (val u) (st u) m W Tu Hm) as W'. split.
  - exact W'.
  - destruct C as (root & (d & Hd & Hdt & Hdk & Hrt) & Hc & Ha & Hi). set (v := val u) in *. set (g := written F m).
    destruct (text_at_desc F u v (st u) W Tu) as (n & x & Hn & Hx & _ & Hxn & Hxi & Hnu). pose proof (fget_In _ _ _ Hx) as (_ & Hxv & Hxt).
    destruct d as [|du dn da dk]; [discriminate|]. cbn [ikids] in Hdk. subst dk. destruct root as [|ru rn ra rk]; [discriminate|]. cbn [ikids iname iattrs] in *.
    assert (Hv : In v (fuids rk)) by (apply Hi; now apply in_map).
    apply in_split in Hd as (F1 & F2 & EF). pose proof W as W0. unfold wf in W. rewrite EF, fuids_app, fuids_IE in W.
    apply NoDup_app_parts in W as (_ & W & _). apply NoDup_cons_iff in W as [Wd W]. apply NoDup_app_parts in W as (W & _ & _).
    assert (Ei : fuids [IE ru rn ra rk] = ru :: fuids rk) by (rewrite fuids_IE; cbn; now rewrite app_nil_r).
    rewrite Ei in W. apply NoDup_cons_iff in W as [Wr W].
    assert (Hdv : (v =? du) = false) by (apply N.eqb_neq; intros <-; apply Wd, in_or_app; left; rewrite Ei; now right).
    assert (Hrv : (v =? ru) = false) by (apply N.eqb_neq; intros <-; contradiction).
    exists (IE ru rn ra (map (iat v g) rk)). split; [|split; [exact Hc|split; [exact Ha|]]].
    + exists (IE du dn da [IE ru rn ra (map (iat v g) rk)]). split; [|auto]. change (write_tag F v m) with (map (iat v g) F). rewrite EF, map_app. apply in_or_app. right. left.
      cbn [iat map]. rewrite Hdv. now rewrite Hrv.
    + intros v' Hv'. apply in_map_iff in Hv' as (u' & <- & Hu'). cbn [ikids]. change (map (iat v g) rk) with (fat v g rk).
      assert (Hxk : fget v rk = Some x).
      { assert (D : In v (fuids rk)) by exact Hv. rewrite <- uids_desc in D. apply in_map_iff in D as (x' & Ev & Dx). pose proof (fget_desc rk x' W Dx) as G. rewrite Ev in G.
        assert (In x' (fdesc F)). { rewrite EF, fdesc_app, fdesc_IE. apply in_or_app. right. right. apply in_or_app. left. rewrite fdesc_IE. right. apply in_or_app. now left. }
        pose proof (fget_desc F x' W0 H) as G'. rewrite Ev, Hx in G'. injection G' as <-. exact G. }
      apply (fat_keeps v g rk x); auto; [apply written_pres|apply Hi; now apply in_map|].
      intros Hin. destruct (N.eq_dec u' u) as [->|Hne].
      * pose proof (NoDup_inside F x W0 ltac:(now apply (fget_In v))) as Nx. destruct x as [|xu xn xa xk]; [discriminate|]. rewrite uids_IE in Nx. cbn [iuid ikids] in *. fold v in Hin. subst xu. apply NoDup_cons_iff in Nx as [Nx _]. contradiction.
      * destruct (text_at_desc F u' (val u') (st u') W0 (T u' Hu')) as (n' & x' & Hn' & Hx' & _ & _ & Hxi' & _). pose proof (fget_In _ _ _ Hx') as (_ & Hxv' & Hxt').
        apply (P u u' Hu Hu' ltac:(congruence) n n' (val u') Hn Hn').
        -- apply Hxi. destruct x as [|xu xn xa xk]; [discriminate|]. rewrite uids_IE. now right.
        -- apply Hxi'. rewrite <- Hxv'. now apply tag_uid.
  - intros u' Hu'. unfold upd. destruct (N.eqb_spec u' u) as [->|Hne].
    + now apply (write_self F u (val u) (st u)).
    + apply (write_other F u (val u) (st u)); auto.
  - assert (Q : forall u', In u' us -> u' <> u -> apart (write_tag F (val u) m) u u').
    { intros u' Hu' Hne n n' y H1 H2 H3 H4. destruct (text_at_desc F u (val u) (st u) W Tu) as (n0 & _ & Hn0 & _).
      destruct (text_at_desc F u' (val u') (st u') W (T u' Hu')) as (n1 & _ & Hn1 & _).
      rewrite (write_keeps F u (val u) (st u) m W Tu Hm u' n1 Hn1 (P u u' Hu Hu' ltac:(congruence))) in H2. injection H2 as <-.
      destruct (write_uids F u (val u) (st u) m W Tu Hm n0 n Hn0 H1 y H3) as [H5|H5].
      - now apply (P u u' Hu Hu' ltac:(congruence) n0 n1 y).
      - apply H5. apply (desc_uids F n1); auto. now apply (fget_In u'). }
    intros u1 u2 H1 H2 Hne. destruct (N.eq_dec u1 u) as [->|E1]; [now apply Q; auto|]. destruct (N.eq_dec u2 u) as [->|E2]; [now apply apart_sym, Q|].
    destruct (text_at_desc F u1 (val u1) (st u1) W (T u1 H1)) as (n1 & _ & Hn1 & _). destruct (text_at_desc F u2 (val u2) (st u2) W (T u2 H2)) as (n2 & _ & Hn2 & _).
    intros n n' y G1 G2. rewrite (write_keeps F u (val u) (st u) m W Tu Hm u1 n1 Hn1) in G1 by (apply P; auto). rewrite (write_keeps F u (val u) (st u) m W Tu Hm u2 n2 Hn2) in G2 by (apply P; auto).
    injection G1 as <-. injection G2 as <-. now apply (P u1 u2 H1 H2 Hne).
Qed.

(** ** The frame *)

Lemma hollow_iat V v g n : tagpres g -> In v V -> hollow V (iat v g n) = hollow V n.
Proof.
  intros Hg Hv. induction n as [x|u nm a k IH] using inode_ind'; auto. cbn [iat]. destruct (N.eqb_spec v u) as [->|Hne].
  - destruct (Hg (IE u nm a k)) as (H1 & H2). destruct (g (IE u nm a k)) as [|u' nm' a' k']; [discriminate|]. cbn [iuid] in H2. subst u'. cbn [hollow].
    assert (existsb (N.eqb u) V = true) as -> by (apply existsb_exists; exists u; split; [exact Hv|apply N.eqb_refl]). reflexivity.
  - cbn [hollow]. destruct (existsb (N.eqb u) V); [reflexivity|]. f_equal. rewrite map_map. apply map_ext_in. now apply Forall_forall.
Qed.
Lemma hollow_write V v m F : In v V -> map (hollow V) (write_tag F v m) = map (hollow V) F.
Proof.
  intros Hv. change (write_tag F v m) with (map (iat v (written F m)) F). rewrite map_map. apply map_ext. intros n. apply hollow_iat; [apply written_pres|exact Hv].
Qed.

Lemma hollow_out V n : (forall y, In y V -> ~ In y (uids n)) -> hollow V n = n.
Proof.
  induction n as [x|u nm a k IH] using inode_ind'; auto. rewrite uids_IE. intros H. cbn [hollow].
  destruct (existsb (N.eqb u) V) eqn:E.
  - apply existsb_exists in E as (y & Hy & E). apply N.eqb_eq in E as <-. exfalso. apply (H u Hy). now left.
  - f_equal. rewrite <- (map_id k) at 2. apply map_ext_in. intros c Hc. rewrite Forall_forall in IH. apply IH; auto.
    intros y Hy Hyc. apply (H y Hy). right. unfold fuids. apply in_flat_map. eauto.
Qed.
Lemma hollow_in V n : (exists y, In y V /\ In y (uids n)) -> exists y, In y V /\ In y (uids (hollow V n)).
Proof.
  induction n as [x|u nm a k IH] using inode_ind'; [intros (y & _ & [])|]. intros (y & Hy & Hn). cbn [hollow]. destruct (existsb (N.eqb u) V) eqn:E.
  - exists u. split; [|now left]. apply existsb_exists in E as (z & Hz & E). apply N.eqb_eq in E as <-. exact Hz.
  - rewrite uids_IE in Hn. destruct Hn as [<-|Hn].
    + assert (existsb (N.eqb u) V = true) by (apply existsb_exists; exists u; split; [exact Hy|apply N.eqb_refl]). congruence.
    + unfold fuids in Hn. apply in_flat_map in Hn as (c & Hc & Hn). rewrite Forall_forall in IH. destruct (IH c Hc (ex_intro _ y (conj Hy Hn))) as (z & Hz & Hzn).
      exists z. split; [exact Hz|]. rewrite uids_IE. right. unfold fuids. apply in_flat_map. exists (hollow V c). split; [now apply in_map|exact Hzn].
Qed.
(** What can be seen in the hollowed document *)
Lemma hollow_desc V (F : forest) h : In h (fdesc (map (hollow V) F)) -> ~ In (iuid h) V -> exists n, In n (fdesc F) /\ hollow V n = h.
Proof.
  induction F as [|x F IH|u nm a k F IHk IH] using forest_ind; cbn [map]; [intros []|exact IH|]. cbn [hollow]. destruct (existsb (N.eqb u) V) eqn:E.
  - rewrite fdesc_IE. cbn [fdesc app]. intros [<-|Hh] Hv.
    + exfalso. apply Hv. cbn [iuid]. apply existsb_exists in E as (z & Hz & E). apply N.eqb_eq in E as <-. exact Hz.
    + destruct (IH Hh Hv) as (n & Hn & Eh). exists n. split; [|exact Eh]. rewrite fdesc_IE. right. apply in_or_app. now right.
  - rewrite !fdesc_IE. intros [<-|Hh] Hv.
    + exists (IE u nm a k). split; [now left|]. cbn [hollow]. now rewrite E.
    + apply in_app_or in Hh as [Hh|Hh]; [destruct (IHk Hh Hv) as (n & Hn & Eh)|destruct (IH Hh Hv) as (n & Hn & Eh)]; exists n; (split; [|exact Eh]); right; apply in_or_app; auto.
Qed.
Lemma hollow_seen V (F : forest) u n : wf F -> fget u F = Some n -> ~ In u V -> (forall v x, In v V -> fget v F = Some x -> ~ In u (uids x)) ->
  In (hollow V n) (fdesc (map (hollow V) F)).
Proof.
  intros W Hn Hu Ho. apply fget_In in Hn as (Hd & Hu' & Ht).
  assert (Ho' : forall x, In x (fdesc F) -> In (iuid x) V -> ~ In u (uids x)) by (intros x Hx Hv; apply (Ho (iuid x)); auto; now apply fget_desc).
  clear Ho W. induction F as [|x F IH|w nm a k F IHk IH] using forest_ind; [contradiction|cbn [map]; apply IH; auto|].
  cbn [map]. rewrite fdesc_IE in Hd. cbn [hollow]. destruct (existsb (N.eqb w) V) eqn:E.
  - assert (Hw : In w V) by (apply existsb_exists in E as (z & Hz & E); apply N.eqb_eq in E as <-; exact Hz).
    assert (Hx : ~ In u (uids (IE w nm a k))) by (apply Ho'; [rewrite fdesc_IE; now left|exact Hw]).
    rewrite fdesc_IE. right. cbn [fdesc app]. apply IH.
    + destruct Hd as [<-|Hd]; [cbn [iuid] in Hu'; congruence|]. apply in_app_or in Hd as [Hd|Hd]; [|exact Hd].
      exfalso. apply Hx. rewrite uids_IE. right. rewrite <- uids_desc, <- Hu'. now apply in_map.
    + intros y Hy. apply Ho'. rewrite fdesc_IE. right. apply in_or_app. now right.
  - rewrite fdesc_IE. destruct Hd as [<-|Hd].
    + left. cbn [hollow]. now rewrite E.
    + right. apply in_or_app. apply in_app_or in Hd as [Hd|Hd]; [left; apply IHk|right; apply IH]; auto; intros y Hy; apply Ho'; rewrite fdesc_IE; right; apply in_or_app; auto.
Qed.
(** If two documents are the same apart from the tags V, then a tag with nothing of V in it, and that isn't in one of V, is the same. *)
Lemma hollow_keeps V F F' u n : wf F -> wf F' -> map (hollow V) F' = map (hollow V) F -> fget u F = Some n -> (forall y, In y V -> ~ In y (uids n)) ->
  (forall v x, In v V -> fget v F = Some x -> ~ In u (uids x)) -> fget u F' = Some n.
Proof.
  intros W W' E Hn Hi Ho. pose proof (fget_In _ _ _ Hn) as (_ & Hu & Ht).
  assert (Hv : ~ In u V) by (intros C; apply (Hi u C); rewrite <- Hu; now apply tag_uid).
  pose proof (hollow_seen V F u n W Hn Hv Ho) as S. rewrite (hollow_out V n Hi) in S. rewrite <- E in S.
  apply hollow_desc in S as (n' & Hn' & En); [|now rewrite Hu]. assert (n' = n) as ->.
  { rewrite <- En. symmetry. apply hollow_out. intros y Hy Hin. destruct (hollow_in V n' (ex_intro _ y (conj Hy Hin))) as (z & Hz & Hzn). rewrite En in Hzn. now apply (Hi z). }
  rewrite <- Hu. now apply fget_desc.
Qed.
