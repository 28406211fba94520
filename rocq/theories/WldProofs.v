(** Setting attributes of a layer; new layers *)
From Coq Require Import Lia.
From Verif Require Import AnimModel LayModel DocProofs DocProofs2 LaySpec LayProofs LayProofs2 LayProofs3 LayProofs4 LayProofs5 LayProofs6 LayProofs7 VarSpec VarProofs LoopModel MovSpec MovProofs MovProofs2 MixSpec MixProofs WrSpec ClsProofs PrmSpec PrmProofs PrmProofs2 PrmProofs3 WldSpec.
Local Open Scope N_scope.

(** ** Attributes *)

Section Attr.
  Context (F : forest) (U : usual F) (u : N) (n0 : inode) (Hu : fget u F = Some n0) (Hl0 : bulky n0 = true).
  Context (g : attrs -> attrs) (Hg : forall a k, In k [s "type"; s "name"] -> aget k (g a) = aget k a).
  Let W := us_wf F U.
  Definition fi (x : inode) : inode := iat u (with_iattrs g) x.
  Definition G : forest := fat u (with_iattrs g) F.
  Lemma fi_look x : itag (fi x) = itag x /\ iuid (fi x) = iuid x /\ iname (fi x) = iname x /\ (forall k, In k [s "type"; s "name"] -> aget k (iattrs (fi x)) = aget k (iattrs x)) /\ (iuid x <> u -> iattrs (fi x) = iattrs x).
  Proof. destruct x as [y|v nm a k]; [auto 6|]. unfold fi. cbn [iat]. destruct (N.eqb_spec u v) as [->|Hn]; cbn [with_iattrs itag iuid iname iattrs]; repeat split; auto. intros Z. congruence. Qed.
  Lemma fi_named nm x : named nm (fi x) = named nm x.
  Proof. unfold named. destruct (fi_look x) as (-> & _ & -> & _). reflexivity. Qed.
  Lemma fi_param k x : is_param k (fi x) = is_param k x.
  Proof. unfold is_param, has_name_attr. cbn [tag_name tag_attrs has_name]. destruct (fi_look x) as (-> & _ & -> & E & _). rewrite E by (right; now left). reflexivity. Qed.
  Lemma fi_class x : layer_class (fi x) = layer_class x.
  Proof. unfold layer_class. destruct (fi_look x) as (_ & _ & _ & E & _). rewrite E by now left. reflexivity. Qed.
  Lemma at_desc K y : In y (fdesc (fat u (with_iattrs g) K)) -> exists x, In x (fdesc K) /\ (y = fi x \/ y = x).
  Proof.
    induction K as [|z K IH|v nm a k K IHk IH] using forest_ind; [intros []|exact IH|]. rewrite fat_IE, fdesc_IE. destruct (N.eqb_spec u v) as [<-|Hn]; cbn [with_iattrs]; rewrite fdesc_IE; intros [<-|H].
    - exists (IE u nm a k). split; [now left|]. left. unfold fi. cbn [iat]. now rewrite N.eqb_refl.
    - apply in_app_or in H as [H|H]; [exists y; split; [right; apply in_or_app; now left|now right]|]. destruct (IH H) as (x & Hx & E). exists x. split; [right; apply in_or_app; now right|exact E].
    - exists (IE v nm a k). split; [now left|]. left. unfold fi. cbn [iat]. apply N.eqb_neq in Hn. rewrite Hn. reflexivity.
    - apply in_app_or in H as [H|H]; [destruct (IHk H) as (x & Hx & E)|destruct (IH H) as (x & Hx & E)]; exists x; (split; [right; apply in_or_app; auto|exact E]).
  Qed.
  Lemma G_wf : wf G.
  Proof. unfold wf, G. rewrite fuids_attr. exact W. Qed.
  Lemma G_get z : fget z G = option_map fi (fget z F).
  Proof.
    assert (T : tagpres (with_iattrs g)) by (intros [|]; split; reflexivity). destruct (fdesc_fat u (with_iattrs g) F n0 T W Hu) as (pre & post & E1 & E2 & E3 & E4 & _).
    assert (X : fdesc G = map fi (fdesc F)).
    { unfold G. rewrite E1, E2, map_app. cbn [map]. rewrite map_app. f_equal. pose proof (fget_In _ _ _ Hu) as (_ & Eu & Et). destruct n0 as [|v nm a k]; [discriminate|]. cbn [iuid] in Eu. subst v. f_equal; [unfold fi; cbn [iat]; now rewrite N.eqb_refl|]. f_equal.
      cbn [with_iattrs]. rewrite !idesc_IE. cbn [ikids] in E4. rewrite <- (map_id (fdesc k)) at 1. apply map_ext_in. intros x Hx. symmetry. apply iat_notin. intros Hi. apply E4. rewrite <- uids_desc.
      rewrite uids_desc. exact (desc_uids k x Hx u Hi). }
    rewrite !fget_find, X. generalize (fdesc F). intros l. induction l as [|y l IH]; [reflexivity|]. cbn [map find]. assert (Ei : is_ z (fi y) = is_ z y) by (destruct (fi_look y) as (A & B & _); destruct y as [|v nm a k]; [reflexivity|]; unfold fi in *; cbn [iat] in *; destruct (u =? v); reflexivity).
    rewrite Ei. destruct (is_ z y); [reflexivity|exact IH].
  Qed.
  Lemma fi_kids x : In x (fdesc F) -> ikids (fi x) = map fi (ikids x).
  Proof.
    intros Hx. destruct x as [|v nm a k]; [reflexivity|]. unfold fi at 1. cbn [iat]. destruct (N.eqb_spec u v) as [<-|Hn]; [|reflexivity]. cbn [with_iattrs ikids]. rewrite <- (map_id k) at 1. apply map_ext_in. intros y Hy. symmetry. apply iat_notin. intros Hi.
    pose proof (fget_desc F _ W Hx) as Hf. cbn [iuid] in Hf. assert (T : tagpres (with_iattrs g)) by (intros [|]; split; reflexivity). destruct (fdesc_fat u (with_iattrs g) F _ T W Hf) as (_ & _ & _ & _ & _ & E4 & _). apply E4. cbn [ikids]. unfold fuids. apply in_flat_map. eauto.
  Qed.
  Lemma G_own n c : In n (fdesc F) -> own_canvas n c -> own_canvas (fi n) (fi c).
  Proof.
    intros Hn (k1 & p & k2 & j1 & j2 & E1 & Hp & E2 & Hc & N1 & N2). assert (Hpd : In p (fdesc F)) by (apply (kid_desc F n); [exact Hn|rewrite E1; apply in_or_app; right; now left|now apply (param_tag (s "canvas"))]).
    exists (map fi k1), (fi p), (map fi k2), (map fi j1), (map fi j2). rewrite (fi_kids n Hn), E1, (fi_kids p Hpd), E2, !map_app. cbn [map]. rewrite fi_param, fi_named. repeat (split; [now auto|]). split.
    - intros x Hx. destruct (at_desc k1 x Hx) as (y & Hy & [-> | ->]); [rewrite fi_param|]; now apply N1.
    - intros x Hx. destruct (at_desc j1 x Hx) as (y & Hy & [-> | ->]); [rewrite fi_named|]; now apply N2.
  Qed.
  Lemma fi_uids x : uids (fi x) = uids x.
  Proof. unfold fi. pose proof (fuids_attr u g [x]) as E. unfold fuids, fat in E. cbn [map flat_map] in E. now rewrite !app_nil_r in E. Qed.
  Lemma G_back z n' : fget z G = Some n' -> exists n, fget z F = Some n /\ n' = fi n.
  Proof. rewrite G_get. destruct (fget z F) as [n|]; [|discriminate]. intros [= <-]. eauto. Qed.
  Lemma G_usual : usual G.
  Proof.
    split; [exact G_wf| | | |].
    - destruct (us_root F U) as (r & Hr & Hc). exists (fi r). rewrite G_get, Hr. split; [reflexivity|]. now rewrite fi_named.
    - intros z n' Hz Hl. destruct (G_back z n' Hz) as (n & Hn & ->). unfold is_layer in Hl. rewrite fi_named in Hl. rewrite fi_uids. now apply (us_top F U z n).
    - intros z n' Hz Hl. destruct (G_back z n' Hz) as (n & Hn & ->). unfold is_layer in Hl. rewrite fi_named in Hl. unfold known. rewrite fi_class. now apply (us_known F U z n).
    - intros z n' k Hz Hl Hk Hd. destruct (G_back z n' Hz) as (n & Hn & ->). unfold is_layer in Hl. rewrite fi_named in Hl. rewrite fi_class in Hk. destruct (us_own F U z n k Hn Hl Hk Hd) as (c & Hc). exists (fi c). apply G_own; [now apply fget_In in Hn|exact Hc].
  Qed.
  Lemma G_layers c : In c (fdesc F) -> ids (layers_in (fi c)) = ids (layers_in c).
  Proof.
    intros Hc. unfold layers_in. rewrite (fi_kids c Hc), !ids_rev. f_equal. generalize (ikids c). intros k. induction k as [|y k IH]; [reflexivity|]. cbn [map filter]. unfold is_layer in *. rewrite fi_named. destruct (named (s "layer") y); [|exact IH]. cbn [ids map]. f_equal; [apply fi_look|exact IH].
  Qed.
  Lemma G_shows h : shows F h -> shows G h.
  Proof.
    intros Sh x kd n' [Hx Hk]. destruct (G_back x n' Hx) as (n & Hn & ->). unfold is_layer in Hk. rewrite fi_named, fi_class in Hk. assert (Hh : holder F x kd n) by (split; [exact Hn|exact Hk]).
    destruct (canv_ex F x kd n U Hh) as (c & Cc). destruct (canv_in _ _ _ _ _ U Cc) as (_ & _ & _ & _ & Hcd).
    assert (C' : canv G x kd (fi n) (fi c)).
    { split; [split; [exact Hx|unfold is_layer; now rewrite fi_named, fi_class]|]. destruct Cc as [_ Hc]. destruct kd; cbn [holds_children] in *; [now subst c|apply G_own; [now apply fget_In in Hn|exact Hc]|exact Hc]. }
    exists (layers_in (fi c)). split; [exact (canv_ch G x kd _ _ G_usual C')|]. rewrite (G_layers c Hcd). destruct (Sh x kd n Hh) as (ch & Hch & <-). rewrite (canv_ch F x kd n c U Cc) in Hch. now injection Hch as <-.
  Qed.
  Lemma G_holds st : holds F st -> holds G st.
  Proof.
    intros A q t Hq. destruct (A q t Hq) as (w & V & E). exists w. split; [|exact E]. destruct (holder_site _ _ _ V) as (p & S & Hn & Fw & Hbw). destruct (site_w _ _ _ _ W S) as (Hwk & Hwt & Hwf & Hwd & Hwp & Hpd). destruct S as [S1 S2 S3 S4].
    assert (Hw : fi w = w) by (apply iat_notin; apply (flat_out F w u n0 W Hwd Fw Hu); exact Hl0).
    exists (fi p). rewrite G_get, S1. split; [reflexivity|]. split; [now rewrite fi_named|]. split; [destruct (fi_look p) as (_ & _ & _ & -> & _); [exact Hn|right; now left]|]. split; [|exact Hbw].
    rewrite (fi_kids p Hpd). assert (X : forall k, filter itag (map fi k) = map fi (filter itag k)) by (induction k as [|y k IH]; [reflexivity|]; cbn [map filter]; destruct (fi_look y) as (-> & _); destruct (itag y); cbn [map]; now rewrite IH).
    rewrite X, S3. cbn [map]. now rewrite Hw.
  Qed.
  Lemma G_tells h : is_layer n0 = true -> tells F h -> h u <> None -> tells G (aput h u (g (iattrs n0))).
  Proof.
    intros Hl1 T Hn z a. unfold aput. destruct (N.eqb_spec z u) as [->|Hne].
    - intros [= <-]. exists (fi n0). rewrite G_get, Hu. split; [reflexivity|]. unfold is_layer. rewrite fi_named. split; [exact Hl1|]. pose proof (fget_In _ _ _ Hu) as (_ & Eu & Et). destruct n0 as [|v nm b k]; [discriminate|]. cbn [iuid] in Eu. subst v. unfold fi. cbn [iat]. now rewrite N.eqb_refl.
    - intros H. destruct (T z a H) as (n & Hz & Hl & Ha). exists (fi n). rewrite G_get, Hz. split; [reflexivity|]. unfold is_layer. rewrite fi_named. split; [exact Hl|]. destruct (fi_look n) as (_ & _ & _ & _ & ->); [exact Ha|]. now rewrite (fget_uid _ _ _ Hz).
  Qed.
  (** The attributes of something that isn't a layer *)
  Lemma G_tells_rest h : is_layer n0 = false -> tells F h -> tells G h.
  Proof.
    intros Hl1 T z a H. destruct (T z a H) as (n & Hz & Hl & Ha). exists (fi n). rewrite G_get, Hz. split; [reflexivity|]. unfold is_layer. rewrite fi_named. split; [exact Hl|]. destruct (fi_look n) as (_ & _ & _ & _ & ->); [exact Ha|]. rewrite (fget_uid _ _ _ Hz). intros ->. congruence.
  Qed.
End Attr.
Lemma layer_bulky n : is_layer n = true -> bulky n = true. Proof. unfold bulky. now intros ->. Qed.
