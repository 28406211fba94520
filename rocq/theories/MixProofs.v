(** Moves keep the variables, and assignments keep the lists. *)
From Coq Require Import Lia.
From Verif Require Import LayModel DocProofs DocProofs2 LaySpec LayProofs LayProofs2 LayProofs3 LayProofs4 LayProofs5 LayProofs6 LayProofs7 TlProofs3 ValProofs VarSpec VarProofs LoopModel MovSpec MovProofs MovProofs2 MixSpec.
Local Open Scope N_scope.

Definition bulky (n : inode) : bool := is_layer n || named (s "canvas") n.
Lemma flat_desc (k : forest) : forallb flat_value (map forget k) = true -> forall z, In z (fdesc k) -> bulky z = false.
Proof.
  induction k as [|y F IH|u nm a k F IHk IH] using forest_ind; intros H z Hz; [destruct Hz|now apply IH|]. rewrite fdesc_IE in Hz. cbn [map forget forallb flat_value] in H.
  apply andb_prop in H as [H H2]. apply andb_prop in H as [H H1]. apply andb_prop in H as [H0 H3]. destruct Hz as [<-|Hz].
  - unfold bulky, is_layer, named. cbn [itag iname andb]. apply negb_true_iff in H0. apply negb_true_iff in H3. rewrite H0, H3. reflexivity.
  - apply in_app_or in Hz as [Hz|Hz]; auto.
Qed.
Lemma flat_self w : itag w = true -> flat_value (forget w) = true -> forall z, In z (w :: idesc w) -> bulky z = false.
Proof. intros Ht H z Hz. rewrite <- idesc_self in Hz by exact Ht. apply (flat_desc [w]); [|exact Hz]. cbn [map forallb]. now rewrite H. Qed.
Lemma bulky_shallow : shallow bulky.
Proof. intros n m H1 H2 H3. unfold bulky. now rewrite (is_layer_shallow n m H1 H2 H3), (named_shallow _ n m H1 H2 H3). Qed.
Lemma param_flat p : isP p = true -> bulky p = false.
Proof.
  unfold isP, bulky, is_layer, named. intros H. apply andb_prop in H as [_ H]. apply pstr_eqb_spec in H. rewrite H. assert (E1 : pstr_eqb (s "param") (s "layer") = false) by reflexivity. assert (E2 : pstr_eqb (s "param") (s "canvas") = false) by reflexivity.
  rewrite E1, E2, !andb_false_r. reflexivity.
Qed.

(** ** Moves *)

(** What holds before and after each part of a move *)
Section Parts.
  Context (P : forest -> Prop).
  Context (HT : forall F g kd n c i x, usual F -> canv F g kd n c -> P F -> P (fat (iuid c) (ins i (IT x)) F)).
  Context (HM : forall F g kd n c l t i, usual F -> canv F g kd n c -> fget l F = Some t -> is_layer t = true -> ~ In g (uids t) -> P F -> P (fat (iuid c) (ins i t) (fdel l F))).
  Lemma append_part F kd g l : usual F -> fits F (MAppend kd g l) -> P F -> P (fst (group_append F kd g l)).
  Proof.
    intros U Hf HP. pose proof Hf as ((n & Hh) & t & Hl & Htl & Ho). destruct (canv_ex _ _ _ _ U Hh) as (c & C). destruct (canv_in _ _ _ _ _ U C) as (Hk & Hcc & _).
    destruct (shows_ex F U) as (h & S). pose proof (us_wf F U) as W. destruct (S g kd n Hh) as (ch & Hch & Ech).
    destruct (last_is l (h g)) eqn:El.
    - apply last_is_spec in El as (a & Ea). rewrite (append_last F kd g l n ch a W (proj1 Hh) Hch Hk) by (rewrite Ech; exact Ea). exact HP.
    - destruct (append_works F kd g l n c t ch W (proj1 Hh) (proj2 C) Hch Hl Htl Ho) as (F' & EF).
      { intros a Ea. rewrite Ech in Ea. assert (X : last_is l (h g) = true) by (apply last_is_spec; eauto). congruence. }
      destruct (append_shape F kd g n c l t F' W (proj1 Hh) Hk Hcc Hl EF) as (i & ->). rewrite EF. cbn [fst]. now apply (HM F g kd n c l t i).
  Qed.
  Lemma insert_part F kd g i l : usual F -> fits F (MInsert kd g i l) -> P F -> P (fst (group_insert F kd g i l)).
  Proof.
    intros U ((n & Hh) & t & Hl & Htl & Ho) HP. destruct (canv_ex _ _ _ _ U Hh) as (c & C). destruct (canv_in _ _ _ _ _ U C) as (Hk & Hcc & Hcf & Hct & Hcd). pose proof (us_wf F U) as W.
    pose proof (canv_ch _ _ _ _ _ U C) as Hch. pose proof (us_known F U l t Hl Htl) as Htk.
    assert (Egi : group_insert F kd g i l = match py_index (layers_in c) i with Err e => (F, Err e) | Ok b =>
       andthen (insert_text_after F (iuid b) nl) (fun F1 => andthen (insert_after F1 (iuid b) l) (fun F2 => insert_text_after F2 (iuid b) nl)) end).
    { unfold group_insert, group_index. rewrite (proj1 Hh), Hch. cbn [bind]. destruct kd; congruence. }
    rewrite Egi in *. clear Egi. destruct (py_index (layers_in c) i) as [b|e] eqn:Ei; [|exact HP].
    assert (V0 : view F kd g c) by (split; [exact W|split; [exact Hk|split; [now apply (canv_known F g kd n)|exists n; split; [apply Hh|exact Hcc]]]]).
    assert (Hb : In b (layers_in c)).
    { unfold py_index in Ei. destruct (_ <? 0)%Z; [discriminate|]. destruct (nth_error _ _) as [b'|] eqn:E; [|discriminate]. injection Ei as ->. eapply nth_error_In; eauto. }
    destruct (text_step F kd g c b nl V0 Hb) as (i1 & E1 & V1 & P1 & G1). pose proof (text_stepped F g kd n c i1 nl U C) as St1.
    pose proof (HT F g kd n c i1 nl U C HP) as HP1.
    set (F1 := fat (iuid c) (ins i1 (IT nl)) F) in *. set (c1 := ins i1 (IT nl) c) in *. rewrite E1 in *. cbn [andthen] in *.
    destruct St1 as (U1 & K1 & T1). destruct (T1 _ _ _ _ C) as (n1 & c1' & C1 & Ec1). pose proof (view_canv _ _ _ _ U1 V1 _ _ C1). subst c1'.
    assert (Hb1 : In b (layers_in c1)) by (unfold c1; now rewrite layers_text).
    assert (Eu1 : iuid c1 = iuid c) by (unfold c1; now destruct c).
    destruct (N.eq_dec l (iuid b)) as [El|Hnb].
    { assert (Hpar : fparent (iuid b) F1 = Some c1).
      { destruct (canv_in _ _ _ _ _ U1 C1) as (_ & _ & Hcf1 & _). apply in_layers in Hb1 as [Hb1 Hbl]. apply (child_parent F1 (iuid c1)); auto; [apply (us_wf F1 U1)|now apply is_layer_tag]. }
      assert (E2 : insert_after F1 (iuid b) l = (F1, Err ValueError)) by (unfold insert_after, insert_beside; rewrite Hpar, El, N.eqb_refl; unfold c1; destruct c; [discriminate|reflexivity]).
      rewrite E2. exact HP1. }
    assert (Hout : ~ In (iuid c) (uids t)) by now apply (mg_out F g kd n c l t U C). pose proof (G1 l t Hl Hout) as Hl1.
    destruct (after_step F1 kd g c1 b l t V1 Hb1 Hnb Hl1 Htl Htk) as [[Hno _]|(Ho1 & i2 & E2 & V2 & Hb2 & P2 & D2 & L2 & A & B & EA & EB)]; [rewrite Eu1 in Hno; contradiction|].
    rewrite E2 in *. cbn [andthen] in *.
    destruct (view_children _ _ _ _ V2) as (n2 & Hn2 & Hch2). pose proof (move_stepped F1 g kd n1 c1 l t i2 n2 _ _ U1 C1 Hl1 Htl Ho Hn2 Hch2 EB) as St2.
    pose proof (HM F1 g kd n1 c1 l t i2 U1 C1 Hl1 Htl Ho HP1) as HP2.
    set (F2 := fat (iuid c1) (ins i2 t) (fdel l F1)) in *. set (c2 := ins i2 t (idel l c1)) in *.
    destruct St2 as (U2 & K2 & T2). destruct (T2 _ _ _ _ C1) as (n2' & c2' & C2 & Ec2). pose proof (view_canv _ _ _ _ U2 V2 _ _ C2). subst c2'.
    destruct (text_step F2 kd g c2 (idel l b) nl V2 Hb2) as (i3 & E3 & _). rewrite idel_uid in E3. rewrite E3. cbn [fst].
    exact (HT F2 g kd n2' c2 i3 nl U2 C2 HP2).
  Qed.
  Lemma move_part F m : usual F -> fits F m -> P F -> P (do_move F m).
  Proof. destruct m as [kd g l|kd g i l]; unfold do_move; cbn [try_move]; intros; [now apply append_part|now apply insert_part]. Qed.
End Parts.

Lemma canvas_bulky F x kd n c : usual F -> canv F x kd n c -> named (s "canvas") c = true.
Proof.
  intros U [[Hx Hk] Hh]. destruct Hk as [[-> ->]|(-> & _)]; cbn [holds_children] in Hh.
  - subst c. destruct (us_root F U) as (r & Hr & Hc). congruence.
  - destruct Hh as (k1 & p & k2 & j1 & j2 & _ & _ & _ & H & _). exact H.
Qed.
(** No canvas or layer is in a flat value. *)
Lemma flat_out F w u y : wf F -> In w (fdesc F) -> flat_value (forget w) = true -> fget u F = Some y -> bulky y = true -> ~ In u (uids w).
Proof.
  intros W Hw Hf Hu Hb Hi. assert (Hwt : itag w = true) by now apply (desc_tags F). rewrite (fget_inside F w u W Hw Hi) in Hu. apply fget_In in Hu as (Hu & _). rewrite idesc_self in Hu by exact Hwt. rewrite (flat_self w Hwt Hf y Hu) in Hb. discriminate.
Qed.
Definition vars_in (st : store) (F : forest) : Prop := agrees F st /\ forall q c t, st q = Some (c, t) -> flat_value t = true.
Lemma text_vars st F g kd n c i x : usual F -> canv F g kd n c -> vars_in st F -> vars_in st (fat (iuid c) (ins i (IT x)) F).
Proof.
  intros U C [A B]. split; [|exact B]. intros q k t Hq. destruct (A q k t Hq) as (w & V & E). exists w. split; [|exact E]. destruct (variable_site _ _ _ _ V) as (p & S & Hn & Hf & Hc).
  pose proof (us_wf F U) as W. destruct (site_w _ _ _ _ W S) as (Hwk & Hwt & Hwf & Hwd & Hwp & Hpd). destruct S as [S1 S2 S3 S4]. destruct (canv_in _ _ _ _ _ U C) as (_ & _ & Hcf & _).
  assert (Hcw : ~ In (iuid c) (uids w)) by (apply (flat_out F w (iuid c) c W Hwd); [rewrite E; now apply (B q k)|exact Hcf|unfold bulky; rewrite (canvas_bulky _ _ _ _ _ U C); now rewrite orb_true_r]).
  set (f := ins i (IT x)) in *. pose proof (iat_shallow (iuid c) f (ins_shallow i (IT x)) p) as (A1 & A2 & A3 & A4).
  assert (Hpc : iuid p <> iuid c) by (intros Z; assert (p = c) by (pose proof (fget_desc F p W Hpd) as Hp; rewrite Z in Hp; congruence); subst c; pose proof (canvas_bulky _ _ _ _ _ U C) as Z2; pose proof (param_flat p S2) as Z3; unfold bulky in Z3; rewrite Z2, orb_true_r in Z3; discriminate).
  assert (S' : site (fat (iuid c) f F) q (iat (iuid c) f p) w).
  { split; [|unfold isP, named in *; now rewrite A1, A3| |exact S4].
    - pose proof (tx_get F g kd n c i x U C q) as G. rewrite S1 in G. exact G.
    - rewrite iat_kids_other by exact Hpc. assert (X : filter itag (fat (iuid c) f (ikids p)) = map (iat (iuid c) f) (filter itag (ikids p))).
      { generalize (ikids p). intros kk. induction kk as [|y kk IH]; [reflexivity|]. change (fat (iuid c) f (y :: kk)) with (iat (iuid c) f y :: fat (iuid c) f kk). cbn [filter]. rewrite IH. destruct (iat_shallow (iuid c) f (ins_shallow i (IT x)) y) as (-> & _). now destruct (itag y). }
      rewrite X, S3. cbn [map]. now rewrite iat_notin. }
  apply (site_variable _ _ _ _ _ S'); auto. rewrite A4. exact Hn.
Qed.
Lemma move_vars st F g kd n c l t i : usual F -> canv F g kd n c -> fget l F = Some t -> is_layer t = true -> ~ In g (uids t) -> vars_in st F -> vars_in st (fat (iuid c) (ins i t) (fdel l F)).
Proof.
  intros U C Hl Htl Ho [A B]. split; [|exact B]. intros q k v Hq. destruct (A q k v Hq) as (w & V & E). exists w. split; [|exact E]. destruct (variable_site _ _ _ _ V) as (p & S & Hn & Hf & Hc).
  pose proof (us_wf F U) as W. destruct (site_w _ _ _ _ W S) as (Hwk & Hwt & Hwf & Hwd & Hwp & Hpd). destruct S as [S1 S2 S3 S4]. destruct (canv_in _ _ _ _ _ U C) as (_ & _ & Hcf & _).
  destruct (in_dec N.eq_dec q (uids t)) as [Hi|Hi].
  { assert (S' : site (fat (iuid c) (ins i t) (fdel l F)) q p w) by (split; auto; rewrite (mg_same F g kd n c l t i U C Hl Htl Ho q Hi); exact S1). now apply (site_variable _ _ _ _ _ S'). }
  assert (Fw : flat_value (forget w) = true) by (rewrite E; now apply (B q k)).
  assert (Hcw : ~ In (iuid c) (uids w)) by (apply (flat_out F w (iuid c) c W Hwd Fw Hcf); unfold bulky; rewrite (canvas_bulky _ _ _ _ _ U C); now rewrite orb_true_r).
  assert (Hlw : ~ In l (uids w)) by (apply (flat_out F w l t W Hwd Fw Hl); unfold bulky; now rewrite Htl).
  set (f := ins i t) in *. pose proof (iat_shallow (iuid c) f (ins_shallow i t) (idel l p)) as (A1 & A2 & A3 & A4).
  assert (Hpc : iuid p <> iuid c) by (intros Z; assert (p = c) by (pose proof (fget_desc F p W Hpd) as Hp; rewrite Z in Hp; congruence); subst c; pose proof (canvas_bulky _ _ _ _ _ U C) as Z2; pose proof (param_flat p S2) as Z3; unfold bulky in Z3; rewrite Z2, orb_true_r in Z3; discriminate).
  assert (Hwl : idel l w = w) by (apply idel_notin; intros Z; apply Hlw; destruct w; [destruct Z|]; rewrite uids_IE; now right).
  assert (S' : site (fat (iuid c) f (fdel l F)) q (iat (iuid c) f (idel l p)) w).
  { split; [|unfold isP, named in *; now rewrite A1, A3, idel_tag, idel_name| |exact S4].
    - pose proof (mg_get F g kd n c l t i U C Hl Htl Ho q Hi) as G. rewrite S1 in G. exact G.
    - rewrite iat_kids_other by (rewrite idel_uid; exact Hpc). assert (X : forall kk, filter itag (fat (iuid c) f kk) = map (iat (iuid c) f) (filter itag kk)).
      { intros kk. induction kk as [|y kk IH]; [reflexivity|]. change (fat (iuid c) f (y :: kk)) with (iat (iuid c) f y :: fat (iuid c) f kk). cbn [filter]. rewrite IH. destruct (iat_shallow (iuid c) f (ins_shallow i t) y) as (-> & _). now destruct (itag y). }
      rewrite X, idel_kids. assert (Y : filter itag (fdel l (ikids p)) = [w]).
      { assert (Q : forall kk, (forall y, In y kk -> is_ l y = true -> False) -> filter itag (fdel l kk) = map (idel l) (filter itag kk)).
        { induction kk as [|y kk IH]; intros H; [reflexivity|]. rewrite fdel_map in *. cbn [filter]. destruct (is_ l y) eqn:El; [elim (H y); [now left|exact El]|]. cbn [negb map filter]. rewrite idel_tag, IH by (intros z Hz; apply H; now right). now destruct (itag y). }
        rewrite Q, S3; [cbn [map]; now rewrite Hwl|]. intros y Hy El. apply is_spec in El as [Ety El]. assert (In y (filter itag (ikids p))) by (apply filter_In; auto). rewrite S3 in H. destruct H as [<-|[]]. apply Hlw. rewrite <- El. now apply tag_uid. }
      rewrite Y. cbn [map]. now rewrite iat_notin. }
  apply (site_variable _ _ _ _ _ S'); auto. rewrite A4, idel_attrs. exact Hn.
Qed.
Lemma moves_vars st F m : usual F -> fits F m -> vars_in st F -> vars_in st (do_move F m).
Proof. intros U Hf. apply (move_part (vars_in st)); auto; intros; [now apply text_vars with (g := g) (kd := kd) (n := n)|now apply move_vars with (g := g) (kd := kd) (n := n)]. Qed.

(** ** Assignments *)

Section Put2.
  Context (F : forest) (U : usual F) (q : N) (p w : inode) (S : site F q p w) (Fw : flat_value (forget w) = true).
  Context (t : inode) (Tt : itag t = true) (Tn : no_param (forget t) = true) (Tf : flat_value (forget t) = true).
  Context (o : N) (Ho : o = iuid w) (G : forest) (HG : G = fput o t F \/ G = fput o t F ++ [w]) (WG : wf G).
  Context (Fr : forall z, In z (uids t) -> z = o \/ ~ In z (fuids F)).
  Let W := us_wf F U.
  Let Sw := site_w F q p w W S.
  Lemma p2_w x : In x (fdesc F) -> iuid x = o -> x = w.
  Proof. destruct Sw as (_ & _ & Hwf & _). intros Hx Eu. pose proof (fget_desc F x W Hx) as Hf. rewrite Eu, Ho in Hf. congruence. Qed.
  (** Layers and canvases are found where they were. *)
  Lemma p2_quiet (k : forest) (P : inode -> bool) : (forall z, bulky z = false -> P z = false) \/ (forall z, isP z = false -> P z = false) -> shallow P -> (forall x, In x (fdesc k) -> In x (fdesc F)) ->
    filter P (fdesc (fput o t k)) = map (iput o t) (filter P (fdesc k)).
  Proof.
    destruct Sw as (_ & Hwt & Hwf & Hwd & _). intros HP Hs Hin.
    assert (Q : forall y, itag y = true -> no_param (forget y) = true -> flat_value (forget y) = true -> forall z, In z (y :: idesc y) -> P z = false).
    { intros y H1 H2 H3 z Hz. destruct HP as [HP|HP]; apply HP; [now apply (flat_self y)|now apply (no_param_self y)]. }
    apply filter_fput; [exact Tt| |exact (Q t Tt Tn Tf)|].
    - intros y _. destruct (iput_look o t y) as (A & _ & B & C). now apply Hs.
    - intros x Hx Eu z Hz. assert (x = w) by (apply p2_w; auto). subst x. exact (Q w Hwt (st_n _ _ _ _ S) Fw z Hz).
  Qed.
  Lemma p2_get u n : fget u F = Some n -> bulky n = true -> fget u G = Some (iput o t n).
  Proof.
    intros Hu Hb. destruct Sw as (_ & Hwt & Hwf & Hwd & _). pose proof (flat_out F w u n W Hwd Fw Hu Hb) as Out. pose proof (fget_In _ _ _ Hu) as (Hd & Euu & Hnt).
    assert (Hto : ~ In u (uids t)).
    { intros Hi. destruct (Fr u Hi) as [E|E]; [apply Out; rewrite E, Ho; now apply tag_uid|]. apply E. rewrite <- uids_desc, <- Euu. now apply in_map. }
    assert (Q : forall y, itag y = true -> ~ In u (uids y) -> forall z, In z (y :: idesc y) -> is_ u z = false).
    { intros y Hy Hni z Hz. destruct (is_ u z) eqn:E; [|reflexivity]. exfalso. apply is_spec in E as [Ez E]. apply Hni. rewrite <- idesc_self in Hz by exact Hy.
      assert (Hi : In u (fuids [y])) by (rewrite <- uids_desc, <- E; now apply in_map). unfold fuids in Hi. cbn [flat_map] in Hi. now rewrite app_nil_r in Hi. }
    assert (E : filter (is_ u) (fdesc (fput o t F)) = map (iput o t) (filter (is_ u) (fdesc F))).
    { apply filter_fput; [exact Tt| |exact (Q t Tt Hto)|].
      - intros y _. apply is_iput.
      - intros x Hx Eu z Hz. assert (x = w) by now apply p2_w. subst x. now apply (Q w Hwt Out). }
    assert (E2 : filter (is_ u) (fdesc G) = map (iput o t) (filter (is_ u) (fdesc F))).
    { destruct HG as [->| ->]; [exact E|]. rewrite fdesc_app, filter_app, E, (filter_none (is_ u) (fdesc [w])); [apply app_nil_r|]. intros z Hz. rewrite idesc_self in Hz by exact Hwt. now apply (Q w). }
    assert (HF : forall (f : inode -> bool) l, find f l = hd_error (filter f l)) by (intros f l; induction l as [|y l IH]; [reflexivity|]; cbn [find filter]; destruct (f y); [reflexivity|exact IH]).
    rewrite fget_find, HF in *. rewrite E2. destruct (filter (is_ u) (fdesc F)) as [|y l]; [discriminate|]. cbn [hd_error map] in *. now injection Hu as ->.
  Qed.
  (** There are no others. *)
  Lemma p2_back u n' : fget u G = Some n' -> bulky n' = true -> exists n, fget u F = Some n /\ bulky n = true /\ n' = iput o t n.
  Proof.
    intros Hu Hb. destruct Sw as (_ & Hwt & Hwf & Hwd & _). pose proof (fget_In _ _ _ Hu) as (Hd & Eu & _).
    assert (Hi : In n' (filter bulky (fdesc (fput o t F)))).
    { apply filter_In. split; [|exact Hb]. destruct HG as [->| ->]; [exact Hd|]. rewrite fdesc_app in Hd. apply in_app_or in Hd as [Hd|Hd]; [exact Hd|]. exfalso. rewrite idesc_self in Hd by exact Hwt. rewrite (flat_self w Hwt Fw n' Hd) in Hb. discriminate. }
    rewrite (p2_quiet F bulky) in Hi; [|left; auto|exact bulky_shallow|auto]. apply in_map_iff in Hi as (n & E & Hi). apply filter_In in Hi as [Hi Hbn]. exists n. split; [|auto].
    subst n'. destruct (iput_look o t n) as (_ & E & _). rewrite E in Eu. rewrite <- Eu. now apply fget_desc.
  Qed.
  Lemma p2_kid c x : In c (fdesc F) -> In x (ikids c) -> is_ o x = true -> x = w.
  Proof. intros Hc Hx E. apply is_spec in E as [E1 E2]. apply p2_w; [now apply (kid_desc F c)|exact E2]. Qed.
  Lemma p2_flat_w : bulky w = false /\ isP w = false /\ bulky t = false /\ isP t = false.
  Proof.
    destruct Sw as (_ & Hwt & _). repeat split; [apply (flat_self w)|apply (no_param_self w)|apply (flat_self t)|apply (no_param_self t)]; auto; try (now left). apply (st_n _ _ _ _ S).
  Qed.
  Lemma p2_own n c : In n (fdesc F) -> is_layer n = true -> own_canvas n c -> own_canvas (iput o t n) (iput o t c).
  Proof.
    intros Hn Hl (k1 & p0 & k2 & j1 & j2 & E1 & E2 & E3 & E4 & E5 & E6). destruct p2_flat_w as (B1 & B2 & _).
    assert (Hp0 : In p0 (ikids n)) by (rewrite E1; apply in_or_app; right; now left). pose proof (is_param_P _ _ E2) as Pp. assert (Tp : itag p0 = true) by (unfold isP, named in Pp; now apply andb_prop in Pp).
    assert (Hp0d : In p0 (fdesc F)) by now apply (kid_desc F n). assert (Hc : In c (ikids p0)) by (rewrite E3; apply in_or_app; right; now left).
    assert (N1 : is_ o p0 = false) by (destruct (is_ o p0) eqn:E; [|reflexivity]; apply (p2_kid n) in E; auto; subst p0; congruence).
    assert (N2 : is_ o c = false) by (destruct (is_ o c) eqn:E; [|reflexivity]; apply (p2_kid p0) in E; auto; subst c; unfold bulky in B1; rewrite E4, orb_true_r in B1; discriminate).
    exists (fput o t k1), (iput o t p0), (fput o t k2), (fput o t j1), (fput o t j2). repeat split.
    - rewrite (iput_kids t o), E1. unfold fput. rewrite map_app. cbn [map]. now rewrite N1.
    - now rewrite is_param_iput.
    - rewrite (iput_kids t o), E3. unfold fput. rewrite map_app. cbn [map]. now rewrite N2.
    - destruct (iput_look o t c) as (A & _ & B & C). rewrite (named_shallow (s "canvas") (iput o t c) c A B C). exact E4.
    - intros x Hx. destruct (is_param (s "canvas") x) eqn:Ex; [|reflexivity]. exfalso. assert (Hi : In x (filter (is_param (s "canvas")) (fdesc (fput o t k1)))) by (apply filter_In; auto).
      rewrite (p2_quiet k1) in Hi; [|right; intros z; apply not_P_param|apply is_param_shallow|].
      + rewrite (filter_none _ (fdesc k1)) in Hi; [destruct Hi|exact E5].
      + intros y Hy. eapply desc_trans; [exact Hn|]. destruct n as [|nu nn na nk]; [discriminate|]. cbn [ikids] in E1. subst nk. rewrite idesc_IE, fdesc_app. apply in_or_app. now left.
    - intros x Hx. destruct (named (s "canvas") x) eqn:Ex; [|reflexivity]. exfalso. assert (Hi : In x (filter (named (s "canvas")) (fdesc (fput o t j1)))) by (apply filter_In; auto).
      rewrite (p2_quiet j1) in Hi; [|left; intros z Hz; unfold bulky in Hz; now apply orb_false_iff in Hz|apply named_shallow|].
      + rewrite (filter_none _ (fdesc j1)) in Hi; [destruct Hi|exact E6].
      + intros y Hy. eapply desc_trans; [exact Hp0d|]. destruct p0 as [|nu nn na nk]; [discriminate|]. cbn [ikids] in E3. subst nk. rewrite idesc_IE, fdesc_app. apply in_or_app. now left.
  Qed.
  Lemma p2_ids c : In c (fdesc F) -> ids (layers_in (iput o t c)) = ids (layers_in c).
  Proof.
    intros Hc. unfold layers_in. rewrite !ids_rev. f_equal. rewrite (iput_kids t o). assert (X : forall x, In x (ikids c) -> is_ o x = true -> is_layer x = false).
    { intros x Hx E. apply (p2_kid c) in E; auto. subst x. destruct p2_flat_w as (B & _). unfold bulky in B. now apply orb_false_iff in B. }
    destruct p2_flat_w as (_ & _ & B & _). unfold bulky in B. apply orb_false_iff in B as [B _]. clear Hc. induction (ikids c) as [|y k IH]; [reflexivity|]. rewrite fput_cons. cbn [filter].
    specialize (IH (fun x Hx => X x (or_intror Hx))). destruct (is_ o y) eqn:E; [rewrite B, (X y (or_introl eq_refl) E); exact IH|].
    destruct (iput_look o t y) as (A1 & A2 & A3 & A4). rewrite (is_layer_shallow (iput o t y) y A1 A3 A4). destruct (is_layer y); [|exact IH]. unfold ids in *. cbn [map]. rewrite IH, A2. reflexivity.
  Qed.
  Lemma p2_bulky_layer n : is_layer n = true -> bulky n = true. Proof. intros H. unfold bulky. now rewrite H. Qed.
  Lemma p2_look n : iname (iput o t n) = iname n /\ iattrs (iput o t n) = iattrs n /\ is_layer (iput o t n) = is_layer n. Proof. destruct (iput_look o t n) as (A1 & A2 & A3 & A4). split; [auto|]. split; [auto|]. now apply is_layer_shallow. Qed.
  Lemma p2_class n : layer_class (iput o t n) = layer_class n. Proof. destruct n; reflexivity. Qed.
  Lemma uids_fput (k : forest) z : In z (fuids (fput o t k)) -> In z (uids t) \/ In z (fuids k).
  Proof.
    induction k as [|y F' IH|u' nm' a' k' F' IHk IH] using forest_ind; intros H; [now right| |].
    - rewrite fput_cons in H. cbn [is_ iput] in H. exact (IH H).
    - rewrite fput_cons in H. change (is_ o (IE u' nm' a' k')) with (o =? u') in H. rewrite fuids_IE. destruct (N.eqb_spec o u') as [->|_].
      + unfold fuids in H. cbn [flat_map] in H. apply in_app_or in H as [H|H]; [now left|]. destruct (IH H) as [H'|H']; [now left|right; right; apply in_or_app; now right].
      + change (iput o t (IE u' nm' a' k')) with (IE u' nm' a' (fput o t k')) in H. rewrite fuids_IE in H. destruct H as [<-|H]; [right; now left|]. apply in_app_or in H as [H|H].
        * destruct (IHk H) as [H'|H']; [now left|right; right; apply in_or_app; now left].
        * destruct (IH H) as [H'|H']; [now left|right; right; apply in_or_app; now right].
  Qed.
  Lemma uids_iput n z : In z (uids (iput o t n)) -> In z (uids t) \/ In z (uids n).
  Proof. destruct n as [|u nm a k]; [now right|]. change (iput o t (IE u nm a k)) with (IE u nm a (fput o t k)). rewrite !uids_IE. intros [<-|H]; [right; now left|]. apply uids_fput in H as [H|H]; [now left|right; now right]. Qed.
  Lemma p2_usual : usual G.
  Proof.
    destruct (us_root F U) as (r & Hr & Hc). assert (Hb : bulky r = true) by (unfold bulky; now rewrite Hc, orb_true_r). split; [exact WG| | | |].
    - exists (iput o t r). split; [now apply p2_get|]. destruct (iput_look o t r) as (A & _ & B & C). rewrite (named_shallow (s "canvas") (iput o t r) r A B C). exact Hc.
    - intros z n' Hz Hl Hi. destruct (p2_back z n' Hz (p2_bulky_layer _ Hl)) as (n & Hn & _ & ->). destruct (p2_look n) as (_ & _ & El). rewrite El in Hl. apply uids_iput in Hi as [Hi|Hi]; [|now apply (us_top F U z n Hn Hl)].
      pose proof (fget_In _ _ _ Hr) as (Hrd & Hru & _). destruct (Fr 1 Hi) as [E|E].
      + assert (r = w) by (apply p2_w; [exact Hrd|congruence]). subst r. destruct p2_flat_w as (B & _). congruence.
      + apply E. rewrite <- uids_desc, <- Hru. now apply in_map.
    - intros z n' Hz Hl. destruct (p2_back z n' Hz (p2_bulky_layer _ Hl)) as (n & Hn & _ & ->). destruct (p2_look n) as (_ & _ & El). rewrite El in Hl. unfold known. rewrite p2_class. now apply (us_known F U z n).
    - intros z n' k Hz Hl Hk Hd. destruct (p2_back z n' Hz (p2_bulky_layer _ Hl)) as (n & Hn & _ & ->). destruct (p2_look n) as (_ & _ & El). rewrite El in Hl. rewrite p2_class in Hk.
      destruct (us_own F U z n k Hn Hl Hk Hd) as (c & Hc'). exists (iput o t c). apply p2_own; auto. now apply fget_In in Hn.
  Qed.
  Lemma p2_shows h : shows F h -> shows G h.
  Proof.
    intros Sh x kd n' Hx. pose proof p2_usual as UG. pose proof Hx as [Hg Hk].
    assert (X : exists n c, canv F x kd n c /\ n' = iput o t n /\ canv G x kd n' (iput o t c)).
    { destruct Hk as [[-> ->]|(-> & Hl & k & Hk & Hd)].
      - destruct (us_root F U) as (r & Hr & Hc). assert (Hb : bulky r = true) by (unfold bulky; now rewrite Hc, orb_true_r). pose proof (p2_get 1 r Hr Hb) as E. assert (n' = iput o t r) by congruence. subst n'.
        exists r, r. split; [split; [split; [exact Hr|now left]|reflexivity]|]. split; [reflexivity|]. split; [exact Hx|reflexivity].
      - destruct (p2_back x n' Hg (p2_bulky_layer _ Hl)) as (n & Hn & _ & ->). destruct (p2_look n) as (_ & _ & El). rewrite El in Hl. rewrite p2_class in Hk. destruct (us_own F U x n k Hn Hl Hk Hd) as (c & Hc').
        exists n, c. split; [split; [split; [exact Hn|right; split; [reflexivity|split; [exact Hl|eauto]]]|exact Hc']|]. split; [reflexivity|]. split; [exact Hx|]. apply p2_own; auto. now apply fget_In in Hn. }
    destruct X as (n & c & C & -> & C'). exists (layers_in (iput o t c)). split; [now apply (canv_ch G x)|]. destruct (canv_in _ _ _ _ _ U C) as (_ & _ & _ & _ & Hcd). rewrite (p2_ids c Hcd).
    destruct (Sh x kd n (proj1 C)) as (ch & Hch & <-). rewrite (canv_ch F x kd n c U C) in Hch. now injection Hch as <-.
  Qed.
  (** Layers without layers in them *)
  Lemma p2_single u : single F u -> single G u.
  Proof.
    intros (n & Hn & Hl & H). exists (iput o t n). split; [apply p2_get; [exact Hn|now apply p2_bulky_layer]|]. destruct (p2_look n) as (_ & _ & El). split; [now rewrite El|].
    pose proof (fget_In _ _ _ Hn) as (Hnd & _ & Hnt). intros x Hx. destruct (bulky x) eqn:E; [|unfold bulky in E; now apply orb_false_iff in E]. exfalso. destruct n as [|nu nn na nk]; [discriminate|].
    change (iput o t (IE nu nn na nk)) with (IE nu nn na (fput o t nk)) in Hx. rewrite idesc_IE in Hx, H. assert (Hi : In x (filter bulky (fdesc (fput o t nk)))) by (apply filter_In; auto).
    rewrite (p2_quiet nk bulky) in Hi; [|left; auto|exact bulky_shallow|intros y Hy; eapply desc_trans; [exact Hnd|rewrite idesc_IE; exact Hy]].
    rewrite (filter_none bulky (fdesc nk)) in Hi; [destruct Hi|]. intros z Hz. destruct (H z Hz) as [A B]. unfold bulky. now rewrite A, B.
  Qed.
End Put2.

Lemma color_flat l : flat_value (color_node [] l) = true.
Proof.
  unfold color_node. cbn [flat_value]. apply andb_true_intro. split; [reflexivity|]. apply forallb_forall. intros x Hx. apply in_map_iff in Hx as ([d y] & <- & Hi). apply in_combine_l in Hi. cbn [fst snd].
  cbn [flat_value forallb]. rewrite andb_true_r. unfold rgba in Hi. cbn [In] in Hi. destruct Hi as [<-|[<-|[<-|[<-|[]]]]]; reflexivity.
Qed.
Lemma set_flat c n v m r : simple_class c -> is_tag n = true -> flat_value n = true -> set_value c n v = (m, r) -> flat_value m = true.
Proof.
  intros Hc Ht Hn H. destruct r as [[]|e].
  - unfold simple_class in Hc. cbn [In] in Hc. destruct Hc as [<-|[<-|[<-|[<-|[<-|[<-|[<-|[]]]]]]]]; cbn [set_value] in H;
      try (unfold simple_set in H; destruct (simple_str _ v); injection H as <-; [reflexivity|discriminate]).
    + unfold string_set in H. destruct (py_str v); injection H as <-; [|discriminate]. destruct n; [discriminate|]. cbn [flat_value tag_name] in *. apply andb_prop in Hn as [-> _]. reflexivity.
    + unfold color_set in H. destruct (color_conv v) as [l|]; injection H as <-; [|discriminate]. apply color_flat.
  - apply simple_atomic in H; [|now apply simple_cases]. now subst m.
Qed.
Lemma new_flat_value c v m : simple_class c -> new_value c v = Ok m -> flat_value m = true.
Proof.
  intros Hc H. assert (E : exists r, set_value c (empty_tag c) v = (m, r)).
  { unfold simple_class in Hc. cbn [In] in Hc. destruct Hc as [<-|[<-|[<-|[<-|[<-|[<-|[<-|[]]]]]]]]; cbn [new_value] in H; unfold new_flat in H;
      match type of H with (let (_, _) := ?x in _) = _ => destruct x as [n r] eqn:E end; destruct r; try discriminate; cbn [bind] in H; injection H as <-; cbn [set_value]; eauto. }
  destruct E as [r E]. apply (set_flat c (empty_tag c) v m r Hc) in E; auto; unfold simple_class in Hc; cbn [In] in Hc; destruct Hc as [<-|[<-|[<-|[<-|[<-|[<-|[<-|[]]]]]]]]; reflexivity.
Qed.

(** An assignment puts a flat value in the place of another, or does nothing. *)
Lemma assign_shape F st a q y : wf F -> vars_in st F -> place F (as_layer_ a) (as_name a) = Some q -> st q = Some y ->
  let G := fst (do_assign F a) in
  G = F \/ exists p w t, site F q p w /\ flat_value (forget w) = true /\ itag t = true /\ no_param (forget t) = true /\ flat_value (forget t) = true /\
    (G = fput (iuid w) t F \/ G = fput (iuid w) t F ++ [w]) /\ (forall z, In z (uids t) -> z = iuid w \/ ~ In z (fuids F)).
Proof.
  destruct y as [c v0]. intros W [A B] Hp Hq. destruct a as [how u k v]. cbn [as_layer_ as_name as_how as_value_] in *. destruct (A q c v0 Hq) as (w & V & Et). pose proof (B q c v0 Hq) as Fw. rewrite <- Et in Fw.
  destruct (place_read F u k q c w Hp V W) as (n & Hu & Hg & Hgi). destruct (variable_site _ _ _ _ V) as (p & S & Hn & Hf & Hc).
  destruct (site_w _ _ _ _ W S) as (_ & Hwt & _). assert (Hft : is_tag (forget w) = true) by now destruct w.
  unfold do_assign. cbn [as_layer_ as_name as_how as_value_]. rewrite Hu. destruct how.
  - destruct (set_value c (forget w) v) as [m r] eqn:Es. destruct (set_fits c (forget w) v m r Hc Hft Hf (st_n _ _ _ _ S) Es) as [Mc Mn]. pose proof (set_flat c _ v m r Hc Hft Fw Es) as Mf.
    assert (Hm : is_tag m = true) by (pose proof (set_value_tag c (forget w) v Hft) as H; now rewrite Es in H).
    destruct (param_set_is F u n k v w c m r W Hu Hg Es Hm) as (w' & A1 & A2 & A3 & A4 & A5 & _). rewrite A4. cbn [fst]. right. exists p, w, w'. subst m.
    assert (Hwt' : itag w' = true) by (destruct w'; [discriminate|reflexivity]). repeat (split; [assumption|]). split; [now left|].
    intros z Hz. destruct w' as [|u' n' a' k']; [discriminate|]. rewrite uids_IE in Hz. destruct Hz as [<-|Hz]; [now left|]. right. apply A3. exact Hz.
  - destruct (new_value c v) as [m|e] eqn:Ev.
    + destruct (new_fits c v m Hc Ev) as (Mc & Mn & Hm). pose proof (new_flat_value c v m Hc Ev) as Mf. destruct (set_plain F u n k w c v m W Hu Hgi Ev Hm) as (t' & A1 & A2 & A3 & A4 & _). rewrite A3. cbn [fst]. subst m.
      right. exists p, w, t'. assert (Ht' : itag t' = true) by (destruct t'; [discriminate|reflexivity]). repeat (split; [assumption|]). split; [now right|]. auto.
    + destruct (set_errors F u n k w c Hu) as [_ He]. destruct (He Hgi) as [_ He']. rewrite (He' v e Ev). now left.
Qed.
Lemma store_flat st q how v : (forall q c t, st q = Some (c, t) -> simple_class c /\ is_tag t = true /\ flat_value t = true) ->
  forall z c t, fst (store_assign st q how v) z = Some (c, t) -> flat_value t = true.
Proof.
  intros H z c t. unfold store_assign. destruct (st q) as [[c0 t0]|] eqn:E; [|intros Hz; now apply (H z c t)]. destruct (H q c0 t0 E) as (H1 & H2 & H3). destruct how.
  - destruct (set_value c0 t0 v) as [m r] eqn:Es. cbn [fst]. unfold put. destruct (z =? q); [intros [= <- <-]; now apply (set_flat c0 t0 v m r)|intros Hz; now apply (H z c t)].
  - destruct (new_value c0 v) as [m|] eqn:Ev; cbn [fst]; [|intros Hz; now apply (H z c t)]. unfold put. destruct (z =? q); [intros [= <- <-]; now apply (new_flat_value c0 v)|intros Hz; now apply (H z c t)].
Qed.

(** ** Steps *)

Definition same_dom (st st' : store) : Prop := forall z, st z <> None <-> st' z <> None.
Lemma assign_mixed F h st a q : usual F -> reflects F (h, st) -> place F (as_layer_ a) (as_name a) = Some q -> st q <> None ->
  let R := store_assign st q (as_how a) (as_value_ a) in
  snd (do_assign F a) = snd R /\ usual (fst (do_assign F a)) /\ reflects (fst (do_assign F a)) (h, fst R) /\ same_dom st (fst R) /\
  (forall u k z, place F u k = Some z -> place (fst (do_assign F a)) u k = Some z) /\ (forall u, single F u -> single (fst (do_assign F a)) u).
Proof.
  intros U [R1 R2 R3] Hp Hq R. subst R. cbn [fst snd] in *. destruct (st q) as [y|] eqn:E; [|congruence]. pose proof (us_wf F U) as W. destruct (assign_step F st a q y W R2 Hp E) as [E1 [K1 K2 K3 K4]]. split; [exact E1|].
  assert (X : usual (fst (do_assign F a)) /\ shows (fst (do_assign F a)) h /\ (forall u, single F u -> single (fst (do_assign F a)) u)).
  { destruct (assign_shape F st a q y W (conj R2 R3) Hp E) as [->|(p & w & t & A1 & A2 & A3 & A4 & A5 & A6 & A7)]; [auto|]. set (G := fst (do_assign F a)) in *. split; [|split].
    - exact (p2_usual F U q p w A1 A2 t A3 A4 A5 _ eq_refl G A6 K1 A7).
    - exact (p2_shows F U q p w A1 A2 t A3 A4 A5 _ eq_refl G A6 K1 A7 h R1).
    - intros u. exact (p2_single F U q p w A1 A2 t A3 A4 A5 _ eq_refl G A6 K1 A7 u). }
  destruct X as (X1 & X2 & X3). split; [exact X1|]. split.
  - split; cbn [fst snd]; [exact X2|exact K2|]. apply store_flat. intros z c t Hz. split; [now apply (agrees_simple _ _ _ _ _ R2 Hz)|]. split; [|now apply (R3 z c)].
    destruct (R2 z c t Hz) as (w & V & <-). destruct (variable_site _ _ _ _ V) as (p & S & _). destruct (site_w _ _ _ _ W S) as (_ & Hwt & _). now destruct w.
  - split; [|split; [exact K3|exact X3]]. intros z. split; intros Hz.
    + destruct (st z) as [[c t]|] eqn:Ez; [|congruence]. destruct (proj1 (K4 z c) (ex_intro _ t Ez)) as [t' ->]. discriminate.
    + destruct (fst (store_assign st q (as_how a) (as_value_ a)) z) as [[c t]|] eqn:Ez; [|congruence]. destruct (proj2 (K4 z c) (ex_intro _ t Ez)) as [t' ->]. discriminate.
Qed.
Definition alone (u : N) (n : inode) (F : forest) : Prop := fget u F = Some n /\ is_layer n = true /\ forall x, In x (idesc n) -> is_layer x = false /\ named (s "canvas") x = false.
Lemma alone_out F n y u z : wf F -> alone u n F -> fget z F = Some y -> bulky y = true -> z <> u -> ~ In z (uids n).
Proof.
  intros W (A & B & C) Hz Hb Hne Hi. pose proof (fget_In _ _ _ A) as (Hd & Hu & Ht). rewrite (fget_inside F n z W Hd Hi) in Hz. pose proof (fget_uid _ _ _ Hz) as Ez. apply fget_In in Hz as (Hz & _). rewrite idesc_self in Hz by exact Ht.
  destruct Hz as [<-|Hz]; [congruence|]. destruct (C y Hz) as [C1 C2]. unfold bulky in Hb. rewrite C1, C2 in Hb. discriminate.
Qed.
Lemma alone_moves u n F m : usual F -> fits F m -> alone u n F -> alone u n (do_move F m).
Proof.
  intros U Hf. apply (move_part (alone u n)); auto; clear F m U Hf.
  - intros F g kd m c i x U C A. pose proof (us_wf F U) as W. destruct (canv_in _ _ _ _ _ U C) as (_ & _ & Hcf & _). pose proof A as (A1 & A2 & A3). split; [|auto].
    pose proof (tx_get F g kd m c i x U C u) as G. rewrite A1 in G. cbn [option_map] in G. rewrite iat_notin in G; [exact G|]. pose proof (canvas_bulky _ _ _ _ _ U C) as Cb. apply (alone_out F n c u (iuid c) W A Hcf); [unfold bulky; now rewrite Cb, orb_true_r|].
    intros Z. rewrite Z, A1 in Hcf. injection Hcf as ->. rewrite (canvas_not_layer _ Cb) in A2. discriminate.
  - intros F g kd m c l t i U C Hl Htl Ho A. pose proof (us_wf F U) as W. destruct (canv_in _ _ _ _ _ U C) as (_ & _ & Hcf & _). pose proof A as (A1 & A2 & A3). split; [|auto].
    destruct (in_dec N.eq_dec u (uids t)) as [Hi|Hi]; [now rewrite (mg_same F g kd m c l t i U C Hl Htl Ho u Hi)|].
    pose proof (mg_get F g kd m c l t i U C Hl Htl Ho u Hi) as G. rewrite A1 in G. cbn [option_map] in G. pose proof (canvas_bulky _ _ _ _ _ U C) as Cb.
    assert (Hlu : l <> u) by (intros ->; apply Hi; pose proof (fget_In _ _ _ Hl) as (_ & E & Ht); rewrite <- E; now apply tag_uid).
    assert (N1 : ~ In l (uids n)) by (apply (alone_out F n t u l W A Hl); [unfold bulky; now rewrite Htl|exact Hlu]).
    rewrite idel_notin in G by (intros Z; apply N1; destruct n; [destruct Z|]; rewrite uids_IE; now right).
    rewrite iat_notin in G; [exact G|]. apply (alone_out F n c u (iuid c) W A Hcf); [unfold bulky; now rewrite Cb, orb_true_r|].
    intros Z. rewrite Z, A1 in Hcf. injection Hcf as ->. rewrite (canvas_not_layer _ Cb) in A2. discriminate.
Qed.
Lemma move_mixed F h st m : usual F -> reflects F (h, st) -> fits F m ->
  snd (try_move F m) = snd (list_move h m) /\ usual (do_move F m) /\ reflects (do_move F m) (fst (list_move h m), st) /\
  (forall u k z, single F u -> place F u k = Some z -> place (do_move F m) u k = Some z) /\ (forall u, single F u -> single (do_move F m) u).
Proof.
  intros U [R1 R2 R3] Hf. cbn [fst snd] in *. assert (R : right_move F h m) by (destruct m; [now apply append_right|now apply insert_right]). destruct R as (U' & S' & E). split; [exact E|]. split; [exact U'|].
  destruct (moves_vars st F m U Hf (conj R2 R3)) as [V1 V2]. split; [now split|].
  assert (X : forall u n, alone u n F -> alone u n (do_move F m)) by (intros u n; now apply alone_moves). split.
  - intros u k z (n & Hn) Hp. unfold place in *. destruct (X u n Hn) as [-> _]. destruct Hn as [Hn _]. now rewrite Hn in Hp.
  - intros u (n & Hn). exists n. apply (X u n Hn).
Qed.
Lemma means_dom st st' l : same_dom st st' -> forall F l', means F st l l' -> means F st' l l'.
Proof.
  intros D. induction l as [|[m|a] l IH]; intros F [|[m'|q how v] l']; cbn [means]; auto.
  - intros (A & B & C). auto.
  - intros (A & B & C & E & H). repeat (split; [first [assumption|now apply D]|]). auto.
Qed.
Lemma steps_mixed l : forall l' F h st, usual F -> reflects F (h, st) -> means F st l l' ->
  snd (doc_steps F l) = snd (list_steps (h, st) l') /\ usual (fst (doc_steps F l)) /\ reflects (fst (doc_steps F l)) (fst (list_steps (h, st) l')).
Proof.
  induction l as [|[m|a] l IH]; intros [|[m'|q how v] l'] F h st U R H; cbn [means] in H; try contradiction; [auto| |].
  - destruct H as (-> & Hf & H). destruct (move_mixed F h st m U R Hf) as (E & U' & R' & _). cbn [doc_steps do_step list_steps list_step]. unfold do_move in *. destruct (try_move F m) as [F1 r]. destruct (list_move h m) as [h1 r1]. cbn [fst snd] in *. subst r1.
    destruct (IH l' F1 h1 st U' R' H) as (E2 & U2 & R2). destruct (doc_steps F1 l) as [F2 rs]. destruct (list_steps (h1, st) l') as [hs2 rs2]. cbn [fst snd] in *. split; [congruence|auto].
  - destruct H as (Hp & Hq & -> & -> & H). destruct (assign_mixed F h st a q U R Hp Hq) as (E & U' & R' & D & _). cbn [doc_steps do_step list_steps list_step]. destruct (do_assign F a) as [F1 r]. destruct (store_assign st q (as_how a) (as_value_ a)) as [st1 r1]. cbn [fst snd] in *. subst r1.
    destruct (IH l' F1 h st1 U' R' (means_dom st st1 l D F1 l' H)) as (E2 & U2 & R2). destruct (doc_steps F1 l) as [F2 rs]. destruct (list_steps (h, st1) l') as [hs2 rs2]. cbn [fst snd] in *. split; [congruence|auto].
Qed.

(** When all assignments are to layers without layers in them, the variables are those of the document at the start. *)
Lemma fit_means l : forall F0 F h st, usual F -> reflects F (h, st) ->
  (forall u k z, single F0 u -> place F0 u k = Some z -> place F u k = Some z) -> (forall u, single F0 u -> single F u) ->
  moves_fit F l -> (forall a, In (SAssign a) l -> to_single F0 st a) -> means F st l (map (lstep_of F0) l).
Proof.
  induction l as [|[m|a] l IH]; intros F0 F h st U R Hp Hs Hf Ha; [exact I| |]; cbn [moves_fit map lstep_of means] in *.
  - destruct Hf as [Hf H]. destruct (move_mixed F h st m U R Hf) as (_ & U' & R' & P & Q). split; [reflexivity|]. split; [exact Hf|]. apply (IH F0 _ _ _ U' R'); [intros u k z Hu Hz; apply P; auto|intros u Hu; apply Q; auto|exact H|intros b Hb; apply Ha; now right].
  - destruct (Ha a (or_introl eq_refl)) as (S & q & Hq & Hd). rewrite Hq. pose proof (Hp _ _ _ S Hq) as Hq'. split; [exact Hq'|]. split; [exact Hd|]. split; [reflexivity|]. split; [reflexivity|].
    destruct (assign_mixed F h st a q U R Hq' Hd) as (_ & U' & R' & D & P & Q).
    apply (means_dom (fst (store_assign st q (as_how a) (as_value_ a)))); [intros z; symmetry; apply D|]. apply (IH F0 _ h _ U' R'); auto.
    intros b Hb. destruct (Ha b (or_intror Hb)) as (B1 & q' & B2 & B3). split; [exact B1|]. exists q'. split; [exact B2|now apply D].
Qed.
Lemma steps_start l : forall F h st, usual F -> reflects F (h, st) -> moves_fit F l -> (forall a, In (SAssign a) l -> to_single F st a) ->
  snd (doc_steps F l) = snd (list_steps (h, st) (map (lstep_of F) l)) /\ usual (fst (doc_steps F l)) /\ reflects (fst (doc_steps F l)) (fst (list_steps (h, st) (map (lstep_of F) l))).
Proof. intros F h st U R Hf Ha. apply (steps_mixed l _ F h st U R). now apply (fit_means l F F h st). Qed.
