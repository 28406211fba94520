(** Assignments to parameters: one value is replaced, and all the other params stay. *)
From Coq Require Import Lia.
From Verif Require Import LayModel DocProofs DocProofs2 LaySpec LayProofs LayProofs2 LayProofs5 LayProofs6 LayProofs7 TlProofs3 ValProofs VarSpec.
Local Open Scope N_scope.

Definition isP (n : inode) : bool := named (s "param") n.
(** ** Searching after a tag was replaced *)

Lemma idesc_self n : itag n = true -> fdesc [n] = n :: idesc n.
Proof. destruct n as [|u nm a k]; [discriminate|]. intros _. rewrite fdesc_IE, idesc_IE. cbn [fdesc flat_map]. now rewrite app_nil_r. Qed.
Lemma fput_cons o t c F : fput o t (c :: F) = (if is_ o c then t else iput o t c) :: fput o t F. Proof. reflexivity. Qed.
Lemma filter_fput q o t : itag t = true -> (forall y, itag y = true -> q (iput o t y) = q y) -> (forall z, In z (t :: idesc t) -> q z = false) ->
  forall F, (forall x, In x (fdesc F) -> iuid x = o -> forall z, In z (x :: idesc x) -> q z = false) ->
  filter q (fdesc (fput o t F)) = map (iput o t) (filter q (fdesc F)).
Proof.
  intros Ht Hq Hz. assert (Nt : filter q (fdesc [t]) = []) by (rewrite idesc_self by exact Ht; now apply filter_none).
  induction F as [|y F IH|u nm a k F IHk IH] using forest_ind; intros H; [reflexivity|exact (IH H)|].
  rewrite fput_cons. rewrite fdesc_IE in H. change (is_ o (IE u nm a k)) with (o =? u). destruct (N.eqb_spec o u) as [->|Hne].
  - change (t :: fput u t F) with ([t] ++ fput u t F). rewrite fdesc_app, filter_app, Nt, fdesc_IE. cbn [app]. rewrite IH by (intros x Hx; apply H; right; apply in_or_app; now right).
    assert (E : filter q (IE u nm a k :: fdesc k ++ fdesc F) = filter q (fdesc F)); [|now rewrite E].
    assert (N0 : forall z, In z (IE u nm a k :: idesc (IE u nm a k)) -> q z = false) by (apply H; [now left|reflexivity]).
    cbn [filter]. rewrite (N0 _ (or_introl eq_refl)), filter_app. rewrite (filter_none q (fdesc k)); [reflexivity|]. intros z Hz'. apply N0. right. now rewrite idesc_IE.
  - change (iput o t (IE u nm a k)) with (IE u nm a (fput o t k)). rewrite !fdesc_IE. cbn [filter].
    assert (E : q (IE u nm a (fput o t k)) = q (IE u nm a k)) by exact (Hq (IE u nm a k) eq_refl). rewrite E, !filter_app.
    rewrite IHk by (intros x Hx; apply H; right; apply in_or_app; now left). rewrite IH by (intros x Hx; apply H; right; apply in_or_app; now right).
    destruct (q (IE u nm a k)); cbn [map]; now rewrite map_app.
Qed.
Lemma iput_look o t y : itag (iput o t y) = itag y /\ iuid (iput o t y) = iuid y /\ iname (iput o t y) = iname y /\ iattrs (iput o t y) = iattrs y.
Proof. destruct y; repeat split. Qed.
Lemma isP_iput o t y : isP (iput o t y) = isP y.
Proof. destruct (iput_look o t y) as (A & _ & B & _). unfold isP, named. now rewrite A, B. Qed.
Lemma is_param_iput k o t y : is_param k (iput o t y) = is_param k y.
Proof. destruct (iput_look o t y) as (A & _ & B & C). unfold is_param. now rewrite A, B, C. Qed.
Lemma is_iput u o t y : is_ u (iput o t y) = is_ u y. Proof. now destruct y. Qed.
Lemma is_param_P k y : is_param k y = true -> isP y = true.
Proof.
  unfold is_param, isP, named, has_name_attr, has_name. destruct (itag y); [|discriminate]. cbn [andb is_tag tag_name]. intros H. apply andb_prop in H as [H _]. exact H.
Qed.

Lemma no_param_desc (k : forest) : forallb no_param (map forget k) = true -> forall z, In z (fdesc k) -> isP z = false.
Proof.
  induction k as [|y F IH|u nm a k F IHk IH] using forest_ind; intros H z Hz; [destruct Hz|now apply IH|]. rewrite fdesc_IE in Hz. cbn [map forget forallb no_param] in H.
  apply andb_prop in H as [H H2]. apply andb_prop in H as [H0 H1]. destruct Hz as [<-|Hz]; [unfold isP, named; cbn [itag iname andb]; now apply negb_true_iff in H0|].
  apply in_app_or in Hz as [Hz|Hz]; auto.
Qed.
Lemma no_param_self w : itag w = true -> no_param (forget w) = true -> forall z, In z (w :: idesc w) -> isP z = false.
Proof. intros Ht H z Hz. rewrite <- idesc_self in Hz by exact Ht. apply (no_param_desc [w]); [|exact Hz]. cbn [map forallb]. now rewrite H. Qed.
Lemma not_P_param k z : isP z = false -> is_param k z = false.
Proof. intros H. destruct (is_param k z) eqn:E; [|reflexivity]. apply is_param_P in E. congruence. Qed.

Lemma desc_over (k : forest) x : In x (fdesc k) -> In x k \/ exists y, In y (fdesc k) /\ In x (ikids y).
Proof.
  induction k as [|y F IH|u nm a k F IHk IH] using forest_ind; intros H; [destruct H| |].
  - destruct (IH H) as [H'|(y' & H1 & H2)]; [left; now right|right; exists y'; split; [exact H1|exact H2]].
  - rewrite fdesc_IE in *. destruct H as [<-|H]; [left; now left|]. apply in_app_or in H as [H|H].
    + destruct (IHk H) as [H'|(y' & H1 & H2)]; [right; exists (IE u nm a k); split; [now left|exact H']|right; exists y'; split; [right; apply in_or_app; now left|exact H2]].
    + destruct (IH H) as [H'|(y' & H1 & H2)]; [left; now right|right; exists y'; split; [right; apply in_or_app; now right|exact H2]].
Qed.

(** One place, with its value *)
Record site (F : forest) (q : N) (p w : inode) : Prop := {
  st_p : fget q F = Some p; st_P : isP p = true; st_k : filter itag (ikids p) = [w]; st_n : no_param (forget w) = true }.
Lemma site_w F q p w : wf F -> site F q p w -> In w (ikids p) /\ itag w = true /\ fget (iuid w) F = Some w /\ In w (fdesc F) /\ In w (idesc p) /\ In p (fdesc F).
Proof.
  intros W [Hp HP Hk Hn]. assert (H : In w (ikids p) /\ itag w = true) by (apply filter_In; rewrite Hk; now left). destruct H as [H1 H2].
  pose proof (fget_In _ _ _ Hp) as (Hd & _ & Ht). assert (Hwd : In w (fdesc F)) by now apply (kid_desc F p).
  split; [exact H1|]. split; [exact H2|]. split; [now apply fget_desc|]. split; [exact Hwd|]. split; [|exact Hd].
  destruct p as [|pu pn pa pk]; [discriminate|]. rewrite idesc_IE. cbn [ikids] in H1. apply in_split in H1 as (k1 & k2 & ->). rewrite fdesc_app. apply in_or_app. right. destruct w; [discriminate|]. rewrite fdesc_IE. now left.
Qed.
(** Replacing the value of a place by something without params *)
Section Put.
  Context (F : forest) (W : wf F) (q : N) (p w : inode) (S : site F q p w) (t : inode) (Tt : itag t = true) (Tn : no_param (forget t) = true).
  Context (o : N) (Ho : o = iuid w) (G : forest) (HG : G = fput o t F \/ G = fput o t F ++ [w]).
  Lemma put_quiet (P : inode -> bool) : (forall z, isP z = false -> P z = false) -> (forall y, P (iput o t y) = P y) -> filter P (fdesc G) = map (iput o t) (filter P (fdesc F)).
  Proof.
    intros HP Hi. destruct (site_w _ _ _ _ W S) as (_ & Hwt & Hwf & Hwd & _).
    assert (E : filter P (fdesc (fput o t F)) = map (iput o t) (filter P (fdesc F))).
    { apply filter_fput; auto.
      - intros z Hz. apply HP. now apply (no_param_self t).
      - intros x Hx Eu z Hz. apply HP. assert (x = w) by (pose proof (fget_desc F x W Hx) as Hf; rewrite Eu in Hf; rewrite Ho in Hf; congruence). subst x. apply (no_param_self w); auto. apply (st_n _ _ _ _ S). }
    destruct HG as [->| ->]; [exact E|]. rewrite fdesc_app, filter_app, E, (filter_none P (fdesc [w])); [apply app_nil_r|].
    intros z Hz. apply HP. rewrite idesc_self in Hz by exact Hwt. apply (no_param_self w); auto. apply (st_n _ _ _ _ S).
  Qed.
  (** A tag with params in it stays, with the value replaced. *)
  Lemma put_get u n : (forall z, In z (uids t) -> z = o \/ ~ In z (fuids F)) -> fget u F = Some n -> (isP n = true \/ exists z, In z (idesc n) /\ isP z = true) -> fget u G = Some (iput o t n).
  Proof.
    intros Fr Hu Hn. destruct (site_w _ _ _ _ W S) as (_ & Hwt & Hwf & Hwd & _). pose proof (fget_In _ _ _ Hu) as (Hd & Euu & Hnt).
    assert (Out : ~ In u (uids w)).
    { intros Hi. assert (Hnw : In n (w :: idesc w)).
      { rewrite <- idesc_self by exact Hwt. assert (Hex : exists n', In n' (fdesc [w]) /\ iuid n' = u).
        { assert (Hi' : In u (map iuid (fdesc [w]))) by (rewrite uids_desc; unfold fuids; cbn [flat_map]; now rewrite app_nil_r). apply in_map_iff in Hi' as (n' & E1 & E2). eauto. }
        destruct Hex as (n' & Hn' & E'). assert (In n' (fdesc F)).
        { rewrite idesc_self in Hn' by exact Hwt. destruct Hn' as [<-|Hn']; [exact Hwd|]. exact (desc_trans F w n' Hwd Hn'). }
        assert (n' = n) by (pose proof (fget_desc F n' W H) as Hf; rewrite E' in Hf; congruence). now subst n'. }
      pose proof (no_param_self w Hwt (st_n _ _ _ _ S)) as Q. destruct Hn as [Hn|(z & Hz & HzP)].
      - rewrite (Q n Hnw) in Hn. discriminate.
      - assert (Hzw : In z (w :: idesc w)).
        { destruct Hnw as [<-|Hnw]; [now right|]. right. destruct w as [|wu wn wa wk]; [discriminate|]. rewrite idesc_IE in *. exact (desc_trans wk n z Hnw Hz). }
        rewrite (Q z Hzw) in HzP. discriminate. }
    assert (Hto : ~ In u (uids t)).
    { intros Hi. destruct (Fr u Hi) as [E|E]; [apply Out; rewrite E, Ho; now apply tag_uid|]. apply E. rewrite <- uids_desc, <- Euu. now apply in_map. }
    assert (Q : forall y, itag y = true -> ~ In u (uids y) -> forall z, In z (y :: idesc y) -> is_ u z = false).
    { intros y Hy Hni z Hz. destruct (is_ u z) eqn:E; [|reflexivity]. exfalso. apply is_spec in E as [Ez E]. apply Hni. rewrite <- idesc_self in Hz by exact Hy.
      assert (Hi : In u (fuids [y])) by (rewrite <- uids_desc, <- E; now apply in_map). unfold fuids in Hi. cbn [flat_map] in Hi. now rewrite app_nil_r in Hi. }
    assert (E : filter (is_ u) (fdesc (fput o t F)) = map (iput o t) (filter (is_ u) (fdesc F))).
    { apply filter_fput; [exact Tt| |exact (Q t Tt Hto)|].
      - intros y _. apply is_iput.
      - intros x Hx Eu z Hz. assert (x = w) by (pose proof (fget_desc F x W Hx) as Hf; rewrite Eu in Hf; rewrite Ho in Hf; congruence). subst x. now apply (Q w Hwt Out). }
    assert (E2 : filter (is_ u) (fdesc G) = map (iput o t) (filter (is_ u) (fdesc F))).
    { destruct HG as [->| ->]; [exact E|]. rewrite fdesc_app, filter_app, E, (filter_none (is_ u) (fdesc [w])); [apply app_nil_r|]. intros z Hz. rewrite idesc_self in Hz by exact Hwt. now apply (Q w). }
    assert (HF : forall (f : inode -> bool) l, find f l = hd_error (filter f l)) by (intros f l; induction l as [|y l IH]; [reflexivity|]; cbn [find filter]; destruct (f y); [reflexivity|exact IH]).
    rewrite fget_find, HF in *. rewrite E2. destruct (filter (is_ u) (fdesc F)) as [|y l]; [discriminate|]. cbn [hd_error map] in *. now injection Hu as ->.
  Qed.
  Lemma put_find n k : In n (fdesc F) -> iuid n <> o -> ifind (is_param k) (iput o t n) = option_map (iput o t) (ifind (is_param k) n).
  Proof.
    intros Hn Hne. destruct (site_w _ _ _ _ W S) as (_ & Hwt & Hwf & Hwd & _). destruct n as [|u nm a kk]; [pose proof (desc_tags _ _ Hn); discriminate|].
    unfold ifind, ifind_all. change (iput o t (IE u nm a kk)) with (IE u nm a (fput o t kk)). rewrite !idesc_IE.
    rewrite (filter_fput (is_param k) o t Tt).
    - destruct (filter (is_param k) (fdesc kk)); reflexivity.
    - intros y _. apply is_param_iput.
    - intros z Hz. apply not_P_param. now apply (no_param_self t).
    - intros x Hx Eu z Hz. apply not_P_param. assert (Hx' : In x (fdesc F)) by (eapply desc_trans; [exact Hn|now rewrite idesc_IE]).
      assert (x = w) by (pose proof (fget_desc F x W Hx') as Hf; rewrite Eu in Hf; rewrite Ho in Hf; congruence). subst x. apply (no_param_self w); auto. apply (st_n _ _ _ _ S).
  Qed.
  (** Places stay. *)
  Lemma put_place u k z : (forall z, In z (uids t) -> z = o \/ ~ In z (fuids F)) -> place F u k = Some z -> place G u k = Some z.
  Proof.
    intros Fr H. unfold place in *. destruct (fget u F) as [n|] eqn:Hu; [|discriminate]. destruct (ifind (is_param k) n) as [p'|] eqn:Hp; [|discriminate]. cbn [option_map] in H.
    pose proof (ifind_In _ _ _ Hp) as [Hpn Hpp]. rewrite (put_get u n Fr Hu) by (right; exists p'; split; [exact Hpn|now apply (is_param_P k)]).
    pose proof (fget_In _ _ _ Hu) as (Hd & Euu & Hnt).
    rewrite put_find; auto.
    - rewrite Hp. cbn [option_map]. destruct (iput_look o t p') as (_ & -> & _). exact H.
    - intros E. destruct (site_w _ _ _ _ W S) as (_ & Hwt & Hwf & Hwd & _). assert (n = w) by (rewrite Ho in E; pose proof (fget_desc F n W Hd) as Hf; rewrite E in Hf; congruence). subst n.
      pose proof (no_param_self w Hwt (st_n _ _ _ _ S) p' (or_intror Hpn)) as Q. apply is_param_P in Hpp. congruence.
  Qed.
  (** The value at the place is the new one; all other sites stay. *)
  Lemma put_kids k : filter itag (fput o t k) = map (fun c => if is_ o c then t else iput o t c) (filter itag k).
  Proof.
    induction k as [|y k IH]; [reflexivity|]. rewrite fput_cons. cbn [filter]. assert (E : itag (if is_ o y then t else iput o t y) = itag y).
    { destruct (is_ o y) eqn:E; [|now destruct (iput_look o t y)]. rewrite Tt. destruct y; [discriminate|reflexivity]. }
    rewrite E, IH. now destruct (itag y).
  Qed.
  Lemma iput_kids n : ikids (iput o t n) = fput o t (ikids n). Proof. now destruct n. Qed.
  Lemma fput_away (k : forest) : ~ In o (fuids k) -> fput o t k = k.
  Proof.
    induction k as [|y F' IH|u' nm' a' k' F' IHk IH] using forest_ind; intros H'; [reflexivity| |].
    - rewrite fput_cons. cbn [is_ iput]. f_equal. now apply IH.
    - rewrite fput_cons. rewrite fuids_IE in H'. change (is_ o (IE u' nm' a' k')) with (o =? u'). destruct (N.eqb_spec o u') as [->|_]; [exfalso; apply H'; now left|].
      change (iput o t (IE u' nm' a' k')) with (IE u' nm' a' (fput o t k')). rewrite IHk by (intros Hi; apply H'; right; apply in_or_app; now left). rewrite IH by (intros Hi; apply H'; right; apply in_or_app; now right). reflexivity.
  Qed.
  Lemma iput_away n : ~ In o (uids n) -> iput o t n = n.
  Proof. intros H. destruct n as [|u nm a k]; [reflexivity|]. change (iput o t (IE u nm a k)) with (IE u nm a (fput o t k)). rewrite fput_away; [reflexivity|]. rewrite uids_IE in H. intros Hi. apply H. now right. Qed.
  Lemma put_site q' p' w' : (forall z, In z (uids t) -> z = o \/ ~ In z (fuids F)) -> site F q' p' w' -> site G q' (iput o t p') (if q' =? q then t else w').
  Proof.
    intros Fr S'. destruct S' as [A B C D]. pose proof (put_get q' p' Fr A (or_introl B)) as E. destruct (site_w _ _ _ _ W S) as (Hwk & Hwt & Hwf & Hwd & Hwp & Hpd).
    split; [exact E|now rewrite isP_iput| |].
    - rewrite iput_kids, put_kids, C. cbn [map]. f_equal. destruct (N.eqb_spec q' q) as [->|Hne].
      + assert (p' = p) by (pose proof (st_p _ _ _ _ S); congruence). subst p'. assert (w' = w) by (pose proof (st_k _ _ _ _ S); congruence). subst w'. assert (E1 : is_ o w = true) by (apply is_spec; auto). now rewrite E1.
      + assert (S2 : site F q' p' w') by (split; assumption). destruct (site_w _ _ _ _ W S2) as (Hwk' & Hwt' & Hwf' & Hwd' & Hwp' & Hpd').
        assert (Hpne : p' <> p) by (intros ->; apply Hne; pose proof (fget_uid _ _ _ A); pose proof (fget_uid _ _ _ (st_p _ _ _ _ S)); congruence).
        assert (Hno : ~ In o (uids w')).
        { intros Hi. assert (Hin : In w (w' :: idesc w')).
          { rewrite <- idesc_self by exact Hwt'. assert (Hi' : In o (map iuid (fdesc [w']))) by (rewrite uids_desc; unfold fuids; cbn [flat_map]; now rewrite app_nil_r). apply in_map_iff in Hi' as (x & E1 & E2).
            assert (In x (fdesc F)) by (rewrite idesc_self in E2 by exact Hwt'; destruct E2 as [<-|E2]; [exact Hwd'|exact (desc_trans F w' x Hwd' E2)]).
            assert (x = w) by (pose proof (fget_desc F x W H) as Hf; rewrite E1 in Hf; rewrite Ho in Hf; congruence). now subst x. }
          pose proof (child_parent F q p w W (st_p _ _ _ _ S) Hwk Hwt) as P1.
          destruct Hin as [->|Hin].
          - pose proof (child_parent F q' p' w W A Hwk' Hwt) as P2. congruence.
          - assert (Hk' : In w (ikids w') \/ exists y, In y (idesc w') /\ In w (ikids y)).
            { destruct w' as [|u2 n2 a2 k2]; [discriminate|]. rewrite idesc_IE in *. cbn [ikids]. now apply desc_over. }
            assert (X : exists y, In y (w' :: idesc w') /\ In w (ikids y)) by (destruct Hk' as [H|(y & H1 & H2)]; [exists w'; split; [now left|exact H]|exists y; split; [now right|exact H2]]).
            destruct X as (y & Hy & Hky). assert (Hyd : In y (fdesc F)) by (destruct Hy as [<-|Hy]; [exact Hwd'|exact (desc_trans F w' y Hwd' Hy)]).
            pose proof (fget_desc F y W Hyd) as Hyf. pose proof (child_parent F (iuid y) y w W Hyf Hky Hwt) as P2. assert (y = p) by congruence. subst y.
            pose proof (no_param_self w' Hwt' D p Hy) as Q. pose proof (st_P _ _ _ _ S). congruence. }
        assert (E1 : is_ o w' = false) by (destruct (is_ o w') eqn:E1; [|reflexivity]; exfalso; apply is_spec in E1 as [_ E1]; apply Hno; rewrite <- E1; now apply tag_uid). rewrite E1. now apply iput_away.
    - now destruct (q' =? q).
  Qed.
End Put.

(** ** Values *)

Lemma simple_cases c : simple_class c -> is_simple c \/ c = VBlendMethod \/ c = VColor \/ c = VString.
Proof. unfold simple_class, is_simple. cbn [In]. intuition (subst; auto). Qed.
Lemma color_no_param l : no_param (color_node [] l) = true.
Proof.
  unfold color_node. cbn [no_param]. apply andb_true_intro. split; [reflexivity|]. apply forallb_forall. intros x Hx. apply in_map_iff in Hx as ([d y] & <- & Hi). apply in_combine_l in Hi. cbn [fst snd].
  cbn [no_param forallb]. rewrite andb_true_r. unfold rgba in Hi. cbn [In] in Hi. destruct Hi as [<-|[<-|[<-|[<-|[]]]]]; reflexivity.
Qed.
Lemma set_fits c n v m r : simple_class c -> is_tag n = true -> from_tag n = Ok c -> no_param n = true -> set_value c n v = (m, r) -> from_tag m = Ok c /\ no_param m = true.
Proof.
  intros Hc Ht Hf Hn H. destruct r as [[]|e].
  - split; [exact (set_value_class c n v m Hc Ht Hf H)|].
    unfold simple_class in Hc. cbn [In] in Hc. destruct Hc as [<-|[<-|[<-|[<-|[<-|[<-|[<-|[]]]]]]]]; cbn [set_value] in H;
      try (unfold simple_set in H; destruct (simple_str _ v); injection H as <-; [reflexivity|discriminate]).
    + unfold string_set in H. destruct (py_str v); injection H as <-; [|discriminate]. destruct n; [discriminate|]. cbn [no_param tag_name] in *. apply andb_prop in Hn as [-> _]. reflexivity.
    + unfold color_set in H. destruct (color_conv v) as [l|]; injection H as <-; [|discriminate]. apply color_no_param.
  - apply simple_atomic in H; [|now apply simple_cases]. subst m. auto.
Qed.
Lemma new_fits c v m : simple_class c -> new_value c v = Ok m -> from_tag m = Ok c /\ no_param m = true /\ is_tag m = true.
Proof.
  intros Hc H. pose proof (new_value_tag _ _ _ H) as Ht. split; [|split; [|exact Ht]].
  - destruct (new_value_fits c v m (mkT 0 None) Hc H) as (_ & _ & _ & _ & _ & Hf). exact Hf.
  - assert (E : exists r, set_value c (empty_tag c) v = (m, r)).
    { unfold simple_class in Hc. cbn [In] in Hc. destruct Hc as [<-|[<-|[<-|[<-|[<-|[<-|[<-|[]]]]]]]]; cbn [new_value] in H; unfold new_flat in H;
        match type of H with (let (_, _) := ?x in _) = _ => destruct x as [n r] eqn:E end; destruct r; try discriminate; cbn [bind] in H; injection H as <-; cbn [set_value]; eauto. }
    destruct E as [r E]. unfold simple_class in Hc. cbn [In] in Hc. destruct Hc as [<-|[<-|[<-|[<-|[<-|[<-|[<-|[]]]]]]]]; cbn [set_value] in E;
      try (unfold simple_set in E; destruct (simple_str _ v); injection E as <-; reflexivity).
    + unfold string_set in E. destruct (py_str v); injection E as <-; reflexivity.
    + unfold color_set in E. destruct (color_conv v) as [l|]; injection E as <-; [apply color_no_param|reflexivity].
Qed.

(** ** One assignment *)

Lemma variable_site F q c w : variable F q c w -> exists p, site F q p w /\ aget (s "name") (iattrs p) <> None /\ from_tag (forget w) = Ok c /\ simple_class c.
Proof. intros (p & A & B & C & D & E & G & H). exists p. split; [now split|auto]. Qed.
Lemma site_variable F q c p w : site F q p w -> aget (s "name") (iattrs p) <> None -> from_tag (forget w) = Ok c -> simple_class c -> variable F q c w.
Proof. intros [A B C D] H1 H2 H3. exists p. repeat (split; [assumption|]). exact D. Qed.
(** What is read at a place *)
Lemma place_read F u k q c w : place F u k = Some q -> variable F q c w -> wf F -> exists n, fget u F = Some n /\ param_get F n k = Ok (w, c) /\ layer_getitem n k = Ok (w, c).
Proof.
  intros Hp V W. unfold place in Hp. destruct (fget u F) as [n|] eqn:Hu; [|discriminate]. destruct (ifind (is_param k) n) as [p|] eqn:Hf; [|discriminate]. cbn [option_map] in Hp. injection Hp as Hq.
  destruct V as (p' & A & B & C & D & E & _). pose proof (ifind_In _ _ _ Hf) as [Hpn _]. pose proof (fget_In _ _ _ Hu) as (Hd & _).
  assert (p' = p) by (pose proof (fget_desc F p W (desc_trans F n p Hd Hpn)) as Hg; rewrite Hq in Hg; congruence). subst p'.
  exists n. split; [reflexivity|]. unfold param_get, layer_getitem, value_of. rewrite Hf, D, E. cbn [bind]. destruct (aget (s "name") (iattrs p)); [auto|congruence].
Qed.

Record kept (F F' : forest) (h h' : store) : Prop := {
  kp_wf : wf F'; kp_ag : agrees F' h'; kp_pl : forall u k z, place F u k = Some z -> place F' u k = Some z; kp_dom : forall z c, (exists t, h z = Some (c, t)) <-> (exists t, h' z = Some (c, t)) }.
Lemma put_kept F h q c t p w m x G : wf F -> agrees F h -> h q = Some (c, t) -> site F q p w -> aget (s "name") (iattrs p) <> None -> simple_class c ->
  forget x = m -> itag x = true -> from_tag m = Ok c -> no_param m = true -> (forall z, In z (uids x) -> z = iuid w \/ ~ In z (fuids F)) ->
  G = fput (iuid w) x F \/ G = fput (iuid w) x F ++ [w] -> wf G -> kept F G h (put h q (c, m)).
Proof.
  intros W A Hq S Hn Hc <- Tt Tc Tn Fr HG WG. split; [exact WG| | |].
  - intros z c' t' Hz. unfold put in Hz. destruct (A q c t Hq) as (w0 & V0 & E0). destruct (N.eqb_spec z q) as [->|Hne].
    + injection Hz as <- <-. exists x. split; [|reflexivity]. pose proof (put_site F W q p w S x Tt Tn _ eq_refl G HG q p w Fr S) as S'. rewrite N.eqb_refl in S'.
      apply (site_variable _ _ _ _ _ S'); auto. destruct (iput_look (iuid w) x p) as (_ & _ & _ & ->). exact Hn.
    + destruct (A z c' t' Hz) as (w' & V & E). destruct (variable_site _ _ _ _ V) as (p' & S2 & B1 & B2 & B3). exists w'. split; [|exact E].
      pose proof (put_site F W q p w S x Tt Tn _ eq_refl G HG z p' w' Fr S2) as S'. destruct (N.eqb_spec z q) as [E'|_]; [contradiction|].
      apply (site_variable _ _ _ _ _ S'); auto. destruct (iput_look (iuid w) x p') as (_ & _ & _ & ->). exact B1.
  - intros u k z. now apply (put_place F W q p w S x Tt Tn _ eq_refl G HG).
  - intros z c'. unfold put. destruct (N.eqb_spec z q) as [->|_]; [|reflexivity]. rewrite Hq. split; intros [y [= <- <-]]; eauto.
Qed.
Lemma assign_step F h a q y : wf F -> agrees F h -> place F (as_layer_ a) (as_name a) = Some q -> h q = Some y ->
  snd (do_assign F a) = snd (store_assign h q (as_how a) (as_value_ a)) /\ kept F (fst (do_assign F a)) h (fst (store_assign h q (as_how a) (as_value_ a))).
Proof.
  destruct y as [c t]. intros W A Hp Hq. destruct a as [how u k v]. cbn [as_layer_ as_name as_how as_value_] in *. destruct (A q c t Hq) as (w & V & Et).
  destruct (place_read F u k q c w Hp V W) as (n & Hu & Hg & Hgi). destruct (variable_site _ _ _ _ V) as (p & S & Hn & Hf & Hc).
  destruct (site_w _ _ _ _ W S) as (_ & Hwt & _). assert (Hft : is_tag (forget w) = true) by now destruct w.
  unfold do_assign, store_assign. cbn [as_layer_ as_name as_how as_value_]. rewrite Hu, Hq. destruct how.
  - destruct (set_value c t v) as [m r] eqn:Es. rewrite <- Et in Es. cbn [fst snd]. destruct (set_fits c (forget w) v m r Hc Hft Hf (st_n _ _ _ _ S) Es) as [Mc Mn].
    assert (Hm : is_tag m = true) by (pose proof (set_value_tag c (forget w) v Hft) as H; now rewrite Es in H).
    destruct (param_set_is F u n k v w c m r W Hu Hg Es Hm) as (w' & A1 & A2 & A3 & A4 & A5 & _). rewrite A4. cbn [fst snd]. split; [reflexivity|].
    assert (Hwt' : itag w' = true) by (destruct w'; [cbn [forget] in A2; subst m; discriminate|reflexivity]).
    apply (put_kept F h q c t p w m w'); auto. intros z Hz. destruct w' as [|u' n' a' k']; [discriminate|]. rewrite uids_IE in Hz. destruct Hz as [<-|Hz]; [now left|]. right. apply A3. exact Hz.
  - destruct (new_value c v) as [m|e] eqn:Ev.
    + destruct (new_fits c v m Hc Ev) as (Mc & Mn & Hm). destruct (set_plain F u n k w c v m W Hu Hgi Ev Hm) as (t' & A1 & A2 & A3 & A4 & _). rewrite A3. cbn [fst snd]. split; [reflexivity|].
      assert (Ht' : itag t' = true) by (destruct t'; [cbn [forget] in A1; subst m; discriminate|reflexivity]).
      apply (put_kept F h q c t p w m t'); auto.
    + destruct (set_errors F u n k w c Hu) as [_ He]. destruct (He Hgi) as [_ He']. rewrite (He' v e Ev). cbn [fst snd]. split; [reflexivity|]. split; auto. reflexivity.
Qed.

(** ** Any number of assignments *)

Lemma to_places_kept F F' h l : to_variables F h l -> (forall u k z, place F u k = Some z -> place F' u k = Some z) -> to_places F l = to_places F' l.
Proof. intros H Hp. unfold to_places. apply map_ext_in. intros a Ha. unfold to_variables in H. rewrite Forall_forall in H. destruct (H a Ha) as (q & x & E & _). now rewrite E, (Hp _ _ _ E). Qed.
Lemma to_variables_kept F F' h h' l : kept F F' h h' -> to_variables F h l -> to_variables F' h' l.
Proof.
  intros K H. unfold to_variables in *. eapply Forall_impl; [|exact H]. intros a (q & [c t] & E1 & E2). destruct (proj1 (kp_dom _ _ _ _ K q c)) as [t' E3]; [eauto|]. exists q, (c, t'). split; [now apply (kp_pl _ _ _ _ K)|exact E3].
Qed.
Lemma assigns_agree l : forall F h, wf F -> agrees F h -> to_variables F h l ->
  snd (assigns F l) = snd (store_assigns h (to_places F l)) /\ kept F (fst (assigns F l)) h (fst (store_assigns h (to_places F l))).
Proof.
  induction l as [|a l IH]; intros F h W A H; [split; [reflexivity|split; auto; reflexivity]|].
  inversion H as [|a' l' (q & y & Hp & Hq) Hl]; subst. destruct (assign_step F h a q y W A Hp Hq) as [E1 K].
  cbn [assigns to_places map store_assigns]. rewrite Hp. destruct (do_assign F a) as [F1 r] eqn:Ea. destruct (store_assign h q (as_how a) (as_value_ a)) as [h1 r1] eqn:Es. cbn [fst snd] in *. subst r1.
  fold (to_places F l). rewrite (to_places_kept F F1 h l Hl (kp_pl _ _ _ _ K)). destruct (IH F1 h1 (kp_wf _ _ _ _ K) (kp_ag _ _ _ _ K) (to_variables_kept _ _ _ _ _ K Hl)) as [E2 K2].
  destruct (assigns F1 l) as [F2 rs]. destruct (store_assigns h1 (to_places F1 l)) as [h2 rs2]. cbn [fst snd] in *. split; [congruence|].
  destruct K as [B1 B2 B3 B4], K2 as [C1 C2 C3 C4]. split; auto. intros z c. now rewrite B4.
Qed.

(** ** The variables that there are *)

Lemma simpleb_class c : simpleb c = true <-> simple_class c.
Proof. unfold simple_class. cbn [In]. destruct c; cbn [simpleb]; intuition (try discriminate; auto). Qed.
Lemma variables_agree F : agrees F (variables F).
Proof.
  intros q c t H. unfold variables in H. destruct (fget q F) as [p|] eqn:Hp; [|discriminate]. destruct (named (s "param") p) eqn:Hn; [|discriminate]. cbn [andb] in H.
  destruct (aget (s "name") (iattrs p)) eqn:Ha; [|discriminate]. destruct (filter itag (ikids p)) as [|w [|]] eqn:Hk; try discriminate. destruct (from_tag (forget w)) as [c'|] eqn:Hf; [|discriminate].
  destruct (simpleb c') eqn:Hs; [|discriminate]. cbn [andb] in H. destruct (no_param (forget w)) eqn:Hnp; [|discriminate]. injection H as -> <-. exists w. split; [|reflexivity].
  exists p. repeat (split; [first [assumption|congruence]|]). split; [now apply simpleb_class|exact Hnp].
Qed.
(** Those and no others *)
Lemma variables_all F q c w : variable F q c w -> variables F q = Some (c, forget w).
Proof.
  intros (p & A & B & C & D & E & G & H). unfold variables. rewrite A, B. cbn [andb]. destruct (aget (s "name") (iattrs p)); [|congruence]. rewrite D, E, (proj2 (simpleb_class c) G), H. reflexivity.
Qed.

(** ** What is there afterwards *)

Lemma store_assigns_app l1 : forall h l2, store_assigns h (l1 ++ l2) = let (h1, rs1) := store_assigns h l1 in let (h2, rs2) := store_assigns h1 l2 in (h2, rs1 ++ rs2).
Proof.
  induction l1 as [|[[q how] v] l1 IH]; intros h l2; cbn [app store_assigns]; [now destruct (store_assigns h l2)|]. destruct (store_assign h q how v) as [h1 r]. rewrite IH.
  destruct (store_assigns h1 l1) as [h2 rs1]. now destruct (store_assigns h2 l2).
Qed.
Lemma store_assigns_length l : forall h, length (snd (store_assigns h l)) = length l.
Proof. induction l as [|[[q how] v] l IH]; intros h; [reflexivity|]. cbn [store_assigns]. destruct (store_assign h q how v) as [h1 r]. specialize (IH h1). destruct (store_assigns h1 l). cbn [snd length] in *. congruence. Qed.
(** Only what was assigned to without an error changes. *)
Lemma store_same l : forall h q c t, h q = Some (c, t) -> simple_class c -> Forall2 (fun (p : N * manner * pyval) r => fst (fst p) = q -> r <> Ok tt) l (snd (store_assigns h l)) -> fst (store_assigns h l) q = Some (c, t).
Proof.
  induction l as [|[[q' how] v] l IH]; intros h q c t Hq Hc H; [exact Hq|]. cbn [store_assigns] in *. destruct (store_assign h q' how v) as [h1 r] eqn:E. specialize (IH h1 q c t). destruct (store_assigns h1 l) as [h2 rs]. cbn [fst snd] in *.
  inversion H as [|? ? ? ? H1 H2]; subst. cbn [fst] in H1. apply IH; auto. unfold store_assign in E. destruct (h q') as [[c' t']|] eqn:Hq'; [|now injection E as <- _]. destruct how.
  - destruct (set_value c' t' v) as [m r'] eqn:Es. injection E as <- <-. unfold put. destruct (N.eqb_spec q q') as [->|_]; [|exact Hq]. assert (c' = c /\ t' = t) as [-> ->] by (split; congruence).
    destruct r' as [[]|e]; [now elim H1|]. apply simple_atomic in Es; [|now apply simple_cases]. now subst m.
  - destruct (new_value c' v) as [m|e]; injection E as <- <-; [|exact Hq]. unfold put. destruct (N.eqb_spec q q') as [->|_]; [now elim H1|exact Hq].
Qed.
Lemma store_made h q how v c t : h q = Some (c, t) -> snd (store_assign h q how v) = Ok tt -> exists m, fst (store_assign h q how v) q = Some (c, m) /\ made c how v m.
Proof.
  intros Hq. unfold store_assign, made. rewrite Hq. destruct how.
  - destruct (set_value c t v) as [m r] eqn:Es. cbn [fst snd]. intros ->. exists m. unfold put. rewrite N.eqb_refl. eauto.
  - destruct (new_value c v) as [m|]; [|discriminate]. intros _. exists m. cbn [fst]. unfold put. rewrite N.eqb_refl. eauto.
Qed.
Lemma store_dom l : forall h q c, (exists t, h q = Some (c, t)) -> exists t, fst (store_assigns h l) q = Some (c, t).
Proof.
  induction l as [|[[q' how] v] l IH]; intros h q c Hq; [exact Hq|]. cbn [store_assigns]. destruct (store_assign h q' how v) as [h1 r] eqn:E. specialize (IH h1 q c). destruct (store_assigns h1 l) as [h2 rs]. cbn [fst] in *. apply IH.
  unfold store_assign in E. destruct Hq as [t Hq]. destruct (h q') as [[c' t']|] eqn:Hq'; [|injection E as <- _; eauto]. destruct how.
  - destruct (set_value c' t' v) as [m r']. injection E as <- _. unfold put. destruct (N.eqb_spec q q') as [->|_]; [|eauto]. rewrite Hq in Hq'. injection Hq' as -> ->. eauto.
  - destruct (new_value c' v) as [m|]; injection E as <- _; [|eauto]. unfold put. destruct (N.eqb_spec q q') as [->|_]; [|eauto]. rewrite Hq in Hq'. injection Hq' as -> ->. eauto.
Qed.
Lemma Forall2_map_l {A B C} (f : A -> B) (R : B -> C -> Prop) l r : Forall2 (fun a c => R (f a) c) l r -> Forall2 R (map f l) r.
Proof. induction 1; cbn [map]; constructor; auto. Qed.
Lemma Forall2_mono {A B} (P Q : A -> B -> Prop) l r : (forall a b, In a l -> P a b -> Q a b) -> Forall2 P l r -> Forall2 Q l r.
Proof. intros H. induction 1; constructor; auto; [apply H; auto; now left|apply IHForall2; intros; apply H; auto; now right]. Qed.
Lemma read_of F h u k q c t : wf F -> agrees F h -> place F u k = Some q -> h q = Some (c, t) ->
  exists n w, fget u F = Some n /\ param_get F n k = Ok (w, c) /\ layer_getitem n k = Ok (w, c) /\ forget w = t.
Proof. intros W A Hp Hq. destruct (A q c t Hq) as (w & V & E). destruct (place_read F u k q c w Hp V W) as (n & H1 & H2 & H3). exists n, w. auto. Qed.
Lemma agrees_simple F h q c t : agrees F h -> h q = Some (c, t) -> simple_class c.
Proof. intros A H. destruct (A q c t H) as (w & (p & _ & _ & _ & _ & _ & G & _) & _). exact G. Qed.
Lemma quiet_places F h q (l : list assignment) rs : to_variables F h l -> Forall2 (fun b r => place F (as_layer_ b) (as_name b) = Some q -> r <> Ok tt) l rs ->
  Forall2 (fun (p : N * manner * pyval) r => fst (fst p) = q -> r <> Ok tt) (to_places F l) rs.
Proof.
  intros T H. unfold to_places. apply Forall2_map_l. eapply Forall2_mono; [|exact H]. intros b r Hb Hr E. cbn [fst] in E. apply Hr. unfold to_variables in T. rewrite Forall_forall in T.
  destruct (T b Hb) as (q' & x & E1 & _). rewrite E1 in *. congruence.
Qed.
Lemma assigns_same F h l u k q c t : wf F -> agrees F h -> to_variables F h l -> place F u k = Some q -> h q = Some (c, t) ->
  Forall2 (fun b r => place F (as_layer_ b) (as_name b) = Some q -> r <> Ok tt) l (snd (assigns F l)) ->
  exists n w, fget u (fst (assigns F l)) = Some n /\ param_get (fst (assigns F l)) n k = Ok (w, c) /\ layer_getitem n k = Ok (w, c) /\ forget w = t.
Proof.
  intros W A T Hp Hq H. destruct (assigns_agree l F h W A T) as [E K]. rewrite E in H. apply (quiet_places F h) in H; [|exact T].
  apply (store_same _ h q c t Hq (agrees_simple _ _ _ _ _ A Hq)) in H. apply (read_of _ _ u k q c t (kp_wf _ _ _ _ K) (kp_ag _ _ _ _ K)); [now apply (kp_pl _ _ _ _ K)|exact H].
Qed.
Lemma assigns_last F h l1 a l2 q c t rs1 rs2 u k : wf F -> agrees F h -> to_variables F h (l1 ++ a :: l2) -> place F (as_layer_ a) (as_name a) = Some q -> h q = Some (c, t) ->
  snd (assigns F (l1 ++ a :: l2)) = rs1 ++ Ok tt :: rs2 -> length rs1 = length l1 ->
  Forall2 (fun b r => place F (as_layer_ b) (as_name b) = Some q -> r <> Ok tt) l2 rs2 -> place F u k = Some q ->
  exists n w, fget u (fst (assigns F (l1 ++ a :: l2))) = Some n /\ param_get (fst (assigns F (l1 ++ a :: l2))) n k = Ok (w, c) /\ layer_getitem n k = Ok (w, c) /\ made c (as_how a) (as_value_ a) (forget w).
Proof.
  intros W A T Ha Hq E L H Hp. destruct (assigns_agree _ F h W A T) as [E2 K]. rewrite E in E2. set (F' := fst (assigns F (l1 ++ a :: l2))) in *. clearbody F'.
  assert (T2 : to_variables F h l2) by (unfold to_variables in *; apply Forall_app in T as [_ T]; now inversion T). unfold to_places in E2, K. rewrite map_app in E2, K. cbn [map] in E2, K. fold (to_places F l1) in E2, K. fold (to_places F l2) in E2, K.
  rewrite Ha in E2, K. rewrite store_assigns_app in E2, K. pose proof (store_assigns_length (to_places F l1) h) as L1. pose proof (store_dom (to_places F l1) h q c (ex_intro _ t Hq)) as [t1 Hq1].
  destruct (store_assigns h (to_places F l1)) as [h1 r1]. cbn [fst snd] in *. cbn [store_assigns] in E2, K. pose proof (store_made h1 q (as_how a) (as_value_ a) c t1 Hq1) as M.
  destruct (store_assign h1 q (as_how a) (as_value_ a)) as [h2 ra]. cbn [fst snd] in M. destruct (store_assigns h2 (to_places F l2)) as [h3 r3] eqn:E3. cbn [fst snd] in *.
  assert (L2 : length rs1 = length r1) by (rewrite L1; unfold to_places; now rewrite map_length). assert (ra = Ok tt /\ rs2 = r3) as [-> ->].
  { clear -E2 L2. revert r1 E2 L2. induction rs1 as [|x rs1 IH]; intros [|y r1] E L; try discriminate; cbn [app] in E; injection E as E1 E2; [split; congruence|]. apply (IH r1); [congruence|cbn [length] in L; lia]. }
  destruct (M eq_refl) as (m & Hm & Mm). apply (quiet_places F h) in H; [|exact T2]. pose proof (store_same (to_places F l2) h2 q c m Hm (agrees_simple _ _ _ _ _ A Hq)) as Hs. rewrite E3 in Hs. specialize (Hs H). cbn [fst] in Hs.
  destruct (read_of F' h3 u k q c m (kp_wf _ _ _ _ K) (kp_ag _ _ _ _ K) (kp_pl _ _ _ _ K _ _ _ Hp) Hs) as (n & w & B1 & B2 & B3 & <-). exists n, w. auto.
Qed.
