(** Moving layers between groups is moving numbers between lists. *)
From Coq Require Import Permutation Lia.
From Verif Require Import AnimModel AnimProofs5 LayModel DocProofs DocProofs2 LaySpec LayProofs LayProofs2 LayProofs3 LayProofs4 MovSpec.
Local Open Scope N_scope.

(** ** Own canvases *)

Lemma desc_step k e : In e (fdesc k) -> In e k \/ exists y, In y (fdesc k) /\ In e (ikids y).
Proof.
  unfold fdesc. intros H. apply in_flat_map in H as (c & Hc & H). destruct c as [|u nm a kk]; [destruct H|]. destruct H as [<-|H]; [now left|]. right.
  assert (G : forall n, In e (idesc n) -> exists y, (y = n \/ In y (idesc n)) /\ In e (ikids y)).
  { clear. intros n. induction n as [x|u nm a k IH] using inode_ind'; [intros []|]. rewrite idesc_IE. intros H. unfold fdesc in H. apply in_flat_map in H as (c & Hc & H). destruct c as [|cu cn ca ck]; [destruct H|].
    destruct H as [<-|H]; [exists (IE u nm a k); split; [now left|exact Hc]|]. rewrite Forall_forall in IH. destruct (IH _ Hc H) as (y & Hy & He). exists y. split; [|exact He]. right. unfold fdesc. apply in_flat_map. exists (IE cu cn ca ck). split; [exact Hc|].
    destruct Hy as [->|Hy]; [now left|now right]. }
  destruct (G _ H) as (y & Hy & He). exists y. split; [|exact He]. apply in_flat_map. exists (IE u nm a kk). split; [exact Hc|]. destruct Hy as [->|Hy]; [now left|now right].
Qed.
Lemma desc_fdel l k x : In x (fdesc (fdel l k)) -> exists y, In y (fdesc k) /\ x = idel l y.
Proof.
  revert x. induction k as [|tx k IH|u nm a kk k IH1 IH2] using forest_ind; intros x H; [destruct H| |].
  - rewrite fdel_IT, fdesc_IT in H. rewrite fdesc_IT. auto.
  - rewrite fdel_IE in H. rewrite fdesc_IE. destruct (l =? u).
    + destruct (IH2 x H) as (y & Hy & ->). exists y. split; [right; apply in_or_app; now right|reflexivity].
    + rewrite fdesc_IE in H. destruct H as [<-|H]; [exists (IE u nm a kk); split; [now left|reflexivity]|]. apply in_app_or in H as [H|H]; [destruct (IH1 x H) as (y & Hy & ->)|destruct (IH2 x H) as (y & Hy & ->)]; exists y; (split; [right; apply in_or_app; auto|reflexivity]).
Qed.
Lemma own_del l n c : own_canvas n c -> (forall x, In x (idesc n) -> is_ l x = true -> is_layer x = true) -> itag n = true -> own_canvas (idel l n) (idel l c).
Proof.
  intros (k1 & p & k2 & j1 & j2 & E1 & Hp & E2 & Hc & N1 & N2) L Tn.
  assert (Ip : In p (idesc n)) by (destruct n as [|u nm a k]; [discriminate|]; rewrite idesc_IE; cbn [ikids] in E1; subst k; unfold fdesc; apply in_flat_map; exists p; split; [apply in_or_app; right; now left|]; pose proof (param_tag _ _ Hp); destruct p; [discriminate|now left]).
  assert (Ic : In c (idesc n)).
  { apply (idesc_trans p c n Ip). pose proof (param_tag _ _ Hp). destruct p as [|u nm a k]; [discriminate|]. rewrite idesc_IE. cbn [ikids] in E2. subst k. unfold fdesc. apply in_flat_map. exists c. split; [apply in_or_app; right; now left|]. pose proof (named_tag _ _ Hc). destruct c; [discriminate|now left]. }
  assert (Lp : is_ l p = false) by (destruct (is_ l p) eqn:E; [|reflexivity]; pose proof (L _ Ip E) as X; rewrite (param_not_layer _ _ Hp) in X; discriminate).
  assert (Lc : is_ l c = false) by (destruct (is_ l c) eqn:E; [|reflexivity]; pose proof (L _ Ic E) as X; rewrite (canvas_not_layer _ Hc) in X; discriminate).
  assert (D : forall k a b x, k = a ++ x :: b -> is_ l x = false -> fdel l k = fdel l a ++ idel l x :: fdel l b).
  { intros k a b x -> E. rewrite fdel_app. f_equal. unfold fdel, kdel. cbn [flat_map]. rewrite E. reflexivity. }
  assert (Sh : forall P k, shallow P -> (forall x, In x (fdesc k) -> P x = false) -> forall x, In x (fdesc (fdel l k)) -> P x = false).
  { intros P k HP HN x Hx. apply desc_fdel in Hx as (y & Hy & ->). rewrite (shallow_idel P l y HP). now apply HN. }
  exists (fdel l k1), (idel l p), (fdel l k2), (fdel l j1), (fdel l j2). rewrite !idel_kids. repeat split.
  - now apply D.
  - rewrite (shallow_idel _ l p (is_param_shallow _)). exact Hp.
  - now apply D.
  - rewrite (shallow_idel _ l c (named_shallow _)). exact Hc.
  - apply Sh; [apply is_param_shallow|exact N1].
  - apply Sh; [apply named_shallow|exact N2].
Qed.

(** The canvas of g is the only tag with its number, and it is in a param called canvas. *)
Lemma canvas_sole G g kd n c y : wf G -> fget g G = Some n -> holds_children kd n c -> In y (fdesc G) -> iuid y = iuid c -> y = c.
Proof.
  intros W Hg Hh Hy E. pose proof (fget_In _ _ _ Hg) as (Hin & Hu & Hn). destruct (holds_canvas kd n c Hn Hh) as [Hk Hc].
  destruct (canvas_known kd n c G g W Hg Hc) as (Hcf & Hct & Hcd). pose proof (fget_desc G y W Hy) as Hyf. rewrite E in Hyf. congruence.
Qed.
Lemma own_param_of G g n c q : wf G -> fget g G = Some n -> own_canvas n c -> In q (fdesc G) -> In c (ikids q) -> is_param (s "canvas") q = true /\ fparent (iuid q) G = Some n.
Proof.
  intros W Hg (k1 & p & k2 & j1 & j2 & E1 & Hp & E2 & Hc & N1 & N2) Hq Hi. pose proof (fget_In _ _ _ Hg) as (Hin & Hu & Hn).
  pose proof (param_tag _ _ Hp) as Hpt. pose proof (named_tag _ _ Hc) as Hct.
  assert (Ip : In p (ikids n)) by (rewrite E1; apply in_or_app; right; now left).
  assert (Ic : In c (ikids p)) by (rewrite E2; apply in_or_app; right; now left).
  assert (Hpd : In p (fdesc G)) by (apply (kid_desc G n); auto).
  pose proof (child_parent G (iuid p) p c W (fget_desc G p W Hpd) Ic Hct) as P1. pose proof (child_parent G (iuid q) q c W (fget_desc G q W Hq) Hi Hct) as P2.
  assert (q = p) by congruence. subst q. split; [exact Hp|]. now apply (child_parent G g).
Qed.

Lemma kid_self n y : In y (ikids n) -> itag y = true -> In y (idesc n).
Proof.
  intros H T. destruct n as [|u nm a k]; [destruct H|]. rewrite idesc_IE. cbn [ikids] in H. apply in_split in H as (a1 & a2 & ->). rewrite fdesc_app. apply in_or_app. right. destruct y; [discriminate|]. rewrite fdesc_IE. now left.
Qed.
Lemma kids_part k1 (p : inode) k2 y : In y (fdesc k1) -> In y (fdesc (k1 ++ p :: k2)).
Proof. intros H. rewrite fdesc_app. apply in_or_app. now left. Qed.

Lemma iat_kids_other c f n : iuid n <> c -> ikids (iat c f n) = fat c f (ikids n).
Proof. destruct n as [|u nm a k]; [reflexivity|]. cbn [iuid iat]. intros H. destruct (N.eqb_spec c u); [congruence|reflexivity]. Qed.

Lemma ins_own G g kd n c m cx i t : wf G -> fget g G = Some n -> holds_children kd n c -> (kd = KAnim -> ~ In (iuid c) (uids m)) ->
  In m (fdesc G) -> is_layer m = true -> own_canvas m cx -> own_canvas (iat (iuid c) (ins i t) m) (iat (iuid c) (ins i t) cx).
Proof.
  intros W Hg Hh Ha Hm Hml Ho. pose proof (is_layer_tag _ Hml) as Hmt.
  destruct (in_dec N.eq_dec (iuid c) (uids m)) as [Hin|Hout].
  2:{ rewrite (iat_notin _ _ m Hout). rewrite iat_notin; [exact Ho|]. intros Hi. apply Hout. destruct Ho as (k1 & p & k2 & j1 & j2 & E1 & Hp & E2 & Hc & N1 & N2).
      apply (idesc_uids cx m); [|exact Hi]. apply (idesc_trans p); [apply kid_self; [rewrite E1; apply in_or_app; right; now left|now apply (param_tag (s "canvas"))]|]. apply kid_self; [rewrite E2; apply in_or_app; right; now left|now apply (named_tag (s "canvas"))]. }
  assert (Hk : own_canvas n c) by (destruct kd; cbn [holds_children] in Hh; [destruct (Ha eq_refl Hin)|exact Hh|contradiction]).
  assert (Hcn : named (s "canvas") c = true) by (destruct Hk as (? & ? & ? & ? & ? & _ & _ & _ & X & _); exact X).
  assert (S1 : forall y, In y (idesc m) -> iuid y = iuid c -> y = c) by (intros y Hy; apply (canvas_sole G g kd n c y W Hg Hh); apply (desc_trans G m); auto).
  assert (S2 : forall q, q = m \/ In q (idesc m) -> In c (ikids q) -> is_param (s "canvas") q = true).
  { intros q Hq Hi. apply (own_param_of G g n c q W Hg Hk); [|exact Hi]. destruct Hq as [->|Hq]; [exact Hm|now apply (desc_trans G m)]. }
  destruct Ho as (k1 & p & k2 & j1 & j2 & E1 & Hp & E2 & Hc & N1 & N2).
  assert (Ip : In p (idesc m)) by (apply kid_self; [rewrite E1; apply in_or_app; right; now left|now apply (param_tag (s "canvas"))]).
  assert (Em : idesc m = fdesc (k1 ++ p :: k2)) by (rewrite (idesc_kids m Hmt); now f_equal).
  assert (Epp : idesc p = fdesc (j1 ++ cx :: j2)) by (rewrite (idesc_kids p (param_tag _ _ Hp)); now f_equal).
  assert (O1 : ~ In (iuid c) (fuids k1)).
  { intros Hi. destruct (fget_ex _ _ Hi) as (y & Hy). apply fget_In in Hy as (Hy & Hyu & _).
    assert (Hym : In y (idesc m)) by (rewrite Em; now apply kids_part). pose proof (S1 _ Hym Hyu) as ->.
    destruct (desc_step _ _ Hy) as [Hk1|(q & Hq & Hqk)].
    - assert (X : is_param (s "canvas") m = true) by (apply S2; [now left|rewrite E1; apply in_or_app; now left]). rewrite (param_not_layer _ _ X) in Hml. discriminate.
    - assert (X : is_param (s "canvas") q = true) by (apply S2; [right; rewrite Em; now apply kids_part|exact Hqk]). rewrite (N1 _ Hq) in X. discriminate. }
  assert (O2 : ~ In (iuid c) (fuids j1)).
  { intros Hi. destruct (fget_ex _ _ Hi) as (y & Hy). apply fget_In in Hy as (Hy & Hyu & _).
    assert (Hym : In y (idesc m)) by (apply (idesc_trans p); [exact Ip|]; rewrite Epp; now apply kids_part). pose proof (S1 _ Hym Hyu) as ->. rewrite (N2 _ Hy) in Hcn. discriminate. }
  assert (Op : iuid p <> iuid c).
  { intros E. pose proof (S1 _ Ip E) as ->. apply param_named in Hp. rewrite (named_diff _ (s "canvas") c Hp) in Hcn; [discriminate|]. vm_compute. discriminate. }
  assert (Om : iuid m <> iuid c).
  { intros E. assert (m = c) by (apply (canvas_sole G g kd n c m W Hg Hh Hm E)). subst m. rewrite (canvas_not_layer _ Hcn) in Hml. discriminate. }
  pose proof (iat_shallow (iuid c) _ (ins_shallow i t)) as Sh.
  exists k1, (iat (iuid c) (ins i t) p), (fat (iuid c) (ins i t) k2), j1, (fat (iuid c) (ins i t) j2). repeat split.
  - rewrite (iat_kids_other _ _ _ Om), E1, fat_app. rewrite (fat_notin _ _ _ O1). reflexivity.
  - rewrite (shallow_eq _ _ _ (is_param_shallow _) Sh). exact Hp.
  - rewrite (iat_kids_other _ _ _ Op), E2, fat_app. rewrite (fat_notin _ _ _ O2). reflexivity.
  - rewrite (shallow_eq _ _ _ (named_shallow _) Sh). exact Hc.
  - exact N1.
  - exact N2.
Qed.

(** ** Groups and their canvases *)

Definition canv (F : forest) (x : N) (kd : okind) (n c : inode) : Prop := holder F x kd n /\ holds_children kd n c.

Lemma canv_ex F x kd n : usual F -> holder F x kd n -> exists c, canv F x kd n c.
Proof.
  intros U H. pose proof H as [Hg [[-> ->]|(-> & Hl & k & Hk & Hkd)]].
  - exists n. split; [exact H|reflexivity].
  - destruct (us_own F U x n k Hg Hl Hk Hkd) as (c & Hc). exists c. split; [exact H|exact Hc].
Qed.
Lemma canv_in F x kd n c : usual F -> canv F x kd n c -> kd <> KPlain /\ canvas_of kd n = Ok c /\ fget (iuid c) F = Some c /\ itag c = true /\ In c (fdesc F).
Proof.
  intros U [[Hg Hk] Hh]. pose proof (fget_In _ _ _ Hg) as (Hin & Hu & Hn). destruct (holds_canvas kd n c Hn Hh) as [Hp Hc]. split; [exact Hp|]. split; [exact Hc|].
  exact (canvas_known kd n c F x (us_wf F U) Hg Hc).
Qed.
Lemma canv_known F x kd n c : usual F -> canv F x kd n c -> forall y, In y (layers_in c) -> known y.
Proof.
  intros U C y Hy. destruct (canv_in _ _ _ _ _ U C) as (_ & _ & Hcf & Hct & Hcd). apply in_layers in Hy as [Hy Hl].
  apply (us_known F U (iuid y) y); [|exact Hl]. apply fget_desc; [apply (us_wf F U)|]. apply (kid_desc F c); auto. now apply is_layer_tag.
Qed.
Lemma canv_ch F x kd n c : usual F -> canv F x kd n c -> children kd n = Ok (layers_in c).
Proof. intros U C. destruct (canv_in _ _ _ _ _ U C) as (Hk & Hc & _). apply canvas_children; auto. exact (canv_known _ _ _ _ _ U C). Qed.

Lemma own_inside n c : own_canvas n c -> In c (idesc n) /\ exists p, In p (ikids n) /\ In c (ikids p) /\ itag p = true /\ itag c = true.
Proof.
  intros (k1 & p & k2 & j1 & j2 & E1 & Hp & E2 & Hc & N1 & N2).
  assert (Ip : In p (ikids n)) by (rewrite E1; apply in_or_app; right; now left). assert (Ic : In c (ikids p)) by (rewrite E2; apply in_or_app; right; now left).
  pose proof (param_tag _ _ Hp). pose proof (named_tag _ _ Hc). split; [|exists p; auto]. apply (idesc_trans p); now apply kid_self.
Qed.
Lemma canv_differ F x kdx nx cx g kd n c : usual F -> canv F x kdx nx cx -> canv F g kd n c -> iuid cx = iuid c -> x = g.
Proof.
  intros U Cx Cg E. pose proof (us_wf F U) as W. destruct (canv_in _ _ _ _ _ U Cx) as (_ & _ & Hxf & _ & Hxd). destruct Cg as [[Hg Kg] Hh]. destruct Cx as [[Hx Kx] Hhx].
  pose proof (canvas_sole F g kd n c cx W Hg Hh Hxd E) as ->.
  destruct Kg as [[-> ->]|(-> & Hl & _)], Kx as [[-> ->]|(-> & Hlx & _)]; cbn [holds_children] in Hh, Hhx; try reflexivity.
  - exfalso. subst n. apply (us_top F U x nx Hx Hlx). destruct (own_inside _ _ Hhx) as [Hi (_ & _ & _ & _ & Ht)]. apply (idesc_uids c nx Hi). pose proof (fget_uid _ _ _ Hg) as <-. now apply tag_uid.
  - exfalso. subst nx. apply (us_top F U g n Hg Hl). destruct (own_inside _ _ Hh) as [Hi (_ & _ & _ & _ & Ht)]. apply (idesc_uids c n Hi). pose proof (fget_uid _ _ _ Hx) as <-. now apply tag_uid.
  - destruct (own_inside _ _ Hh) as [_ (p & Hp & Hcp & Tp & _)]. assert (Hpd : In p (fdesc F)) by (apply (kid_desc F n); auto; now apply fget_In in Hg).
    destruct (own_param_of F g n c p W Hg Hh Hpd Hcp) as [_ P1]. destruct (own_param_of F x nx c p W Hx Hhx Hpd Hcp) as [_ P2]. assert (n = nx) by congruence. subst nx.
    rewrite <- (fget_uid _ _ _ Hg). symmetry. now apply fget_uid in Hx.
Qed.

(** ** Steps *)

Lemma keeps_back F F' z n' : usual F -> keeps F F' -> fget z F' = Some n' -> exists n, fget z F = Some n /\ iname n' = iname n /\ iattrs n' = iattrs n.
Proof.
  intros U K H. destruct (K (us_wf F U)) as (_ & P & G). assert (Hi : In z (fuids F)) by (apply (Permutation_in z P); now apply fget_uids in H).
  destruct (fget_ex _ _ Hi) as (n & Hn). exists n. split; [exact Hn|]. destruct (G z n Hn) as (n2 & H2 & A & B). assert (n2 = n') by congruence. subst n2. auto.
Qed.
Lemma same_look (p : inode -> bool) F F' z n n' : shallow p -> fget z F = Some n -> fget z F' = Some n' -> iname n' = iname n -> iattrs n' = iattrs n -> p n' = p n.
Proof. intros Sh H H' A B. apply Sh; auto. now rewrite (fget_tag _ _ _ H), (fget_tag _ _ _ H'). Qed.
Lemma holder_look F F' x kd n n' : fget x F = Some n -> fget x F' = Some n' -> iname n' = iname n -> iattrs n' = iattrs n -> holder F x kd n -> holder F' x kd n'.
Proof.
  intros H H' A B [_ Hk]. split; [exact H'|]. destruct Hk as [Hk|(-> & Hl & k & Hk & Hd)]; [now left|]. right. split; [reflexivity|]. split.
  - rewrite (same_look is_layer F F' x n n' is_layer_shallow H H' A B). exact Hl.
  - exists k. split; [|exact Hd]. rewrite <- Hk. now apply layer_class_attrs.
Qed.
Lemma holder_back F F' x kd n' : usual F -> keeps F F' -> holder F' x kd n' -> exists n, holder F x kd n.
Proof.
  intros U K H. destruct (keeps_back F F' x n' U K (proj1 H)) as (n & Hn & A & B). exists n. apply (holder_look F' F x kd n' n); auto. apply H.
Qed.

Lemma usual_keeps F F' : usual F -> keeps F F' -> (forall z n, fget z F' = Some n -> is_layer n = true -> ~ In 1 (uids n)) ->
  (forall x kd n c, canv F x kd n c -> exists n' c', canv F' x kd n' c') -> usual F'.
Proof.
  intros U K T C. destruct (K (us_wf F U)) as (W & P & G). split; [exact W| |exact T| |].
  - destruct (us_root F U) as (r & Hr & Hn). destruct (G 1 r Hr) as (r' & Hr' & A & B). exists r'. split; [exact Hr'|]. rewrite (same_look _ F F' 1 r r' (named_shallow _) Hr Hr' A B). exact Hn.
  - intros z n' Hz Hl. destruct (keeps_back F F' z n' U K Hz) as (n & Hn & A & B). rewrite (same_look is_layer F F' z n n' is_layer_shallow Hn Hz A B) in Hl.
    destruct (us_known F U z n Hn Hl) as (k & Hk). exists k. rewrite <- Hk. now apply layer_class_attrs.
  - intros z n' k Hz Hl Hk Hd. assert (Hh : holder F' z KGroup n') by (split; [exact Hz|right; eauto]). destruct (holder_back F F' z KGroup n' U K Hh) as (n & Hn). destruct (canv_ex _ _ _ _ U Hn) as (c & Hc).
    destruct (C _ _ _ _ Hc) as (n2 & c2 & [H2 H3]). assert (n2 = n') by (destruct H2 as [H2 _]; congruence). subst n2. exists c2. exact H3.
Qed.

Lemma uids_iat c i t m z : In z (uids (iat c (ins i t) m)) -> In z (uids t) \/ In z (uids m).
Proof.
  induction m as [x|u nm a k IH] using inode_ind'; [intros []|]. cbn [iat]. destruct (c =? u).
  - unfold ins, with_ikids. rewrite !uids_IE. intros [->|H]; [right; now left|]. apply (Permutation_in z (fuids_insert i t k)) in H. apply in_app_or in H as [H|H]; [now left|right; now right].
  - rewrite !uids_IE. intros [->|H]; [right; now left|]. unfold fuids in H. apply in_flat_map in H as (y & Hy & H). apply in_map_iff in Hy as (y0 & <- & Hy). rewrite Forall_forall in IH. destruct (IH _ Hy H) as [H'|H']; [now left|]. right. right. unfold fuids. apply in_flat_map. eauto.
Qed.
Lemma uids_idel l m z : In z (uids (idel l m)) -> In z (uids m).
Proof.
  induction m as [x|u nm a k IH] using inode_ind'; [intros []|]. change (idel l (IE u nm a k)) with (IE u nm a (fdel l k)). rewrite !uids_IE. intros [->|H]; [now left|]. right.
  rewrite fdel_map in H. unfold fuids in H. apply in_flat_map in H as (y & Hy & H). apply in_map_iff in Hy as (y0 & <- & Hy). apply filter_In in Hy as [Hy _]. rewrite Forall_forall in IH. unfold fuids. apply in_flat_map. eauto.
Qed.

(** The layers of a canvas, with the places of everything else *)
Definition slot (x : inode) : option N := if is_layer x then Some (iuid x) else None.
Definition slots (c : inode) : list (option N) := map slot (ikids c).
Definition not_slot (l : N) (o : option N) : bool := match o with Some y => negb (l =? y) | None => true end.
Lemma slots_iat c f n : shallow_pres f -> iuid n <> c -> slots (iat c f n) = slots n.
Proof.
  intros Sh H. unfold slots. rewrite (iat_kids_other _ _ _ H). unfold fat. rewrite map_map. apply map_ext. intros y. unfold slot. pose proof (iat_shallow c f Sh) as S2.
  rewrite (shallow_eq is_layer _ y is_layer_shallow S2). destruct (is_layer y); [|reflexivity]. f_equal. apply S2.
Qed.
Lemma slots_idel l n : (forall x, In x (ikids n) -> is_ l x = true -> is_layer x = true) -> slots (idel l n) = filter (not_slot l) (slots n).
Proof.
  intros H. unfold slots. rewrite idel_kids, fdel_map. revert H. generalize (ikids n). intros k H. induction k as [|x k IH]; [reflexivity|]. cbn [map filter].
  assert (IH' : map slot (map (idel l) (filter (fun c => negb (is_ l c)) k)) = filter (not_slot l) (map slot k)) by (apply IH; intros y Hy; apply H; now right).
  destruct (is_ l x) eqn:E; cbn [negb].
  - pose proof (H x (or_introl eq_refl) E) as Hl. apply is_spec in E as [_ E]. unfold slot at 2. rewrite Hl. cbn [not_slot]. rewrite E, N.eqb_refl. exact IH'.
  - cbn [map]. assert (Es : slot (idel l x) = slot x) by (unfold slot; rewrite (shallow_idel _ l x is_layer_shallow), idel_uid; reflexivity). rewrite Es, IH'.
    assert (En : not_slot l (slot x) = true).
    { unfold slot. destruct (is_layer x) eqn:El; [|reflexivity]. cbn [not_slot]. apply negb_true_iff, N.eqb_neq. intros ->. rewrite (is_self x (is_layer_tag _ El)) in E. discriminate. }
    now rewrite En.
Qed.
Lemma layers_iat c f n : shallow_pres f -> iuid n <> c -> ids (layers_in (iat c f n)) = ids (layers_in n).
Proof.
  intros Sh H. unfold layers_in. rewrite (iat_kids_other _ _ _ H), !ids_rev. f_equal. pose proof (iat_shallow c f Sh) as S2.
  generalize (ikids n). intros k. induction k as [|y k IH]; [reflexivity|]. unfold fat in *. cbn [map filter]. rewrite (shallow_eq is_layer _ y is_layer_shallow S2). destruct (is_layer y); [|exact IH]. cbn [ids map]. f_equal; [apply S2|exact IH].
Qed.
Lemma layers_iat_text c i x n : ids (layers_in (iat c (ins i (IT x)) n)) = ids (layers_in n).
Proof.
  destruct (N.eq_dec (iuid n) c) as [<-|H]; [|apply layers_iat; [apply ins_shallow|exact H]]. destruct n as [|u nm a k]; [reflexivity|]. rewrite iat_self by (now apply is_self). now rewrite layers_text.
Qed.

Section Text.
  Context (F : forest) (g : N) (kd : okind) (n c : inode) (i : nat) (x : pstr).
  Context (U : usual F) (C : canv F g kd n c).
  Let F' := fat (iuid c) (ins i (IT x)) F.
  Lemma tx_keeps : keeps F F'. Proof. destruct (canv_in _ _ _ _ _ U C) as (_ & _ & Hcf & _). now apply (keeps_text F _ i x c). Qed.
  Lemma tx_get z : fget z F' = option_map (iat (iuid c) (ins i (IT x))) (fget z F).
  Proof. destruct (canv_in _ _ _ _ _ U C) as (_ & _ & Hcf & _). apply (fget_ins_old _ _ _ _ c); auto. apply (us_wf F U). Qed.
  Lemma tx_to y kdy m cy : canv F y kdy m cy -> exists m' cy', canv F' y kdy m' cy' /\ ids (layers_in cy') = ids (layers_in cy) /\ iuid cy' = iuid cy /\ (y <> g -> slots cy' = slots cy).
  Proof.
    intros Cy. exists (iat (iuid c) (ins i (IT x)) m), (iat (iuid c) (ins i (IT x)) cy). pose proof Cy as [Hh Hc]. split; [|split; [apply layers_iat_text|split; [apply (iat_shallow _ _ (ins_shallow i (IT x)))|intros Hne; apply slots_iat; [apply ins_shallow|intros Z; apply Hne; now apply (canv_differ F y kdy m cy g kd n c)]]]].
    assert (E : fget y F' = Some (iat (iuid c) (ins i (IT x)) m)) by (rewrite tx_get, (proj1 Hh); reflexivity).
    pose proof (iat_shallow (iuid c) _ (ins_shallow i (IT x)) m) as (_ & _ & A & B). split; [apply (holder_look F F' y kdy m _ (proj1 Hh) E A B Hh)|].
    destruct Hh as [Hg [[-> ->]|(-> & Hl & k & Hk & Hd)]]; cbn [holds_children] in *; [now subst cy|].
    destruct C as [[Hgg Hgk] Hgc]. apply (ins_own F g kd n c m cy i (IT x)); auto; [apply (us_wf F U)| |now apply fget_In in Hg].
    intros ->. destruct Hgk as [[-> _]|(Z & _)]; [|discriminate]. cbn [holds_children] in Hgc. subst c. rewrite (fget_uid _ _ _ Hgg). apply (us_top F U y m Hg Hl).
  Qed.
  Lemma tx_usual : usual F'.
  Proof.
    apply (usual_keeps F F' U tx_keeps).
    - intros z m Hz Hl Hi. rewrite tx_get in Hz. destruct (fget z F) as [m0|] eqn:E; [|discriminate]. injection Hz as <-. rewrite (shallow_eq is_layer _ m0 is_layer_shallow (iat_shallow _ _ (ins_shallow i (IT x)))) in Hl.
      apply (us_top F U z m0 E Hl). apply uids_iat in Hi as [[]|Hi]. exact Hi.
    - intros y kdy m cy Cy. destruct (tx_to _ _ _ _ Cy) as (m' & cy' & H & _). eauto.
  Qed.
End Text.

Section Moving.
  Context (F : forest) (g : N) (kd : okind) (n c : inode) (l : N) (t : inode) (i : nat).
  Context (U : usual F) (C : canv F g kd n c) (Hl : fget l F = Some t) (Htl : is_layer t = true) (Ho : ~ In g (uids t)).
  Let F' := fat (iuid c) (ins i t) (fdel l F).
  Lemma mg_out : ~ In (iuid c) (uids t).
  Proof. destruct C as [[Hg _] Hh]. apply (canvas_outside F kd g l n c t); auto. apply (us_wf F U). Qed.
  Lemma mg_in : fget (iuid c) (fdel l F) = Some (idel l c).
  Proof. destruct (canv_in _ _ _ _ _ U C) as (_ & _ & Hcf & _). rewrite (fget_fdel l F t); [now rewrite Hcf|apply (us_wf F U)|exact Hl|exact mg_out]. Qed.
  Lemma mg_keeps : keeps F F'.
  Proof. apply (keeps_move F l (iuid c) t (idel l c)); [exact Hl|exact mg_in]. Qed.
  Lemma mg_same z : In z (uids t) -> fget z F' = fget z F.
  Proof. apply (mv_inside F l (iuid c) t (idel l c) i (us_wf F U) Hl mg_in). Qed.
  Lemma mg_get z : ~ In z (uids t) -> fget z F' = option_map (iat (iuid c) (ins i t)) (option_map (idel l) (fget z F)).
  Proof. apply (mv_get F l (iuid c) t (idel l c) i (us_wf F U) Hl mg_in). Qed.
  Lemma mg_only m : In m (fdesc F) -> forall y, In y (idesc m) -> is_ l y = true -> is_layer y = true.
  Proof.
    intros Hm y Hy E. apply is_spec in E as [_ E]. assert (Hyd : In y (fdesc F)) by now apply (desc_trans F m). pose proof (fget_desc F y (us_wf F U) Hyd) as Hyf. rewrite E, Hl in Hyf. injection Hyf as <-. exact Htl.
  Qed.
  Lemma mg_to y kdy m cy : canv F y kdy m cy -> exists m' cy', canv F' y kdy m' cy' /\ (y <> g -> ids (layers_in cy') = without l (ids (layers_in cy))) /\ iuid cy' = iuid cy /\ (y <> g -> slots cy' = filter (not_slot l) (slots cy)).
  Proof.
    intros Cy. pose proof Cy as [Hh Hc]. pose proof (us_wf F U) as W. pose proof (fget_In _ _ _ Hl) as (Htd & Htu & Htt).
    destruct (in_dec N.eq_dec y (uids t)) as [Hi|Hi].
    - exists m, cy. assert (E : fget y F' = Some m) by (rewrite (mg_same y Hi); apply Hh). split; [split; [apply (holder_look F F' y kdy m m (proj1 Hh) E eq_refl eq_refl Hh)|exact Hc]|].
      assert (Nl : forall z, In z (ids (layers_in cy)) -> negb (l =? z) = true); [|split; [intros _; unfold without; symmetry; now apply filter_all|split; [reflexivity|]]].
      2:{ intros _. symmetry. apply filter_all. intros o Ho2. unfold slots in Ho2. apply in_map_iff in Ho2 as (a & <- & Ha). unfold slot. destruct (is_layer a) eqn:Ela; [|reflexivity]. cbn [not_slot]. apply Nl. unfold ids. apply in_map, in_layers. auto. }
      intros z Hz. apply negb_true_iff, N.eqb_neq. intros ->. unfold ids in Hz. apply in_map_iff in Hz as (a & Ha & Hz). apply in_layers in Hz as [Hz Hal]. pose proof (is_layer_tag _ Hal) as Hat.
      assert (Hm : m = t \/ In m (idesc t)).
      { pose proof (proj1 Hh) as Hg. rewrite (fget_inside F t y W Htd Hi) in Hg. apply fget_In in Hg as (Hg & _). rewrite (fdesc_one t Htt) in Hg. destruct Hg as [<-|Hg]; auto. }
      destruct (canv_in _ _ _ _ _ U Cy) as (_ & Hcc & _). pose proof (fget_tag _ _ _ (proj1 Hh)) as Hmt.
      assert (Ham : In a (idesc m)) by (destruct (canvas_desc kdy m cy Hmt Hcc) as [->|Hd]; [now apply kid_self|apply (idesc_trans cy); [exact Hd|now apply kid_self]]).
      assert (Hat2 : In a (idesc t)) by (destruct Hm as [->|Hm]; [exact Ham|now apply (idesc_trans m)]).
      apply (idesc_not_self a t Hat2 (NoDup_inside F t W Htd)). rewrite Htu, <- Ha. now apply tag_uid.
    - exists (iat (iuid c) (ins i t) (idel l m)), (iat (iuid c) (ins i t) (idel l cy)).
      assert (E : fget y F' = Some (iat (iuid c) (ins i t) (idel l m))) by (rewrite (mg_get y Hi), (proj1 Hh); reflexivity).
      pose proof (iat_shallow (iuid c) _ (ins_shallow i t) (idel l m)) as (_ & _ & A & B). rewrite idel_name in A. rewrite idel_attrs in B. split.
      + split; [apply (holder_look F F' y kdy m _ (proj1 Hh) E A B Hh)|].
        destruct Hh as [Hg [[-> ->]|(-> & Hml & k & Hk & Hd)]]; cbn [holds_children] in *; [now subst cy|].
        destruct C as [[Hgg Hgk] Hgc]. pose proof (fget_In _ _ _ Hg) as (Hmd & Hmu & Hmt). pose proof (fget_In _ _ _ Hgg) as (Hnd & Hnu & Hnt).
        assert (WG : wf (fdel l F)) by now apply fdel_NoDup.
        assert (G1 : fget g (fdel l F) = Some (idel l n)) by (rewrite (fget_fdel l F t); auto; now rewrite Hgg).
        assert (G2 : fget y (fdel l F) = Some (idel l m)) by (rewrite (fget_fdel l F t); auto; now rewrite Hg).
        rewrite <- (idel_uid l c). apply (ins_own (fdel l F) g kd (idel l n) (idel l c)); auto.
        * destruct kd; cbn [holds_children] in *; [now subst c| |contradiction]. apply own_del; auto. now apply mg_only.
        * intros ->. destruct Hgk as [[-> _]|(Z & _)]; [|discriminate]. cbn [holds_children] in Hgc. subst c. rewrite idel_uid, Hnu. intros Z. apply uids_idel in Z. apply (us_top F U y m Hg Hml Z).
        * now apply fget_In in G2.
        * rewrite (shallow_idel _ l m is_layer_shallow). exact Hml.
        * apply own_del; auto. now apply mg_only.
      + split; [|split].
        * intros Hne. rewrite layers_iat; [|apply ins_shallow|rewrite idel_uid; intros Z; apply Hne; now apply (canv_differ F y kdy m cy g kd n c)].
          unfold layers_in. rewrite idel_kids, !ids_rev, ids_layers_del. now rewrite without_rev.
        * rewrite (proj1 (proj2 (iat_shallow _ _ (ins_shallow i t) (idel l cy)))). apply idel_uid.
        * intros Hne. rewrite slots_iat; [|apply ins_shallow|rewrite idel_uid; intros Z; apply Hne; now apply (canv_differ F y kdy m cy g kd n c)].
          apply slots_idel. intros x Hx Hi2. destruct (canv_in _ _ _ _ _ U Cy) as (_ & _ & _ & _ & Hcd). apply (mg_only cy Hcd x); [|exact Hi2]. apply kid_self; [exact Hx|]. now apply is_spec in Hi2.
  Qed.
  Lemma mg_usual : usual F'.
  Proof.
    apply (usual_keeps F F' U mg_keeps).
    - intros z m Hz Hml. destruct (in_dec N.eq_dec z (uids t)) as [Hi|Hi].
      + rewrite (mg_same z Hi) in Hz. now apply (us_top F U z).
      + rewrite (mg_get z Hi) in Hz. destruct (fget z F) as [m0|] eqn:E; [|discriminate]. injection Hz as <-.
        rewrite (shallow_eq is_layer _ _ is_layer_shallow (iat_shallow _ _ (ins_shallow i t))), (shallow_idel _ l m0 is_layer_shallow) in Hml.
        intros Z. apply uids_iat in Z as [Z|Z]; [now apply (us_top F U l t Hl Htl)|]. apply uids_idel in Z. now apply (us_top F U z m0 E Hml).
    - intros y kdy m cy Cy. destruct (mg_to _ _ _ _ Cy) as (m' & cy' & H & _). eauto.
  Qed.
End Moving.

(** ** A move *)

Lemma append_shape F kd g n c l t F' : wf F -> fget g F = Some n -> kd <> KPlain -> canvas_of kd n = Ok c -> fget l F = Some t ->
  group_append F kd g l = (F', Ok tt) -> exists i, F' = fat (iuid c) (ins i t) (fdel l F).
Proof.
  intros Hw Hg Hk Hc Hl H. destruct (canvas_known kd n c F g Hw Hg Hc) as (Hcf & Hct & Hcd).
  unfold group_append in H. rewrite Hg, Hc in H.
  assert (E : forall A (x y : A), match kd with KPlain => x | _ => y end = y) by (intros; destruct kd; congruence). rewrite E in H.
  destruct (find is_layer (ikids c)) as [a|] eqn:Ef.
  - destruct (find_split _ _ _ Ef) as (k1 & k2 & Ek & Hal & Hk1). pose proof (is_layer_tag _ Hal) as Hat.
    assert (Hain : In a (ikids c)) by (rewrite Ek; apply in_or_app; right; now left).
    unfold insert_before, insert_beside in H. rewrite (child_parent F (iuid c) c a Hw Hcf Hain Hat) in H. destruct c as [|cu cn ca ck]; [discriminate|]. cbn [iuid] in *.
    destruct (l =? iuid a); [discriminate|]. rewrite Hl in H. destruct (fget cu (fdel l F)) as [pn|]; [|discriminate]. destruct (index_of (iuid a) (ikids pn)); [|discriminate].
    apply put_in_inv in H as (-> & _). eauto.
  - unfold tag_append in H. rewrite Hcf in H. unfold tag_insert in H. destruct (l =? iuid c); [discriminate|]. rewrite Hl, Hcf in H. apply put_in_inv in H as (-> & _). eauto.
Qed.

(** The lists after a step *)
Definition stepped (F F' : forest) (g : N) (k : list N -> list N) (kg : list N) : Prop :=
  usual F' /\ keeps F F' /\
  forall y kd n c, canv F y kd n c -> exists n' c', canv F' y kd n' c' /\ ids (layers_in c') = if y =? g then kg else k (ids (layers_in c)).

Lemma shows_eq F h h' : shows F h -> (forall x, h x = h' x) -> shows F h'.
Proof. intros S E x kd n Hx. destruct (S x kd n Hx) as (ch & A & B). exists ch. split; [exact A|congruence]. Qed.
Lemma stepped_shows F F' g k kg h : usual F -> stepped F F' g k kg -> shows F h -> shows F' (fun y => if y =? g then kg else k (h y)).
Proof.
  intros U (U' & K & S) H y kd n' Hy. destruct (holder_back F F' y kd n' U K Hy) as (n & Hn). destruct (canv_ex _ _ _ _ U Hn) as (c & Hc).
  destruct (S _ _ _ _ Hc) as (n2 & c2 & C2 & E). assert (n2 = n') by (destruct C2 as [[C2 _] _], Hy as [Hy _]; congruence). subst n2.
  exists (layers_in c2). split; [now apply (canv_ch F' y)|]. rewrite E. destruct (y =? g); [reflexivity|].
  destruct (H y kd n Hn) as (ch & Hch & <-). rewrite (canv_ch F y kd n c U Hc) in Hch. now injection Hch as <-.
Qed.
Lemma holder_kind F x kd n kd' n' : usual F -> holder F x kd n -> holder F x kd' n' -> kd = kd' /\ n = n'.
Proof.
  intros U [H K] [H' K']. assert (n = n') by congruence. subst n'. split; [|reflexivity].
  assert (Z : x = 1 -> is_layer n = true -> False) by (intros -> L; destruct (us_root F U) as (r & Hr & Hc); assert (r = n) by congruence; subst r; rewrite (canvas_not_layer _ Hc) in L; discriminate).
  destruct K as [[-> ->]|(-> & L & _)], K' as [[E ->]|(-> & L' & _)]; auto; exfalso; now apply Z.
Qed.
Lemma text_stepped F g kd n c i x : usual F -> canv F g kd n c -> stepped F (fat (iuid c) (ins i (IT x)) F) g (fun k => k) (ids (layers_in c)).
Proof.
  intros U C. split; [now apply (tx_usual F g kd n)|]. split; [now apply (tx_keeps F g kd n)|]. intros y kd' m cy Cy.
  destruct (tx_to F g kd n c i x U C y kd' m cy Cy) as (m' & cy' & C' & E & _). exists m', cy'. split; [exact C'|]. rewrite E. destruct (N.eqb_spec y g) as [->|]; [|reflexivity].
  destruct (holder_kind F g kd' m kd n U (proj1 Cy) (proj1 C)) as [-> ->]. pose proof (canv_ch _ _ _ _ _ U Cy) as E1. rewrite (canv_ch _ _ _ _ _ U C) in E1. now injection E1 as ->.
Qed.
Lemma move_stepped F g kd n c l t i n' ch' kg : usual F -> canv F g kd n c -> fget l F = Some t -> is_layer t = true -> ~ In g (uids t) ->
  let F' := fat (iuid c) (ins i t) (fdel l F) in fget g F' = Some n' -> children kd n' = Ok ch' -> ids ch' = kg -> stepped F F' g (without l) kg.
Proof.
  intros U C Hl Htl Ho F' Hg' Hch' Ekg. assert (U' : usual F') by now apply (mg_usual F g kd n c l t i). split; [exact U'|]. split; [now apply (mg_keeps F g kd n c l t i)|]. intros y kd' m cy Cy.
  destruct (mg_to F g kd n c l t i U C Hl Htl Ho y kd' m cy Cy) as (m' & cy' & C' & E & _). exists m', cy'. split; [exact C'|]. destruct (N.eqb_spec y g) as [->|Hne]; [|now apply E].
  destruct (holder_kind F g kd' m kd n U (proj1 Cy) (proj1 C)) as [-> ->]. pose proof (canv_ch _ _ _ _ _ U' C') as E1. destruct C' as [[C' _] _]. assert (m' = n') by (fold F' in C'; congruence). subst m'. rewrite Hch' in E1. injection E1 as ->. exact Ekg.
Qed.

Lemma move_to_eq h g l k : forall x, (fun y => if y =? g then k else without l (h y)) x = move_to h g l k x. Proof. reflexivity. Qed.
Lemma last_is_spec l k : last_is l k = true <-> exists a, k = a ++ [l].
Proof.
  unfold last_is. split.
  - intros H. destruct (rev k) as [|x r] eqn:E; [discriminate|]. apply N.eqb_eq in H. subst x. exists (rev r). rewrite <- (rev_involutive k), E. reflexivity.
  - intros (a & ->). rewrite rev_app_distr. cbn. apply N.eqb_refl.
Qed.

Definition right_move (F : forest) (h : shelf) (m : move) : Prop :=
  usual (do_move F m) /\ shows (do_move F m) (fst (list_move h m)) /\ snd (try_move F m) = snd (list_move h m).

Lemma append_right F h kd g l : usual F -> shows F h -> fits F (MAppend kd g l) -> right_move F h (MAppend kd g l).
Proof.
  intros U S ((n & Hh) & t & Hl & Htl & Ho). destruct (canv_ex _ _ _ _ U Hh) as (c & C). destruct (canv_in _ _ _ _ _ U C) as (Hk & Hcc & _). pose proof (us_wf F U) as W.
  destruct (S g kd n Hh) as (ch & Hch & Ech). pose proof (us_known F U l t Hl Htl) as Htk. unfold right_move, do_move. cbn [try_move list_move].
  destruct (last_is l (h g)) eqn:El.
  - apply last_is_spec in El as (a & Ea). rewrite (append_last F kd g l n ch a W (proj1 Hh) Hch Hk) by (rewrite Ech; exact Ea). cbn [fst snd]. auto.
  - destruct (append_works F kd g l n c t ch W (proj1 Hh) (proj2 C) Hch Hl Htl Ho) as (F' & EF).
    { intros a Ea. rewrite Ech in Ea. assert (X : last_is l (h g) = true) by (apply last_is_spec; eauto). congruence. }
    destruct (append_ok F kd g l n t ch F' W (proj1 Hh) Hk Hch Hl Htl Htk EF) as (_ & _ & _ & _ & n' & ch' & Hn' & Hch' & Ei).
    destruct (append_shape F kd g n c l t F' W (proj1 Hh) Hk Hcc Hl EF) as (i & E). rewrite EF. cbn [fst snd]. subst F'.
    pose proof (move_stepped F g kd n c l t i n' ch' _ U C Hl Htl Ho Hn' Hch' Ei) as St. split; [apply St|]. split; [|reflexivity].
    eapply shows_eq; [exact (stepped_shows _ _ _ _ _ h U St S)|]. intros x. cbn beta. unfold move_to. now rewrite Ech.
Qed.

Lemma py_index_ids ch i : py_index (ids ch) i = let* b := py_index ch i in Ok (iuid b).
Proof.
  unfold py_index, ids. rewrite map_length. destruct (_ <? 0)%Z; [reflexivity|]. rewrite nth_error_map. destruct (nth_error _ _); reflexivity.
Qed.
Lemma put_before_at b l A B : ~ In b A -> put_before b l (A ++ b :: B) = A ++ l :: b :: B.
Proof. induction A as [|x A IH]; cbn [put_before app]; intros H; [now rewrite N.eqb_refl|]. destruct (N.eqb_spec x b) as [->|]; [exfalso; apply H; now left|]. f_equal. apply IH. intros Z. apply H. now right. Qed.
Lemma view_canv F kd g c : usual F -> view F kd g c -> forall n c', canv F g kd n c' -> c' = c.
Proof. intros U (_ & _ & _ & n & Hn & Hc) n' c' C. destruct (canv_in _ _ _ _ _ U C) as (_ & Hc' & _). destruct C as [[H _] _]. congruence. Qed.
Lemma ids_NoDup F x kd n c : usual F -> canv F x kd n c -> NoDup (ids (layers_in c)).
Proof.
  intros U C. destruct (canv_in _ _ _ _ _ U C) as (_ & _ & _ & Hct & Hcd). unfold layers_in. rewrite ids_rev. apply NoDup_rev. pose proof (kids_uid_NoDup c (NoDup_inside F c (us_wf F U) Hcd)) as N1.
  assert (E : ids (filter is_layer (ikids c)) = ids (filter is_layer (filter itag (ikids c)))).
  { f_equal. generalize (ikids c). intros k. induction k as [|y k IH]; [reflexivity|]. cbn [filter]. destruct (is_layer y) eqn:E1; [rewrite (is_layer_tag _ E1); cbn [filter]; rewrite E1; now f_equal|]. destruct (itag y); [cbn [filter]; now rewrite E1|exact IH]. }
  rewrite E. unfold ids. revert N1. generalize (filter itag (ikids c)). intros k. induction k as [|y k IH]; [intros; constructor|]. cbn [map filter]. intros N1. inversion N1 as [|? ? Hn N2]; subst. destruct (is_layer y); [|auto]. cbn [map]. constructor; [|auto].
  intros Z. apply Hn. apply in_map_iff in Z as (z & Ez & Hz). apply filter_In in Hz as [Hz _]. apply in_map_iff. eauto.
Qed.

Lemma insert_right F h kd g i l : usual F -> shows F h -> fits F (MInsert kd g i l) -> right_move F h (MInsert kd g i l).
Proof.
  intros U S ((n & Hh) & t & Hl & Htl & Ho). destruct (canv_ex _ _ _ _ U Hh) as (c & C). destruct (canv_in _ _ _ _ _ U C) as (Hk & Hcc & Hcf & Hct & Hcd). pose proof (us_wf F U) as W.
  destruct (S g kd n Hh) as (ch & Hch & Ech). pose proof (us_known F U l t Hl Htl) as Htk. unfold right_move, do_move. cbn [try_move list_move].
  rewrite <- Ech, py_index_ids.
  assert (Egi : group_insert F kd g i l = match py_index ch i with Err e => (F, Err e) | Ok b =>
     andthen (insert_text_after F (iuid b) nl) (fun F1 => andthen (insert_after F1 (iuid b) l) (fun F2 => insert_text_after F2 (iuid b) nl)) end).
  { unfold group_insert, group_index. rewrite (proj1 Hh), Hch. cbn [bind]. destruct kd; congruence. }
  rewrite Egi. clear Egi. destruct (py_index ch i) as [b|e] eqn:Ei; cbn [bind]; [|cbn [fst snd]; auto].
  assert (V0 : view F kd g c) by (split; [exact W|split; [exact Hk|split; [now apply (canv_known F g kd n)|exists n; split; [apply Hh|exact Hcc]]]]).
  assert (Ec : ch = layers_in c) by (rewrite (canv_ch _ _ _ _ _ U C) in Hch; congruence).
  assert (Hb : In b (layers_in c)).
  { rewrite <- Ec. unfold py_index in Ei. destruct (_ <? 0)%Z; [discriminate|]. destruct (nth_error _ _) as [b'|] eqn:E; [|discriminate]. injection Ei as ->. eapply nth_error_In; eauto. }
  destruct (text_step F kd g c b nl V0 Hb) as (i1 & E1 & V1 & P1 & G1). pose proof (text_stepped F g kd n c i1 nl U C) as St1.
  set (F1 := fat (iuid c) (ins i1 (IT nl)) F) in *. set (c1 := ins i1 (IT nl) c) in *. rewrite E1. cbn [andthen].
  assert (S1 : shows F1 h).
  { eapply shows_eq; [exact (stepped_shows _ _ _ _ _ h U St1 S)|]. intros x. cbn beta. destruct (N.eqb_spec x g) as [->|]; [now rewrite <- Ech, Ec|reflexivity]. }
  destruct St1 as (U1 & K1 & T1). destruct (T1 _ _ _ _ C) as (n1 & c1' & C1 & Ec1). pose proof (view_canv _ _ _ _ U1 V1 _ _ C1). subst c1'. rewrite N.eqb_refl in Ec1.
  assert (Hb1 : In b (layers_in c1)) by (unfold c1; now rewrite layers_text).
  assert (Eu1 : iuid c1 = iuid c) by (unfold c1; now destruct c).
  destruct (N.eqb_spec l (iuid b)) as [El|Hne].
  - assert (Hpar : fparent (iuid b) F1 = Some c1).
    { destruct (canv_in _ _ _ _ _ U1 C1) as (_ & _ & Hcf1 & _). apply in_layers in Hb1 as [Hb1 Hbl]. apply (child_parent F1 (iuid c1)); auto; [apply (us_wf F1 U1)|now apply is_layer_tag]. }
    assert (E2 : insert_after F1 (iuid b) l = (F1, Err ValueError)) by (unfold insert_after, insert_beside; rewrite Hpar, El, N.eqb_refl; unfold c1; destruct c; [discriminate|reflexivity]).
    rewrite E2. cbn [andthen fst snd]. auto.
  - assert (Hout : ~ In (iuid c) (uids t)) by now apply (mg_out F g kd n c l t U C). pose proof (G1 l t Hl Hout) as Hl1.
    destruct (after_step F1 kd g c1 b l t V1 Hb1 Hne Hl1 Htl Htk) as [[Hno _]|(Ho1 & i2 & E2 & V2 & Hb2 & P2 & D2 & L2 & A & B & EA & EB)]; [rewrite Eu1 in Hno; contradiction|].
    rewrite E2. cbn [andthen]. destruct (view_children _ _ _ _ V2) as (n2 & Hn2 & Hch2).
    pose proof (move_stepped F1 g kd n1 c1 l t i2 n2 _ _ U1 C1 Hl1 Htl Ho Hn2 Hch2 EB) as St2.
    pose proof (stepped_shows _ _ _ _ _ h U1 St2 S1) as S2. set (F2 := fat (iuid c1) (ins i2 t) (fdel l F1)) in *. set (c2 := ins i2 t (idel l c1)) in *.
    destruct St2 as (U2 & K2 & T2). destruct (T2 _ _ _ _ C1) as (n2' & c2' & C2 & Ec2). pose proof (view_canv _ _ _ _ U2 V2 _ _ C2). subst c2'. rewrite N.eqb_refl in Ec2.
    destruct (text_step F2 kd g c2 (idel l b) nl V2 Hb2) as (i3 & E3 & _). rewrite idel_uid in E3. rewrite E3. cbn [fst snd].
    pose proof (text_stepped F2 g kd n2' c2 i3 nl U2 C2) as St3. pose proof (stepped_shows _ _ _ _ _ _ U2 St3 S2) as S3. split; [apply St3|]. split; [|reflexivity].
    eapply shows_eq; [exact S3|]. intros x. cbn beta. unfold move_to. destruct (N.eqb_spec x g) as [->|]; [|reflexivity].
    rewrite Ec2, Ec, <- Ec1. rewrite EA. symmetry. apply put_before_at. intros Z. pose proof (ids_NoDup _ _ _ _ _ U1 C1) as ND. apply (NoDup_filter (fun y => negb (l =? y))) in ND. fold (without l (ids (layers_in c1))) in ND. rewrite EA in ND. apply NoDup_remove_2 in ND. apply ND. apply in_or_app. now left.
Qed.

Lemma moves_right ms : forall F h, usual F -> shows F h -> all_fit F ms ->
  usual (fst (doc_moves F ms)) /\ shows (fst (doc_moves F ms)) (fst (list_moves h ms)) /\ snd (doc_moves F ms) = snd (list_moves h ms).
Proof.
  induction ms as [|m ms IH]; intros F h U S A; [cbn; auto|]. destruct A as [Hf A]. cbn [doc_moves list_moves].
  assert (R : right_move F h m) by (destruct m; [now apply append_right|now apply insert_right]). destruct R as (U' & S' & E). unfold do_move in *.
  destruct (try_move F m) as [F1 r1] eqn:E1. destruct (list_move h m) as [h1 q1] eqn:E2. cbn [fst snd] in *. subst q1.
  destruct (IH F1 h1 U' S' A) as (U2 & S2 & E3). destruct (doc_moves F1 ms) as [F2 rs]. destruct (list_moves h1 ms) as [h2 qs]. cbn [fst snd] in *. split; [exact U2|]. split; [exact S2|]. now subst.
Qed.

(** ** Documents just loaded *)

Lemma loaded_usual n : is_tag n = true -> tag_name n = s "canvas" ->
  (forall x, In x (fdesc (doc_forest n)) -> is_layer x = true -> known x /\ forall k, layer_class x = Ok k -> kind_of k = KGroup -> exists c, own_canvas x c) -> usual (doc_forest n).
Proof.
  intros Ht Hn H. destruct n as [|nm a k]; [discriminate|]. cbn [tag_name] in Hn. destruct (doc_forest_top nm a k) as (k' & E & _ & W). rewrite E in *. split.
  - exact W.
  - exists (IE 1 nm a k'). split; [reflexivity|]. unfold named. cbn [itag iname]. subst nm. reflexivity.
  - intros z m Hz Hl Hi. apply fget_In in Hz as (Hz & _ & _). destruct Hz as [<-|Hz]; [discriminate|].
    rewrite app_nil_r in Hz. rewrite idesc_IE, fdesc_IE in Hz. destruct Hz as [<-|Hz]; [subst nm; discriminate|]. change (fdesc []) with (@nil inode) in Hz. rewrite app_nil_r in Hz.
    unfold wf in W. rewrite !fuids_IE in W. change (fuids []) with (@nil N) in W. rewrite !app_nil_r in W. inversion W as [|? ? _ W1]; subst. inversion W1 as [|? ? W2 _]; subst. apply W2. apply (desc_uids k' m Hz). exact Hi.
  - intros z m Hz Hl. apply fget_In in Hz as (Hz & _ & _). now apply (H m).
  - intros z m kk Hz Hl. apply fget_In in Hz as (Hz & _ & _). now apply (H m).
Qed.

(** ** Moving all children *)

Lemma kids_apart k a b z : NoDup (fuids k) -> In a k -> In b k -> iuid a <> iuid b -> In z (uids a) -> In z (uids b) -> False.
Proof.
  induction k as [|x k IH]; intros ND Ha Hb Hne Hza Hzb; [destruct Ha|].
  change (fuids (x :: k)) with (uids x ++ fuids k) in ND. apply NoDup_app_parts in ND as (N1 & N2 & N3).
  assert (G : forall y, In y k -> In z (uids y) -> In z (fuids k)) by (intros y Hy Hz; unfold fuids; apply in_flat_map; eauto).
  destruct Ha as [->|Ha], Hb as [->|Hb]; [now apply Hne|apply (N3 z); eauto|apply (N3 z); eauto|now apply IH].
Qed.
Lemma append_fits F kd g l m : usual F -> fits F (MAppend kd g l) -> (exists t, fget m F = Some t /\ is_layer t = true /\ ~ In g (uids t) /\ ~ In l (uids t)) -> ~ In m (match fget l F with Some t => uids t | None => [] end) ->
  fget m (do_move F (MAppend kd g l)) = fget m F.
Proof.
  intros U ((n & Hh) & t & Hl & Htl & Ho) (t2 & H2 & L2 & O2 & O3) Hm. rewrite Hl in Hm. destruct (canv_ex _ _ _ _ U Hh) as (c & C). destruct (canv_in _ _ _ _ _ U C) as (Hk & Hcc & _). pose proof (us_wf F U) as W.
  unfold do_move. cbn [try_move]. pose proof (canv_ch _ _ _ _ _ U C) as Hch.
  destruct (last_is l (ids (layers_in c))) eqn:El.
  - apply last_is_spec in El as (a & Ea). now rewrite (append_last F kd g l n _ a W (proj1 Hh) Hch Hk Ea).
  - destruct (append_works F kd g l n c t _ W (proj1 Hh) (proj2 C) Hch Hl Htl Ho) as (F' & EF).
    { intros a Ea. assert (X : last_is l (ids (layers_in c)) = true) by (apply last_is_spec; eauto). congruence. }
    destruct (append_shape F kd g n c l t F' W (proj1 Hh) Hk Hcc Hl EF) as (i & E). rewrite EF. cbn [fst]. subst F'.
    rewrite (mg_get F g kd n c l t i U C Hl Htl Ho m Hm), H2. cbn [option_map]. f_equal.
    rewrite (idel_notin l t2).
    + apply iat_notin. apply (mg_out F g kd n c m t2 U C H2 L2 O2).
    + intros Z. apply O3. destruct t2; [destruct Z|]. rewrite uids_IE. now right.
Qed.

Lemma holder_move F m x kd n : usual F -> holder F x kd n -> exists n', holder (do_move F m) x kd n'.
Proof.
  intros U H. destruct (keeps_do_move F m (us_wf F U)) as (_ & _ & G). destruct (G x n (proj1 H)) as (n' & H' & A & B). exists n'. apply (holder_look F _ x kd n n' (proj1 H) H' A B H).
Qed.
Lemma row_fits b kdb k : forall F h, usual F -> shows F h -> (exists n, holder F b kdb n) -> NoDup k ->
  (forall l, In l k -> exists t, fget l F = Some t /\ is_layer t = true /\ ~ In b (uids t) /\ forall l', In l' k -> l' <> l -> ~ In l' (uids t)) ->
  all_fit F (map (MAppend kdb b) k).
Proof.
  induction k as [|l k IH]; intros F h U S (n & Hb) ND H; [exact I|]. cbn [map all_fit]. inversion ND as [|? ? Hnin ND']; subst.
  assert (Hf : fits F (MAppend kdb b l)) by (destruct (H l (or_introl eq_refl)) as (t & A & B & D & _); split; [eauto|exists t; auto]).
  split; [exact Hf|]. destruct (append_right F h kdb b l U S Hf) as (U' & S' & _). apply (IH _ _ U' S').
  - exact (holder_move F _ b kdb n U Hb).
  - exact ND'.
  - intros m Hm. destruct (H m (or_intror Hm)) as (t & A & B & D & E). destruct (H l (or_introl eq_refl)) as (tl & Al & _ & _ & El). exists t. split.
    + rewrite (append_fits F kdb b l m U Hf); [exact A| |].
      * exists t. split; [exact A|]. split; [exact B|]. split; [exact D|]. apply E; [now left|]. intros ->. contradiction.
      * rewrite Al. apply El; [now right|]. intros ->. contradiction.
    + split; [exact B|]. split; [exact D|]. intros l' Hl'. apply E. now right.
Qed.
Lemma list_row b kdb k : forall h, NoDup k -> (forall l, In l k -> ~ In l (h b)) ->
  snd (list_moves h (map (MAppend kdb b) k)) = map (fun _ => Ok tt) k /\
  fst (list_moves h (map (MAppend kdb b) k)) b = h b ++ k /\
  forall x, x <> b -> fst (list_moves h (map (MAppend kdb b) k)) x = filter (fun l => negb (existsb (N.eqb l) k)) (h x).
Proof.
  induction k as [|l k IH]; intros h ND H.
  - cbn. split; [reflexivity|]. split; [now rewrite app_nil_r|]. intros x _. symmetry. now apply filter_all.
  - inversion ND as [|? ? Hnin ND']; subst. cbn [map list_moves list_move].
    assert (E1 : last_is l (h b) = false).
    { destruct (last_is l (h b)) eqn:E; [|reflexivity]. apply last_is_spec in E as (a & Ea). exfalso. apply (H l (or_introl eq_refl)). rewrite Ea. apply in_or_app. right. now left. }
    rewrite E1. assert (E2 : without l (h b) = h b).
    { unfold without. apply filter_all. intros y Hy. apply negb_true_iff, N.eqb_neq. intros ->. now apply (H y (or_introl eq_refl)). }
    rewrite E2. destruct (IH (move_to h b l (h b ++ [l])) ND') as (A & B & C).
    { intros m Hm. unfold move_to. rewrite N.eqb_refl. intros Z. apply in_app_or in Z as [Z|[->|[]]]; [now apply (H m (or_intror Hm))|contradiction]. }
    destruct (list_moves (move_to h b l (h b ++ [l])) (map (MAppend kdb b) k)) as [h2 rs]. cbn [fst snd] in *. split; [cbn [map]; now rewrite A|]. split.
    + rewrite B. unfold move_to. rewrite N.eqb_refl, <- app_assoc. reflexivity.
    + intros x Hx. rewrite (C x Hx). unfold move_to. apply N.eqb_neq in Hx. rewrite Hx. unfold without. clear. induction (h x) as [|y k' IH]; [reflexivity|]. cbn [filter existsb]. rewrite (N.eqb_sym y l).
      destruct (l =? y) eqn:E; cbn [negb orb]; [exact IH|]. cbn [filter]. destruct (existsb (N.eqb y) k); cbn [negb]; [exact IH|now rewrite IH].
Qed.

Lemma all_moved_fit F a kda na b kdb nb cha chb : usual F -> holder F a kda na -> holder F b kdb nb -> a <> b ->
  children kda na = Ok cha -> children kdb nb = Ok chb -> (forall t, In t cha -> ~ In b (uids t)) ->
  let R := doc_moves F (map (MAppend kdb b) (ids cha)) in
  snd R = map (fun _ => Ok tt) cha /\ usual (fst R) /\
  (exists na', holder (fst R) a kda na' /\ children kda na' = Ok []) /\
  (exists nb' ch, holder (fst R) b kdb nb' /\ children kdb nb' = Ok ch /\ ids ch = ids chb ++ ids cha) /\
  all_fit F (map (MAppend kdb b) (ids cha)).
Proof.
  intros U Ha Hb Hne Hca Hcb Hout R. pose proof (us_wf F U) as W. destruct (canv_ex _ _ _ _ U Ha) as (ca & Ca). destruct (canv_ex _ _ _ _ U Hb) as (cb & Cb).
  destruct (canv_in _ _ _ _ _ U Ca) as (_ & _ & Haf & Hat & Had). destruct (canv_in _ _ _ _ _ U Cb) as (_ & _ & Hbf & Hbt & Hbd).
  assert (Ea : cha = layers_in ca) by (rewrite (canv_ch _ _ _ _ _ U Ca) in Hca; congruence). assert (Eb : chb = layers_in cb) by (rewrite (canv_ch _ _ _ _ _ U Cb) in Hcb; congruence).
  pose (h := fun x : N => match fget x F with
    | Some n => match children (if x =? 1 then KAnim else KGroup) n with Ok ch => ids ch | Err _ => [] end | None => [] end).
  assert (S : shows F h).
  { intros x kd n Hx. destruct (canv_ex _ _ _ _ U Hx) as (c & C). exists (layers_in c). pose proof (canv_ch _ _ _ _ _ U C) as E. split; [exact E|]. unfold h. rewrite (proj1 Hx).
    assert (Ek : (if x =? 1 then KAnim else KGroup) = kd).
    { destruct Hx as [Hx [[-> ->]|(-> & Hl & _)]]; [reflexivity|]. destruct (N.eqb_spec x 1) as [->|]; [|reflexivity]. destruct (us_root F U) as (r & Hr & Hc). assert (r = n) by congruence. subst r. rewrite (canvas_not_layer _ Hc) in Hl. discriminate. }
    rewrite Ek, E. reflexivity. }
  assert (Hha : h a = ids cha) by (destruct (S a kda na Ha) as (ch & E1 & <-); rewrite Hca in E1; now injection E1 as <-).
  assert (Hhb : h b = ids chb) by (destruct (S b kdb nb Hb) as (ch & E1 & <-); rewrite Hcb in E1; now injection E1 as <-).
  assert (ND : NoDup (ids cha)) by (rewrite Ea; now apply (ids_NoDup F a kda na)).
  assert (NK : NoDup (fuids (ikids ca))).
  { pose proof (NoDup_inside F ca W Had) as X. destruct ca as [|u nm aa k]; [discriminate|]. rewrite uids_IE in X. now inversion X. }
  assert (Fit : all_fit F (map (MAppend kdb b) (ids cha))).
  { apply (row_fits b kdb (ids cha) F h U S); [eauto|exact ND|]. intros l Hl. unfold ids in Hl. apply in_map_iff in Hl as (t & <- & Hl). pose proof (Hout _ Hl) as Hbo. rewrite Ea in Hl. apply in_layers in Hl as [Hl Hll].
    exists t. split; [apply fget_desc; [exact W|apply (kid_desc F ca); auto; now apply is_layer_tag]|]. split; [exact Hll|]. split; [exact Hbo|].
    intros l' Hl' Hd Hi. unfold ids in Hl'. apply in_map_iff in Hl' as (t' & <- & Hl'). rewrite Ea in Hl'. apply in_layers in Hl' as [Hl' Hll'].
    apply (kids_apart (ikids ca) t' t (iuid t') NK Hl' Hl Hd); [apply tag_uid; now apply is_layer_tag|exact Hi]. }
  assert (Dis : forall l, In l (ids cha) -> ~ In l (h b)).
  { intros l Hl Hl2. rewrite Hhb in Hl2. unfold ids in Hl, Hl2. apply in_map_iff in Hl as (t & Et & Hl). apply in_map_iff in Hl2 as (t2 & Et2 & Hl2). rewrite Ea in Hl. rewrite Eb in Hl2. apply in_layers in Hl as [Hl Hll]. apply in_layers in Hl2 as [Hl2 Hll2].
    pose proof (child_parent F (iuid ca) ca t W Haf Hl (is_layer_tag _ Hll)) as P1. pose proof (child_parent F (iuid cb) cb t2 W Hbf Hl2 (is_layer_tag _ Hll2)) as P2. rewrite Et in P1. rewrite Et2 in P2.
    apply Hne. apply (canv_differ F a kda na ca b kdb nb cb U Ca Cb). congruence. }
  destruct (moves_right _ F h U S Fit) as (U' & S' & E). destruct (list_row b kdb (ids cha) h ND Dis) as (L1 & L2 & L3). fold R in U', S', E |- *.
  split; [rewrite E, L1; unfold ids; now rewrite map_map|]. split; [exact U'|].
  assert (Hd : forall ms G, fst (doc_moves G ms) = fold_left do_move ms G).
  { clear. induction ms as [|m ms IH]; intros G; [reflexivity|]. cbn [doc_moves fold_left]. rewrite <- IH. unfold do_move. destruct (try_move G m) as [F1 r]. cbn [fst]. now destruct (doc_moves F1 ms). }
  assert (Kp : keeps F (fst R)) by (unfold R; rewrite Hd; apply keeps_moves). destruct (Kp W) as (_ & _ & G).
  split.
  - destruct (G a na (proj1 Ha)) as (na' & Hg & A & B). exists na'. assert (Hh : holder (fst R) a kda na') by (apply (holder_look F _ a kda na na' (proj1 Ha) Hg A B Ha)). split; [exact Hh|].
    destruct (S' a kda na' Hh) as (ch & Hch & Ei). rewrite L3 in Ei by exact Hne. rewrite Hha, filter_none in Ei; [apply map_eq_nil in Ei; now subst ch|].
    intros x Hx. apply negb_false_iff, existsb_exists. exists x. split; [exact Hx|apply N.eqb_refl].
  - split; [|exact Fit]. destruct (G b nb (proj1 Hb)) as (nb' & Hg & A & B). exists nb'. assert (Hh : holder (fst R) b kdb nb') by (apply (holder_look F _ b kdb nb nb' (proj1 Hb) Hg A B Hb)).
    destruct (S' b kdb nb' Hh) as (ch & Hch & Ei). exists ch. split; [exact Hh|]. split; [exact Hch|]. rewrite Ei, L2, Hhb. reflexivity.
Qed.
Lemma all_moved F a kda na b kdb nb cha chb : usual F -> holder F a kda na -> holder F b kdb nb -> a <> b ->
  children kda na = Ok cha -> children kdb nb = Ok chb -> (forall t, In t cha -> ~ In b (uids t)) ->
  let R := doc_moves F (map (MAppend kdb b) (ids cha)) in
  snd R = map (fun _ => Ok tt) cha /\ usual (fst R) /\
  (exists na', holder (fst R) a kda na' /\ children kda na' = Ok []) /\
  (exists nb' ch, holder (fst R) b kdb nb' /\ children kdb nb' = Ok ch /\ ids ch = ids chb ++ ids cha).
Proof. intros. destruct (all_moved_fit F a kda na b kdb nb cha chb) as (A & B & C & D & _); auto. Qed.
