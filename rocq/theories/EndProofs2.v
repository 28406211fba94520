(** Reading what was saved *)
From Coq Require Import Lia.
From Verif Require AnimProofs2 TlSpec WrProofs6.
From Verif Require Import XpSpec SerModel SavSpec SavProofs SavSpec2 SavProofs2 SavProofs3 SavProofs4 SavProps2 WrProofs2 WrProofs3 WrProofs4 WrProofs5 EndSpec.
From Verif Require Import XpSpec AnimModel AnimSpec AnimProofs3 AnimProofs5 LayModel DocProofs DocProofs2 LaySpec LayProofs LayProofs2 LayProofs3 LayProofs4 LayProofs5 LayProofs6 LayProofs7 VarSpec VarProofs LoopModel MovSpec MovProofs MovProofs2 MixSpec MixProofs WrSpec ClsProofs PrmSpec PrmProofs PrmProofs2 PrmProofs3 WldSpec WldProofs WldProofs2 EndProofs.
Local Open Scope N_scope.

Lemma children_below kd n ch y : itag n = true -> kd <> KPlain -> children kd n = Ok ch -> In y ch -> In y (idesc n) /\ is_layer y = true.
Proof.
  intros T Hk H Hy. destruct (children_canvas kd n ch H Hk) as (c & Hc & -> & _). apply in_layers in Hy as [Hy Hl]. split; [|exact Hl]. pose proof (is_layer_tag y Hl) as Ty.
  assert (Hyc : In y (idesc c)) by now apply SavProofs.kid_desc. destruct (WrProofs6.canvas_below kd n c T Hc) as [->|Hcn]; [exact Hyc|]. now apply (LayProofs.idesc_trans c y n).
Qed.
Lemma Forall2_ids (R : inode -> inode -> Prop) (S : N -> inode -> Prop) l m : Forall2 R l m -> (forall x y, In x l -> In y m -> R x y -> S (iuid x) y) -> Forall2 S (ids l) m.
Proof. intros H. induction H as [|x y l m H _ IH]; intros K; constructor; [apply K; auto; now left|]. apply IH. intros; apply K; auto; now right. Qed.

(** ** Timelines *)

Lemma steady_time cx cy v : same_times cx cy -> steady_attr cx v -> T_init (tval_of (AStr (aval_str v))) cy = T_init (tval_of v) cx.
Proof. intros S H. cbn [tval_of]. rewrite S. destruct v as [x|q|z|t]; try contradiction; [reflexivity|exact H]. Qed.
Lemma steady_read cx cy ty n : same_times cx cy -> steady_waypoint cx n -> same_result (same_waypoint cx cy) (wp_from_tag n ty cx) (wp_from_tag (reload n) ty cy).
Proof.
  intros S (C & A & So). unfold wp_from_tag. rewrite SavProofs4.name_reload. destruct (negb (has_name (s "waypoint") n)); [reflexivity|]. rewrite TlProofs3.tag_attrs_reload, !clean_get by exact C.
  destruct (aget (s "time") (tag_attrs n)) as [tv|] eqn:Et; [|reflexivity]. cbn [option_map]. rewrite (steady_time cx cy tv S (proj1 (A _ _ Et))). destruct (T_init (tval_of tv) cx) as [t|]; [|reflexivity]. cbn [bind].
  rewrite TlProofs3.child_tags_reload. destruct (child_tags n) as [|v [|v' l]]; [reflexivity| |reflexivity]. cbn [map]. inversion_clear So as [|? ? Sv _]. rewrite TlProofs3.is_animated_reload. destruct (is_animated v); [reflexivity|]. rewrite TlProofs3.tag_name_reload.
  destruct (negb _); [reflexivity|]. rewrite from_tag_same by (destruct v as [y|nm a k]; [split; constructor|apply SavProofs4.solid_El in Sv; apply Sv]). destruct (from_tag v) as [c|]; [|reflexivity]. cbn [bind].
  destruct (aget (s "before") (tag_attrs n)) as [b|] eqn:Eb; [|reflexivity]. destruct (proj2 (A _ _ Eb) ltac:(discriminate)) as [yb ->]. cbn [option_map].
  destruct (aget (s "after") (tag_attrs n)) as [a|] eqn:Ea; [|reflexivity]. destruct (proj2 (A _ _ Ea) ltac:(discriminate)) as [ya ->]. cbn [option_map aval_interp aval_str].
  destruct (check_interpolation yb) as [b|]; [|reflexivity]. cbn [bind]. destruct (check_interpolation ya) as [a|]; [|reflexivity]. cbn [bind same_result]. unfold same_waypoint. cbn [w_time w_before w_after w_cls w_val].
  do 4 (split; [reflexivity|]). now apply solid_value.
Qed.
Lemma steady_reads cx cy ty l : same_times cx cy -> Forall (steady_waypoint cx) l -> same_result (Forall2 (same_waypoint cx cy)) (mapM (fun w => wp_from_tag w ty cx) l) (mapM (fun w => wp_from_tag w ty cy) (map reload l)).
Proof.
  intros S H. induction H as [|n l Hn _ IH]; [constructor|]. cbn [map mapM]. pose proof (steady_read cx cy ty n S Hn) as X. destruct (wp_from_tag n ty cx) as [a|], (wp_from_tag (reload n) ty cy) as [b|]; try contradiction; [|exact X]. cbn [bind].
  destruct (mapM (fun w => wp_from_tag w ty cx) l), (mapM (fun w => wp_from_tag w ty cy) (map reload l)); try contradiction; [|exact IH]. cbn [bind same_result] in *. now constructor.
Qed.
Lemma same_tset (R : wp -> wp -> Prop) t a b : R a b -> forall d e, Forall2 (fun x y => fst y = fst x /\ R (snd x) (snd y)) d e -> same_result (Forall2 (fun x y => fst y = fst x /\ R (snd x) (snd y))) (tset t a d) (tset t b e).
Proof.
  intros Hab d e H. induction H as [|[k v] [k' v'] d e [E Hr] H IH]; [now repeat constructor|]. cbn [fst snd] in *. subst k'. cbn [tset]. destruct (tmatch t k) as [m|]; [|reflexivity]. cbn [bind]. destruct m; [constructor; auto|].
  destruct (tset t a d), (tset t b e); try contradiction; [|exact IH]. cbn [bind same_result] in *. constructor; auto.
Qed.
Lemma same_tsets (R : wp -> wp -> Prop) l m : (forall a b, R a b -> w_time b = w_time a) -> Forall2 R l m -> forall d e, Forall2 (fun x y => fst y = fst x /\ R (snd x) (snd y)) d e -> same_result (Forall2 (fun x y => fst y = fst x /\ R (snd x) (snd y))) (tsets l d) (tsets m e).
Proof.
  intros HR H. induction H as [|a b l m Hab _ IH]; intros d e D; [exact D|]. cbn [tsets]. rewrite (HR a b Hab). pose proof (same_tset R (w_time a) a b Hab d e D) as X. destruct (tset (w_time a) a d), (tset (w_time a) b e); try contradiction; [|exact X]. cbn [bind]. now apply IH.
Qed.
Lemma steady_values cx cy n : same_times cx cy -> steady cx n -> same_result (Forall2 (same_waypoint cx cy)) (tl_values n cx) (tl_values (reload n) cy).
Proof.
  intros S (C & Ty & W). unfold tl_values, waypoints, waypoint_tags. rewrite TlProofs3.is_animated_reload, TlProofs3.child_tags_reload. destruct (is_animated n); [|constructor]. pose proof (steady_reads cx cy) as H. rewrite TlProofs3.tag_attrs_reload, clean_get by exact C.
  destruct (child_tags n) as [|w l] eqn:El; [constructor|]. cbn [map]. change (reload w :: map reload l) with (map reload (w :: l)). destruct (aget (s "type") (tag_attrs n)) as [ty|]; [|reflexivity]. destruct (Ty ty eq_refl) as [y ->]. cbn [option_map aval_str].
  specialize (H (AStr y) (w :: l) S W). destruct (mapM (fun w => wp_from_tag w (AStr y) cx) (w :: l)) as [ws|], (mapM (fun w => wp_from_tag w (AStr y) cy) (map reload (w :: l))) as [ws'|]; try contradiction; [|exact H]. cbn [bind same_result] in *.
  pose proof (same_tsets (same_waypoint cx cy) ws ws' (fun a b X => proj1 X) H [] [] (Forall2_nil _)) as X. destruct (tsets ws []) as [d|x1], (tsets ws' []) as [d'|x2]; try contradiction; [|exact X]. cbn [bind same_result] in *.
  induction X as [|a b d d' [_ Hab] _ IH]; constructor; auto.
Qed.

Section Told.
  Context (F : forest) (w : world) (U : usual F) (D : depicts F w) (r : inode) (d : inode) (Hr : fget 1 F = Some r) (Ar : fanc 1 F = Some [d]).
  Context (G : forest) (r2 d2 : inode) (WG : wf G) (Hr2 : fget (iuid r2) G = Some r2) (Ar2 : fanc (iuid r2) G = Some [d2]) (Im : image r r2) (Cl : clean r) (Pf : plain_fps r).
  Lemma u1 : iuid r = 1 /\ itag r = true /\ iname r = s "canvas".
  Proof.
    pose proof (fget_In _ _ _ Hr) as (_ & E & T). split; [exact E|]. split; [exact T|]. destruct (us_root F U) as (r' & Hr' & Hc). assert (r' = r) by congruence. subst r'. unfold named in Hc. apply andb_prop in Hc as [_ Hc]. now apply pstr_eqb_spec.
  Qed.
  Lemma told_image k : forall n m, (length (idesc n) < k)%nat -> is_layer n = true -> In n (idesc r) -> In m (idesc r2) -> image n m -> told w (place F) (Some (iattrs r)) G (iuid n) m.
  Proof.
    destruct u1 as (Eu & Tr & Nr). pose proof (us_wf F U) as W. pose proof (fget_In _ _ _ Hr) as (Dr & _). destruct D as [[Sh Ho] Te].
    induction k as [|k IH]; intros n m Hlen Hl In_ Im_ H; [lia|]. pose proof (clean_below r n Cl In_) as Cn. assert (Dn : In n (fdesc F)) by now apply (desc_trans F r). pose proof (fget_desc F n W Dn) as Hn.
    assert (Lm : is_layer m = true) by (rewrite <- (image_layer n m H); exact Hl). constructor.
    - exact Lm.
    - intros a k0 Ha. destruct (Te _ _ Ha) as (n' & Hn' & _ & <-). assert (n' = n) by congruence. subst n'. destruct (image_tag n m H) as (_ & _ & ->). apply clean_get. now apply clean_own.
    - intros f q t c Hp Hq Hc So. destruct (Ho q t Hq) as (v & Hv & <-). destruct (place_value F (iuid n) f q v Hp Hv W) as (n' & Hn' & _ & Eg). assert (n' = n) by congruence. subst n'. rewrite Hc in Eg. cbn [bind] in Eg.
      pose proof (image_getitem n m f Cn H) as X. rewrite Eg in X. destruct (layer_getitem m f) as [[v2 c2]|] eqn:E2; [|contradiction]. cbn [same_result] in X. destruct X as [Xi Xc]. cbn [fst snd] in *. subst c2. exists v2. split; [reflexivity|].
      rewrite Xi. apply solid_value; [exact So|]. assert (I2 : In v2 (idesc r2)) by (apply (LayProofs.idesc_trans m v2 r2 Im_); now apply (WrProofs4.getitem_below m f v2 c)). rewrite (ctx_top G r2 d2 v2 WG Ar2 Hr2 I2).
      destruct (image_tag r r2 Im) as (_ & N2 & _). rewrite N2, Nr. change (pstr_eqb (s "canvas") (s "canvas")) with true. cbn iota. now apply same_fps.
    - intros f q t c Hp Hq Hc So. destruct (Ho q t Hq) as (v & Hv & <-). destruct (place_value F (iuid n) f q v Hp Hv W) as (n' & Hn' & _ & Eg). assert (n' = n) by congruence. subst n'. rewrite Hc in Eg. cbn [bind] in Eg.
      pose proof (image_getitem n m f Cn H) as X. rewrite Eg in X. destruct (layer_getitem m f) as [[v2 c2]|] eqn:E2; [|contradiction]. cbn [same_result] in X. destruct X as [Xi Xc]. cbn [fst snd] in *. subst c2. exists v2. split; [reflexivity|].
      rewrite Xi. split; [apply TlProofs3.is_animated_reload|]. apply steady_values; [|exact So]. assert (I2 : In v2 (idesc r2)) by (apply (LayProofs.idesc_trans m v2 r2 Im_); now apply (WrProofs4.getitem_below m f v2 c)). rewrite (ctx_top G r2 d2 v2 WG Ar2 Hr2 I2).
      destruct (image_tag r r2 Im) as (_ & N2 & _). rewrite N2, Nr. change (pstr_eqb (s "canvas") (s "canvas")) with true. cbn iota. now apply same_fps.
    - intros c Hc Hk. rewrite (image_class n m Cn H) in Hc. assert (Hh : holder F (iuid n) KGroup n) by (split; [exact Hn|right; eauto]). destruct (Sh _ _ _ Hh) as (ch & Ech & Ei). pose proof (image_children KGroup n m Cn H) as X. rewrite Ech in X.
      destruct (children KGroup m) as [ch2|] eqn:E2; [|contradiction]. cbn [same_result] in X. exists ch2. split; [reflexivity|]. cbn [fst] in *. rewrite <- Ei. apply (Forall2_ids image); [exact X|]. intros x y Hx Hy Hxy.
      destruct (children_below KGroup n ch x (is_layer_tag n Hl) ltac:(discriminate) Ech Hx) as [Ix Lx]. destruct (children_below KGroup m ch2 y (is_layer_tag m Lm) ltac:(discriminate) E2 Hy) as [Iy _].
      apply IH; auto; [pose proof (desc_less n x Ix); lia|now apply (LayProofs.idesc_trans n x r)|now apply (LayProofs.idesc_trans m y r2)].
  Qed.
  Lemma told_top : exists ch, children KAnim r2 = Ok ch /\ Forall2 (told w (place F) (Some (iattrs r)) G) (fst (fst w) 1) ch.
  Proof.
    destruct u1 as (Eu & Tr & Nr). destruct D as [[Sh _] _]. assert (Hh : holder F 1 KAnim r) by (split; [exact Hr|now left]). destruct (Sh _ _ _ Hh) as (ch & Ech & Ei). pose proof (image_children KAnim r r2 Cl Im) as X. rewrite Ech in X.
    destruct (children KAnim r2) as [ch2|] eqn:E2; [|contradiction]. exists ch2. split; [reflexivity|]. cbn [fst] in *. rewrite <- Ei. apply (Forall2_ids image); [exact X|]. intros x y Hx Hy Hxy.
    destruct (children_below KAnim r ch x Tr ltac:(discriminate) Ech Hx) as [Ix Lx]. destruct (image_tag r r2 Im) as (T2 & _). rewrite Tr in T2. destruct (children_below KAnim r2 ch2 y T2 ltac:(discriminate) E2 Hy) as [Iy _].
    apply (told_image (S (length (idesc x)))); auto.
  Qed.
End Told.

(** ** Attributes that are read are strings *)

Definition strs (a : attrs) : Prop := Forall (fun kv => exists y, snd kv = AStr y) a.
Definition sfr (l : list frame) : Prop := Forall (fun f => strs (f_attrs f)) l.
Definition sst (st : pst) : Prop :=
  match st with
  | PDecl _ | PProlog | PErr => True
  | POpen l | PName l _ | PText l _ | PTEnt l _ _ | PClose l _ => sfr l
  | PAttrs l _ a | PKey l _ a _ | PQuote l _ a _ | PQVal l _ a _ _ _ | PQEnt l _ a _ _ _ _ | PSlash l _ a => sfr l /\ strs a
  | PDone n => strs (tag_attrs n)
  end.
Lemma close_strs f l : strs (f_attrs f) -> sfr l -> sst (close f l).
Proof. intros A B. unfold close. destruct l as [|g l]; [exact A|]. inversion_clear B. cbn [sst]. constructor; [exact H|exact H0]. Qed.
Lemma step_strs st c : sst st -> sst (pstep st c).
Proof.
  intros H. unfold pstep. destruct (negb (xml_char c)); [exact I|]. assert (Nil : strs []) by constructor.
  destruct st as [q| |l|l nm|l nm a|l nm a k|l nm a k|l nm a k q v|l nm a k q v e|l nm a|l b|l b e|l nm|n|]; cbn [sst] in H;
    repeat match goal with |- context [if ?b then _ else _] => destruct b end; repeat match goal with |- context [match entity ?e with _ => _ end] => destruct (entity e) end; cbn [sst]; try exact I; try exact H; try apply Forall_nil; try (split; [exact H|exact Nil]).
  { constructor; [exact Nil|exact H]. }
  { destruct H as [H1 H2]. constructor; [now apply Forall_rev|exact H1]. }
  { destruct H as [H1 H2]. split; [exact H1|]. constructor; [now eexists|exact H2]. }
  { destruct H as [H1 H2]. apply close_strs; [now apply Forall_rev|exact H1]. }
  all: destruct l as [|f l]; [exact I|]; inversion_clear H as [|? ? H1 H2]; repeat match goal with |- context [if ?b then _ else _] => destruct b end; cbn [sst]; try exact I; try (constructor; auto); try (now apply close_strs); try (unfold flush; destruct b; auto).
Qed.
Lemma run_strs x : forall st, sst st -> sst (prun st x).
Proof. induction x as [|c x IH]; intros st H; [exact H|]. apply (IH (pstep st c)). now apply step_strs. Qed.
Lemma parse_strs e b n : parse_bytes e b = Ok n -> strs (tag_attrs n).
Proof.
  unfold parse_bytes, parse_doc. destruct (decode b) as [y|]; [|discriminate]. unfold doc_in. destruct (starts_with _ y); [|discriminate]. pose proof (run_strs (norm_eol y) (PDecl false) I) as H. destruct (prun (PDecl false) (norm_eol y)); try discriminate. intros [= <-]. exact H.
Qed.
Lemma load_strs fs x a : load fs x = Ok a -> strs (tag_attrs (am_root a)).
Proof.
  unfold load. destruct (aget x fs) as [f|]; [|discriminate]. destruct (kind_by_magic f) as [kd|]; [|discriminate]. cbn [bind]. destruct (main_file kd f) as [n|] eqn:E; [|discriminate]. intros [= <-]. cbn [am_root].
  destruct kd, f as [b|b]; try discriminate; cbn [main_file] in E; now apply parse_strs in E.
Qed.
(** Where it starts *)
Lemma starts_fps a r : starts a -> iattrs r = tag_attrs (am_root a) -> plain_fps r.
Proof.
  intros St E. unfold plain_fps. rewrite E. destruct St as [L|(_ & fs & file & L)].
  - assert (Ea : am_root a = AnimProps.xblank) by (unfold AnimProps.xblank; now rewrite L). rewrite Ea. vm_compute. exact I.
  - apply load_strs in L. destruct (aget (s "fps") (tag_attrs (am_root a))) as [v|] eqn:Ev; [|exact I]. apply ClsProofs.aget_In_any in Ev.
    pose proof (proj1 (Forall_forall _ _) L _ Ev) as [y Hy]. cbn [snd] in Hy. subst v. exact I.
Qed.
