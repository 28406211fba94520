(** New layers; all steps *)
From Coq Require Import Lia.
From Verif Require AnimProofs2.
From Verif Require Import AnimModel LayModel DocProofs DocProofs2 LaySpec LayProofs LayProofs2 LayProofs3 LayProofs4 LayProofs5 LayProofs6 LayProofs7 VarSpec VarProofs LoopModel MovSpec MovProofs MovProofs2 MixSpec MixProofs WrSpec ClsProofs PrmSpec PrmProofs PrmProofs2 PrmProofs3 WldSpec WldProofs.
Local Open Scope N_scope.

(** ** New layers *)

(** Looking for the canvas of a group among the children of its tag *)
Fixpoint ofind (k : list inode) : option inode :=
  match k with
  | [] => None
  | x :: k' => if is_param (s "canvas") x then match ikids x with c :: _ => if named (s "canvas") c then Some c else None | [] => None end
               else if forallb (fun y => negb (is_param (s "canvas") y)) (fdesc [x]) then ofind k' else None
  end.
Lemma ofind_own k c : ofind k = Some c -> exists k1 p k2 j2, k = k1 ++ p :: k2 /\ is_param (s "canvas") p = true /\ ikids p = c :: j2 /\ named (s "canvas") c = true /\ (forall x, In x (fdesc k1) -> is_param (s "canvas") x = false).
Proof.
  induction k as [|x k IH]; [discriminate|]. cbn [ofind]. destruct (is_param (s "canvas") x) eqn:Ep.
  - destruct (ikids x) as [|d j] eqn:Ek; [discriminate|]. destruct (named (s "canvas") d) eqn:En; [|discriminate]. intros [= ->]. exists [], x, k, j. repeat split; auto. intros y [].
  - destruct (forallb _ (fdesc [x])) eqn:Ef; [|discriminate]. intros H. destruct (IH H) as (k1 & p & k2 & j2 & -> & A & B & C & D). exists (x :: k1), p, k2, j2. repeat (split; [now auto|]). intros y Hy.
    change (x :: k1) with ([x] ++ k1) in Hy. rewrite fdesc_app in Hy. apply in_app_or in Hy as [Hy|Hy]; [|now apply D]. apply (proj1 (forallb_forall _ _) Ef) in Hy. now apply negb_true_iff in Hy.
Qed.
Definition no_layer_in (c : lcls) : bool := match new_tag c with Ok t => forallb (fun d => negb (has_name (s "layer") d)) (descendants t) | Err _ => true end.
Lemma no_layers : forallb no_layer_in layer_classes = true.
Proof. vm_compute. reflexivity. Qed.
Lemma only_group : filter (fun c => match kind_of c with KGroup => true | _ => false end) layer_classes = [cls_Group].
Proof. vm_compute. reflexivity. Qed.
Definition empty_own (n : inode) : bool := match ofind (ikids n) with Some c => match ikids c with [] => true | _ => false end | None => false end.
Lemma group_empty b : match new_tag cls_Group with Ok t => empty_own (fst (label b t)) | Err _ => false end = true.
Proof. vm_compute. reflexivity. Qed.

Section New.
  Context (F : forest) (U : usual F) (c : lcls) (Hc : In c layer_classes) (t : node) (Ht : new_tag c = Ok t).
  Definition nl : inode := fst (label (fresh F) t).
  Let n : inode := nl.
  Let F' : forest := F ++ [n].
  Lemma nl_is : new_layer F c = (F', Ok (iuid n)) /\ forget n = t /\ itag n = true /\ wf F' /\ fget (iuid n) F' = Some n /\ (forall x, In x (uids n) -> ~ In x (fuids F)).
  Proof.
    destruct (new_layer_is F c t (us_wf F U) Ht) as (m & A & B & C & D & E & G). assert (m = n); [|now subst m]. unfold new_layer in A. rewrite Ht in A. injection A as A _. apply app_inv_head in A. injection A as A. symmetry. exact A.
  Qed.
  Lemma nl_class : layer_class n = Ok c.
  Proof.
    destruct nl_is as (_ & Hf & Hi & _). rewrite (class_forget n Hi), Hf. clear Hf. unfold new_tag in Ht. destruct (mapM default_param (all_fields c)); [|discriminate]. cbn [bind] in Ht.
    injection Ht as <-. cbn [tag_attrs]. change (aget (s "type") _) with (Some (AStr (lower (c_name c)))). exact (proj1 (Forall_forall _ _) classes_resolve c Hc).
  Qed.
  Lemma nl_layer : is_layer n = true.
  Proof.
    destruct nl_is as (_ & Hf & Hi & _). unfold is_layer, named. rewrite Hi. cbn [andb]. assert (E : tag_name (forget n) = iname n) by (destruct n; [discriminate|reflexivity]). rewrite <- E, Hf. clear Hf E.
    unfold new_tag in Ht. destruct (mapM default_param (all_fields c)); [|discriminate]. cbn [bind] in Ht. injection Ht as <-. reflexivity.
  Qed.
  Lemma nl_alone x : In x (idesc n) -> is_layer x = false.
  Proof.
    intros Hx. pose proof (proj1 (forallb_forall _ _) no_layers c Hc) as H. unfold no_layer_in in H. rewrite Ht in H. destruct nl_is as (_ & Hf & _). assert (Hd : In (forget x) (descendants t)) by (rewrite <- Hf, desc_forget; now apply in_map).
    pose proof (proj1 (forallb_forall _ _) H _ Hd) as E. apply negb_true_iff in E. destruct x as [|u nm a k]; [reflexivity|]. exact E.
  Qed.
  Lemma nl_get z : fget z F' = if existsb (N.eqb z) (uids n) then fget z [n] else fget z F.
  Proof.
    destruct nl_is as (_ & _ & _ & _ & _ & Fr). unfold F'. rewrite fget_app. destruct (existsb (N.eqb z) (uids n)) eqn:E.
    - apply existsb_exists in E as (y & Hy & Ey). apply N.eqb_eq in Ey. subst y. destruct (fget z F) as [m|] eqn:Em; [|reflexivity]. elim (Fr z Hy). pose proof (fget_In _ _ _ Em) as (Hd & <- & _). rewrite <- uids_desc. now apply in_map.
    - destruct (fget z F) as [m|]; [reflexivity|]. destruct (fget z [n]) as [m|] eqn:Em; [|reflexivity]. exfalso. pose proof (fget_In _ _ _ Em) as (Hd & Eu & _). assert (Hi : In z (fuids [n])) by (rewrite <- uids_desc, <- Eu; now apply in_map).
      unfold fuids in Hi. cbn [flat_map] in Hi. rewrite app_nil_r in Hi. assert (X : existsb (N.eqb z) (uids n) = true) by (apply existsb_exists; exists z; split; [exact Hi|apply N.eqb_refl]). congruence.
  Qed.
  Lemma nl_old z m : fget z F = Some m -> existsb (N.eqb z) (uids n) = false.
  Proof.
    intros Hm. destruct (existsb (N.eqb z) (uids n)) eqn:E; [|reflexivity]. exfalso. apply existsb_exists in E as (y & Hy & Ey). apply N.eqb_eq in Ey. subst y. destruct nl_is as (_ & _ & _ & _ & _ & Fr). apply (Fr z Hy). pose proof (fget_In _ _ _ Hm) as (Hd & <- & _). rewrite <- uids_desc. now apply in_map.
  Qed.
  Lemma nl_keep z m : fget z F = Some m -> fget z F' = Some m.
  Proof. intros H. rewrite nl_get, (nl_old z m H). exact H. Qed.
  Lemma nl_self : fget (iuid n) [n] = Some n /\ existsb (N.eqb (iuid n)) (uids n) = true.
  Proof.
    destruct nl_is as (_ & _ & Hi & _). destruct n as [|u nm a k]; [discriminate|]. split; [|cbn [iuid]; rewrite uids_IE; cbn [existsb]; now rewrite N.eqb_refl].
    rewrite fget_find, fdesc_IE. cbn [find is_ iuid]. now rewrite N.eqb_refl.
  Qed.
  (** The only layer that is new is this. *)
  Lemma nl_which z m : fget z F' = Some m -> is_layer m = true -> fget z F = Some m \/ z = iuid n /\ m = n.
  Proof.
    rewrite nl_get. destruct (existsb (N.eqb z) (uids n)) eqn:E; [|now left]. intros H Hl. right. pose proof (fget_In _ _ _ H) as (Hd & Eu & _). destruct nl_is as (_ & _ & Hi & _). rewrite idesc_self in Hd by exact Hi. destruct Hd as [<-|Hd]; [auto|]. rewrite (nl_alone m Hd) in Hl. discriminate.
  Qed.
  Lemma nl_kind : kind_of c = KGroup -> exists cv, own_canvas n cv /\ layers_in cv = [].
  Proof.
    intros Hk. assert (Ec : c = cls_Group). { assert (Hi : In c (filter (fun c => match kind_of c with KGroup => true | _ => false end) layer_classes)) by (apply filter_In; split; [exact Hc|now rewrite Hk]). rewrite only_group in Hi. destruct Hi as [<-|[]]. reflexivity. }
    pose proof (group_empty (fresh F)) as H. rewrite <- Ec, Ht in H. change (fst (label (fresh F) t)) with n in H. unfold empty_own in H. destruct (ofind (ikids n)) as [cv|] eqn:Eo; [|discriminate]. exists cv. destruct (ikids cv) eqn:Ek; [|discriminate].
    destruct (ofind_own _ _ Eo) as (k1 & p & k2 & j2 & A & B & C & D & E). split; [exists k1, p, k2, [], j2; repeat (split; [now auto|]); intros x []|]. unfold layers_in. now rewrite Ek.
  Qed.
  Lemma nl_usual : usual F'.
  Proof.
    destruct nl_is as (_ & _ & Hi & W' & Hg & Fr). destruct (us_root F U) as (r & Hr & Hrc). split; [exact W'| | | |].
    - exists r. split; [now apply nl_keep|exact Hrc].
    - intros z m Hz Hl. destruct (nl_which z m Hz Hl) as [Ho|[-> ->]]; [now apply (us_top F U z)|]. intros H1. apply (Fr 1 H1). pose proof (fget_In _ _ _ Hr) as (Hd & <- & _). rewrite <- uids_desc. now apply in_map.
    - intros z m Hz Hl. destruct (nl_which z m Hz Hl) as [Ho|[-> ->]]; [now apply (us_known F U z)|]. unfold known. rewrite nl_class. eauto.
    - intros z m k Hz Hl Hk Hd. destruct (nl_which z m Hz Hl) as [Ho|[-> ->]]; [now apply (us_own F U z m k)|]. rewrite nl_class in Hk. injection Hk as <-. destruct (nl_kind Hd) as (cv & H & _). eauto.
  Qed.
  Lemma nl_depicts w : depicts F w -> depicts F' (birth w n).
  Proof.
    intros [[Sh Ho] Te]. destruct w as [[h st] at_]. cbn [fst snd] in *. split; [split|]; unfold birth; cbn [fst snd].
    - intros x kd m Hm. pose proof Hm as [Hx Hk]. destruct Hk as [[-> ->]|(-> & Hl & k & Hk & Hd)].
      + destruct (us_root F U) as (r & Hr & _). assert (E : fget 1 F' = Some r) by now apply nl_keep. assert (m = r) by congruence. subst m. destruct (Sh 1 KAnim r) as (ch & A & B); [split; [exact Hr|now left]|]. exists ch. split; [exact A|]. now rewrite (nl_old 1 r Hr).
      + destruct (nl_which x m Hx Hl) as [Hf|[-> ->]].
        * destruct (Sh x KGroup m) as (ch & A & B); [split; [exact Hf|right; eauto 6]|]. exists ch. split; [exact A|]. now rewrite (nl_old x m Hf).
        * rewrite nl_class in Hk. injection Hk as <-. destruct (nl_kind Hd) as (cv & H1 & H2). exists (layers_in cv). split; [exact (canv_ch F' (iuid n) KGroup n cv nl_usual (conj Hm H1))|]. rewrite H2, (proj2 nl_self). reflexivity.
    - intros q v Hq. cbn beta in Hq. destruct (existsb (N.eqb q) (uids n)) eqn:E.
      + destruct (values_hold [n] q v Hq) as (w & (p & A & B) & Ew). exists w. split; [|exact Ew]. exists p. split; [|exact B]. now rewrite nl_get, E.
      + destruct (Ho q v Hq) as (w & (p & A & B) & Ew). exists w. split; [|exact Ew]. exists p. split; [now apply nl_keep|exact B].
    - intros u a. unfold aput. destruct (N.eqb_spec u (iuid n)) as [->|Hne].
      + intros [= <-]. exists n. split; [|split; [exact nl_layer|reflexivity]]. rewrite nl_get, (proj2 nl_self). apply nl_self.
      + intros H. destruct (Te u a H) as (m & A & B & C). exists m. split; [now apply nl_keep|auto].
  Qed.
End New.

(** ** Moves and values: the attributes stay *)

Lemma keeps_tells F F' h : wf F -> keeps F F' -> tells F h -> tells F' h.
Proof.
  intros W K T u a H. destruct (T u a H) as (n & Hn & Hl & Ha). destruct (K W) as (_ & _ & X). destruct (X u n Hn) as (n' & A & B & C). exists n'. split; [exact A|]. split; [|congruence].
  pose proof (fget_In _ _ _ A) as (_ & _ & Ht). unfold is_layer, named in *. rewrite Ht, B. pose proof (fget_In _ _ _ Hn) as (_ & _ & Ht'). now rewrite Ht' in Hl.
Qed.
Lemma moves_tells h F m : usual F -> fits F m -> tells F h -> tells (do_move F m) h.
Proof.
  intros U Hf. apply (move_part (fun F => tells F h)); auto.
  - intros F0 g kd n c i x U0 C. apply keeps_tells; [apply (us_wf F0 U0)|]. now apply (tx_keeps F0 g kd n).
  - intros F0 g kd n c l t i U0 C Hl Htl Ho. apply keeps_tells; [apply (us_wf F0 U0)|]. now apply (mg_keeps F0 g kd n c l t i U0 C Hl).
Qed.
Lemma replaced_tells F G h st q m at_ : usual F -> mirrors F (h, st) -> st q <> None -> btag m -> replaced F G q m -> tells F at_ -> tells G at_.
Proof.
  intros U [M1 M2] Hq [Gb Gt] (p & w & t & S & Tt & <- & Fr & HG & WG) T. cbn [fst snd] in *. destruct (st q) as [t0|] eqn:Eq; [|congruence].
  destruct (bare_flat _ Gb) as [Tn Tf]. assert (Fw : flat_value (forget w) = true).
  { destruct (M2 q t0 Eq) as (w' & V & _). destruct (holder_site _ _ _ V) as (p' & S' & _ & Fw & _). assert (p' = p) by (pose proof (st_p _ _ _ _ S); pose proof (st_p _ _ _ _ S'); congruence). subst p'.
    assert (w' = w) by (pose proof (st_k _ _ _ _ S); pose proof (st_k _ _ _ _ S'); congruence). now subst w'. }
  intros u a H. destruct (T u a H) as (n & Hn & Hl & Ha). exists (iput (iuid w) t n). split; [apply (p2_get F U q p w S Fw t Tt (iuid w) eq_refl G HG WG Fr u n Hn); unfold bulky; now rewrite Hl|].
  destruct (iput_look (iuid w) t n) as (A & _ & B & C). unfold is_layer, named in *. now rewrite A, B, C.
Qed.
Lemma value_tells F h st q t (f : node -> node * res unit) G at_ : usual F -> mirrors F (h, st) -> st q = Some t -> btag (fst (f t)) -> (replaced F G q (fst (f t)) \/ G = F /\ fst (f t) = t) -> tells F at_ -> tells G at_.
Proof. intros U M Hq B [R|[-> _]] T; [|exact T]. apply (replaced_tells F G h st q (fst (f t)) at_ U M); auto. congruence. Qed.

(** ** All steps *)

Definition right_step (F : forest) (w : world) (x : wact) (x' : lwact) : Prop :=
  snd (do_wact F x) = snd (list_wact w x') /\ usual (fst (do_wact F x)) /\ depicts (fst (do_wact F x)) (fst (list_wact w x')).
Lemma act_step F w x x' : usual F -> depicts F w -> act_means F (snd (fst w)) x x' -> right_step F w (WAct x) (LwAct x').
Proof.
  destruct w as [[h st] at_]. intros U [M T] H. cbn [fst snd] in *. unfold right_step. destruct (acts_right [x] [x'] F h st U M H) as (A & B & C). cbn [do_wact list_wact fst snd]. cbn [acts list_acts] in A, B, C.
  assert (T' : tells (fst (do_act F x)) at_).
  { unfold act_means in H. destruct x as [m|a|u k e], x' as [m'|q how v|q cx e']; cbn [acts_mean] in H; try contradiction.
    - destruct H as (-> & Hf & _). change (fst (do_act F (AMove m))) with (do_move F m). now apply moves_tells.
    - destruct H as (Hp & Hq & -> & -> & Hv & _). destruct (st q) as [t|] eqn:Eq; [|congruence]. destruct (assign_is F st a q t (us_wf F U) (proj2 M) Hp Eq Hv) as (_ & E2 & E3).
      exact (value_tells F h st q t (fun t => val_assign t (as_how a) (as_value_ a)) _ at_ U M Eq E2 E3 T).
    - destruct H as (Hp & Hq & -> & -> & Hv & _). destruct (st q) as [t|] eqn:Eq; [|congruence]. destruct (edit_is F st u k e q t (us_wf F U) (proj2 M) Hp Eq Hv) as (_ & E2 & E3).
      exact (value_tells F h st q t (fun t => val_edit t (ctx_of F q) e) _ at_ U M Eq E2 E3 T). }
  destruct (do_act F x) as [F1 r]. destruct (list_act (h, st) x') as [hs r']. cbn [fst snd] in *. injection A as ->. split; [reflexivity|]. split; [exact B|]. split; [exact C|exact T'].
Qed.
Lemma new_step F w c b t : usual F -> depicts F w -> In c layer_classes -> new_tag c = Ok t -> b = fresh F -> right_step F w (WNew c) (LwNew b t).
Proof.
  intros U D Hc Ht ->. unfold right_step. cbn [do_wact list_wact apply_edit fst snd]. unfold fst_unit. destruct (nl_is F U c t Ht) as (E & _). rewrite E. cbn [fst snd bind]. split; [reflexivity|]. split; [exact (nl_usual F U c Hc t Ht)|exact (nl_depicts F U c Hc t Ht w D)].
Qed.
(** Attributes *)
Lemma attr_step F w u n k v g : usual F -> depicts F w -> fget u F = Some n -> is_layer n = true -> snd w u <> None -> (forall a k', In k' [s "type"; s "name"] -> aget k' (g a) = aget k' a) ->
  do_wact F (WField u k v) = (fat u (with_iattrs g) F, Ok tt) -> (forall a, attr_assign a k v = (g a, Ok tt)) -> right_step F w (WField u k v) (LwAttr u k v).
Proof.
  intros U [[D1 D2] D3] Hu Hl Hw Hg E1 E2. destruct w as [[h st] at_]. unfold right_step. rewrite E1. cbn [list_wact fst snd] in *. destruct (at_ u) as [a|] eqn:Ea; [|congruence]. rewrite E2. cbn [fst snd]. split; [reflexivity|].
  change (fat u (with_iattrs g) F) with (G F u g). split; [exact (G_usual F U u n Hu (layer_bulky n Hl) g Hg)|]. split; [split|]; cbn [fst snd].
  - exact (G_shows F U u n Hu (layer_bulky n Hl) g Hg h D1).
  - exact (G_holds F U u n Hu (layer_bulky n Hl) g Hg st D2).
  - destruct (D3 u a Ea) as (n' & Hn' & _ & <-). assert (n' = n) by congruence. subst n'. apply (G_tells F U u n Hu (layer_bulky n Hl) g); auto. congruence.
Qed.
Lemma aput_same F h u a : tells F h -> h u = Some a -> tells F (aput h u a).
Proof. intros T H z b. unfold aput. destruct (N.eqb_spec z u) as [->|_]; [intros [= <-]; auto|auto]. Qed.
Lemma attr_not F w u k v e : usual F -> depicts F w -> snd w u <> None -> do_wact F (WField u k v) = (F, Err e) -> (forall a, attr_assign a k v = (a, Err e)) -> right_step F w (WField u k v) (LwAttr u k v).
Proof.
  intros U [M T] Hw E1 E2. destruct w as [hs at_]. unfold right_step. rewrite E1. cbn [list_wact fst snd] in *. destruct (at_ u) as [a|] eqn:Ea; [|congruence]. rewrite E2. cbn [fst snd]. split; [reflexivity|]. split; [exact U|]. split; [exact M|]. now apply aput_same.
Qed.
Lemma other_attr (g : attrs -> attrs) k : In k attr_names -> (forall a k', k' <> k -> aget k' (g a) = aget k' a) -> forall a k', In k' [s "type"; s "name"] -> aget k' (g a) = aget k' a.
Proof.
  intros Hk H a k' Hk'. apply H. intros ->. unfold attr_names in Hk. cbn [In] in Hk, Hk'.
  destruct Hk' as [<-|[<-|[]]]; destruct Hk as [E|[E|[E|[E|[]]]]]; apply (f_equal (fun x => pstr_eqb x (s "type") || pstr_eqb x (s "name"))) in E; vm_compute in E; discriminate.
Qed.
Lemma aget_adel_other k (a : attrs) k' : k' <> k -> aget k' (adel k a) = aget k' a.
Proof.
  intros H. assert (Hb : pstr_eqb k' k = false) by (destruct (pstr_eqb k' k) eqn:Z; [apply pstr_eqb_spec in Z; contradiction|reflexivity]). induction a as [|[j v] a IH]; [reflexivity|]. cbn [adel aget].
  destruct (pstr_eqb k j) eqn:E; cbn [aget]; [apply pstr_eqb_spec in E; subst j; now rewrite Hb|now rewrite IH].
Qed.
Lemma attrs_step F w u n c k v : usual F -> depicts F w -> fget u F = Some n -> is_layer n = true -> layer_class n = Ok c -> aget k (all_fields c) = None -> In k attr_names -> snd w u <> None -> right_step F w (WField u k v) (LwAttr u k v).
Proof.
  intros U D Hu Hl Hc Hk Hin Hw. assert (E : do_wact F (WField u k v) = field_set F u n c k v) by (cbn [do_wact]; rewrite Hu, Hc; cbn [apply_edit]; unfold on_tag; now rewrite Hu). unfold field_set in E. rewrite Hk in E.
  assert (Set_ : forall x, (forall a, attr_assign a k v = (aset k x a, Ok tt)) -> do_wact F (WField u k v) = (fat u (with_iattrs (aset k x)) F, Ok tt) -> right_step F w (WField u k v) (LwAttr u k v)).
  { intros x E2 E1. apply (attr_step F w u n k v (aset k x)); auto. apply (other_attr (aset k x) k Hin). intros a k'. apply AnimProofs2.aget_aset_other. }
  assert (H0 : pstr_eqb k (s "type_") = false) by (destruct Hin as [<-|[<-|[<-|[<-|[]]]]]; reflexivity). rewrite H0 in E. unfold attr_set, bool_aval in E.
  destruct Hin as [Ek|[Ek|[Ek|[Ek|[]]]]].
  - assert (E3 : pstr_eqb k (s "version") = true) by (rewrite <- Ek; reflexivity). rewrite E3 in E. unfold attr_assign in *. rewrite E3 in *. destruct (py_float v) as [q|e] eqn:Eq; cbn [bind] in E; [apply (Set_ (AFlo q)); auto|apply (attr_not F w u k v e); auto; intros a; unfold attr_assign; now rewrite E3, Eq].
  - assert (E3 : pstr_eqb k (s "version") = false /\ pstr_eqb k (s "desc") = false /\ pstr_eqb k (s "active") || pstr_eqb k (s "exclude_from_rendering") = true) by (rewrite <- Ek; repeat split). destruct E3 as (E3 & E4 & E5). rewrite E3, E5 in E. unfold attr_assign in *. rewrite E3, E4 in *.
    destruct (py_bool v) as [q|e] eqn:Eq; cbn [bind] in E; [apply (Set_ (AStr (if q then s "true" else s "false"))); auto|apply (attr_not F w u k v e); auto; intros a; unfold attr_assign; now rewrite E3, E4, Eq].
  - assert (E3 : pstr_eqb k (s "version") = false /\ pstr_eqb k (s "desc") = false /\ pstr_eqb k (s "active") || pstr_eqb k (s "exclude_from_rendering") = true) by (rewrite <- Ek; repeat split). destruct E3 as (E3 & E4 & E5). rewrite E3, E5 in E. unfold attr_assign in *. rewrite E3, E4 in *.
    destruct (py_bool v) as [q|e] eqn:Eq; cbn [bind] in E; [apply (Set_ (AStr (if q then s "true" else s "false"))); auto|apply (attr_not F w u k v e); auto; intros a; unfold attr_assign; now rewrite E3, E4, Eq].
  - assert (E3 : pstr_eqb k (s "version") = false /\ pstr_eqb k (s "desc") = true /\ pstr_eqb k (s "active") || pstr_eqb k (s "exclude_from_rendering") = false) by (rewrite <- Ek; repeat split). destruct E3 as (E3 & E4 & E5). rewrite E3, E4, E5 in E. unfold attr_assign in *. rewrite E3, E4 in *.
    assert (Hin : In k attr_names) by (unfold attr_names; rewrite <- Ek; cbn [In]; auto).
    destruct (is_none v) eqn:Ev.
    + destruct v; try discriminate. apply (attr_step F w u n k PNone (adel k)); auto.
      * apply (other_attr (adel k) k Hin). intros a k' Hne. now apply aget_adel_other.
      * intros a. unfold attr_assign. now rewrite E3, E4.
    + assert (Hv : forall a, attr_assign a k v = match py_str v with Ok x => (aset k (AStr x) a, Ok tt) | Err e => (a, Err e) end) by (intros a; unfold attr_assign; rewrite E3, E4; destruct v; try reflexivity; discriminate).
      destruct (py_str v) as [x|e] eqn:Eq; cbn [bind] in E; [|apply (attr_not F w u k v e); auto].
      apply (attr_step F w u n k v (aset k (AStr x))); auto. apply (other_attr (aset k (AStr x)) k Hin). intros a k'. apply AnimProofs2.aget_aset_other.
Qed.
Lemma field_step F w u k v x' : usual F -> depicts F w -> field_means F w u k v x' -> right_step F w (WField u k v) x'.
Proof.
  intros U D (n & c & Hu & Hl & Hc & H). assert (E : do_wact F (WField u k v) = field_set F u n c k v) by (cbn [do_wact]; rewrite Hu, Hc; cbn [apply_edit]; unfold on_tag; now rewrite Hu).
  assert (Nil : forall r, field_set F u n c k v = (F, r) -> right_step F w (WField u k v) (LwNot r)) by (intros r Er; unfold right_step; rewrite E, Er; cbn [list_wact fst snd]; auto).
  unfold field_set in *. destruct (aget k (all_fields c)) as [[ty d| |up]|] eqn:Ek.
  - destruct H as (q & Hp & Hq & Hv & ->). assert (M : act_means F (snd (fst w)) (AAssign (assign ByField u k v)) (LAs q ByField v)) by (unfold act_means; cbn [acts_mean as_layer_ as_name as_how as_value_]; auto 8).
    assert (X : do_wact F (WAct (AAssign (assign ByField u k v))) = do_wact F (WField u k v)) by (rewrite E; cbn [do_wact do_act]; unfold do_assign; cbn [as_layer_ as_name as_how as_value_]; now rewrite Hu). pose proof (act_step F w _ _ U D M) as R. unfold right_step in *. now rewrite X in R.
  - subst x'. now apply Nil.
  - destruct H as (q & Hp & Hq & Hv & ->). assert (M : act_means F (snd (fst w)) (AAssign (assign ByField u up (PDict [(k, v)]))) (LAs q ByField (PDict [(k, v)]))) by (unfold act_means; cbn [acts_mean as_layer_ as_name as_how as_value_]; auto 8).
    assert (X : do_wact F (WAct (AAssign (assign ByField u up (PDict [(k, v)])))) = do_wact F (WField u k v)) by (rewrite E; cbn [do_wact do_act]; unfold do_assign; cbn [as_layer_ as_name as_how as_value_]; now rewrite Hu). pose proof (act_step F w _ _ U D M) as R. unfold right_step in *. now rewrite X in R.
  - destruct H as [(Hin & Hw & ->)|[Ek' ->]]; [now apply (attrs_step F w u n c)|]. apply Nil. rewrite Ek'. reflexivity.
Qed.
Lemma wact_step F w x x' : usual F -> depicts F w -> wact_means F w x x' -> right_step F w x x'.
Proof.
  intros U D H. destruct x as [x|c|u k v]; cbn [wact_means] in H; [| |now apply field_step].
  - destruct x' as [x'| | |]; try contradiction. now apply act_step.
  - destruct x' as [|b t| |r]; try contradiction; [destruct H as (A & B & C); now apply (new_step F w c)|]. destruct H as (e & He & ->). unfold right_step. cbn [do_wact list_wact apply_edit]. unfold fst_unit, new_layer. rewrite He. cbn [fst snd bind]. auto.
Qed.
Theorem wacts_right l : forall l' F w, usual F -> depicts F w -> wacts_mean F w l l' ->
  snd (wacts F l) = snd (list_wacts w l') /\ usual (fst (wacts F l)) /\ depicts (fst (wacts F l)) (fst (list_wacts w l')).
Proof.
  induction l as [|x l IH]; intros [|x' l'] F w U D H; cbn [wacts_mean] in H; try contradiction; [auto|]. destruct H as [H1 H2]. destruct (wact_step F w x x' U D H1) as (A & B & C).
  cbn [wacts list_wacts]. destruct (do_wact F x) as [F1 r]. destruct (list_wact w x') as [w1 r']. cbn [fst snd] in *. subst r'. destruct (IH l' F1 w1 B C H2) as (A2 & B2 & C2). destruct (wacts F1 l) as [F2 rs]. destruct (list_wacts w1 l') as [w2 rs']. cbn [fst snd] in *. split; [congruence|auto].
Qed.
Lemma attributes_tell F : tells F (attributes F).
Proof. intros u a. unfold attributes. destruct (fget u F) as [n|] eqn:E; [|discriminate]. destruct (is_layer n) eqn:El; [|discriminate]. intros [= <-]. eauto. Qed.

(** ** The attributes of one layer *)

Fixpoint attr_history (u : N) (l : list lwact) (a : attrs) : attrs :=
  match l with
  | [] => a
  | LwAttr v k x :: l' => attr_history u l' (if N.eqb v u then fst (attr_assign a k x) else a)
  | _ :: l' => attr_history u l' a
  end.
Lemma attr_history_is u l : forall l' F w a, usual F -> depicts F w -> wacts_mean F w l l' -> snd w u = Some a -> snd (fst (list_wacts w l')) u = Some (attr_history u l' a).
Proof.
  induction l as [|x l IH]; intros [|x' l'] F w a U D H Ha; cbn [wacts_mean] in H; try contradiction; [exact Ha|]. destruct H as [H1 H2]. destruct (wact_step F w x x' U D H1) as (_ & B & C).
  cbn [list_wacts]. specialize (IH l' _ _ (attr_history u [x'] a) B C H2).
  assert (E : snd (fst (list_wact w x')) u = Some (attr_history u [x'] a)).
  { destruct x' as [x'|b t|v k y|r]; cbn [list_wact attr_history].
    - destruct (list_act (fst w) x') as [hs r]. exact Ha.
    - unfold birth. cbn [fst snd]. unfold aput. destruct x as [|c|v k y]; cbn [wact_means] in H1; try contradiction.
      + destruct H1 as (Hc & Ht & ->). destruct (N.eqb_spec u (iuid (fst (label (fresh F) t)))) as [E|_]; [|exact Ha]. exfalso. destruct D as [_ T]. destruct (T u a Ha) as (n & Hn & _). pose proof (nl_old F U c t Ht u n Hn) as X. pose proof (nl_self F U c t Ht) as [_ Y]. unfold nl in *. rewrite <- E in Y. congruence.
      + destruct H1 as (n & c & _ & _ & _ & H1). destruct (aget k (all_fields c)) as [[]|]; [destruct H1 as (q & _ & _ & _ & Z); discriminate|discriminate|destruct H1 as (q & _ & _ & _ & Z); discriminate|destruct H1 as [(_ & _ & Z)|[_ Z]]; discriminate].
    - destruct (snd w v) as [b|] eqn:Ev; [|destruct (N.eqb_spec v u) as [->|]; [congruence|exact Ha]]. destruct (attr_assign b k y) as [b' r] eqn:Eb. cbn [fst snd]. unfold aput. rewrite N.eqb_sym. destruct (N.eqb_spec v u) as [->|]; [|exact Ha]. assert (b = a) by congruence. subst b. now rewrite Eb.
    - exact Ha. }
  destruct (list_wact w x') as [w1 r]. cbn [fst snd] in *. specialize (IH E). destruct (list_wacts w1 l') as [w2 rs]. cbn [fst snd] in *. rewrite IH. destruct x'; reflexivity.
Qed.
Lemma wacts_app l1 : forall l1' F w l2 l2', length l1 = length l1' -> wacts_mean F w (l1 ++ l2) (l1' ++ l2') -> wacts_mean F w l1 l1' /\ wacts_mean (fst (wacts F l1)) (fst (list_wacts w l1')) l2 l2'.
Proof.
  induction l1 as [|x l1 IH]; intros [|x' l1'] F w l2 l2' E H; try discriminate; [split; [exact I|exact H]|]. cbn [app wacts_mean] in *. destruct H as [H1 H2]. injection E as E. destruct (IH l1' _ _ l2 l2' E H2) as [A B]. split; [auto|].
  cbn [wacts list_wacts]. destruct (do_wact F x) as [F1 r]. destruct (list_wact w x') as [w1 r']. cbn [fst snd] in *. destruct (wacts F1 l1). destruct (list_wacts w1 l1'). exact B.
Qed.
Lemma wacts_fst l1 : forall F l2, fst (wacts F (l1 ++ l2)) = fst (wacts (fst (wacts F l1)) l2).
Proof. induction l1 as [|x l1 IH]; intros F l2; [reflexivity|]. cbn [app wacts]. destruct (do_wact F x) as [F1 r]. specialize (IH F1 l2). destruct (wacts F1 (l1 ++ l2)). destruct (wacts F1 l1) as [F2 rs]. exact IH. Qed.
Definition names_it (u : N) (k : pstr) (x : lwact) : bool := match x with LwAttr v k' _ => N.eqb v u && pstr_eqb k' k | _ => false end.
Lemma attr_assign_other a k v k' : k' <> k -> aget k' (fst (attr_assign a k v)) = aget k' a.
Proof.
  intros H. unfold attr_assign. destruct (pstr_eqb k (s "version")); [destruct (py_float v); [now apply AnimProofs2.aget_aset_other|reflexivity]|].
  destruct (pstr_eqb k (s "desc")); [|destruct (py_bool v); [now apply AnimProofs2.aget_aset_other|reflexivity]].
  destruct v; try (destruct (py_str _); [now apply AnimProofs2.aget_aset_other|reflexivity]). now apply aget_adel_other.
Qed.
Lemma history_other u k l : forall a, existsb (names_it u k) l = false -> aget k (attr_history u l a) = aget k a.
Proof.
  induction l as [|[x|b t|v k' y|r] l IH]; intros a H; cbn [existsb names_it orb attr_history] in *; auto. apply orb_false_iff in H as [H1 H2]. rewrite IH by exact H2. destruct (N.eqb_spec v u) as [->|]; [|reflexivity].
  cbn [andb] in H1. apply attr_assign_other. intros ->. assert (X : pstr_eqb k' k' = true) by now apply pstr_eqb_spec. congruence.
Qed.
