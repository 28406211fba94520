(** Property C164: the value of a canvas *)
From Coq Require Import Permutation Lia.
From Verif Require Import LayModel DocProofs DocProofs2 LaySpec LayProofs LayProofs2 LayProofs3 LayProps AnimProofs3 CanvModel.
Local Open Scope N_scope.

Definition clr := with_ikids (fun _ => []).
Lemma fuids_tags (k : forest) : fuids (filter itag k) = fuids k.
Proof. induction k as [|y F IH|u nm a k F _ IH] using forest_ind; [reflexivity|exact IH|]. cbn [filter itag]. rewrite !fuids_IE. now rewrite IH. Qed.
Lemma fdesc_tags (k : forest) : fdesc (filter itag k) = fdesc k.
Proof. induction k as [|y F IH|u nm a k F _ IH] using forest_ind; [reflexivity|exact IH|]. cbn [filter itag]. rewrite !fdesc_IE. now rewrite IH. Qed.
Lemma clear_perm c F x : NoDup (fuids F) -> fget c F = Some x -> Permutation (fuids F) (fuids (fat c clr F) ++ fuids (ikids x)).
Proof.
  induction F as [|y F IH|u nm a k F IHk IH] using forest_ind; intros Nd H; [discriminate|exact (IH Nd H)|].
  pose proof (NoDup_kids _ _ _ _ _ Nd) as (H1 & H2 & H3 & H4 & H5). rewrite fget_IE in H. rewrite fat_IE, (fuids_IE u nm a k F).
  destruct (N.eqb_spec c u) as [->|Hne].
  - injection H as <-. rewrite (fat_notin u clr F) by assumption. unfold clr at 1. cbn [with_ikids ikids]. rewrite fuids_IE. cbn [fuids app]. apply perm_skip. apply Permutation_app_comm.
  - rewrite fuids_IE. cbn [app]. apply perm_skip. destruct (fget c k) as [t|] eqn:E.
    + injection H as ->. rewrite (fat_notin c clr F) by (intros X; apply (H5 c); auto; now apply fget_uids in E). rewrite (IHk H3 eq_refl) at 1. rewrite <- !app_assoc. apply Permutation_app_head, Permutation_app_comm.
    + apply fget_None in E. rewrite (fat_notin c clr k) by exact E. rewrite (IH H4 H) at 1. now rewrite app_assoc.
Qed.
Lemma iat_out c f F u t : ~ In c (fuids F) -> fget u F = Some t -> iat c f t = t.
Proof. intros N H. apply iat_notin. intros X. apply N. apply fget_In in H as (D & _ & T). destruct t as [|v nm a k]; [discriminate|]. rewrite uids_IE in X. rewrite <- uids_desc. destruct X as [<-|X]; [exact (in_map iuid _ _ D)|].
  rewrite <- uids_desc in X. apply in_map_iff in X as (y & <- & Y). apply in_map. eapply desc_trans; [exact D|now rewrite idesc_IE]. Qed.
Lemma clear_get c F x u : NoDup (fuids F) -> fget c F = Some x -> ~ In u (fuids (ikids x)) -> fget u (fat c clr F) = option_map (iat c clr) (fget u F).
Proof.
  assert (O : forall G, ~ In c (fuids G) -> fget u G = option_map (iat c clr) (fget u G)).
  { intros G N. destruct (fget u G) as [t|] eqn:E; [|reflexivity]. cbn [option_map]. now rewrite (iat_out c clr G u t N E). }
  induction F as [|y F IH|v nm a k F IHk IH] using forest_ind; intros Nd H Hu; [discriminate|exact (IH Nd H Hu)|].
  pose proof (NoDup_kids _ _ _ _ _ Nd) as (H1 & H2 & H3 & H4 & H5). rewrite fget_IE in H. rewrite fat_IE, (fget_IE u v nm a k F).
  destruct (N.eqb_spec c v) as [->|Hne].
  - injection H as <-. cbn [ikids] in Hu. rewrite (fat_notin v clr F) by assumption. unfold clr at 1. cbn [with_ikids]. rewrite fget_IE.
    destruct (N.eqb_spec u v) as [->|Hn]; [cbn [option_map]; f_equal; unfold clr; cbn [iat]; now rewrite N.eqb_refl|].
    apply fget_None in Hu. rewrite Hu. cbn [fget first_some]. apply O. exact H2.
  - rewrite fget_IE. destruct (N.eqb_spec u v) as [->|Hn].
    + cbn [option_map iat]. destruct (N.eqb_spec c v) as [|_]; [congruence|]. reflexivity.
    + destruct (fget c k) as [t|] eqn:E.
      * injection H as ->. rewrite (IHk H3 eq_refl Hu). assert (Nf : ~ In c (fuids F)) by (intros X; apply (H5 c); auto; now apply fget_uids in E).
        rewrite (fat_notin c clr F) by exact Nf. destruct (fget u k); [reflexivity|]. cbn [option_map]. now apply O.
      * apply fget_None in E. rewrite (fat_notin c clr k) by exact E. rewrite (IH H4 H Hu). pose proof (O k E) as X. destruct (fget u k); [exact X|reflexivity].
Qed.
Lemma fget_app u F G : fget u (F ++ G) = match fget u F with Some t => Some t | None => fget u G end.
Proof. induction F as [|y F IH]; [reflexivity|]. cbn [app]. unfold fget in *. cbn [first_some]. destruct (iget u y); [reflexivity|exact IH]. Qed.

(** ** C164 the value of a canvas *)

(** The value of the canvas of a group is the list of the group's children, from the bottom to the top (the other way round than [children]),
    if there are only layers in it; otherwise a ValueError. *)
Theorem C164_read : forall n c ch, canvas_of KGroup n = Ok c -> children KGroup n = Ok ch ->
  canvas_layers c = if existsb (fun x => negb (is_layer x)) (filter itag (ikids c)) then Err ValueError else Ok (rev ch).
Proof.
  intros n c ch Hc Hch. destruct (children_canvas KGroup n ch Hch ltac:(discriminate)) as (c' & Hc' & -> & K). rewrite Hc in Hc'. injection Hc' as <-.
  unfold canvas_layers, layers_in in *. rewrite rev_involutive.
  assert (E : existsb (fun n0 => negb (pstr_eqb (iname n0) (s "layer"))) (filter itag (ikids c)) = existsb (fun x => negb (is_layer x)) (filter itag (ikids c))).
  { generalize (ikids c) as k. induction k as [|y k IH]; [reflexivity|]. cbn [filter]. destruct (itag y) eqn:T; [|exact IH]. cbn [existsb]. rewrite IH. unfold is_layer, named. now rewrite T. }
  rewrite E. clear E. destruct (existsb (fun x => negb (is_layer x)) (filter itag (ikids c))) eqn:X; [reflexivity|].
  assert (E2 : filter itag (ikids c) = filter is_layer (ikids c)).
  { revert X. generalize (ikids c) as k. induction k as [|y k IH]; [reflexivity|]. cbn [filter]. destruct (itag y) eqn:T.
    - cbn [existsb]. intros X. apply Bool.orb_false_iff in X as [X1 X2]. apply Bool.negb_false_iff in X1. rewrite X1. f_equal. now apply IH.
    - intros X. assert (is_layer y = false) as -> by (unfold is_layer, named; now rewrite T). now apply IH. }
  rewrite E2. apply mapM_as_layer. intros x Hx. apply K. apply -> in_rev. exact Hx.
Qed.
Print Assumptions C164_read.

(** What any assignment does: the canvas is empty, its former children are loose trees in no document, and every tag outside keeps its place. *)
Definition is_emptied (F : forest) (c : inode) (F' : forest) : Prop :=
  wf F' /\ Permutation (fuids F') (fuids F) /\
  (exists c', fget (iuid c) F' = Some c' /\ ikids c' = [] /\ iname c' = iname c /\ iattrs c' = iattrs c) /\
  (forall x, In x (ikids c) -> itag x = true -> fget (iuid x) F' = Some x /\ In x F') /\
  (forall u, In u (fuids (ikids c)) -> fget u F' = fget u F) /\
  (forall u, In u (fuids F) -> ~ In u (uids c) -> fget u F' = option_map (iat (iuid c) (with_ikids (fun _ => []))) (fget u F)).
Lemma emptied_is F c : wf F -> fget (iuid c) F = Some c -> is_emptied F c (emptied (iuid c) F).
Proof.
  intros W H. unfold emptied. rewrite H. fold clr. set (k := filter itag (ikids c)).
  pose proof (clear_perm (iuid c) F c W H) as P.
  assert (P' : Permutation (fuids (fat (iuid c) clr F ++ k)) (fuids F)). { rewrite fuids_app. unfold k. rewrite fuids_tags. now symmetry. }
  assert (W' : wf (fat (iuid c) clr F ++ k)) by (unfold wf; apply (Permutation_NoDup (Permutation_sym P') W)).
  assert (Nc : ~ In (iuid c) (fuids (ikids c))).
  { apply fget_In in H as (D & _ & T). pose proof (NoDup_inside F c W D) as N. destruct c as [|u nm a j]; [discriminate|]. rewrite uids_IE in N. now inversion N. }
  split; [exact W'|]. split; [exact P'|]. split.
  - exists (clr c). rewrite fget_app, (clear_get (iuid c) F c (iuid c) W H Nc), H. cbn [option_map]. rewrite iat_self by (apply is_spec; split; [now apply fget_tag in H|reflexivity]).
    split; [reflexivity|]. now destruct c.
  - split.
    + intros x Hx Tx. assert (I : In x (fat (iuid c) clr F ++ k)) by (apply in_or_app; right; now apply filter_In). split; [|exact I].
      apply fget_desc; [exact W'|]. apply in_split in I as (k1 & k2 & ->). rewrite fdesc_app. apply in_or_app. right. destruct x; [discriminate|]. rewrite fdesc_IE. now left.
    + split.
      { intros u Hu. rewrite <- uids_desc in Hu. apply in_map_iff in Hu as (y & <- & Hy). pose proof (fget_In _ _ _ H) as (Dc & _ & Tc).
        rewrite (fget_desc F y W) by (apply (desc_trans F c); [exact Dc|now rewrite idesc_kids]). apply fget_desc; [exact W'|]. rewrite fdesc_app. apply in_or_app. right. unfold k. now rewrite fdesc_tags. }
      intros u Iu Hu. assert (Nu : ~ In u (fuids (ikids c))) by (intros X; apply Hu; apply fget_tag in H; destruct c; [discriminate|]; rewrite uids_IE; now right).
      rewrite fget_app, (clear_get (iuid c) F c u W H Nu). fold clr. destruct (fget u F) as [t|] eqn:E; [reflexivity|]. apply fget_None in E. contradiction.
Qed.
Theorem C164_assigned : forall F c v, wf F -> fget (iuid c) F = Some c -> is_emptied F c (fst (canvas_assign F (iuid c) v)).
Proof. intros F c v W H. pose proof (emptied_is F c W H) as E. unfold canvas_assign. destruct v as [|[l|y] v]; exact E. Qed.
Print Assumptions C164_assigned.

(** The empty list is the only one that can be assigned. Others raise AttributeError if they begin with a layer (TypeError if with something else). *)
Theorem C164_never_refuted : forall F c v, wf F -> fget (iuid c) F = Some c -> snd (canvas_assign F (iuid c) v) = Ok tt <-> v = [].
Proof.
  intros F c v W H. unfold canvas_assign. destruct v as [|[l|y] v]; cbn [snd]; split; intros E; try discriminate; try reflexivity. exfalso. revert E. unfold append_object.
  destruct (parent_of _ l) as [[p|]|e]; [discriminate|discriminate|destruct e; discriminate].
Qed.
Print Assumptions C164_never_refuted.
Theorem C164_layers_raise : forall F c l v x, wf F -> fget (iuid c) F = Some c -> fget l F = Some x -> (forall y, In y (fdesc F) -> is_layer y = true -> known y) ->
  snd (canvas_assign F (iuid c) (CLayer l :: v)) = Err AttributeError.
Proof.
  intros F c l v x W H Hl K. unfold canvas_assign. cbn [snd]. pose proof (emptied_is F c W H) as (W' & P & HC & _ & HK2 & HO). unfold append_object.
  destruct (parent_of (emptied (iuid c) F) l) as [[p|]|e] eqn:E; [reflexivity|reflexivity|]. exfalso. unfold parent_of in E.
  assert (Il : In l (fuids (emptied (iuid c) F))) by (apply (Permutation_in _ (Permutation_sym P)); now apply fget_uids in Hl).
  destruct (fanc_ex l _ Il) as (anc & Ea). rewrite Ea in E. destruct (find is_layer anc) as [p|] eqn:Ef; [|discriminate]. apply find_some in Ef as [Ip Lp].
  apply (anc_iff l _ anc p W' Ea) in Ip as [Ip _]. unfold as_layer in E. enough (known p) as (k & Ek) by (rewrite Ek in E; discriminate).
  pose proof (fget_desc _ p W' Ip) as Gp. assert (Iu : In (iuid p) (fuids F)) by (apply (Permutation_in _ P); now apply fget_uids in Gp).
  destruct (fget (iuid p) F) as [q|] eqn:Eq; [|apply fget_None in Eq; contradiction]. pose proof (fget_In _ _ _ Eq) as (Dq & Uq & Tq).
  assert (S : iname p = iname q /\ iattrs p = iattrs q).
  { destruct (in_dec N.eq_dec (iuid p) (uids c)) as [X|X].
    - pose proof (fget_tag _ _ _ H) as Tc. assert (X' : iuid p = iuid c \/ In (iuid p) (fuids (ikids c))) by (destruct c; [discriminate|]; rewrite uids_IE in X; destruct X as [X|X]; [now left|now right]).
      destruct X' as [X'|X'].
      + destruct HC as (c' & G & _ & N1 & N2). rewrite X' in Gp, Eq. rewrite G in Gp. injection Gp as <-. rewrite H in Eq. injection Eq as <-. now split.
      + rewrite (HK2 _ X'), Eq in Gp. injection Gp as ->. now split.
    - rewrite (HO (iuid p) Iu X), Eq in Gp. cbn [option_map] in Gp. injection Gp as <-. destruct q as [|w nm a kk]; [discriminate|]. cbn [iat]. destruct (_ =? _); now split. }
  destruct S as [S1 S2]. destruct (K q Dq) as (k & Ek); [unfold is_layer, named in *; rewrite Tq, <- S1; now apply andb_prop in Lp|]. exists k. now rewrite (layer_class_attrs p q S2).
Qed.
Print Assumptions C164_layers_raise.

(** So assigning the value of a canvas to that canvas empties it: the layers are gone from the document. *)
Theorem C164_itself_refuted : forall F g n c ch, wf F -> fget g F = Some n -> canvas_of KGroup n = Ok c -> children KGroup n = Ok ch -> (forall y, In y (fdesc F) -> is_layer y = true -> known y) ->
  canvas_layers c = Ok (rev ch) -> ch <> [] ->
  let (F', r) := canvas_assign F (iuid c) (map (fun x => CLayer (iuid x)) (rev ch)) in
  r = Err AttributeError /\ (exists c', fget (iuid c) F' = Some c' /\ layers_in c' = []) /\ forall x, In x ch -> fget (iuid x) F' = Some x /\ fparent (iuid x) F' = None.
Proof.
  intros F g n c ch W Hg Hc Hch K _ Hne. destruct (canvas_known KGroup n c F g W Hg Hc) as (Hcf & Hct & Hcd).
  destruct (children_canvas KGroup n ch Hch ltac:(discriminate)) as (c' & Hc' & Ech & _). rewrite Hc in Hc'. injection Hc' as <-.
  destruct (rev ch) as [|x l] eqn:Er; [exfalso; apply Hne; now apply (f_equal (@rev inode)) in Er; rewrite rev_involutive in Er|]. cbn [map].
  assert (I : forall y, In y ch -> In y (ikids c) /\ itag y = true). { intros y Hy. rewrite Ech in Hy. unfold layers_in in Hy. apply in_rev in Hy. apply filter_In in Hy as [H1 H2]. split; [exact H1|now apply is_layer_tag]. }
  assert (Hx : In x ch) by (apply in_rev; rewrite Er; now left). destruct (I x Hx) as [Ix Tx].
  assert (Gx : fget (iuid x) F = Some x) by (apply fget_desc; [exact W|now apply (kid_desc F c)]).
  pose proof (C164_layers_raise F c (iuid x) (map (fun y => CLayer (iuid y)) l) x W Hcf Gx K) as R.
  pose proof (C164_assigned F c (CLayer (iuid x) :: map (fun y => CLayer (iuid y)) l) W Hcf) as (W' & P & (c1 & G & E1 & _) & HK & _).
  destruct (canvas_assign F (iuid c) _) as [F' r]. cbn [fst snd] in *. split; [exact R|]. split; [exists c1; split; [exact G|]; unfold layers_in; now rewrite E1|].
  intros y Hy. destruct (I y Hy) as [Iy Ty]. destruct (HK y Iy Ty) as [G1 I1]. split; [exact G1|]. unfold fparent. destruct (top_anc F' y W' I1 Ty) as [-> _]. reflexivity.
Qed.
Print Assumptions C164_itself_refuted.

Definition xcanv : inode := match canvas_of KGroup xinner with Ok c => c | Err _ => IT [] end.
Example C164_nonvacuous : wf xforest /\ fget 30 xforest = Some xinner /\ canvas_of KGroup xinner = Ok xcanv /\ (exists ch, children KGroup xinner = Ok ch /\ ids ch = [50; 40] /\ canvas_layers xcanv = Ok (rev ch)) /\
  (forall y, In y (fdesc xforest) -> is_layer y = true -> known y) /\ snd (canvas_assign xforest (iuid xcanv) [CLayer 40; CLayer 50]) = Err AttributeError /\
  snd (canvas_assign xforest (iuid xcanv) []) = Ok tt /\ canvas_layers xdoc = Ok [xcircle 1 (s "1.0"); xgroup10; xcircle 70 (s "3.0")].
Proof.
  split; [exact xforest_wf|]. split; [vm_compute; reflexivity|]. split; [vm_compute; reflexivity|]. split; [eexists; split; [vm_compute; reflexivity|]; split; vm_compute; reflexivity|].
  split; [|split; [vm_compute; reflexivity|]; split; vm_compute; reflexivity].
  assert (A : all_known (fdesc xforest)) by (apply all_known_check; vm_compute; reflexivity). unfold all_known in A. rewrite Forall_forall in A. exact A.
Qed.
