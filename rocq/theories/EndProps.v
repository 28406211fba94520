(** C156: what a program has made of an animation is what is read after saving and loading. *)
From Coq Require Import Lia.
From Verif Require AnimProofs2 TlSpec.
From Verif Require Import XpSpec SerModel SerProofs SavSpec SavProofs SavSpec2 SavProofs2 SavProofs3 SavProofs4 SavProps2 WrProofs2 WrProofs3 WrProofs4 WrProofs5 EndSpec.
From Verif Require Import XpSpec AnimModel AnimSpec AnimProofs3 AnimProofs5 AnimProps LayModel DocProofs DocProofs2 LaySpec LayProofs LayProofs2 LayProofs3 LayProofs4 LayProofs5 LayProofs6 LayProofs7 VarSpec VarProofs LoopModel MovSpec MovProofs MovProofs2 MovProps MixSpec MixProofs WrSpec ClsProofs PrmSpec PrmProofs PrmProofs2 PrmProofs3 PrmProps WldSpec WldProofs WldProofs2 WldProps EndProofs EndProofs2.
Local Open Scope N_scope.

(** A program is run on an animation that is new or was loaded: it makes layers, puts them into groups, and sets parameters, timelines and attributes.
    Then the animation is saved, and the file is loaded. From the top, all layers in it are as the lists, variables and dictionaries say: the children of
    the animation are those in its list, and so on in each group. What the animation itself says (its size, speed and so on) is what it said before. *)
Theorem C156_saved : forall void can a fs w l l' name x kd, starts a -> usual (doc_forest (am_root a)) -> depicts (doc_forest (am_root a)) w ->
  wacts_mean (doc_forest (am_root a)) w l l' -> Forall sound_wact l -> (forall n, target_of (mkAnim n (am_kind a) (am_file a)) name x kd) -> can x = true ->
  let F := fst (wacts (doc_forest (am_root a)) l) in let w' := fst (list_wacts w l') in
  exists r fs' a2 r2 ch, fget 1 F = Some r /\ save void can fs (mkAnim (forget r) (am_kind a) (am_file a)) name = (fs', mkAnim (forget r) kd (Some x), Ok tt) /\
    load fs' x = Ok a2 /\ doc_top (doc_forest (am_root a2)) = Some r2 /\ children KAnim r2 = Ok ch /\
    (forall k, aget k (iattrs r2) = option_map (fun v => AStr (aval_str v)) (aget k (tag_attrs (am_root a)))) /\
    Forall2 (told w' (place F) (Some (tag_attrs (am_root a))) (doc_forest (am_root a2))) (fst (fst w') 1) ch.
Proof.
  intros void can a fs w l l' name x kd St U D M So Tg C F w'.
  assert (X : writable (am_root a) /\ tidy (am_root a) /\ is_tag (am_root a) = true).
  { destruct St as [L|(T & fs0 & file & L)].
    - assert (Ea : am_root a = xblank) by (unfold xblank; now rewrite L). destruct xblank_ok as (W & _ & Ht). rewrite <- Ea in W, Ht. split; [exact W|]. split; [|exact Ht]. rewrite Ea. apply tidyb_ok. vm_compute. reflexivity.
    - apply AnimProofs2.load_is in L as (_ & W & _ & Ht & _). auto. }
  destruct X as (W & T & Ht). assert (X : exists at_ k, am_root a = El (s "canvas") at_ k).
  { destruct (am_root a) as [|nm at_ k]; [discriminate|]. destruct (us_root _ U) as (r & Hr & Hc). destruct (root_there nm _ (doc_inv nm at_ k)) as (ra & rk & E). rewrite E in Hr. injection Hr as <-. unfold named in Hc. cbn [itag iname andb] in Hc. apply pstr_eqb_spec in Hc. subst nm. eauto. }
  destruct X as (at_ & k & Ea). assert (Iv : inv (s "canvas") (doc_forest (am_root a))) by (rewrite Ea; apply doc_inv).
  destruct (wacts_edits l l' _ w Iv U D M So) as (es & Ees & M1 & M2 & M3). fold F in Ees. destruct (wacts_right l l' _ w U D M) as (_ & U' & D'). fold F in U', D'. fold w' in D'.
  assert (T0 : topped (tag_attrs (am_root a)) (doc_forest (am_root a))).
  { rewrite Ea. destruct (AnimProofs5.doc_forest_top (s "canvas") at_ k) as (k' & -> & _ & Hw). exists (IE 1 (s "canvas") at_ k'). split; [|reflexivity]. apply (fget_desc _ (IE 1 (s "canvas") at_ k') Hw). rewrite fdesc_IE. right. apply in_or_app. left. rewrite fdesc_IE. now left. }
  destruct (wacts_topped _ l l' _ w U D M T0) as (r & Hr & Hra). fold F in Hr.
  pose proof (edits_good es _ (doc_good _ W) M1 M2) as Gf. pose proof (edits_tidy es _ (doc_tidy _ T) M1 M3) as Tf. pose proof (edits_inv _ es _ M1 Iv) as Iv'. rewrite <- Ees in Gf, Tf, Iv'.
  assert (W2 : writable (forget r)) by (apply (fget_good 1 _ _ Gf); [discriminate|exact Hr]). assert (T2 : tidy (forget r)) by (apply (fget_tidy 1 _ _ Tf); [discriminate|exact Hr]).
  assert (Eu : iuid r = 1 /\ itag r = true) by (apply fget_In in Hr as (_ & E1 & E2); auto). destruct Eu as [Eu Er].
  assert (Tr : is_tag (forget r) = true) by (destruct r; [discriminate|reflexivity]).
  destruct (saved_loads void can fs (mkAnim (forget r) (am_kind a) (am_file a)) name x kd (Tg _) C W2 Tr) as (fs' & S1 & _ & S2). cbn [am_root] in *. set (a2 := mkAnim (reload (forget r)) kd (Some x)) in *.
  assert (Ta : is_tag (am_root a2) = true) by (cbn [a2 am_root]; rewrite SerProofs.reload_is_tag; exact Tr).
  assert (X : exists r2, doc_top (doc_forest (am_root a2)) = Some r2) by (destruct (am_root a2) as [|nm b k2]; [discriminate|]; destruct (AnimProofs5.doc_forest_top nm b k2) as (k' & -> & _); cbn [doc_top]; now eexists).
  destruct X as (r2 & S3). destruct (doc_forest_root _ _ Ta S3) as (WG & RG & FG & _). destruct (root_anc _ _ WG RG) as (d2 & AG & GG & _). destruct (root_anc1 _ _ r Iv' Hr) as (d & AF).
  assert (Im : image r r2) by (unfold image; now rewrite FG). pose proof (tidy_clean r T2) as Cl. pose proof (starts_fps a r St Hra) as Pf.
  destruct (told_top F w' U' D' r Hr (doc_forest (am_root a2)) r2 d2 WG GG AG Im Cl Pf) as (ch & Ech & Ht2). exists r, fs', a2, r2, ch. repeat (split; [assumption|]). split.
  - intros k0. destruct (image_tag r r2 Im) as (_ & _ & ->). rewrite <- Hra. apply clean_get. now apply clean_own.
  - rewrite <- Hra. exact Ht2.
Qed.
Print Assumptions C156_saved.
(** What is read in the file is what was assigned last, whatever else was done before and after: [layer.desc], [layer.active], [layer.version] and
    [layer.exclude_from_rendering] of any layer m that stands for the layer u. *)
Lemma no_fields k c : In k attr_names -> In c layer_classes -> aget k (all_fields c) = None.
Proof.
  assert (X : forallb (fun c => forallb (fun k => match aget k (all_fields c) with None => true | _ => false end) attr_names) layer_classes = true) by (vm_compute; reflexivity).
  intros Hk Hc. rewrite forallb_forall in X. specialize (X c Hc). rewrite forallb_forall in X. specialize (X k Hk). destruct (aget k (all_fields c)); [discriminate|reflexivity].
Qed.
Lemma said_read st G m c k v a0 : In k attr_names -> In c layer_classes -> v <> PNone -> snd (attr_assign a0 k v) = Ok tt -> (forall q, py_float v = Ok q -> is_dbl q) ->
  aget k (iattrs m) = option_map (fun v => AStr (aval_str v)) (aget k (fst (attr_assign a0 k v))) -> field_get st G m c k = said k v.
Proof.
  intros Hin Hc Hv Hr Hq Ha. unfold field_get. rewrite (no_fields k c Hin Hc). unfold attr_assign, said in *. unfold attr_names in Hin. destruct Hin as [<-|[<-|[<-|[<-|[]]]]].
  - change (pstr_eqb (s "version") (s "version")) with true in *. change (pstr_eqb (s "version") (s "type_")) with false. cbn iota in *. unfold attr_get. rewrite Ha. destruct (py_float v) as [q|e] eqn:Eq; [|discriminate]. cbn [fst]. rewrite AnimProofs2.aget_aset_same. cbn [option_map attr_conv aval_str float_of_aval bind].
    rewrite PyFmtProofs2.parse_repr by now apply Hq. reflexivity.
  - change (pstr_eqb (s "active") (s "version")) with false in *. change (pstr_eqb (s "active") (s "type_")) with false. change (pstr_eqb (s "active") (s "active")) with true in *. change (pstr_eqb (s "active") (s "desc")) with false in *. cbn iota in *. unfold attr_get. rewrite Ha. destruct (py_bool v) as [[]|e]; [| |discriminate]; cbn [fst]; rewrite AnimProofs2.aget_aset_same; reflexivity.
  - change (pstr_eqb (s "exclude_from_rendering") (s "version")) with false in *. change (pstr_eqb (s "exclude_from_rendering") (s "type_")) with false. change (pstr_eqb (s "exclude_from_rendering") (s "active")) with false in *. change (pstr_eqb (s "exclude_from_rendering") (s "exclude_from_rendering")) with true in *. change (pstr_eqb (s "exclude_from_rendering") (s "desc")) with false in *. cbn iota in *.
    unfold attr_get. rewrite Ha. destruct (py_bool v) as [[]|e]; [| |discriminate]; cbn [fst]; rewrite AnimProofs2.aget_aset_same; reflexivity.
  - change (pstr_eqb (s "desc") (s "version")) with false in *. change (pstr_eqb (s "desc") (s "type_")) with false. change (pstr_eqb (s "desc") (s "active")) with false in *. change (pstr_eqb (s "desc") (s "exclude_from_rendering")) with false in *. change (pstr_eqb (s "desc") (s "desc")) with true in *. cbn iota in *.
    change (snd (attr_assign a0 (s "desc") v) = Ok tt) in Hr. change (aget (s "desc") (iattrs m) = option_map (fun v => AStr (aval_str v)) (aget (s "desc") (fst (attr_assign a0 (s "desc") v)))) in Ha.
    assert (X : attr_assign a0 (s "desc") v = match py_str v with Ok x => (aset (s "desc") (AStr x) a0, Ok tt) | Err e => (a0, Err e) end) by (destruct v; try reflexivity; congruence).
    rewrite X in Hr, Ha. clear X. unfold attr_get. rewrite Ha. destruct (py_str v) as [x|e]; [|discriminate]. cbn [fst]. now rewrite AnimProofs2.aget_aset_same.
Qed.
Theorem C156_last : forall st F w l1 l1' l2 l2' u k v pl cx G m c, usual F -> depicts F w -> length l1 = length l1' ->
  wacts_mean F w (l1 ++ WField u k v :: l2) (l1' ++ LwAttr u k v :: l2') -> v <> PNone -> snd (do_wact (fst (wacts F l1)) (WField u k v)) = Ok tt -> (forall v', ~ In (WField u k v') l2) ->
  (forall q, py_float v = Ok q -> is_dbl q) ->
  told (fst (list_wacts w (l1' ++ LwAttr u k v :: l2'))) pl cx G u m -> layer_class m = Ok c -> field_get st G m c k = said k v.
Proof.
  intros st F w l1 l1' l2 l2' u k v pl cx G m c U D El M Hv Hr Hl Hq Td Hcm. destruct (wacts_app l1 l1' F w _ _ El M) as [M1 M2]. destruct (wacts_right l1 l1' F w U D M1) as (_ & U1 & D1).
  assert (Efst : forall l1 w l2, fst (list_wacts w (l1 ++ l2)) = fst (list_wacts (fst (list_wacts w l1)) l2)).
  { clear. induction l1 as [|x l1 IH]; intros w l2; [reflexivity|]. cbn [app list_wacts]. destruct (list_wact w x) as [w1 r]. specialize (IH w1 l2). destruct (list_wacts w1 (l1 ++ l2)). destruct (list_wacts w1 l1). exact IH. }
  rewrite Efst in Td. clear Efst. set (F1 := fst (wacts F l1)) in *. set (w1 := fst (list_wacts w l1')) in *. clearbody F1 w1. clear M1 M U D El.
  pose proof M2 as [Mx Ml]. cbn [wact_means] in Mx. destruct Mx as (n & c0 & Hu & Hn & Hc & Hm). destruct (aget k (all_fields c0)) as [[]|] eqn:Ek; [destruct Hm as (q & _ & _ & _ & Z); discriminate|discriminate|destruct Hm as (q & _ & _ & _ & Z); discriminate|].
  destruct Hm as [(Hin & Hw & _)|[_ Z]]; [|discriminate]. destruct (snd w1 u) as [a|] eqn:Ea; [|congruence].
  pose proof (attr_history_is u _ _ F1 w1 a U1 D1 M2 Ea) as Hh. cbn [attr_history] in Hh. rewrite N.eqb_refl in Hh. inversion_clear Td as [? ? _ Ta _ _]. specialize (Ta _ k Hh).
  apply (said_read st G m c k v a); auto.
  - now apply (layer_class_in m).
  - destruct (wact_step F1 w1 (WField u k v) (LwAttr u k v) U1 D1 (proj1 M2)) as (X & _). rewrite Hr in X. cbn [list_wact] in X. rewrite Ea in X. destruct (attr_assign a k v) as [a' r]. cbn [fst snd] in *. congruence.
  - rewrite Ta. f_equal. apply history_other. destruct (existsb (names_it u k) l2') eqn:Ex; [|reflexivity]. exfalso. apply existsb_exists in Ex as (x & Hx & Hx'). destruct x as [|b t|z k' y|]; try discriminate. cbn [names_it] in Hx'. apply andb_prop in Hx' as [A B]. apply N.eqb_eq in A. apply pstr_eqb_spec in B. subst z k'.
    apply (Hl y). exact (attr_from _ l2 _ l2' u k y Ml Hx).
Qed.
Print Assumptions C156_last.

(** Waypoints that are set here at whole frames, with solid values, are steady. *)
Theorem C156_waypoints : forall cx r m b a c v, TimeSpec.at_fps (inject_Z r) cx -> (0 < r <= 10 ^ 6)%Z -> (0 <= m < 2 ^ 53)%Z -> TlSpec.interpolation b -> TlSpec.interpolation a -> solid v ->
  steady_waypoint cx (wp_tag (mkW (mkT (inject_Z m) (Some (inject_Z r))) b a c v)).
Proof.
  intros cx r m b a c v Hf Hr Hm Hb Ha Hv. unfold wp_tag. cbn [w_time w_before w_after w_val]. pose proof (TlProofs3.whole_kept cx r m Hf Hr Hm) as K. unfold TlSpec.kept_time in K. split; [|split].
  - split; [cbn [tag_attrs map fst]; repeat (constructor; [cbn; intuition discriminate|]); constructor|]. cbn [tag_attrs].
    repeat apply Forall_cons; cbn [fst snd aval_str]; [split; [apply TlProofs3.T_str_no_ctrl'|]|split; [now apply TlProofs3.interp_no_ctrl|]|split; [now apply TlProofs3.interp_no_ctrl|]|constructor]; cbn [In]; intros [E|[E|[]]]; discriminate E.
  - cbn [tag_attrs]. intros k y H. apply ClsProofs.aget_In_any in H as H'. cbn [In] in H'. destruct H' as [[= <- <-]|[[= <- <-]|[[= <- <-]|[]]]]; [|split; [exact I|eauto]|split; [exact I|eauto]]. split; [|intros X; now contradiction X].
    cbn [steady_attr frames]. rewrite K. unfold T_init in *. destruct (ctx_fps cx) as [f|]; [|discriminate]. cbn [bind] in *. unfold Qlt_bool. replace (Qle_bool 0 (inject_Z m)) with true by (symmetry; apply Qle_bool_iff; unfold Qle; cbn; lia). cbn [negb bind].
    destruct (parse_time_spec f _) as [q|]; [|discriminate]. cbn [bind] in K. injection K as -> ->. reflexivity.
  - unfold child_tags. cbn [tag_kids filter]. destruct (is_tag v); constructor; auto.
Qed.
Print Assumptions C156_waypoints.

(** A group and a circle are made in a new animation; the circle is put into the group, and the group into the animation. The circle gets a radius, and
    its amount is animated. The group gets a description, twice. *)
Definition eprogram : list wact :=
  [WNew cls_Group; WNew cls_Circle; WAct (AMove (MAppend KGroup 20 63)); WField 20 (s "desc") (PStr (s "old")); WField 63 (s "radius") (PFlo (5#2)); WAct (AMove (MAppend KAnim 1 20));
   WField 20 (s "desc") (PStr (s "new")); WAct (AEdit 63 (s "amount") (VTlSet (KeyNum 48) (AVal (PFlo 3)))); WField 63 (s "version") (PFlo (1#2)); WNew cls_Circle].
Definition elprogram : list lwact :=
  [LwNew 20 (tag_of cls_Group); LwNew 63 (tag_of cls_Circle); LwAct (LMv (MAppend KGroup 20 63)); LwAttr 20 (s "desc") (PStr (s "old")); LwAct (LAs 76 ByField (PFlo (5#2))); LwAct (LMv (MAppend KAnim 1 20));
   LwAttr 20 (s "desc") (PStr (s "new")); LwAct (LEd 66 (Some (tag_attrs xblank)) (VTlSet (KeyNum 48) (AVal (PFlo 3)))); LwAttr 63 (s "version") (PFlo (1#2)); LwNew 88 (tag_of cls_Circle)].
Definition eworld : world := ((fun _ => [], values (doc_forest xblank)), attributes (doc_forest xblank)).
Lemma eforest_usual : usual (doc_forest xblank).
Proof. eapply usual_checked; [unfold wf; vm_compute; repeat constructor; cbn; lia|vm_compute; reflexivity|vm_compute; reflexivity|vm_compute; reflexivity]. Qed.
Lemma eforest_depicts : depicts (doc_forest xblank) eworld.
Proof. split; [split; [apply shows_checked; [exact eforest_usual|vm_compute; reflexivity]|apply values_hold]|apply attributes_tell]. Qed.
Ltac emeans :=
  lazymatch goal with
  | |- exists e, new_tag _ = Err e /\ _ => eexists; split; [vm_compute; reflexivity|reflexivity]
  | |- In _ layer_classes /\ _ => split; [first [exact (nth_error_In layer_classes 12%nat eq_refl)|exact (nth_error_In layer_classes 9%nat eq_refl)]|split; vm_compute; reflexivity]
  | _ => means
  end.
Lemma eprogram_means : wacts_mean (doc_forest xblank) eworld eprogram elprogram.
Proof. unfold eprogram, elprogram. cbn [wacts_mean wact_means]. do 10 (split; [emeans|]). exact I. Qed.
Lemma eprogram_sound : Forall sound_wact eprogram.
Proof.
  assert (L : forall x, forallb (fun c => 32 <=? c) x = true -> good_text x -> sound_wact (WField 20 (s "desc") (PStr x))).
  { intros x H G. split; [exact G|]. split; [exact I|]. intros _ y [= <-]. now apply line_check. }
  unfold eprogram. apply Forall_cons; [exact I|]. apply Forall_cons; [exact I|]. apply Forall_cons; [exact I|]. apply Forall_cons; [apply L; [reflexivity|repeat constructor]|].
  apply Forall_cons; [split; [exact I|split; [exact I|intros E; discriminate E]]|]. apply Forall_cons; [exact I|]. apply Forall_cons; [apply L; [reflexivity|repeat constructor]|].
  apply Forall_cons; [split; [discriminate|split; exact I]|]. apply Forall_cons; [split; [exact I|split; [exact I|intros E; discriminate E]]|]. apply Forall_cons; [exact I|]. apply Forall_nil.
Qed.
(** The amount at the end *)
Definition ewaypoint : wp := mkW (mkT (inject_Z 48) (Some (inject_Z 24))) (s "clamped") (s "clamped") VReal (El (s "real") [(s "value", AStr (s "3.0000000000"))] []).
Definition eamount : node := El (s "animated") [(s "type", AStr (s "real"))] [wp_tag ewaypoint].
Lemma eamount_steady : steady (Some (tag_attrs xblank)) eamount.
Proof.
  split; [apply SavProofs2.one_attr, line_check; reflexivity|]. split; [intros v Hv; injection Hv as <-; eauto|]. change (child_tags eamount) with [wp_tag ewaypoint]. constructor; [|constructor].
  apply C156_waypoints; [|lia|lia|right; now left|right; now left|apply solidb_ok; vm_compute; reflexivity]. exists (tag_attrs xblank). eexists. split; [reflexivity|]. split; [vm_compute; reflexivity|]. vm_compute. reflexivity.
Qed.
(** The program is one of those; and what its variables and dictionaries say at the end *)
Example C156_nonvacuous : exists w', starts (mkAnim xblank FBlank None) /\ usual (doc_forest xblank) /\ depicts (doc_forest xblank) eworld /\ wacts_mean (doc_forest xblank) eworld eprogram elprogram /\ Forall sound_wact eprogram /\
  (forall n, target_of (mkAnim n FBlank None) (Some xsifz) xsifz FSifz) /\ w' = fst (list_wacts eworld elprogram) /\ fst (fst w') 1 = [20] /\ fst (fst w') 20 = [63] /\
  place (fst (wacts (doc_forest xblank) eprogram)) 63 (s "radius") = Some 76 /\ snd (fst w') 76 = Some (El (s "real") [(s "value", AStr (s "2.5000000000"))] []) /\
  solid (El (s "real") [(s "value", AStr (s "2.5000000000"))] []) /\ option_map (aget (s "desc")) (snd w' 20) = Some (Some (AStr (s "new"))) /\
  place (fst (wacts (doc_forest xblank) eprogram)) 63 (s "amount") = Some 66 /\ snd (fst w') 66 = Some eamount /\ steady (Some (tag_attrs xblank)) eamount /\ from_tag eamount = Ok VReal /\
  exists x, tl_values eamount (Some (tag_attrs xblank)) = Ok [x].
Proof.
  exists (fst (list_wacts eworld elprogram)). split; [left; vm_compute; reflexivity|]. split; [exact eforest_usual|]. split; [exact eforest_depicts|]. split; [exact eprogram_means|]. split; [exact eprogram_sound|]. split; [intros n; split; [reflexivity|apply xsifz_name]|].
  split; [reflexivity|]. split; [vm_compute; reflexivity|]. split; [vm_compute; reflexivity|]. split; [vm_compute; reflexivity|]. split; [vm_compute; reflexivity|]. split; [apply solidb_ok; vm_compute; reflexivity|]. split; [vm_compute; reflexivity|]. split; [vm_compute; reflexivity|]. split; [vm_compute; reflexivity|]. split; [exact eamount_steady|].
  split; [vm_compute; reflexivity|]. exists ewaypoint. vm_compute. reflexivity.
Qed.
(** C156_last says that the description in the file is the second one. *)
Example C156_last_nonvacuous : exists l1 l1' l2 l2', eprogram = l1 ++ WField 20 (s "desc") (PStr (s "new")) :: l2 /\ elprogram = l1' ++ LwAttr 20 (s "desc") (PStr (s "new")) :: l2' /\ length l1 = length l1' /\
  snd (do_wact (fst (wacts (doc_forest xblank) l1)) (WField 20 (s "desc") (PStr (s "new")))) = Ok tt /\ (forall v', ~ In (WField 20 (s "desc") v') l2) /\
  (forall q, py_float (PStr (s "new")) = Ok q -> is_dbl q) /\ said (s "desc") (PStr (s "new")) = Ok (PStr (s "new")).
Proof.
  exists (firstn 6 eprogram), (firstn 6 elprogram), (skipn 7 eprogram), (skipn 7 elprogram). split; [reflexivity|]. split; [reflexivity|]. split; [reflexivity|]. split; [vm_compute; reflexivity|]. split; [|split; [intros q H; vm_compute in H; discriminate|reflexivity]].
  intros v' H. cbn [skipn eprogram In] in H. repeat destruct H as [H|H]; try discriminate H. exact H.
Qed.
