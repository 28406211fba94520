(** C155: a program that makes layers, puts them into groups, and sets parameters, timelines and attributes does to a document what it does to lists,
    variables and dictionaries. *)
From Coq Require Import Lia Lqa.
From Verif Require Import TlModel TlSpec.
From Verif Require TlProps AnimProofs2.
From Verif Require Import AnimModel LayModel DocProofs DocProofs2 LaySpec LayProofs LayProofs2 LayProofs3 LayProofs4 LayProofs5 LoopModel VarSpec MovSpec MovProofs MovProofs2 MovProps MixSpec WrSpec PrmSpec PrmProofs PrmProofs2 PrmProofs3 PrmProps WldSpec WldProofs WldProofs2.
Local Open Scope N_scope.

(** Whatever the program: each of its steps returns or raises what it does without a document, and at the end the children of all groups, the values of
    the parameters and the attributes of the layers are those of the lists, variables and dictionaries. *)
Theorem C155_program : forall F w l l', usual F -> depicts F w -> wacts_mean F w l l' ->
  snd (wacts F l) = snd (list_wacts w l') /\ usual (fst (wacts F l)) /\ depicts (fst (wacts F l)) (fst (list_wacts w l')).
Proof. intros F w l l'. apply wacts_right. Qed.
Print Assumptions C155_program.
(** Every document is one of those: all groups, all params with one value that has no layers in it, and all layers. *)
Theorem C155_all : forall F, usual F -> exists h, depicts F ((h, values F), attributes F) /\
  (forall q w, holder_of F q w -> values F q = Some (forget w)) /\ forall u n, fget u F = Some n -> is_layer n = true -> attributes F u = Some (iattrs n).
Proof.
  intros F U. destruct (C154_all F U) as (h & M & H). exists h. split; [split; [exact M|apply attributes_tell]|]. split; [exact H|]. intros u n Hu Hl. unfold attributes. now rewrite Hu, Hl.
Qed.
Print Assumptions C155_all.
(** A new layer is one of the layers from then on: it has no children and is in no group, and its params have the values with which it was made. *)
Theorem C155_new : forall F w c b t, usual F -> depicts F w -> wact_means F w (WNew c) (LwNew b t) ->
  exists n, fst (do_wact F (WNew c)) = F ++ [n] /\ forget n = t /\ layer_class n = Ok c /\ iuid n = b /\ fget b F = None /\ fget b (F ++ [n]) = Some n /\ usual (F ++ [n]) /\
    depicts (F ++ [n]) (fst (list_wact w (LwNew b t))) /\
    fst (fst (fst (list_wact w (LwNew b t)))) b = [] /\ snd (fst (list_wact w (LwNew b t))) b = Some (iattrs n) /\
    (forall x kd m ch, holder (F ++ [n]) x kd m -> children kd m = Ok ch -> ~ In b (ids ch)) /\
    (forall q v, holder_of [n] q v -> snd (fst (fst (list_wact w (LwNew b t)))) q = Some (forget v)).
Proof.
  intros F w c b t U D (Hc & Ht & ->). destruct (nl_is F U c t Ht) as (E & Hf & Hi & W' & Hg & Fr). pose proof (nl_usual F U c Hc t Ht) as U'. pose proof (nl_depicts F U c Hc t Ht w D) as D'. destruct (nl_self F U c t Ht) as [_ Hs].
  exists (nl F t). assert (Eb : iuid (nl F t) = fresh F) by (pose proof E as E'; unfold new_layer in E'; rewrite Ht in E'; injection E' as E'; symmetry; exact E').
  split; [cbn [do_wact apply_edit]; unfold fst_unit; now rewrite E|]. split; [exact Hf|]. split; [exact (nl_class F U c Hc t Ht)|]. split; [exact Eb|].
  assert (No : fget (fresh F) F = None) by (destruct (fget (fresh F) F) as [m|] eqn:Em; [|reflexivity]; pose proof (nl_old F U c t Ht _ m Em) as X; rewrite <- Eb in X; congruence).
  split; [exact No|]. split; [now rewrite <- Eb|]. split; [exact U'|]. split; [exact D'|]. change (fst (list_wact w (LwNew (fresh F) t))) with (birth w (nl F t)). rewrite <- Eb. unfold birth. cbn [fst snd]. rewrite Hs.
  split; [reflexivity|]. split; [unfold aput; now rewrite N.eqb_refl|]. split.
  - intros x kd m ch Hm Hch Hin. destruct (canv_ex _ _ _ _ U' Hm) as (cv & Cv). rewrite (canv_ch _ _ _ _ _ U' Cv) in Hch. injection Hch as <-. unfold ids in Hin. apply in_map_iff in Hin as (y & Ey & Hy).
    assert (Hy' : In y (ikids cv) /\ is_layer y = true) by now apply in_layers. destruct Hy' as [Hk Hly]. destruct (canv_in _ _ _ _ _ U' Cv) as (_ & _ & _ & _ & Hcd). assert (Hyt : itag y = true) by now apply is_layer_tag.
    assert (Hyd : In y (fdesc (F ++ [nl F t]))) by now apply (kid_desc _ cv). pose proof (fget_desc _ y W' Hyd) as Hyf.
    rewrite Ey, Hg in Hyf. injection Hyf as Z. subst y. pose proof (child_parent _ (iuid cv) cv (nl F t) W') as Pa. specialize (Pa (fget_desc _ cv W' Hcd) Hk Hyt).
    assert (Pn : fanc (iuid (nl F t)) (F ++ [nl F t]) = Some []).
    { rewrite fanc_app. rewrite (proj2 (fanc_None (iuid (nl F t)) F)); [|intros Z; apply (Fr (iuid (nl F t))); [now apply tag_uid|exact Z]]. destruct (nl F t) as [|u nm a k]; [discriminate|]. rewrite fanc_IE. cbn [iuid]. now rewrite N.eqb_refl. }
    unfold fparent in Pa. rewrite Pn in Pa. discriminate.
  - intros q v Hv. pose proof (values_all [nl F t] q v Hv) as V. destruct Hv as (p & Hp & _). assert (X : existsb (N.eqb q) (uids (nl F t)) = true).
    { pose proof (fget_In _ _ _ Hp) as (Hd & Eu & _). apply existsb_exists. exists q. split; [|apply N.eqb_refl]. assert (Z : In q (fuids [nl F t])) by (rewrite <- uids_desc, <- Eu; now apply in_map). unfold fuids in Z. cbn [flat_map] in Z. now rewrite app_nil_r in Z. }
    now rewrite X.
Qed.
Print Assumptions C155_new.
(** What an attribute is after [layer.k = v]: version is a number; active and exclude_from_rendering are true or false; desc is a string. *)
Definition said (k : pstr) (v : pyval) : res pyval :=
  if pstr_eqb k (s "version") then let* q := py_float v in Ok (PFlo q)
  else if pstr_eqb k (s "desc") then let* x := py_str v in Ok (PStr x)
  else let* b := py_bool v in Ok (PBool b).
Lemma said_is a k v st F n c : In k attr_names -> v <> PNone -> snd (attr_assign a k v) = Ok tt -> aget k (all_fields c) = None -> aget k (iattrs n) = aget k (fst (attr_assign a k v)) -> field_get st F n c k = said k v.
Proof.
  intros Hin Hv Hr Hk Ha. unfold field_get. rewrite Hk. unfold attr_names in Hin. assert (H0 : pstr_eqb k (s "type_") = false) by (destruct Hin as [<-|[<-|[<-|[<-|[]]]]]; reflexivity). rewrite H0. clear Hk H0. unfold attr_assign, said in *.
  destruct Hin as [<-|[<-|[<-|[<-|[]]]]].
  - change (pstr_eqb (s "version") (s "version")) with true in *. cbn iota in *. unfold attr_get. rewrite Ha. destruct (py_float v) as [q|e]; [|discriminate]. cbn [fst]. now rewrite AnimProofs2.aget_aset_same.
  - change (pstr_eqb (s "active") (s "version")) with false in *. change (pstr_eqb (s "active") (s "active")) with true in *. change (pstr_eqb (s "active") (s "desc")) with false in *. cbn iota in *. unfold attr_get. rewrite Ha. destruct (py_bool v) as [[]|e]; [| |discriminate]; cbn [fst]; rewrite AnimProofs2.aget_aset_same; reflexivity.
  - change (pstr_eqb (s "exclude_from_rendering") (s "version")) with false in *. change (pstr_eqb (s "exclude_from_rendering") (s "active")) with false in *. change (pstr_eqb (s "exclude_from_rendering") (s "exclude_from_rendering")) with true in *. change (pstr_eqb (s "exclude_from_rendering") (s "desc")) with false in *. cbn iota in *.
    unfold attr_get. rewrite Ha. destruct (py_bool v) as [[]|e]; [| |discriminate]; cbn [fst]; rewrite AnimProofs2.aget_aset_same; reflexivity.
  - change (pstr_eqb (s "desc") (s "version")) with false in *. change (pstr_eqb (s "desc") (s "active")) with false in *. change (pstr_eqb (s "desc") (s "exclude_from_rendering")) with false in *. change (pstr_eqb (s "desc") (s "desc")) with true in *. cbn iota in *.
    change (snd (attr_assign a (s "desc") v) = Ok tt) in Hr. change (aget (s "desc") (iattrs n) = aget (s "desc") (fst (attr_assign a (s "desc") v))) in Ha.
    assert (X : attr_assign a (s "desc") v = match py_str v with Ok x => (aset (s "desc") (AStr x) a, Ok tt) | Err e => (a, Err e) end) by (destruct v; try reflexivity; congruence).
    rewrite X in Hr, Ha. clear X. unfold attr_get. rewrite Ha. destruct (py_str v) as [x|e]; [|discriminate]. cbn [fst]. now rewrite AnimProofs2.aget_aset_same.
Qed.
Lemma attr_from F l : forall w l' u k y, wacts_mean F w l l' -> In (LwAttr u k y) l' -> In (WField u k y) l.
Proof.
  revert F. induction l as [|x l IH]; intros F w [|x' l'] u k y H Hi; cbn [wacts_mean] in H; try contradiction. destruct H as [H1 H2]. destruct Hi as [->|Hi]; [left|right; now apply (IH _ _ l' u k y H2)].
  destruct x as [x|c|v k' z]; cbn [wact_means] in H1; try contradiction. destruct H1 as (n & c & _ & _ & _ & H1). destruct (aget k' (all_fields c)) as [[]|]; [destruct H1 as (q & _ & _ & _ & Z); discriminate|discriminate|destruct H1 as (q & _ & _ & _ & Z); discriminate|].
  destruct H1 as [(_ & _ & [= -> -> ->])|[_ Z]]; [reflexivity|discriminate].
Qed.
(** What is read at the end is what was assigned last, whatever else was done before and after. *)
Theorem C155_last : forall st F w l1 l1' l2 l2' u k v, usual F -> depicts F w -> length l1 = length l1' ->
  wacts_mean F w (l1 ++ WField u k v :: l2) (l1' ++ LwAttr u k v :: l2') -> v <> PNone -> snd (do_wact (fst (wacts F l1)) (WField u k v)) = Ok tt -> (forall v', ~ In (WField u k v') l2) ->
  let F' := fst (wacts F (l1 ++ WField u k v :: l2)) in
  exists n c, fget u F' = Some n /\ is_layer n = true /\ layer_class n = Ok c /\ field_get st F' n c k = said k v.
Proof.
  intros st F w l1 l1' l2 l2' u k v U D El M Hv Hr Hl F'. subst F'. destruct (wacts_app l1 l1' F w _ _ El M) as [M1 M2]. rewrite wacts_fst. destruct (wacts_right l1 l1' F w U D M1) as (_ & U1 & D1). clear M M1 U D El.
  set (F1 := fst (wacts F l1)) in *. set (w1 := fst (list_wacts w l1')) in *. clearbody F1 w1. destruct (wacts_right _ _ F1 w1 U1 D1 M2) as (_ & U2 & D2).
  pose proof M2 as [Mx Ml]. cbn [wact_means] in Mx. destruct Mx as (n & c & Hu & Hn & Hc & Hm). destruct (aget k (all_fields c)) as [[]|] eqn:Ek; [destruct Hm as (q & _ & _ & _ & Z); discriminate|discriminate|destruct Hm as (q & _ & _ & _ & Z); discriminate|].
  destruct Hm as [(Hin & Hw & _)|[_ Z]]; [|discriminate]. destruct (snd w1 u) as [a|] eqn:Ea; [|congruence].
  pose proof (attr_history_is u _ _ F1 w1 a U1 D1 M2 Ea) as Hh. cbn [attr_history] in Hh. rewrite N.eqb_refl in Hh.
  destruct D2 as [_ T2]. destruct (T2 u _ Hh) as (n' & Hn' & Hl' & Ha'). exists n', c. split; [exact Hn'|]. split; [exact Hl'|].
  assert (Ha : iattrs n = a). { destruct D1 as [_ T1]. destruct (T1 u a Ea) as (m & Hm & _ & <-). congruence. }
  assert (Ty : forall l a, (forall k y, In (LwAttr u k y) l -> In k attr_names) -> aget (s "type") (attr_history u l a) = aget (s "type") a).
  { clear. induction l as [|[x|b t|z k y|r] l IH]; intros a H; cbn [attr_history]; try (apply IH; intros; apply (H k y); now right); try reflexivity; try (apply IH; intros k0 y0 Hk; apply (H k0 y0); now right).
    rewrite IH by (intros k0 y0 Hk; apply (H k0 y0); now right). destruct (N.eqb_spec z u) as [->|]; [|reflexivity]. apply attr_assign_other. intros E. specialize (H k y (or_introl eq_refl)). rewrite <- E in H. destruct H as [H|[H|[H|[H|[]]]]]; discriminate. }
  assert (Nm : forall l l' F w, wacts_mean F w l l' -> forall k y, In (LwAttr u k y) l' -> In k attr_names).
  { clear. induction l as [|x l IH]; intros [|x' l'] F w H k y Hi; cbn [wacts_mean] in H; try contradiction. destruct H as [H1 H2]. destruct Hi as [->|Hi]; [|now apply (IH l' _ _ H2 k y)].
    destruct x as [x|c|v k' z]; cbn [wact_means] in H1; try contradiction. destruct H1 as (n & c & _ & _ & _ & H1). destruct (aget k' (all_fields c)) as [[]|]; [destruct H1 as (q & _ & _ & _ & Z); discriminate|discriminate|destruct H1 as (q & _ & _ & _ & Z); discriminate|].
    destruct H1 as [(A & _ & [= -> -> ->])|[_ Z]]; [exact A|discriminate]. }
  split.
  - unfold layer_class in *. rewrite Ha'. rewrite Ha in Hc. pose proof (Ty (LwAttr u k v :: l2') a (Nm _ _ _ _ M2)) as X. cbn [attr_history] in X. rewrite N.eqb_refl in X. rewrite X. exact Hc.
  - apply (said_is a); auto.
    + destruct (wact_step F1 w1 (WField u k v) (LwAttr u k v) U1 D1 (proj1 M2)) as (X & _). rewrite Hr in X. cbn [list_wact] in X. rewrite Ea in X. destruct (attr_assign a k v) as [a' r]. cbn [fst snd] in *. congruence.
    + rewrite Ha'. apply history_other. destruct (existsb (names_it u k) l2') eqn:Ex; [|reflexivity]. exfalso. apply existsb_exists in Ex as (x & Hx & Hx'). destruct x as [|b t|z k' y|]; try discriminate. cbn [names_it] in Hx'. apply andb_prop in Hx' as [A B]. apply N.eqb_eq in A. apply pstr_eqb_spec in B. subst z k'.
      apply (Hl y). exact (attr_from _ l2 _ l2' u k y Ml Hx).
Qed.
Print Assumptions C155_last.

(** A group and a circle are made in the animation of PrmProps.v, and so on. *)
Definition tag_of (c : lcls) : node := match new_tag c with Ok t => t | Err _ => Txt [] end.
Definition wprogram : list wact :=
  [WNew cls_Group; WNew cls_Circle; WAct (AMove (MAppend KGroup 73 116)); WAct (AMove (MAppend KAnim 1 73)); WField 116 (s "radius") (PFlo (5#2)); WField 73 (s "desc") (PStr (s "new"));
   WField 73 (s "active") (PInt 0); WNew cls_Halftone3; WField 116 (s "type_") (PStr (s "star")); WAct (AEdit 116 (s "radius") (VTlSet (KeyNum 48) (AVal (PFlo 3)))); WField 73 (s "angle") (PFlo 45);
   WAct (AMove (MInsert KGroup 73 0 20)); WField 73 (s "version") (PStr (s "x"))].
Definition wlprogram : list lwact :=
  [LwNew 73 (tag_of cls_Group); LwNew 116 (tag_of cls_Circle); LwAct (LMv (MAppend KGroup 73 116)); LwAct (LMv (MAppend KAnim 1 73)); LwAct (LAs 129 ByField (PFlo (5#2))); LwAttr 73 (s "desc") (PStr (s "new"));
   LwAttr 73 (s "active") (PInt 0); LwNot (Err AttributeError); LwNot (Err ValueError); LwAct (LEd 129 (Some pattrs) (VTlSet (KeyNum 48) (AVal (PFlo 3)))); LwAct (LAs 84 ByField (PDict [(s "angle", PFlo 45)]));
   LwAct (LMv (MInsert KGroup 73 0 20)); LwAttr 73 (s "version") (PStr (s "x"))].
Definition wworld : world := ((yshelf, values pforest), attributes pforest).
Lemma pforest_depicts : depicts pforest wworld.
Proof. split; [split; [apply shows_checked; [exact pforest_usual|vm_compute; reflexivity]|apply values_hold]|apply attributes_tell]. Qed.
Definition fkind (F : forest) (u : N) (k : pstr) : option (option lfield) :=
  match fget u F with Some n => if is_layer n then match layer_class n with Ok c => Some (aget k (all_fields c)) | Err _ => None end else None | None => None end.
Definition is_fparam (f : option (option lfield)) : bool := match f with Some (Some (FParam _ _)) => true | _ => false end.
Definition is_fshort (up : pstr) (f : option (option lfield)) : bool := match f with Some (Some (FShort up')) => pstr_eqb up' up | _ => false end.
Definition is_fnone (f : option (option lfield)) : bool := match f with Some None => true | _ => false end.
Lemma fkind_is F u k f : fkind F u k = Some f -> exists n c, fget u F = Some n /\ is_layer n = true /\ layer_class n = Ok c /\ f = aget k (all_fields c).
Proof. unfold fkind. destruct (fget u F) as [n|]; [|discriminate]. destruct (is_layer n) eqn:El; [|discriminate]. destruct (layer_class n) as [c|] eqn:Ec; [|discriminate]. intros [= <-]. eauto 6. Qed.
Lemma fm_param F w u k v q : is_fparam (fkind F u k) = true -> place F u k = Some q -> snd (fst w) q <> None -> bare_val v -> field_means F w u k v (LwAct (LAs q ByField v)).
Proof.
  intros H A B C. destruct (fkind F u k) as [f|] eqn:E; [|discriminate]. destruct (fkind_is F u k f E) as (n & c & H1 & H2 & H3 & ->). exists n, c. repeat (split; [assumption|]). destruct (aget k (all_fields c)) as [[]|]; try discriminate. eauto 6.
Qed.
Lemma fm_short F w u k v q up : is_fshort up (fkind F u k) = true -> place F u up = Some q -> snd (fst w) q <> None -> bare_val (PDict [(k, v)]) -> field_means F w u k v (LwAct (LAs q ByField (PDict [(k, v)]))).
Proof.
  intros H A B C. destruct (fkind F u k) as [f|] eqn:E; [|discriminate]. destruct (fkind_is F u k f E) as (n & c & H1 & H2 & H3 & ->). exists n, c. repeat (split; [assumption|]). destruct (aget k (all_fields c)) as [[| |up']|]; try discriminate. cbn [is_fshort] in H. apply pstr_eqb_spec in H. subst up'. eauto 6.
Qed.
Lemma fm_attr F w u k v : is_fnone (fkind F u k) = true -> In k attr_names -> snd w u <> None -> field_means F w u k v (LwAttr u k v).
Proof.
  intros H A B. destruct (fkind F u k) as [f|] eqn:E; [|discriminate]. destruct (fkind_is F u k f E) as (n & c & H1 & H2 & H3 & ->). exists n, c. repeat (split; [assumption|]). destruct (aget k (all_fields c)); [discriminate|]. auto.
Qed.
Lemma fm_type F w u v : is_fnone (fkind F u (s "type_")) = true -> field_means F w u (s "type_") v (LwNot (Err ValueError)).
Proof.
  intros H. destruct (fkind F u _) as [f|] eqn:E; [|discriminate]. destruct (fkind_is F u _ f E) as (n & c & H1 & H2 & H3 & ->). exists n, c. repeat (split; [assumption|]). destruct (aget _ (all_fields c)); [discriminate|]. auto.
Qed.
Ltac means :=
  lazymatch goal with
  | |- act_means _ _ (AMove _) _ => unfold act_means; cbn [acts_mean]; split; [reflexivity|split; [apply fits_checked; vm_compute; reflexivity|exact I]]
  | |- act_means _ _ (AEdit _ _ _) _ => unfold act_means; cbn [acts_mean]; split; [vm_compute; reflexivity|split; [vm_compute; discriminate|split; [vm_compute; reflexivity|split; [reflexivity|split; [vm_compute; repeat split|exact I]]]]]
  | |- field_means _ _ _ _ _ (LwAct (LAs _ _ (PDict _))) => apply fm_short with (up := s "transformation"); [vm_compute; reflexivity|vm_compute; reflexivity|vm_compute; discriminate|repeat split]
  | |- field_means _ _ _ _ _ (LwAct _) => apply fm_param; [vm_compute; reflexivity|vm_compute; reflexivity|vm_compute; discriminate|repeat split]
  | |- field_means _ _ _ _ _ (LwAttr _ _ _) => apply fm_attr; [vm_compute; reflexivity|unfold attr_names; cbn [In]; auto|vm_compute; discriminate]
  | |- field_means _ _ _ _ _ (LwNot _) => apply fm_type; vm_compute; reflexivity
  end.
Lemma wprogram_means : wacts_mean pforest wworld wprogram wlprogram.
Proof.
  unfold wprogram, wlprogram. cbn [wacts_mean wact_means].
  split; [split; [exact (nth_error_In layer_classes 12%nat eq_refl)|split; vm_compute; reflexivity]|].
  split; [split; [exact (nth_error_In layer_classes 9%nat eq_refl)|split; vm_compute; reflexivity]|].
  do 5 (split; [means|]). split; [eexists; split; [vm_compute; reflexivity|reflexivity]|]. do 5 (split; [means|]). exact I.
Qed.
Example C155_nonvacuous : usual pforest /\ depicts pforest wworld /\ wacts_mean pforest wworld wprogram wlprogram /\
  snd (wacts pforest wprogram) = [Ok tt; Ok tt; Ok tt; Ok tt; Ok tt; Ok tt; Ok tt; Err AttributeError; Err ValueError; Ok tt; Ok tt; Ok tt; Err ValueError] /\
  map (fst (fst (fst (list_wacts wworld wlprogram)))) [1; 10; 30; 50; 73] = [[70; 10; 2; 73]; [30]; [50; 40]; [60]; [20; 116]] /\
  option_map (aget (s "desc")) (snd (fst (list_wacts wworld wlprogram)) 73) = Some (Some (AStr (s "new"))).
Proof.
  split; [exact pforest_usual|]. split; [exact pforest_depicts|]. split; [exact wprogram_means|]. split; [vm_compute; reflexivity|]. split; vm_compute; reflexivity.
Qed.
(** In this program C155_last says that [layer.desc] is the string. *)
Example C155_last_nonvacuous : exists l1 l1' l2 l2', wprogram = l1 ++ WField 73 (s "desc") (PStr (s "new")) :: l2 /\ wlprogram = l1' ++ LwAttr 73 (s "desc") (PStr (s "new")) :: l2' /\ length l1 = length l1' /\
  snd (do_wact (fst (wacts pforest l1)) (WField 73 (s "desc") (PStr (s "new")))) = Ok tt /\ (forall v', ~ In (WField 73 (s "desc") v') l2) /\ said (s "desc") (PStr (s "new")) = Ok (PStr (s "new")).
Proof.
  exists (firstn 5 wprogram), (firstn 5 wlprogram), (skipn 6 wprogram), (skipn 6 wlprogram). split; [reflexivity|]. split; [reflexivity|]. split; [reflexivity|]. split; [vm_compute; reflexivity|]. split; [|reflexivity].
  intros v' H. cbn [skipn wprogram In] in H. repeat destruct H as [H|H]; try discriminate H. exact H.
Qed.
