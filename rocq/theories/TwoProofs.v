(** Moving layers between animations *)
From Coq Require Import Permutation Lia.
From Verif Require Import AnimModel AnimSpec AnimProofs3 AnimProofs5 LayModel DocProofs DocProofs2 LaySpec LayProofs LayProofs2 LayProofs3 LayProofs4 LayProofs6 LayProofs7 MovProofs TwoSpec.
Local Open Scope N_scope.

Lemma anim_tag F r : animation F r -> itag r = true.
Proof. intros (d & _ & _ & _ & N). unfold named in N. now apply andb_prop in N. Qed.
Lemma anim_name F r : animation F r -> iname r = s "canvas".
Proof. intros (d & _ & _ & _ & N). unfold named in N. apply andb_prop in N as [_ N]. now apply pstr_eqb_spec. Qed.

Lemma anim_anc F r : wf F -> animation F r -> exists d, In d F /\ fanc (iuid r) F = Some [d] /\ fget (iuid r) F = Some r /\ In r (fdesc F).
Proof.
  intros W (d & Hd & Ht & Hk & Hn). destruct (top_anc F d W Hd Ht) as [E Hi].
  assert (Tr : itag r = true) by (unfold named in Hn; now apply andb_prop in Hn).
  destruct (child_anc F (iuid d) d r W (fget_desc F d W Hi) Hk Tr) as (l & E1 & E2). rewrite E in E1. injection E1 as <-.
  exists d. split; [exact Hd|]. split; [exact E2|]. assert (In r (fdesc F)) by now apply (kid_desc F d). split; [now apply fget_desc|assumption].
Qed.

Lemma anim_tail F r x : wf F -> animation F r -> part_of x r -> exists l1 l d, fget (iuid x) F = Some x /\ fanc (iuid x) F = Some l /\ x :: l = l1 ++ [r; d].
Proof.
  intros W A P. destruct (anim_anc F r W A) as (d & Hd & E1 & E2 & Hin). destruct P as [->|Hx].
  - exists [], [d], d. now split.
  - assert (HxF : In x (fdesc F)) by now apply desc_trans with r.
    destruct (fanc_ex (iuid x) F) as (l & El). { rewrite <- uids_desc. now apply in_map. }
    assert (Hl : In r l). { apply (anc_iff (iuid x) F l r W El). split; [exact Hin|]. rewrite <- uids_desc. apply in_map. rewrite <- idesc_kids; [exact Hx|now apply (anim_tag F)]. }
    apply in_split in Hl as (l1 & r' & ->). destruct (anc_suffix _ _ _ _ _ W El) as [E3 _]. rewrite E1 in E3. injection E3 as <-.
    exists (x :: l1), (l1 ++ [r; d]), d. split; [now apply fget_desc|]. split; [exact El|reflexivity].
Qed.

Lemma anim_ctx F r x : wf F -> animation F r -> part_of x r -> ctx_of F (iuid x) = Some (iattrs r).
Proof.
  intros W A P. destruct (anim_tail F r x W A P) as (l1 & l & d & E1 & E2 & E3).
  pose proof (anim_tag F r A) as T. pose proof (anim_name F r A) as N. destruct (forget_attrs r T) as [Fa Fn].
  unfold ctx_of. rewrite E1, E2. destruct l1 as [|y l1]; cbn [app] in E3.
  - injection E3 as -> ->. unfold canvas_root. cbn [map]. rewrite Fn, N, pstr_eqb_refl. cbn [option_map]. now rewrite Fa.
  - injection E3 as -> ->. unfold canvas_root. rewrite map_app. cbn [map].
    assert (G : forall (m : list node) a b (y : node), match m ++ [a; b] with [] => None | [_] => Some y | _ :: _ :: _ => nth_error (m ++ [a; b]) (length (m ++ [a; b]) - 2) end = Some a).
    { clear. intros m a b y. assert (E : nth_error (m ++ [a; b]) (length (m ++ [a; b]) - 2) = Some a).
      { rewrite app_length. cbn [length]. replace (length m + 2 - 2)%nat with (length m) by lia. rewrite nth_error_app2 by lia. now rewrite Nat.sub_diag. }
      rewrite E. destruct m as [|c [|? ?]]; reflexivity. }
    rewrite G, Fn, N, pstr_eqb_refl. cbn [option_map]. now rewrite Fa.
Qed.

(** No tag is in two animations. *)
Lemma anim_one F r r' x x' : wf F -> animation F r -> animation F r' -> part_of x r -> part_of x' r' -> iuid x = iuid x' -> r = r'.
Proof.
  intros W A A' P P' E. destruct (anim_tail F r x W A P) as (l1 & l & d & E1 & E2 & E3). destruct (anim_tail F r' x' W A' P') as (l1' & l' & d' & E1' & E2' & E3').
  rewrite <- E in E1', E2'. rewrite E1 in E1'. injection E1' as ->. rewrite E2 in E2'. injection E2' as ->. rewrite E3 in E3'.
  change [r; d] with ([r] ++ [d]) in E3'. change [r'; d'] with ([r'] ++ [d']) in E3'. rewrite !app_assoc in E3'. apply app_inj_tail in E3' as [E3' _]. now apply app_inj_tail in E3'.
Qed.

Lemma part_uid x r : itag r = true -> part_of x r -> In (iuid x) (uids r).
Proof. intros T [->|H]; destruct r as [|u nm a k]; try discriminate; [now left|]. rewrite uids_IE. right. rewrite <- uids_desc. apply in_map. exact H. Qed.
Lemma uid_part u r : itag r = true -> In u (uids r) -> exists x, part_of x r /\ iuid x = u.
Proof.
  intros T H. destruct r as [|v nm a k]; [discriminate|]. rewrite uids_IE in H. destruct H as [<-|H]; [eexists; split; [now left|reflexivity]|].
  rewrite <- uids_desc in H. apply in_map_iff in H as (x & E & H). exists x. split; [now right|exact E].
Qed.

Lemma squeeze_kid x n : In x (ikids n) -> itag x = true -> In (squeeze x) (ikids (squeeze n)).
Proof. intros H T. destruct n as [|u nm a k]; [destruct H|]. cbn [squeeze ikids] in *. apply in_flat_map. exists x. split; [exact H|]. destruct x; [discriminate|]. now left. Qed.
Lemma kid_squeeze y n : In y (ikids (squeeze n)) -> exists x, In x (ikids n) /\ squeeze x = y.
Proof. destruct n as [|u nm a k]; [intros []|]. cbn [squeeze ikids]. intros H. apply in_flat_map in H as (x & H & Hy). destruct (blank x); [destruct Hy|]. destruct Hy as [<-|[]]. now exists x. Qed.
Lemma squeeze_shape n m : squeeze n = squeeze m -> iuid n = iuid m /\ iname n = iname m /\ iattrs n = iattrs m /\ itag n = itag m.
Proof. destruct n, m; cbn [squeeze iuid iname iattrs itag]; intros E; try discriminate; injection E; intros; subst; auto. Qed.
Lemma squeeze_fuids (k : forest) : fuids (flat_map (fun c => if blank c then [] else [squeeze c]) k) = fuids k.
Proof.
  induction k as [|y F IH|u nm a k F IHk IH] using forest_ind; [reflexivity| |].
  - cbn [flat_map]. rewrite fuids_IT. destruct (blank (IT y)); cbn [app]; [exact IH|]. cbn [squeeze]. now rewrite fuids_IT.
  - cbn [flat_map blank app squeeze]. rewrite !fuids_IE. now rewrite IHk, IH.
Qed.
Lemma squeeze_uids n : uids (squeeze n) = uids n.
Proof. destruct n as [|u nm a k]; [reflexivity|]. cbn [squeeze]. rewrite !uids_IE. now rewrite squeeze_fuids. Qed.

Lemma anim_kept F F' l A : wf F -> same_but_space (fdel l F) (fdel l F') -> animation F A -> (forall d, In d F -> is_ l d = false) -> is_ l A = false ->
  exists A', animation F' A' /\ squeeze (idel l A') = squeeze (idel l A).
Proof.
  intros W S (d & Hd & Td & Hk & Hn) Hl HA.
  assert (I : In (squeeze (idel l d)) (map squeeze (fdel l F'))).
  { rewrite <- S. apply in_map. rewrite fdel_map. apply in_map, filter_In. split; [exact Hd|]. now rewrite (Hl d Hd). }
  apply in_map_iff in I as (e & Ee & He). rewrite fdel_map in He. apply in_map_iff in He as (d' & <- & He). apply filter_In in He as [He _].
  assert (K : In (squeeze (idel l A)) (ikids (squeeze (idel l d')))).
  { rewrite Ee. apply squeeze_kid; [|rewrite idel_tag; unfold named in Hn; now apply andb_prop in Hn]. rewrite idel_kids, fdel_map. apply in_map, filter_In. split; [exact Hk|]. now rewrite HA. }
  apply kid_squeeze in K as (y & Hy & E). rewrite idel_kids, fdel_map in Hy. apply in_map_iff in Hy as (A' & <- & Hy). apply filter_In in Hy as [Hy _].
  exists A'. split; [|exact E]. exists d'. split; [exact He|]. destruct (squeeze_shape _ _ Ee) as (_ & _ & _ & T). rewrite !idel_tag in T. split; [now rewrite T|]. split; [exact Hy|].
  destruct (squeeze_shape _ _ E) as (_ & N & _ & TA). rewrite !idel_name in N. rewrite !idel_tag in TA. unfold named in *. now rewrite N, TA.
Qed.

Lemma tag_kid_desc x (k : forest) : In x k -> itag x = true -> In x (fdesc k).
Proof. intros H T. apply in_split in H as (k1 & k2 & ->). rewrite fdesc_app. apply in_or_app. right. destruct x; [discriminate|]. rewrite fdesc_IE. now left. Qed.

(** A layer that is moved into another animation *)
Lemma moved_over F A B m l t n ch F' : wf F -> animation F A -> animation F B -> A <> B ->
  moved_layer m = l -> fget l F = Some t -> is_layer t = true -> known t -> part_of t A ->
  fget (snd (into m)) F = Some n -> part_of n B -> children (fst (into m)) n = Ok ch -> try_move F m = (F', Ok tt) ->
  wf F' /\ fget l F' = Some t /\ exists A' B', animation F' A' /\ animation F' B' /\ A' <> B' /\ part_of t B' /\
    squeeze A' = squeeze (idel l A) /\ squeeze (idel l B') = squeeze B.
Proof.
  intros W HA HB Hne Hm Hl Htl Htk PA Hg PB Hch H.
  pose proof (anim_tag F A HA) as TA. pose proof (anim_tag F B HB) as TB. pose proof (fget_In _ _ _ Hl) as (Ht & Hu & Tt).
  assert (M : wf F' /\ same_but_space (fdel l F) (fdel l F') /\ fget l F' = Some t /\ exists n' ch', fget (snd (into m)) F' = Some n' /\ children (fst (into m)) n' = Ok ch' /\ In l (ids ch') /\ fst (into m) <> KPlain).
  { destruct m as [kd g l0|kd g i l0]; cbn [moved_layer into fst snd try_move] in *; subst l0.
    - assert (Hk : kd <> KPlain) by (intros ->; discriminate H).
      destruct (append_ok F kd g l n t ch F' W Hg Hk Hch Hl Htl Htk H) as (W' & _ & D & G & n' & c' & E1 & E2 & E3).
      split; [exact W'|]. split; [unfold same_but_space; now rewrite D|]. split; [now rewrite G|]. exists n', c'. repeat (split; [assumption|]). split; [rewrite E3; apply in_or_app; right; now left|exact Hk].
    - assert (Hk : kd <> KPlain) by (intros ->; discriminate H).
      destruct (py_index ch i) as [b|e] eqn:Ei; [|unfold group_insert, group_index in H; rewrite Hg, Hch in H; cbn [bind] in H; rewrite Ei in H; now destruct kd].
      destruct (insert_is F kd g l n t ch i b W Hg Hk Hch Hl Htl Htk Ei) as [(_ & F1 & E & _)|[(F1 & E & _)|(_ & F1 & n' & ch' & E & W' & _ & D & G & E1 & E2 & X & Y & _ & E3)]]; rewrite E in H; try discriminate.
      injection H as <-. split; [exact W'|]. split; [exact D|]. split; [now rewrite G|]. exists n', ch'. repeat (split; [assumption|]). split; [rewrite E3; apply in_or_app; right; now left|exact Hk]. }
  destruct M as (W' & S & Hl' & n' & ch' & Hg' & Hch' & Hi & Hk). split; [exact W'|]. split; [exact Hl'|].
  assert (NA : forall r, animation F r -> is_ l r = false).
  { intros r Hr. destruct (is_ l r) eqn:E; [|reflexivity]. apply is_spec in E as [_ E]. destruct (anim_anc F r W Hr) as (_ & _ & _ & E2 & _). rewrite E, Hl in E2. injection E2 as ->.
    apply anim_name in Hr. unfold is_layer, named in Htl. rewrite Hr in Htl. now rewrite Bool.andb_comm in Htl. }
  assert (ND : forall d, In d F -> is_ l d = false).
  { intros d Hd. destruct (is_ l d) eqn:E; [|reflexivity]. apply is_spec in E as [T E]. destruct (top_anc F d W Hd T) as [X _]. rewrite E in X.
    destruct (anim_tail F A t W HA PA) as (l1 & l0 & d0 & _ & E2 & E3). rewrite Hu, X in E2. injection E2 as <-. now destruct l1 as [|? [|? ?]]. }
  destruct (anim_kept F F' l A W S HA ND (NA A HA)) as (A' & HA' & EA). destruct (anim_kept F F' l B W S HB ND (NA B HB)) as (B' & HB' & EB).
  assert (OB : ~ In l (uids B)).
  { intros X. destruct (uid_part l B TB X) as (x & Px & Ex). apply Hne. apply (anim_one F A B t x W HA HB PA Px). now rewrite Hu. }
  assert (EB' : squeeze (idel l B') = squeeze B).
  { rewrite EB, idel_notin; [reflexivity|]. intros X. apply OB. destruct B; [discriminate|]. rewrite uids_IE. now right. }
  assert (PB' : part_of t B').
  { pose proof (fget_In _ _ _ Hg) as (_ & Eg & _). assert (X : In (snd (into m)) (uids (idel l B'))). { rewrite <- squeeze_uids, EB', squeeze_uids, <- Eg. now apply part_uid. }
    apply uids_idel in X. destruct (uid_part _ _ (anim_tag F' B' HB') X) as (x & Px & Ex).
    assert (x = n') as ->. { destruct (anim_tail F' B' x W' HB' Px) as (_ & _ & _ & E & _). rewrite Ex, Hg' in E. now injection E. }
    destruct (children_canvas _ n' ch' Hch' Hk) as (c & Hc & -> & _). destruct (canvas_known _ n' c F' _ W' Hg' Hc) as (Hcf & Hct & Hcd).
    apply in_map_iff in Hi as (t' & Et & Hi). unfold layers_in in Hi. apply in_rev in Hi. apply filter_In in Hi as [Hi Hlt].
    assert (t' = t) as ->. { assert (D : In t' (fdesc F')) by (apply (kid_desc F' c); [assumption|assumption|exact (is_layer_tag _ Hlt)]). apply (fget_desc F' t' W') in D. rewrite Et, Hl' in D. now injection D. }
    pose proof (fget_tag _ _ _ Hg') as Tn. right.
    assert (Q : In t (fdesc (ikids n'))).
    { destruct (canvas_desc _ _ _ Tn Hc) as [->|Hd]; [apply tag_kid_desc; assumption|]. rewrite idesc_kids in Hd by exact Tn. now apply (kid_desc _ c). }
    rewrite <- idesc_kids in Q by exact Tn. destruct Px as [->|Px]; [exact Q|]. rewrite (idesc_kids B') in Px |- * by exact (anim_tag F' B' HB'). now apply desc_trans with n'. }
  exists A', B'. split; [exact HA'|]. split; [exact HB'|].
  assert (Ne : A' <> B'). { intros ->. apply Hne. destruct (squeeze_shape _ _ EA) as (U1 & _). destruct (squeeze_shape _ _ EB) as (U2 & _). rewrite !idel_uid in U1, U2. rewrite U1 in U2. apply (anim_one F A B A B W HA HB); [now left|now left|exact U2]. }
  split; [exact Ne|]. split; [exact PB'|]. split; [|exact EB'].
  rewrite <- EA, idel_notin; [reflexivity|]. intros X. apply Ne. pose proof (anim_tag F' A' HA') as TA'. destruct (uid_part l A' TA') as (x & Px & Ex); [destruct A'; [discriminate|]; rewrite uids_IE; now right|].
  apply (anim_one F' A' B' x t W' HA' HB' Px PB'). now rewrite Ex.
Qed.
