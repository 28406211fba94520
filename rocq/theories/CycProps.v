(** Property C43, also for layers put into themselves *)
From Coq Require Import Permutation Lia.
From Verif Require Import LayModel DocProofs DocProofs2 LaySpec LayProofs LayProofs2 LayProofs3 LayProofs4 LayProofs7 LayProps CycModel.
Local Open Scope N_scope.

Lemma within_spec F kd g l : within F kd g l = true <-> exists n t c, fget g F = Some n /\ fget l F = Some t /\ kd <> KPlain /\ canvas_of kd n = Ok c /\ In (iuid c) (uids t).
Proof.
  unfold within. split.
  - destruct (fget g F) as [n|]; [|discriminate]. destruct (fget l F) as [t|]; [|discriminate]. destruct kd; [| |discriminate].
    all: destruct (canvas_of _ n) as [c|e] eqn:E; [|discriminate]; intros H; apply existsb_exists in H as (u & Hu & Eu); apply N.eqb_eq in Eu; subst u; exists n, t, c; repeat split; auto; discriminate.
  - intros (n & t & c & -> & -> & Hk & E & H). destruct kd; [| |congruence]. all: rewrite E; apply existsb_exists; exists (iuid c); split; [exact H|apply N.eqb_refl].
Qed.

(** ** C43 for every layer and group *)

(** The layer is the group it is put into, or has it inside it. *)
Theorem C43_within : forall F kd g l n t c, wf F -> fget g F = Some n -> kd <> KPlain -> canvas_of kd n = Ok c -> fget l F = Some t -> In g (uids t) -> within F kd g l = true.
Proof.
  intros F kd g l n t c W Hg Hk Hc Hl H. apply within_spec. exists n, t, c. repeat (split; [assumption|]).
  pose proof (fget_In _ _ _ Hg) as (_ & Eg & Tn). pose proof (fget_In _ _ _ Hl) as (Dt & _ & Tt).
  assert (Nt : NoDup (uids t)) by now apply (NoDup_inside F).
  assert (Pn : n = t \/ In n (idesc t)).
  { destruct t as [|u nm a k]; [discriminate|]. rewrite uids_IE in H. destruct H as [E|H].
    - left. subst u. pose proof (fget_desc F _ W Dt) as X. cbn [iuid] in X. rewrite Hg in X. now injection X.
    - right. rewrite <- uids_desc in H. apply in_map_iff in H as (y & Ey & Hy). rewrite idesc_IE.
      assert (D : In y (fdesc F)) by (eapply desc_trans; [exact Dt|now rewrite idesc_IE]). apply (fget_desc F y W) in D. rewrite Ey, Hg in D. injection D as <-. exact Hy. }
  assert (Pc : c = t \/ In c (idesc t)).
  { destruct (canvas_desc kd n c Tn Hc) as [->|Hd]; [exact Pn|]. right. destruct Pn as [<-|Pn]; [exact Hd|]. eapply idesc_trans; eauto. }
  destruct t as [|u nm a k]; [discriminate|]. rewrite uids_IE. destruct Pc as [->|Pc]; [now left|]. right. rewrite <- uids_desc. apply in_map. exact Pc.
Qed.
Print Assumptions C43_within.

(** Such a layer is lost: if the move returns without an exception, the document is without it and all that was in it, and otherwise as it was. *)
Theorem C43_lost : forall F m kd g t F', wf F -> (m = MAppend kd g (moved_layer m) \/ exists i, m = MInsert kd g i (moved_layer m)) -> fget (moved_layer m) F = Some t ->
  within F kd g (moved_layer m) = true -> move_any F m = Some (F', Ok tt) ->
  F' = fdel (moved_layer m) F /\ (forall u, In u (uids t) -> fget u F' = None) /\ Permutation (fuids F) (uids t ++ fuids F').
Proof.
  intros F m kd g t F' W Hm Hl Hw H. assert (E : F' = fdel (moved_layer m) F).
  { destruct Hm as [Em|(i & Em)]; rewrite Em in H; cbn [move_any] in H; rewrite Hw in H; apply within_spec in Hw as (n & t' & c & Hg & _ & Hk & Hc & _).
    - unfold append_within in H. rewrite Hg, Hc in H. destruct kd; [| |congruence].
      all: destruct (find is_layer (ikids c)); [destruct (_ =? _); [discriminate|]|destruct (_ =? _); [discriminate|]; destruct (way_out _ _ _); [|discriminate]]; now injection H.
    - unfold insert_within in H. rewrite Hg in H. destruct kd; [| |congruence].
      all: destruct (group_index _ n i) as [b|]; [|discriminate]; destruct (_ =? _); [discriminate|]; now injection H. }
  split; [exact E|]. subst F'. split; [|now apply fuids_fdel].
  intros u Hu. apply fget_None. now apply (fdel_disjoint _ F t).
Qed.
Print Assumptions C43_lost.

(** A group that has children takes it. *)
Theorem C43_lost_append : forall F kd g l n c t, wf F -> fget g F = Some n -> kd <> KPlain -> canvas_of kd n = Ok c -> fget l F = Some t ->
  In g (uids t) -> is_layer t = true -> layers_in c <> [] -> move_any F (MAppend kd g l) = Some (fdel l F, Ok tt).
Proof.
  intros F kd g l n c t W Hg Hk Hc Hl Hi Htl Hne. pose proof (C43_within F kd g l n t c W Hg Hk Hc Hl Hi) as Hw. cbn [move_any]. rewrite Hw.
  apply within_spec in Hw as (n0 & t0 & c0 & E1 & E2 & _ & E3 & Hcu). rewrite Hg in E1. injection E1 as <-. rewrite Hl in E2. injection E2 as <-. rewrite Hc in E3. injection E3 as <-.
  unfold append_within. rewrite Hg, Hc. destruct (canvas_known kd n c F g W Hg Hc) as (Hcf & Hct & Hcd).
  destruct (find is_layer (ikids c)) as [a|] eqn:Ef.
  - destruct (N.eqb_spec l (iuid a)) as [E|E]; [exfalso|now destruct kd].
    apply find_some in Ef as [Ia La]. assert (Da : In a (fdesc F)) by (apply (kid_desc F c); auto; now apply is_layer_tag). pose proof (fget_desc F a W Da) as Ga. rewrite <- E, Hl in Ga. injection Ga as <-.
    (* c would be inside its own child *)
    pose proof (NoDup_inside F c W Hcd) as Nc. destruct c as [|u nm x k]; [discriminate|]. cbn [ikids iuid] in *. rewrite uids_IE in Nc. inversion Nc as [|? ? N1 N2]; subst. apply N1.
    apply in_split in Ia as (k1 & k2 & ->). rewrite fuids_app. apply in_or_app. right. destruct t as [|v nm' x' k']; [discriminate|]. rewrite fuids_IE. rewrite uids_IE in Hcu. cbn in *. destruct Hcu as [->|Hcu]; [now left|]. right. apply in_or_app. now left.
  - exfalso. apply Hne. unfold layers_in. rewrite filter_none; [reflexivity|]. intros x Hx. now apply (find_none _ _ Ef).
Qed.
Print Assumptions C43_lost_append.
(** insert takes it at each index that can be used. *)
Theorem C43_lost_insert : forall F kd g l n ch t i, wf F -> fget g F = Some n -> kd <> KPlain -> children kd n = Ok ch -> fget l F = Some t ->
  In g (uids t) -> in_range i (length ch) -> move_any F (MInsert kd g i l) = Some (fdel l F, Ok tt).
Proof.
  intros F kd g l n ch t i W Hg Hk Hch Hl Hi Hr. destruct (children_canvas kd n ch Hch Hk) as (c & Hc & -> & _).
  pose proof (C43_within F kd g l n t c W Hg Hk Hc Hl Hi) as Hw. cbn [move_any]. rewrite Hw.
  apply within_spec in Hw as (n0 & t0 & c0 & E1 & E2 & _ & E3 & Hcu). rewrite Hg in E1. injection E1 as <-. rewrite Hl in E2. injection E2 as <-. rewrite Hc in E3. injection E3 as <-.
  unfold insert_within, group_index. rewrite Hg, Hch. cbn [bind]. destruct (canvas_known kd n c F g W Hg Hc) as (Hcf & Hct & Hcd).
  destruct (py_index_in _ i Hr) as (b & -> & Hb). apply nth_error_In in Hb. unfold layers_in in Hb. apply in_rev in Hb. apply filter_In in Hb as [Ib Lb].
  destruct (N.eqb_spec l (iuid b)) as [E|E]; [exfalso|now destruct kd].
  assert (Da : In b (fdesc F)) by (apply (kid_desc F c); auto; now apply is_layer_tag). pose proof (fget_desc F b W Da) as Ga. rewrite <- E, Hl in Ga. injection Ga as <-.
  pose proof (NoDup_inside F c W Hcd) as Nc. destruct c as [|u nm x k]; [discriminate|]. cbn [ikids iuid] in *. rewrite uids_IE in Nc. inversion Nc as [|? ? N1 N2]; subst. apply N1.
  apply in_split in Ib as (k1 & k2 & ->). rewrite fuids_app. apply in_or_app. right. destruct t as [|v nm' x' k']; [discriminate|]. rewrite fuids_IE. rewrite uids_IE in Hcu. cbn in *. destruct Hcu as [->|Hcu]; [now left|]. right. apply in_or_app. now left.
Qed.
Print Assumptions C43_lost_insert.

Lemma append_modelled F kd g l n t c : wf F -> fget g F = Some n -> canvas_of kd n = Ok c -> fget l F = Some t -> is_layer t = true -> ~ In (iuid c) (uids t) ->
  snd (group_append F kd g l) <> Err EUnmodelled.
Proof.
  intros W Hg Hc Hl Htl Ho. destruct (canvas_known kd n c F g W Hg Hc) as (Hcf & Hct & Hcd).
  assert (P : forall F0 i, snd (put_in F0 (fdel l F) (iuid c) i t) <> Err EUnmodelled).
  { intros F0 i. unfold put_in. rewrite (fget_fdel l F t (iuid c) W Hl Ho), Hcf. discriminate. }
  assert (X : snd (match find is_layer (ikids c) with None => tag_append F (iuid c) l | Some a => insert_before F (iuid a) l end) <> Err EUnmodelled).
  { destruct (find is_layer (ikids c)) as [a|] eqn:Ef.
    - apply find_some in Ef as [Ia La]. pose proof (is_layer_tag _ La) as Ta. unfold insert_before, insert_beside. rewrite (child_parent F (iuid c) c a W Hcf Ia Ta).
      destruct c as [|cu cn ca ck]; [discriminate|]. cbn [iuid ikids] in *. destruct (N.eqb_spec l (iuid a)) as [|Hne]; [discriminate|]. rewrite Hl.
      rewrite (fget_fdel l F t cu W Hl Ho), Hcf. cbn [option_map].
      destruct (index_of (iuid a) (ikids (idel l (IE cu cn ca ck)))) as [j|] eqn:Ei; [apply P|exfalso].
      rewrite idel_kids in Ei. cbn [ikids] in Ei. revert Ei. assert (I : In (idel l a) (fdel l ck)).
      { rewrite fdel_map. apply in_map, filter_In. split; [exact Ia|]. destruct (is_ l a) eqn:E; [apply is_spec in E as [_ E]; congruence|reflexivity]. }
      assert (S : is_ (iuid a) (idel l a) = true) by (rewrite idel_is; now apply is_self). revert I S. generalize (idel l a) (fdel l ck) (iuid a). clear. intros b k u I S.
      induction k as [|y k IH]; [destruct I|]. cbn [index_of]. destruct (is_ u y) eqn:E; [discriminate|]. destruct I as [->|I]; [congruence|]. destruct (index_of u k); [discriminate|]. intros _. now apply IH.
    - unfold tag_append. rewrite Hcf. unfold tag_insert. destruct (l =? iuid c); [discriminate|]. rewrite Hl, Hcf. apply P. }
  unfold group_append. rewrite Hg, Hc. destruct kd; [exact X|exact X|discriminate].
Qed.

(** Nothing is left out now: append and insert of a layer of the document in a group of it are modelled, whatever they are. *)
Theorem C43_all_modelled : forall F kd g l n t ch, wf F -> fget g F = Some n -> children kd n = Ok ch -> fget l F = Some t -> is_layer t = true -> known t ->
  (forall F', move_any F (MAppend kd g l) <> Some (F', Err EUnmodelled)) /\ forall i F', move_any F (MInsert kd g i l) <> Some (F', Err EUnmodelled).
Proof.
  intros F kd g l n t ch W Hg Hch Hl Htl Htk.
  assert (Kd : kd = KPlain \/ kd <> KPlain) by (destruct kd; auto; right; discriminate). destruct Kd as [->|Hk].
  { cbn [move_any]. unfold within. rewrite Hg, Hl. cbn [group_append group_insert]. split; intros; discriminate. }
  destruct (children_canvas kd n ch Hch Hk) as (c & Hc & Ech & HK).
  assert (X : within F kd g l = false -> ~ In (iuid c) (uids t)).
  { intros Hw H. assert (within F kd g l = true) by (apply within_spec; exists n, t, c; auto). congruence. }
  cbn [move_any]. destruct (within F kd g l) eqn:Hw; split.
  - intros F'. unfold append_within. rewrite Hg, Hc. destruct kd; [| |congruence].
    all: destruct (find is_layer (ikids c)) as [a|]; [destruct (l =? _); discriminate|destruct (l =? _); [discriminate|]; destruct (way_out _ _ _); discriminate].
  - intros i F'. unfold insert_within, group_index. rewrite Hg, Hch. cbn [bind]. assert (Y : py_index ch i <> Err EUnmodelled).
    { unfold py_index. destruct (_ <? 0)%Z; [discriminate|]. destruct (nth_error _ _); discriminate. }
    destruct kd; [| |congruence]. all: destruct (py_index ch i) as [b|e]; [destruct (l =? _); discriminate|]; intros [= _ E]; apply Y; now rewrite E.
  - intros F' [= E]. apply (append_modelled F kd g l n t c W Hg Hc Hl Htl (X eq_refl)). now rewrite E.
  - intros i F' [= E]. destruct (py_index ch i) as [b|e] eqn:Ei.
    + destruct (insert_is F kd g l n t ch i b W Hg Hk Hch Hl Htl Htk Ei) as [(_ & F1 & E1 & _)|[(F1 & E1 & _ & _ & _ & c' & Hc' & Hx)|(_ & F1 & n' & ch' & E1 & _)]]; [rewrite E1 in E; discriminate| |rewrite E1 in E; discriminate].
      rewrite Hc in Hc'. injection Hc' as <-. now apply (X eq_refl).
    + unfold group_insert, group_index in E. rewrite Hg, Hch in E. cbn [bind] in E. rewrite Ei in E. unfold py_index in Ei. revert E.
      destruct (_ <? 0)%Z in Ei; [|destruct (nth_error _ _) in Ei; [discriminate|]]; injection Ei as <-; destruct kd; try congruence; discriminate.
Qed.
Print Assumptions C43_all_modelled.

(** Over a history of moves, however many: each tag is there at most once, and with its name and attributes. Those that are gone were in layers
    that were put into themselves; without such moves, all are there. *)
Fixpoint none_within (F : forest) (ms : list move) : Prop :=
  match ms with
  | [] => True
  | m :: ms' => match m with MAppend kd g l | MInsert kd g _ l => within F kd g l = false end /\ none_within (do_move F m) ms'
  end.
Theorem C43_history : forall ms F F', wf F -> moves_any F ms = Some F' ->
  wf F' /\ (forall u n', fget u F' = Some n' -> exists n, fget u F = Some n /\ iname n' = iname n /\ iattrs n' = iattrs n) /\
  (none_within F ms -> F' = fold_left do_move ms F /\ Permutation (fuids F') (fuids F)).
Proof.
  assert (K : forall F G, keeps F G -> wf F -> wf G /\ (forall u n', fget u G = Some n' -> exists n, fget u F = Some n /\ iname n' = iname n /\ iattrs n' = iattrs n)).
  { intros F G H W. destruct (H W) as (W' & P & R). split; [exact W'|]. intros u n' Hu. destruct (fget u F) as [n|] eqn:E.
    - destruct (R u n E) as (n1 & E1 & X & Y). rewrite E1 in Hu. injection Hu as <-. now exists n.
    - exfalso. apply fget_None in E. apply E. apply (Permutation_in _ P). now apply fget_uids in Hu. }
  assert (D : forall F l, wf F -> wf (fdel l F) /\ (forall u n', fget u (fdel l F) = Some n' -> exists n, fget u F = Some n /\ iname n' = iname n /\ iattrs n' = iattrs n)).
  { intros F l W. split; [now apply fdel_NoDup|]. intros u n' Hu. destruct (fget l F) as [t|] eqn:E.
    - assert (Ho : ~ In u (uids t)). { intros X. apply (fdel_disjoint l F t u W E X). now apply fget_uids in Hu. }
      rewrite (fget_fdel l F t u W E Ho) in Hu. destruct (fget u F) as [n|]; [|discriminate]. injection Hu as <-. exists n. split; [reflexivity|]. split; [apply idel_name|apply idel_attrs].
    - apply fget_None in E. rewrite fdel_notin in Hu by exact E. now exists n'. }
  induction ms as [|m ms IH]; intros F F' W H; cbn [moves_any] in H.
  - injection H as <-. split; [exact W|]. split; [intros u n' Hu; now exists n'|]. intros _. now split.
  - destruct (move_any F m) as [[F1 r]|] eqn:E; [|discriminate].
    assert (S : wf F1 /\ (forall u n', fget u F1 = Some n' -> exists n, fget u F = Some n /\ iname n' = iname n /\ iattrs n' = iattrs n)).
    { destruct m as [kd g l|kd g i l]; cbn [move_any] in E; destruct (within F kd g l).
      - unfold append_within in E. destruct kd; [| |injection E as <- _; exact (K F F (keeps_refl F) W)].
        all: destruct (fget g F) as [n|]; [|injection E as <- _; exact (K F F (keeps_refl F) W)]; destruct (canvas_of _ n) as [c|]; [|injection E as <- _; exact (K F F (keeps_refl F) W)].
        all: destruct (find is_layer (ikids c)); (destruct (l =? _); [injection E as <- _; exact (K F F (keeps_refl F) W)|]).
        all: try (destruct (way_out _ _ _); [|discriminate]). all: injection E as <- _; exact (D F l W).
      - injection E as E. apply K; [|exact W]. replace F1 with (do_move F (MAppend kd g l)) by (unfold do_move; cbn [try_move]; now rewrite E). apply keeps_do_move.
      - unfold insert_within in E. destruct kd; [| |injection E as <- _; exact (K F F (keeps_refl F) W)].
        all: destruct (fget g F) as [n|]; [|injection E as <- _; exact (K F F (keeps_refl F) W)]; destruct (group_index _ n i) as [b|]; [|injection E as <- _; exact (K F F (keeps_refl F) W)].
        all: destruct (l =? _); injection E as <- _; [exact (K F _ (keeps_text_after F _ _) W)|exact (D F l W)].
      - injection E as E. apply K; [|exact W]. replace F1 with (do_move F (MInsert kd g i l)) by (unfold do_move; cbn [try_move]; now rewrite E). apply keeps_do_move. }
    destruct S as [W1 R1]. destruct (IH F1 F' W1 H) as (W' & R & N). split; [exact W'|]. split.
    { intros u n' Hu. destruct (R u n' Hu) as (n1 & E1 & X & Y). destruct (R1 u n1 E1) as (n & E0 & X0 & Y0). exists n. split; [exact E0|]. split; congruence. }
    intros [Nw Ns]. assert (E1 : F1 = do_move F m).
    { unfold do_move. destruct m as [kd g l|kd g i l]; cbn [move_any try_move] in *; rewrite Nw in E; injection E as E; now rewrite E. }
    rewrite <- E1 in Ns. destruct (N Ns) as [E2 P]. cbn [fold_left]. rewrite <- E1. split; [exact E2|]. rewrite P, E1. now destruct (keeps_do_move F m W) as (_ & P1 & _).
Qed.
Print Assumptions C43_history.

(** C43 is false without the restriction: the group 10 appended to the group 30 inside it is gone from the document, with all that was in it, and nothing is raised. *)
Theorem C43_refuted : exists F kd g l t n ch, wf F /\ fget l F = Some t /\ is_layer t = true /\ known t /\ fget g F = Some n /\ children kd n = Ok ch /\
  exists F', move_any F (MAppend kd g l) = Some (F', Ok tt) /\ fget l F' = None /\ fget g F' = None /\ (length (fuids F') < length (fuids F))%nat.
Proof.
  exists xforest, KGroup, 30, 10, xgroup10, xinner, (match children KGroup xinner with Ok c => c | Err _ => [] end). split; [exact xforest_wf|]. split; [vm_compute; reflexivity|]. split; [reflexivity|].
  split; [eexists; vm_compute; reflexivity|]. split; [vm_compute; reflexivity|]. split; [vm_compute; reflexivity|].
  exists (fdel 10 xforest). split; [vm_compute; reflexivity|]. split; [vm_compute; reflexivity|]. split; [vm_compute; reflexivity|]. apply Nat.ltb_lt. vm_compute. reflexivity.
Qed.
Print Assumptions C43_refuted.
(** An empty group that is appended to itself doesn't come back at all, if there is no white space in it. *)
Theorem C43_hangs_refuted : exists F g t, wf F /\ fget g F = Some t /\ is_layer t = true /\ known t /\ children KGroup t = Ok [] /\ move_any F (MAppend KGroup g g) = None.
Proof.
  exists [IE 0 (s "canvas") [] [xgroup 10 []; IT nl]], 10, (xgroup 10 []). split; [unfold wf; vm_compute; repeat constructor; cbn; lia|]. split; [reflexivity|]. split; [reflexivity|].
  split; [eexists; vm_compute; reflexivity|]. split; vm_compute; reflexivity.
Qed.
Print Assumptions C43_hangs_refuted.
Example C43_within_nonvacuous : wf xforest /\ fget 30 xforest = Some xinner /\ In 30 (uids xgroup10) /\ within xforest KGroup 30 10 = true /\ within xforest KGroup 10 30 = false /\
  move_any xforest (MInsert KGroup 30 0 10) = Some (fdel 10 xforest, Ok tt) /\ move_any xforest (MAppend KGroup 50 50) = Some (fdel 50 xforest, Ok tt) /\
  (exists F', moves_any xforest [MAppend KGroup 10 1; MAppend KGroup 30 10; MAppend KAnim 0 100; MInsert KGroup 10 0 70] = Some F' /\ fuids F' = [0; 100; 101; 102; 70; 71; 72]).
Proof.
  split; [exact xforest_wf|]. split; [vm_compute; reflexivity|]. split; [vm_compute; tauto|]. split; [vm_compute; reflexivity|]. split; [vm_compute; reflexivity|]. split; [vm_compute; reflexivity|]. split; [vm_compute; reflexivity|].
  eexists. split; [vm_compute; reflexivity|vm_compute; reflexivity].
Qed.
