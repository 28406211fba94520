(** The history of one variable, and timelines. *)
From Coq Require Import Lia Lqa.
From Verif Require Import TlModel TlSpec TlProofs TlProofs2 TlProofs3 TlProofs4 ValProofs LayProofs6.
From Verif Require Import AnimModel LayModel LaySpec VarSpec LoopModel MovSpec MixSpec WrSpec WrProofs PrmSpec PrmProofs PrmProofs2.
Local Open Scope N_scope.

Lemma history_is q l : forall h (st : vstore) t, st q = Some t -> snd (fst (list_acts (h, st) l)) q = Some (history q l t).
Proof.
  assert (X : forall st q' f, fst (on_var st q' f) q = match st q with Some t => Some (if q' =? q then fst (f t) else t) | None => None end).
  { intros st q' f. unfold on_var. destruct (st q') as [t|] eqn:E; [destruct (f t) as [m r] eqn:Ef; cbn [fst]; unfold vput; rewrite (N.eqb_sym q q')|]; destruct (N.eqb_spec q' q) as [->|_]; cbn [fst].
    - rewrite E, Ef. reflexivity.
    - now destruct (st q).
    - now rewrite E.
    - now destruct (st q). }
  induction l as [|[m|q' how v|q' cx e] l IH]; intros h st t H; [exact H| | |]; cbn [list_acts list_act history].
  - destruct (list_move h m) as [h1 r]. specialize (IH h1 st t H). destruct (list_acts (h1, st) l). exact IH.
  - specialize (X st q' (fun t => val_assign t how v)). destruct (on_var st q' (fun t => val_assign t how v)) as [st1 r]. cbn [fst] in X. rewrite H in X. specialize (IH h st1 _ X). destruct (list_acts (h, st1) l). exact IH.
  - specialize (X st q' (fun t => val_edit t cx e)). destruct (on_var st q' (fun t => val_edit t cx e)) as [st1 r]. cbn [fst] in X. rewrite H in X. specialize (IH h st1 _ X). destruct (list_acts (h, st1) l). exact IH.
Qed.

(** ** Classes *)

(** The class, without looking inside *)
Definition typed_as (ty : pstr) (c : vcls) : Prop := from_name value_registry ty = Ok c.
Lemma from_tag_typed n ty : has_type n ty -> from_tag n = let* c := from_name value_registry ty in match c with VXY => vector_construct n | VTransformation => composite_construct n | _ => Ok c end.
Proof. intros [_ H]. unfold from_tag. destruct (is_animated n); [rewrite H|rewrite H]; reflexivity. Qed.
Lemma vector_class n c : vector_construct n = Ok c -> c = VXY.
Proof.
  unfold vector_construct. assert (X : forall l : list pstr, match l with [] => Err TypeError | k0 :: l0 => if forallb (fun k => pstr_eqb k (s "x") || pstr_eqb k (s "y")) (k0 :: l0) && existsb (pstr_eqb (s "x")) (k0 :: l0) && existsb (pstr_eqb (s "y")) (k0 :: l0) then Ok VXY else Err TypeError end = Ok c -> c = VXY).
  { intros [|a b]; [discriminate|]. destruct (_ && _); [congruence|discriminate]. }
  destruct (is_animated n); [|apply X]. destruct (first_child_tag n) as [w|]; [|congruence]. destruct (first_child_tag w); [apply X|discriminate].
Qed.
Lemma animated_vector n cx f l ty : timeline_is n cx f l -> has_type n ty -> is_animated n = true -> typed_as ty VXY -> vector_construct n = Ok VXY.
Proof.
  intros (_ & _ & Hv & Hl & _) [_ Ht] Ha Hty. rewrite Ha in Ht. unfold vector_construct. rewrite Ha. unfold first_child_tag.
  assert (Hw : waypoint_tags n = child_tags n) by (unfold waypoint_tags; now rewrite Ha). unfold tl_values, waypoints in Hv. rewrite Ht, Hw in Hv. destruct (child_tags n) as [|y ys]; [reflexivity|]. cbn [hd_error].
  apply bind_ok in Hv as (d & Hd & _). apply bind_ok in Hd as (ws & Hm & _). destruct (LayProofs6.mapM_In _ _ _ Hm y (or_introl eq_refl)) as (w & Ey & _).
  unfold wp_from_tag in Ey. destruct (negb _); [discriminate|]. destruct (aget (s "time") (tag_attrs y)) as [tv|]; [|discriminate]. apply bind_ok in Ey as (t & _ & Ey).
  destruct (child_tags y) as [|v [|]] eqn:Ec; try discriminate. destruct (is_animated v) eqn:Ev; [discriminate|]. destruct (negb _) eqn:En; [discriminate|]. apply bind_ok in Ey as (c & Ef & _). cbn [hd_error].
  apply negb_false_iff, pstr_eqb_spec in En. unfold from_tag in Ef. rewrite Ev, En in Ef. cbn [bind] in Ef. unfold typed_as in Hty. rewrite Hty in Ef. cbn [bind] in Ef. pose proof (vector_class v c Ef) as ->.
  unfold vector_construct in Ef. rewrite Ev in Ef. exact Ef.
Qed.
Lemma class_after c n cx f l ty : timeline_is n cx f l -> has_type n ty -> typed_as ty c -> c <> VTransformation -> (is_animated n = false -> from_tag n = Ok c) -> from_tag n = Ok c.
Proof.
  intros H Ht Hc Hn Hs. destruct (is_animated n) eqn:Ha; [|now apply Hs]. rewrite (from_tag_typed n ty Ht). unfold typed_as in Hc. rewrite Hc. cbn [bind]. destruct c; try reflexivity; [|congruence].
  now apply (animated_vector n cx f l ty).
Qed.
Lemma class_typed n ty c : has_type n ty -> from_tag n = Ok c -> typed_as ty c.
Proof.
  intros Ht H. rewrite (from_tag_typed n ty Ht) in H. unfold typed_as. destruct (from_name value_registry ty) as [c'|]; [|discriminate]. cbn [bind] in H. destruct c'; try exact H.
  - now rewrite (vector_class _ _ H).
  - unfold composite_construct in H. destruct (aget _ _) as [[]|]; try discriminate. destruct (pstr_eqb _ _); [|discriminate]. now injection H as <-.
Qed.
Lemma op_class c n cx f l ty o l' r : timeline_is n cx f l -> has_type n ty -> op_means c cx f ty o l l' r -> from_tag n = Ok c -> c <> VTransformation -> from_tag (fst (run_op c cx n o)) = Ok c.
Proof.
  intros H Hty HO Hc Hn. destruct (op_refines c n cx f l ty o l' r H Hty HO) as (_ & H' & T' & _). apply (class_after c _ cx f l' ty H' T' (class_typed n ty c Hty Hc) Hn). intros Ha.
  pose proof (timeline_static _ _ _ _ Ha H') as E. destruct HO as [k x q w l Hk Hx Hw|k q l w Hk Hw|k q l Hk Hw|ws ow l Hne Hf Hfit Hcc|ws l Hf Hcc].
  - exfalso. unfold put_wp in E. destruct (filter _ l); discriminate.
  - assert (X : exists w0, l = [w0] /\ (at_ w0 == q)%Q).
    { assert (Y : forall v, In v l -> (at_ v == q)%Q).
      { intros v Hv. destruct (Qeq_bool (at_ v) q) eqn:Eq; [now apply Qeq_bool_eq|]. assert (In v (TlSpec.without q l)) by (apply filter_In; split; [exact Hv|now rewrite Eq]). rewrite E in H0. destruct H0. }
      destruct l as [|a [|b l]]; [discriminate|exists a; split; [reflexivity|apply Y; now left]|]. exfalso. destruct H as (_ & _ & _ & _ & (Ho & _) & _). specialize (Ho b (or_introl eq_refl)).
      pose proof (Y a (or_introl eq_refl)). pose proof (Y b (or_intror (or_introl eq_refl))). lra. }
    destruct X as (w0 & -> & Eq). destruct (deleting_the_last n cx f k q w0 H Hk Eq) as [Ed Ew]. cbn [run_op]. rewrite Ed. cbn [fst]. destruct (Ew ty Hty) as (E1 & E2 & E3).
    assert (Tw : has_type (w_val w0) ty) by (pose proof (timeline_fits n cx f [w0] ty H Hty) as F; apply Forall_inv in F; destruct F as (_ & _ & X1 & X2 & X3 & _); split; [exact X3|now rewrite X1]).
    pose proof (class_typed _ _ _ Tw E2) as Y. pose proof (class_typed n ty c Hty Hc) as Z. unfold typed_as in *. congruence.
  - cbn [run_op]. now rewrite (del_missing n cx f k q l true H Hk Hw).
  - exfalso. assert (Y : forall ws l, l <> [] -> put_all ws l <> []).
    { clear. induction ws as [|w ws IH]; intros l H; [exact H|]. cbn [put_all fold_left]. apply IH. unfold put_wp. intros E. destruct (filter _ l) in E; discriminate. }
    now apply (Y ws l Hne).
  - cbn [run_op]. now rewrite (add_clash c n cx f l true ws H Hf Hcc).
Qed.

(** ** Timelines *)

Lemma run_vapply c n cx o : vapply c n cx true (vedit_of o) = run_op c cx n o.
Proof. now destruct o. Qed.
Lemma history_ops c cx f ty q l : forall os t wl wl', from_tag t = Ok c -> c <> VTransformation -> timeline_is t cx f wl -> has_type t ty -> ops_mean c cx f ty os wl wl' ->
  filter (touches q) l = map (fun o => LEd q cx (vedit_of o)) os -> from_tag (history q l t) = Ok c /\ timeline_is (history q l t) cx f wl' /\ history q l t = run_ops c cx t os.
Proof.
  induction l as [|x l IH]; intros os t wl wl' Hc Hn H Hty HO E.
  - destruct os; [|discriminate]. inversion HO; subst. auto.
  - cbn [filter] in E. destruct (touches q x) eqn:Et.
    + destruct os as [|o os]; [discriminate|]. cbn [map] in E. injection E as -> E. inversion HO as [|? ? ? l1 ? r Ho Hos]; subst. destruct (op_refines c t cx f wl ty o l1 r H Hty Ho) as (_ & H1 & T1 & _).
      pose proof (op_class c t cx f wl ty o l1 r H Hty Ho Hc Hn) as C1. cbn [history]. rewrite N.eqb_refl. unfold val_edit. rewrite Hc, run_vapply. cbn [run_ops fold_left]. now apply (IH os _ l1 wl').
    + assert (X : history q (x :: l) t = history q l t) by (destruct x; cbn [history touches] in *; [reflexivity|rewrite Et; reflexivity|rewrite Et; reflexivity]). rewrite X. now apply (IH os t wl wl').
Qed.

(** ** Reading *)

Lemma read_value F st u k q t : wf F -> holds F st -> place F u k = Some q -> st q = Some t ->
  exists n w, fget u F = Some n /\ forget w = t /\ layer_getitem n k = (let* c := from_tag t in Ok (w, c)) /\ param_get F n k = (let* c := from_tag t in Ok (w, c)).
Proof. intros W A Hp Hq. destruct (A q t Hq) as (w & H & E). destruct (place_value F u k q w Hp H W) as (n & Hu & Hg & Hgi). exists n, w. rewrite E in *. auto. Qed.
Lemma values_hold F : holds F (values F).
Proof.
  intros q t H. unfold values in H. destruct (fget q F) as [p|] eqn:Hp; [|discriminate]. destruct (named (s "param") p) eqn:Hn; [|discriminate]. cbn [andb] in H.
  destruct (aget (s "name") (iattrs p)) eqn:Ha; [|discriminate]. destruct (filter itag (ikids p)) as [|w [|]] eqn:Hk; try discriminate. destruct (bare (forget w)) eqn:Hb; [|discriminate]. injection H as <-.
  exists w. split; [|reflexivity]. exists p. repeat (split; [first [assumption|congruence]|]). exact Hb.
Qed.
Lemma values_all F q w : holder_of F q w -> values F q = Some (forget w).
Proof. intros (p & A & B & C & D & E). unfold values. rewrite A, B. cbn [andb]. destruct (aget (s "name") (iattrs p)); [|congruence]. now rewrite D, E. Qed.
