From Verif Require Import TlModel SerModel TimeSpec ValSpec TlSpec WpvModel TlProofs TlProofs2 TlProofs3 WpvProofs HldModel HldSpec.
From Coq Require Import Lia.

Lemma wp_from_tag_val w ty cx x : wp_from_tag w ty cx = Ok x -> child_tags w = [w_val x].
Proof.
  unfold wp_from_tag. destruct (negb (has_name (s "waypoint") w)); [discriminate|].
  destruct (aget (s "time") (tag_attrs w)) as [v|]; [|discriminate].
  destruct (T_init (tval_of v) cx) as [t|]; [|discriminate]. cbn [bind].
  destruct (child_tags w) as [|m [|]]; [discriminate| |discriminate].
  destruct (is_animated m); [discriminate|].
  destruct (negb _); [discriminate|]. destruct (from_tag m) as [c0|]; [|discriminate]. cbn [bind].
  destruct (aget (s "before") (tag_attrs w)) as [b1|]; [|discriminate]. destruct (aget (s "after") (tag_attrs w)) as [a1|]; [|discriminate].
  destruct (aval_interp b1); [|discriminate]. cbn [bind]. destruct (aval_interp a1); [|discriminate]. cbn [bind]. intros E. injection E as <-. reflexivity.
Qed.
Lemma listed_slot n cx l i x : listed n cx = Ok l -> nth_error l i = Some x -> slot_val n i = Some (w_val x).
Proof.
  unfold listed, slot_val. intros HL Hi. destruct (waypoint_tags n) as [|t0 k0] eqn:E; [injection HL as <-; destruct i; discriminate|].
  destruct (aget (s "type") (tag_attrs n)) as [ty|]; [|discriminate]. rewrite <- E in *. clear E t0 k0.
  destruct (nth_error (waypoint_tags n) i) as [w|] eqn:W.
  - pose proof (mapM_nth _ _ _ _ _ _ HL Hi W) as R. cbv beta in R. now rewrite (wp_from_tag_val _ _ _ _ R).
  - exfalso. revert l i HL Hi W. induction (waypoint_tags n) as [|a k IH]; intros l i HL Hi W; cbn [mapM] in HL; [injection HL as <-; destruct i; discriminate|].
    destruct (wp_from_tag a ty cx) as [b|]; [|discriminate]. cbn [bind] in HL. destruct (mapM _ k) as [bs|]; [|discriminate]. cbn [bind] in HL. injection HL as <-.
    destruct i; [discriminate|]. cbn [nth_error] in *. exact (IH bs i eq_refl Hi W).
Qed.

Definition slot_rel (l : list wp) (h : hwp) (x : handle) : Prop :=
  h_obj h = fst x /\
  match h_slot h, snd x with
  | None, None => True
  | Some i, Some q => exists y, nth_error l i = Some y /\ at_ y = q /\ w_cls y = w_cls (fst x)
  | _, _ => False
  end.
Definition held_rel (l : list wp) (a : option hwp) (b : option handle) : Prop :=
  match a, b with None, None => True | Some h, Some x => slot_rel l h x | _, _ => False end.
Definition rel (cx : ctx) (f : option Q) (ty : pstr) (st : hstate) (a : list wp * handles) : Prop :=
  timeline_is (fst st) cx f (fst a) /\ has_type (fst st) ty /\ forall j, held_rel (fst a) (snd st j) (snd a j).

Lemma found l i x q : in_order l -> nth_error l i = Some x -> at_ x = q -> find_at q l = Some x.
Proof. intros O H <-. apply find_at_In; [exact O|]. split; [eapply nth_error_In, H|reflexivity]. Qed.
Lemma current_is n cx f l h x : timeline_is n cx f l -> slot_rel l h x -> current n h = is_now l x.
Proof.
  intros H [E S]. unfold current, is_now. rewrite E. destruct (h_slot h) as [i|], (snd x) as [q|]; try easy. destruct S as (y & Y1 & Y2 & Y3).
  rewrite (listed_slot n cx l i y (timeline_listed _ _ _ _ H) Y1), (found l i y q); auto. apply H.
Qed.
Lemma rel_seen cx f ty st a : rel cx f ty st a -> seen cx f st a.
Proof.
  intros (H & T & R). split; [exact H|]. intros j. specialize (R j). unfold held_rel in R. destruct (snd st j) as [h|], (snd a j) as [x|]; try easy. cbn [option_map].
  f_equal. now apply (current_is _ cx f).
Qed.
Lemma held_put l hs ahs j h x : slot_rel l h x -> (forall j, held_rel l (hs j) (ahs j)) -> forall i, held_rel l (hset hs j h i) (put_handle ahs j x i).
Proof. intros S R i. unfold hset, put_handle. destruct (N.eqb i j); [exact S|apply R]. Qed.
Lemma held_loose n cx f l l' hs ahs : timeline_is n cx f l -> (forall j, held_rel l (hs j) (ahs j)) -> forall j, held_rel l' (loosen n hs j) (all_loose l ahs j).
Proof.
  intros H R j. specialize (R j). unfold loosen, all_loose, held_rel in *. destruct (hs j) as [h|], (ahs j) as [x|]; try easy. cbn [option_map].
  split; [cbn [h_obj fst]; now apply (current_is n cx f)|exact I].
Qed.
(** Nothing is held to a timeline without waypoints. *)
Lemma held_none n l hs ahs : l = [] -> (forall j, held_rel l (hs j) (ahs j)) -> forall j, held_rel l (loosen n hs j) (ahs j).
Proof.
  intros -> R j. specialize (R j). unfold loosen, held_rel in *. destruct (hs j) as [h|], (ahs j) as [x|]; try easy. cbn [option_map].
  destruct R as [E S]. unfold slot_rel, current in *. cbn [h_obj h_slot]. destruct (h_slot h) as [i|].
  - destruct (snd x); [|easy]. destruct S as (y & Y & _). destruct i; discriminate.
  - split; assumption.
Qed.

Lemma step_refines c cx f ty a s s' r st : act_means c cx f ty a s s' r -> rel cx f ty st s ->
  exists st', hstep c cx st a = (st', r) /\ rel cx f ty st' s'.
Proof.
  intros M (H & T & R). destruct st as [n hs]. cbn [fst snd] in *.
  destruct M as [j i l ahs w Hi|j v l ahs w q x m r Hj Hx Hm F|j v l ahs w m r Hj Hm|j x l ahs w p w' Hj E|j x l ahs w p e Hj E|j x l ahs w p w' Hj E|j x l ahs w p e Hj E
    |j t l ahs w p Hj|o l ahs l' O|o l ahs e O|k j q l ahs w p Hj Hk F]; cbn [fst snd] in *; cbn [hstep]; unfold on_held, own; cbn [fst snd].
  - pose proof (timeline_listed _ _ _ _ H) as HL. pose proof H as (_ & _ & HV & _ & Ho & Hq). rewrite HV, HL. cbn [bind]. rewrite Hi, (last_at_nth f l Ho Hq i w Hi).
    eexists. split; [reflexivity|]. split; [exact H|]. split; [exact T|]. cbn [fst snd]. apply held_put; [|exact R]. split; [reflexivity|]. now exists w.
  - pose proof (R j) as Rj. rewrite Hj in Rj. unfold held_rel in Rj. destruct (hs j) as [h|] eqn:Eh; [|easy].
    pose proof (current_is n cx f l h _ H Rj) as C. destruct Rj as [Eo Es]. cbn [snd fst] in *. destruct (h_slot h) as [i|] eqn:Ei; [|easy].
    destruct Es as (y & Y1 & Y2 & Y3). pose proof H as (_ & _ & _ & _ & Ho & Hq). pose proof (found l i y q Ho Y1 Y2) as Fy. assert (y = x) as -> by congruence.
    rewrite C. unfold is_now. cbn [snd fst]. rewrite Fy. cbn [with_val w_cls w_val]. rewrite Hm.
    destruct F as (F1 & F2 & F3 & F4 & F5 & F6). cbn [with_val w_before w_after w_cls w_val] in *.
    assert (Hm' : set_value (w_cls x) (w_val x) v = (m, r)) by (rewrite Y3; exact Hm).
    pose proof (timeline_fits _ _ _ _ _ H T) as FF. rewrite Forall_forall in FF. destruct (FF x (nth_error_In _ _ Y1)) as (_ & _ & _ & X4 & _).
    destruct (wp_assign_is n cx f l i x v m r H Y1 Hm' F5 F3 ltac:(congruence) F6) as (n' & E & E1 & E2 & E3).
    unfold wp_assign in E. rewrite (timeline_listed _ _ _ _ H), (last_at_nth f l Ho Hq i x Y1), Hm' in E. injection E as E. rewrite E.
    eexists. split; [reflexivity|]. split; [cbn [fst]; unfold revalue; rewrite <- Y2; exact E3|]. split.
    + cbn [fst]. unfold has_type in *. rewrite <- E. destruct n; [destruct T as [T _]; discriminate T|exact T].
    + cbn [fst snd]. intros j'. specialize (R j'). unfold held_rel in *. destruct (hs j') as [h'|], (ahs j') as [x'|]; try easy. destruct R as [R1 R2]. split; [exact R1|].
      destruct (h_slot h') as [i'|], (snd x') as [q'|]; try easy. destruct R2 as (z & Z1 & Z2 & Z3).
      exists (if Qeq_bool (at_ z) q then with_val m z else z). unfold revalue. split; [rewrite nth_error_map, Z1; reflexivity|]. destruct (Qeq_bool _ _); split; assumption.
  - pose proof (R j) as Rj. rewrite Hj in Rj. unfold held_rel in Rj. destruct (hs j) as [h|] eqn:Eh; [|easy].
    pose proof (current_is n cx f l h _ H Rj) as C. destruct Rj as [Eo Es]. cbn [snd fst] in *. destruct (h_slot h) as [i|] eqn:Ei; [easy|].
    rewrite C. unfold is_now. cbn [snd fst]. rewrite Hm. eexists. split; [reflexivity|]. split; [exact H|]. split; [exact T|]. cbn [fst snd].
    apply held_put; [|exact R]. split; [reflexivity|exact I].
  - pose proof (R j) as Rj. rewrite Hj in Rj. unfold held_rel in Rj. destruct (hs j) as [h|] eqn:Eh; [|easy]. destruct Rj as [Eo Es]. cbn [fst] in Eo. rewrite Eo, E.
    eexists. split; [reflexivity|]. split; [exact H|]. split; [exact T|]. cbn [fst snd]. apply held_put; [|exact R]. split; [reflexivity|]. cbn [h_slot snd fst] in *.
    replace (w_cls w') with (w_cls w); [exact Es|]. unfold set_before in E. destruct (check_interpolation x); [|discriminate]. injection E as <-. reflexivity.
  - pose proof (R j) as Rj. rewrite Hj in Rj. unfold held_rel in Rj. destruct (hs j) as [h|] eqn:Eh; [|easy]. destruct Rj as [Eo Es]. cbn [fst] in Eo. rewrite Eo, E.
    eexists. split; [reflexivity|]. split; [exact H|]. split; [exact T|exact R].
  - pose proof (R j) as Rj. rewrite Hj in Rj. unfold held_rel in Rj. destruct (hs j) as [h|] eqn:Eh; [|easy]. destruct Rj as [Eo Es]. cbn [fst] in Eo. rewrite Eo, E.
    eexists. split; [reflexivity|]. split; [exact H|]. split; [exact T|]. cbn [fst snd]. apply held_put; [|exact R]. split; [reflexivity|]. cbn [h_slot snd fst] in *.
    replace (w_cls w') with (w_cls w); [exact Es|]. unfold set_after in E. destruct (check_interpolation x); [|discriminate]. injection E as <-. reflexivity.
  - pose proof (R j) as Rj. rewrite Hj in Rj. unfold held_rel in Rj. destruct (hs j) as [h|] eqn:Eh; [|easy]. destruct Rj as [Eo Es]. cbn [fst] in Eo. rewrite Eo, E.
    eexists. split; [reflexivity|]. split; [exact H|]. split; [exact T|exact R].
  - pose proof (R j) as Rj. rewrite Hj in Rj. unfold held_rel in Rj. destruct (hs j) as [h|] eqn:Eh; [|easy]. destruct Rj as [Eo Es]. cbn [fst] in Eo. rewrite Eo.
    eexists. split; [reflexivity|]. split; [exact H|]. split; [exact T|]. cbn [fst snd]. apply held_put; [|exact R]. split; [reflexivity|exact Es].
  - destruct (op_refines c n cx f l ty o l' (Ok tt) H T O) as (A & B & C & _). destruct (run_op c cx n o) as [n' r']. cbn [fst snd] in *. subst r'. cbn [was_cleared].
    eexists. split; [reflexivity|]. split; [exact B|]. split; [exact C|]. cbn [fst snd]. now apply (held_loose n cx f).
  - assert (E : run_op c cx n o = (n, Err e)).
    { inversion O; subst; cbn [run_op]; [eapply del_missing|eapply add_clash]; eassumption. }
    rewrite E. eexists. split; [reflexivity|]. split; [exact H|]. split; [exact T|]. cbn [fst snd was_cleared]. destruct (child_tags n) eqn:Ek; [|exact R].
    apply held_none; [|exact R]. destruct H as (_ & _ & _ & HN & _). unfold waypoint_tags in HN. rewrite Ek in HN. destruct l; [reflexivity|]. destruct (is_animated n); discriminate HN.
  - pose proof (R j) as Rj. rewrite Hj in Rj. unfold held_rel in Rj. destruct (hs j) as [h|] eqn:Eh; [|easy].
    pose proof (current_is n cx f l h _ H Rj) as C. rewrite (proj1 (names_ensure cx f k q (proj1 (proj2 H)) Hk)). rewrite C.
    set (w0 := is_now l (w, p)) in *.
    destruct (setitem_is c n cx f l ty true k q (AWp w0) (retime (mkT q f) w0) H T Hk ltac:(destruct w0; constructor) ltac:(exact F)) as (n' & -> & _ & T' & L').
    cbn [was_cleared]. eexists. split; [reflexivity|]. split; [exact L'|]. split; [exact T'|]. cbn [fst snd]. apply (held_loose n cx f); [exact H|].
    apply held_put; [|exact R]. destruct Rj as [Eo Es]. cbn [fst] in Eo. rewrite Eo. split; [reflexivity|exact Es].
Qed.

Lemma steps_refine c cx f ty l s s' rs : acts_mean c cx f ty l s s' rs -> forall st, rel cx f ty st s -> exists st', hsteps c cx st l = (st', rs) /\ rel cx f ty st' s'.
Proof.
  induction 1 as [s|a l s s1 s2 r rs M _ IH]; intros st R; [now exists st|].
  destruct (step_refines _ _ _ _ _ _ _ _ _ M R) as (st1 & E1 & R1). destruct (IH st1 R1) as (st2 & E2 & R2). exists st2. cbn [hsteps]. now rewrite E1, E2.
Qed.
