(** Proofs about the operations on timelines. *)
From Coq Require Import Permutation Lqa.
From Verif Require Import TlModel TlSpec ValProofs SerProofs TlProofs.
Local Open Scope Z_scope.

Lemma vcls_eqb_refl c : vcls_eqb c c = true.
Proof. destruct c; try reflexivity. apply pstr_eqb_refl. Qed.
Lemma vcls_eqb_eq c d : vcls_eqb c d = true -> c = d.
Proof. destruct c, d; try discriminate; try reflexivity. cbn. intros H. apply pstr_eqb_spec in H. now subst. Qed.

Lemma names_ensure cx f k q : ctx_fps cx = Ok f -> names cx f k q -> ensure_fps cx k = Ok (mkT q f) /\ (0 <= q)%Q.
Proof.
  intros Hf H. destruct H; (split; [|assumption]); cbn [ensure_fps fps frames].
  - now apply T_init_num.
  - destruct f; [reflexivity|]. now apply T_init_num.
  - now apply T_init_num.
  - assumption.
Qed.

Lemma gives_new_waypoint c t x w : gives c t x w -> new_waypoint c t x = Ok w /\ w_time w = t.
Proof.
  intros H. destruct H as [b a c' n t'|n cy E|v n E H]; cbn [new_waypoint w_before w_after w_cls w_val].
  - now split.
  - unfold inst. now rewrite vcls_eqb_refl, E.
  - rewrite H. cbn [bind]. split; [|reflexivity]. destruct v; try reflexivity. now elim (E c0 n0 cx).
Qed.

(** ** [timeline[k] = x] *)

Lemma timeline_static n cx f l : is_animated n = false -> timeline_is n cx f l -> l = [].
Proof.
  intros Ha (_ & _ & Hv & _). unfold tl_values, waypoints, waypoint_tags in Hv. rewrite Ha in Hv. cbn in Hv. congruence.
Qed.

Lemma setitem_any c n cx f ty par k q x w d : is_tag n = true -> waypoints n cx = Ok d -> ctx_fps cx = Ok f ->
  Forall (fun w => (0 <= at_ w)%Q) (map snd d) ->
  has_type n ty -> names cx f k q -> gives c (mkT q f) x w -> fits ty w ->
  exists n' l', tl_setitem c n cx par k x = (n', Ok tt) /\ wrote n n' l' /\ has_type n' ty /\
    timeline_is n' cx f l' /\ forall v, In v l' <-> v = w \/ In v (map snd d) /\ ~ (at_ v == at_ w)%Q.
Proof.
  intros Ht Hd Hf Hpos Hty Hk Hx Hw. destruct (names_ensure _ _ _ _ Hf Hk) as [Hk' Hq].
  destruct (gives_new_waypoint _ _ _ _ Hx) as [Hx' Hwt].
  unfold tl_setitem. rewrite Hk', Hx'.
  set (n1 := if is_animated n then n else animated_tag (with_kids n [])).
  assert (W1 : waypoints n1 cx = Ok d).
  { subst n1. destruct (is_animated n) eqn:E; [assumption|].
    assert (d = []) as ->. { unfold waypoints, waypoint_tags in Hd. rewrite E in Hd. congruence. } reflexivity. }
  assert (T1 : has_type n1 ty).
  { subst n1. destruct (is_animated n) eqn:E; [assumption|]. destruct Hty as [_ Hty]. rewrite E in Hty.
    split; [reflexivity|]. cbn. now rewrite Hty. }
  assert (A1 : is_animated n = false \/ NoDup (map fst (tag_attrs n)) -> NoDup (map fst (tag_attrs n1))).
  { subst n1. destruct (is_animated n); [now intros [|]|]. intros _. repeat constructor. intros []. }
  clearbody n1. rewrite W1. cbn [bind].
  pose proof (waypoints_wfd _ _ _ _ W1 Hf) as WF.
  destruct (tset_spec f (mkT q f) w d WF eq_refl) as (d' & -> & [WF1 WF2] & Hne & Hin).
  { now rewrite Hwt. }
  { unfold at_. now rewrite Hwt. }
  destruct (set_waypoints_is n1 cx f ty par (map snd d')) as (n' & E & A & T' & L); try assumption.
  - now destruct d'.
  - apply Forall_forall. intros v Hv. apply Hin in Hv as [->|[Hv _]].
    + rewrite Hwt. split; [reflexivity|]. unfold at_. now rewrite Hwt.
    + split; [|rewrite Forall_forall in Hpos; now apply Hpos].
      destruct WF as [WF _]. apply in_map_iff in Hv as (kv & <- & Hkv). rewrite Forall_forall in WF. apply (WF _ Hkv).
  - apply Forall_forall. intros v Hv. apply Hin in Hv as [->|[Hv _]]; [assumption|].
    pose proof (waypoints_fits _ _ _ _ Hd Hty) as F. rewrite Forall_forall in F. now apply F.
  - exists n', (sort wp_le (map snd d')). split; [assumption|]. split.
    { destruct A as (A & B & C). split; [assumption|]. split; [assumption|]. intros D. apply C. right. now apply A1. }
    split; [assumption|]. split; [assumption|]. intros v. split.
    + intros Hv. apply sort_in in Hv. now apply Hin.
    + intros Hv. apply sort_in. now apply Hin.
Qed.

Lemma timeline_pos n cx f l : timeline_is n cx f l -> Forall (fun w => (0 <= at_ w)%Q) l.
Proof. intros (_ & _ & _ & _ & _ & H). eapply Forall_impl; [|exact H]. cbn. tauto. Qed.

Lemma setitem_is c n cx f l ty par k q x w : timeline_is n cx f l -> has_type n ty ->
  names cx f k q -> gives c (mkT q f) x w -> fits ty w ->
  exists n', tl_setitem c n cx par k x = (n', Ok tt) /\ wrote n n' (put_wp w l) /\ has_type n' ty /\
    timeline_is n' cx f (put_wp w l).
Proof.
  intros H Hty Hk Hx Hw. destruct (timeline_waypoints _ _ _ _ H) as (d & Hd & <- & _).
  pose proof (timeline_pos _ _ _ _ H) as Hpos. destruct H as (Ht & Hf & _ & _ & Ho & _).
  destruct (setitem_any c n cx f ty par k q x w d Ht Hd Hf Hpos Hty Hk Hx Hw) as (n' & l' & E & A & T' & L & M).
  exists n'. assert (EL : l' = put_wp w (map snd d)).
  2:{ rewrite <- EL. now repeat (split; [assumption|]). }
  apply in_order_ext.
  - apply L.
  - now apply put_in_order.
  - intros v. now rewrite M, put_members.
Qed.

(** ** [timeline[k]] *)

Lemma find_later f q d l : map snd d = l -> wfd f d -> in_order l -> forall k, cmp_of k = CNum q \/ cmp_of k = CT (mkT q f) \/ cmp_of k = CT (mkT q None) ->
  tl_find (cmp_of k) d = match find_at q l with Some w => Ok w | None => Err KeyError end.
Proof.
  intros <- W O k Hk. revert O. destruct W as [W _]. induction d as [|[t w] d IH]; intros O; [reflexivity|].
  inversion W as [|? ? (W1 & W2 & W3) W']; subst. cbn [fst snd] in *. destruct O as [O1 O2].
  cbn [tl_find map snd find_at find].
  assert (E1 : T_eq t (cmp_of k) = Ok (Qeq_bool (frames t) q)).
  { destruct Hk as [->|[->| ->]]; unfold T_eq, T_compare; cbn [fps frames].
    - reflexivity.
    - destruct (fps t); [now rewrite Qeq_bool_refl|reflexivity].
    - reflexivity. }
  assert (E2 : T_lt t (cmp_of k) = Ok (Qlt_bool (frames t) q)).
  { destruct Hk as [->|[->| ->]]; unfold T_lt, T_compare; cbn [fps frames].
    - reflexivity.
    - destruct (fps t); [now rewrite Qeq_bool_refl|reflexivity].
    - reflexivity. }
  unfold T_gt, T_ne. rewrite E1, E2. cbn [bind].
  replace (Qeq_bool (at_ w) q) with (Qeq_bool (frames t) q).
  2:{ apply eq_true_iff_eq. rewrite !Qeq_bool_iff. now rewrite W3. }
  destruct (Qeq_bool (frames t) q) eqn:E; [reflexivity|].
  destruct (Qlt_bool (frames t) q) eqn:L; cbn [bind negb].
  - apply IH; assumption.
  - replace (find (fun w => Qeq_bool (at_ w) q) (map snd d)) with (@None wp); [reflexivity|].
    symmetry. destruct (find _ (map snd d)) as [v|] eqn:F; [|reflexivity]. exfalso.
    apply find_some in F as [Hv Ev]. apply Qeq_bool_iff in Ev. specialize (O1 v Hv).
    assert (~ (frames t < q)%Q) by (rewrite <- Qlt_bool_iff; congruence).
    apply H. rewrite W3, <- Ev. exact O1.
Qed.


Lemma getitem_is n cx f l k q : timeline_is n cx f l -> names cx f k q -> not_str k -> str_contains (s "x_y") n = false ->
  tl_getitem n cx k = match find_at q l with Some w => Ok w | None => Err KeyError end.
Proof.
  intros H Hk Hs Hx. destruct (timeline_waypoints _ _ _ _ H) as (d & Hd & E & W).
  unfold tl_getitem. rewrite Hx, Hd. cbn [bind]. apply (find_later f); try assumption.
  - apply H.
  - destruct Hk; cbn; try tauto. now elim (Hs x).
Qed.

(** The abstract map *)
Lemma find_at_In l q w : in_order l -> (find_at q l = Some w <-> In w l /\ (at_ w == q)%Q).
Proof.
  intros O. unfold find_at. split.
  - intros H. apply find_some in H as [H1 H2]. apply Qeq_bool_iff in H2. now split.
  - intros [H1 H2]. induction l as [|v l IH]; [easy|]. destruct O as [O1 O2]. cbn [find].
    destruct (Qeq_bool (at_ v) q) eqn:E.
    + apply Qeq_bool_iff in E. destruct H1 as [->|H1]; [reflexivity|]. specialize (O1 _ H1). lra.
    + destruct H1 as [->|H1]; [|now apply IH]. apply Qeq_bool_iff in H2. congruence.
Qed.
Lemma find_at_None l q : find_at q l = None <-> forall w, In w l -> ~ (at_ w == q)%Q.
Proof.
  unfold find_at. split.
  - intros H w Hw E. pose proof (find_none _ _ H w Hw) as N. cbn in N. apply Qeq_bool_iff in E. congruence.
  - intros H. destruct (find _ l) as [v|] eqn:E; [|reflexivity]. apply find_some in E as [E1 E2].
    apply Qeq_bool_iff in E2. elim (H v E1 E2).
Qed.

Lemma find_put_same w l q : in_order l -> (at_ w == q)%Q -> find_at q (put_wp w l) = Some w.
Proof. intros O E. apply find_at_In; [now apply put_in_order|]. split; [apply put_members; now left|assumption]. Qed.
Lemma find_put_other w l q : in_order l -> ~ (at_ w == q)%Q -> find_at q (put_wp w l) = find_at q l.
Proof.
  intros O E. destruct (find_at q l) as [v|] eqn:F.
  - apply find_at_In in F as [F1 F2]; [|assumption]. apply find_at_In; [now apply put_in_order|]. split; [|assumption].
    apply put_members. right. split; [assumption|]. intros X. apply E. now rewrite <- X.
  - rewrite find_at_None in *. intros v Hv. apply put_members in Hv as [->|[Hv _]]; [assumption|now apply F].
Qed.
Lemma find_without_same l q : find_at q (without q l) = None.
Proof. apply find_at_None. intros w Hw. apply without_members in Hw. tauto. Qed.
Lemma find_without_other l q p : in_order l -> ~ (p == q)%Q -> find_at p (without q l) = find_at p l.
Proof.
  intros O E. destruct (find_at p l) as [v|] eqn:F.
  - apply find_at_In in F as [F1 F2]; [|assumption]. apply find_at_In; [now apply in_order_filter|]. split; [|assumption].
    apply without_members. split; [assumption|]. intros X. apply E. now rewrite <- X, F2.
  - rewrite find_at_None in *. intros v Hv. apply without_members in Hv as [Hv _]. now apply F.
Qed.

(** ** [del timeline[k]] *)

Lemma del_step n cx f k q l : timeline_is n cx f l -> names cx f k q -> forall par,
  tl_delitem n cx par k =
    match (let* d := waypoints n cx in tdel (mkT q f) d) with
    | Err e => (n, Err e)
    | Ok d => set_waypoints n cx par (map snd d)
    end.
Proof.
  intros H Hk par. assert (Hf : ctx_fps cx = Ok f) by apply H. destruct (names_ensure _ _ _ _ Hf Hk) as [E _].
  unfold tl_delitem. destruct Hk; now rewrite E.
Qed.

Lemma del_missing n cx f k q l par : timeline_is n cx f l -> names cx f k q -> find_at q l = None ->
  tl_delitem n cx par k = (n, Err KeyError).
Proof.
  intros H Hk HN. rewrite (del_step _ _ _ _ _ _ H Hk). destruct (timeline_waypoints _ _ _ _ H) as (d & Hd & <- & W).
  rewrite Hd. cbn [bind]. pose proof (tdel_spec f (mkT q f) d W eq_refl) as D. cbn [frames] in D. rewrite HN in D. now rewrite D.
Qed.

Lemma del_some n cx f k q l ty par w : timeline_is n cx f l -> has_type n ty -> names cx f k q -> find_at q l = Some w ->
  without q l <> [] ->
  exists n', tl_delitem n cx par k = (n', Ok tt) /\ wrote n n' (without q l) /\ has_type n' ty /\ timeline_is n' cx f (without q l).
Proof.
  intros H Hty Hk HS Hne. rewrite (del_step _ _ _ _ _ _ H Hk). destruct (timeline_waypoints _ _ _ _ H) as (d & Hd & <- & W).
  rewrite Hd. cbn [bind]. pose proof (tdel_spec f (mkT q f) d W eq_refl) as D. cbn [frames] in D. rewrite HS in D.
  destruct D as (d' & -> & [W1 W2] & Hl & M).
  pose proof (timeline_fits _ _ _ _ _ H Hty) as F. destruct H as (_ & Hf & _ & _ & Ho & Hq).
  destruct (set_waypoints_is n cx f ty par (map snd d')) as (n' & E & A & T' & L); try assumption.
  - intros E. apply Hne. unfold without. destruct (filter _ (map snd d)) as [|v r] eqn:EF; [reflexivity|].
    assert (I : In v (without q (map snd d))) by (unfold without; rewrite EF; now left).
    apply without_members in I. apply M in I. now rewrite E in I.
  - apply Forall_forall. intros v Hv. apply M in Hv as [Hv _]. rewrite Forall_forall in Hq. now apply Hq.
  - apply Forall_forall. intros v Hv. apply M in Hv as [Hv _]. rewrite Forall_forall in F. now apply F.
  - exists n'. assert (EL : sort wp_le (map snd d') = without q (map snd d)).
    2:{ rewrite <- EL. now repeat (split; [assumption|]). }
    apply in_order_ext.
    + apply L.
    + now apply in_order_filter.
    + intros v. now rewrite sort_in, M, without_members.
Qed.

Lemma del_last n cx f k q w par : timeline_is n cx f [w] -> names cx f k q -> (at_ w == q)%Q ->
  tl_delitem n cx par k = if par then (w_val w, Ok tt) else (with_kids n [], Err ValueError).
Proof.
  intros H Hk E. rewrite (del_step _ _ _ _ _ _ H Hk). pose proof H as H0. destruct (timeline_waypoints _ _ _ _ H) as (d & Hd & El & W).
  rewrite Hd. cbn [bind]. pose proof (tdel_spec f (mkT q f) d W eq_refl) as D. cbn [frames] in D. rewrite El in D.
  unfold find_at in D. cbn [find] in D. rewrite (proj2 (Qeq_bool_iff _ _) E) in D.
  destruct D as (d' & -> & _ & Hl & _). destruct d as [|? [|]]; try discriminate. destruct d'; [|discriminate].
  cbn [map set_waypoints]. unfold unanimate.
  destruct (is_animated n) eqn:A.
  - cbn [negb]. destruct H0 as (_ & _ & Hv & _). rewrite Hv. reflexivity.
  - exfalso. apply timeline_static in H0; [discriminate|assumption].
Qed.

Lemma del_is n cx f k q l ty w : timeline_is n cx f l -> has_type n ty -> names cx f k q -> find_at q l = Some w ->
  exists n', tl_delitem n cx true k = (n', Ok tt) /\ has_type n' ty /\ timeline_is n' cx f (without q l) /\
    (without q l = [] -> n' = w_val w) /\ (is_animated n' = false \/ wrote n n' (without q l)).
Proof.
  intros H Hty Hk HS. assert (Ho : in_order l) by apply H.
  destruct (without q l) as [|v r] eqn:E.
  - assert (l = [w]) as ->.
    { apply find_at_In in HS as [I1 I2]; [|assumption]. clear - E I1 I2 Ho.
      assert (X : forall v, In v l -> (at_ v == q)%Q).
      { intros v Hv. destruct (Qeq_dec (at_ v) q) as [e|e]; [assumption|].
        assert (I : In v (without q l)) by (apply without_members; now split). now rewrite E in I. }
      destruct l as [|a [|b l]]; [easy|destruct I1 as [->|[]]; reflexivity|].
      destruct Ho as [O _]. specialize (O b (or_introl eq_refl)).
      pose proof (X a (or_introl eq_refl)). pose proof (X b (or_intror (or_introl eq_refl))). lra. }
    apply find_at_In in HS as [_ I2]; [|assumption].
    exists (w_val w). rewrite (del_last _ _ _ _ _ _ true H Hk I2). split; [reflexivity|].
    pose proof (timeline_fits _ _ _ _ _ H Hty) as F. inversion F as [|? ? (F1 & F2 & F3 & F4 & F5 & F6) _]; subst.
    split; [split; [assumption|now rewrite F3]|]. split; [|split; [reflexivity|now left]].
    repeat split; try assumption; try apply H.
    + unfold tl_values, waypoints, waypoint_tags. rewrite F3. reflexivity.
    + unfold waypoint_tags. now rewrite F3.
    + constructor.
  - rewrite <- E. destruct (del_some n cx f k q l ty true w) as (n' & E' & A & T' & L); try assumption.
    + now rewrite E.
    + exists n'. split; [assumption|]. split; [assumption|]. split; [assumption|]. split; [rewrite E; discriminate|now right].
Qed.

(** ** [timeline.add] *)

Definition hits (ws : list wp) (o : wp) : bool := existsb (fun w => Qeq_bool (at_ o) (at_ w)) ws.

Lemma filterM_clash f o ws : fps (w_time o) = f -> Forall (fun w => fps (w_time w) = f) ws ->
  filterM (fun w => T_eq (w_time o) (CT (w_time w))) ws = Ok (filter (fun w => Qeq_bool (at_ o) (at_ w)) ws).
Proof.
  intros Ho. induction ws as [|w ws IH]; intros H; [reflexivity|]. inversion H; subst. cbn [filterM filter].
  rewrite (T_eq_same (w_time o) (w_time w)) by congruence. cbn [bind]. fold (at_ o) (at_ w). rewrite IH by assumption.
  now destruct (Qeq_bool (at_ o) (at_ w)).
Qed.

Lemma filter_one ws o : ForallOrdPairs (fun a b => ~ (at_ a == at_ b)%Q) ws ->
  map (fun _ : wp => w_time o) (filter (fun w => Qeq_bool (at_ o) (at_ w)) ws) = if hits ws o then [w_time o] else [].
Proof.
  intros H. induction ws as [|w ws IH]; [reflexivity|]. inversion H as [|? ? H1 H2]; subst. cbn [filter hits existsb].
  destruct (Qeq_bool (at_ o) (at_ w)) eqn:E; [|now apply IH]. cbn [map orb]. f_equal.
  rewrite IH by assumption. replace (hits ws o) with false; [reflexivity|]. symmetry. unfold hits.
  apply not_true_is_false. intros X. apply existsb_exists in X as (v & Hv & Ev).
  apply Qeq_bool_iff in E. apply Qeq_bool_iff in Ev. rewrite Forall_forall in H1. apply (H1 v Hv). now rewrite <- E.
Qed.

Lemma clashes_is f old ws : Forall (fun w => fps (w_time w) = f) old -> Forall (fun w => fps (w_time w) = f) ws ->
  ForallOrdPairs (fun a b => ~ (at_ a == at_ b)%Q) ws -> clashes old ws = Ok (map w_time (filter (hits ws) old)).
Proof.
  intros Ho Hw Hd. induction old as [|o old IH]; [reflexivity|]. inversion Ho; subst. cbn [clashes].
  rewrite (filterM_clash _ o ws eq_refl) by assumption. cbn [bind]. rewrite IH by assumption. cbn [bind].
  rewrite filter_one by assumption. cbn [filter]. destruct (hits ws o); reflexivity.
Qed.

Lemma tdels_spec f ts : forall d, wfd f d -> Forall (fun w => fps (w_time w) = f /\ In w (map snd d)) ts ->
  ForallOrdPairs (fun a b => ~ (at_ a == at_ b)%Q) ts ->
  exists d', tdels (map w_time ts) d = Ok d' /\ wfd f d' /\
    forall v, In v (map snd d') <-> In v (map snd d) /\ Forall (fun w => ~ (at_ v == at_ w)%Q) ts.
Proof.
  induction ts as [|w ts IH]; intros d Hd Hf Hp; cbn [map tdels].
  - exists d. split; [reflexivity|]. split; [assumption|]. intros v. split; [intros I; split; [assumption|constructor]|tauto].
  - inversion Hf as [|? ? [F1 F2] F3]; subst. inversion Hp as [|? ? P1 P2]; subst.
    pose proof (tdel_spec (fps (w_time w)) (w_time w) d Hd eq_refl) as D.
    destruct (find_at (frames (w_time w)) (map snd d)) as [u|] eqn:E.
    2:{ exfalso. rewrite find_at_None in E. now apply (E w F2). }
    destruct D as (d1 & -> & W1 & _ & M1). cbn [bind].
    destruct (IH d1 W1) as (d2 & -> & W2 & M2); [|assumption|].
    { apply Forall_forall. intros x Hx. rewrite Forall_forall in F3. destruct (F3 x Hx) as [X1 X2]. split; [assumption|].
      apply M1. split; [assumption|]. rewrite Forall_forall in P1. intros X. apply (P1 x Hx). symmetry. exact X. }
    exists d2. split; [reflexivity|]. split; [assumption|]. intros v. rewrite M2, M1. split.
    + intros [[I N] F]. split; [assumption|]. now constructor.
    + intros [I F]. inversion F; subst. tauto.
Qed.

Lemma hits_iff ws o : hits ws o = true <-> exists w, In w ws /\ (at_ o == at_ w)%Q.
Proof.
  unfold hits. rewrite existsb_exists. split; intros (w & H1 & H2); exists w; (split; [assumption|]); now apply Qeq_bool_iff.
Qed.
Lemma hits_false ws o : hits ws o = false <-> Forall (fun w => ~ (at_ o == at_ w)%Q) ws.
Proof.
  rewrite <- not_true_iff_false, hits_iff, Forall_forall. split.
  - intros H w Hw E. apply H. now exists w.
  - intros H (w & Hw & E). now apply (H w).
Qed.

Lemma add_is c n cx f l ty par ws (ow : bool) : timeline_is n cx f l -> has_type n ty -> is_animated n = true -> fresh f ws -> Forall (fits ty) ws ->
  ow = true \/ Forall (fun w => find_at (at_ w) l = None) ws ->
  exists n', tl_add c n cx par ws ow = (n', Ok tt) /\ wrote n n' (put_all ws l) /\ has_type n' ty /\ timeline_is n' cx f (put_all ws l).
Proof.
  intros H Hty Ha [Hw Hd] Hfit Hc. destruct (timeline_waypoints _ _ _ _ H) as (d & Ed & El & W).
  pose proof (timeline_fits _ _ _ _ _ H Hty) as Fl. destruct H as (Ht & Hf & _ & _ & Ho & Hl).
  assert (Hw' : Forall (fun w => fps (w_time w) = f) ws) by (eapply Forall_impl; [|exact Hw]; cbn; tauto).
  assert (Hl' : Forall (fun w => fps (w_time w) = f) l) by (eapply Forall_impl; [|exact Hl]; cbn; tauto).
  unfold tl_add. rewrite Ed. cbn [bind]. rewrite El, (clashes_is f l ws) by assumption. cbn [bind].
  assert (X : exists d1, (if ow then tdels (map w_time (filter (hits ws) l)) d
                  else match map w_time (filter (hits ws) l) with [] => Ok d | _ :: _ => Err ValueError end) = Ok d1 /\ wfd f d1 /\
                  (forall v, In v (map snd d1) <-> In v l /\ Forall (fun w => ~ (at_ v == at_ w)%Q) (filter (hits ws) l))).
  { destruct ow.
    - destruct (tdels_spec f (filter (hits ws) l) d W) as (d1 & E1 & W1 & M1).
      + apply Forall_forall. intros v Hv. apply filter_In in Hv as [Hv _]. rewrite Forall_forall in Hl'. split; [now apply Hl'|congruence].
      + apply in_order_distinct. now apply in_order_filter.
      + exists d1. rewrite El in M1. tauto.
    - destruct Hc as [Hc|Hc]; [discriminate|].
      assert (E0 : filter (hits ws) l = []).
      { destruct (filter (hits ws) l) as [|v r] eqn:E; [reflexivity|]. exfalso.
        assert (I : In v (filter (hits ws) l)) by (rewrite E; now left). apply filter_In in I as [I1 I2].
        apply hits_iff in I2 as (w & I2 & I3). rewrite Forall_forall in Hc. specialize (Hc w I2). rewrite find_at_None in Hc.
        now apply (Hc v). }
      rewrite E0. exists d. split; [reflexivity|]. split; [assumption|]. rewrite El. intros v. split; [intros I; split; [assumption|constructor]|tauto]. }
  destruct X as (d1 & -> & W1 & M1). unfold set_is_animated, animate. rewrite Ha.
  destruct (tsets_spec f ws d1 W1 Hw' Hd) as (d2 & -> & [W2 W2'] & _ & M2).
  assert (Hs : Forall (fun w => fps (w_time w) = f) (map snd d2)).
  { apply Forall_forall. intros v Hv. apply in_map_iff in Hv as (kv & <- & Hkv). rewrite Forall_forall in W2. apply (W2 _ Hkv). }
  rewrite (sort_wps_same f) by assumption.
  eexists. split; [reflexivity|].
  assert (T2 : has_type (with_kids n (map wp_tag (sort wp_le (map snd d2)))) ty).
  { split; [reflexivity|]. destruct Hty as [_ Hty]. exact Hty. }
  assert (E2 : sort wp_le (map snd d2) = put_all ws l).
  { apply in_order_ext; [now apply sort_in_order|now apply put_all_order|]. intros v.
    rewrite sort_in, M2, M1, put_all_members by assumption. split.
    - intros [I|[[I _] F]]; tauto.
    - intros [I|[I F]]; [tauto|]. right. split; [|assumption]. split; [assumption|].
      apply Forall_forall. intros x Hx X. apply filter_In in Hx as [_ Hx]. apply hits_iff in Hx as (w & Hw1 & Hw2).
      rewrite Forall_forall in F. apply (F w Hw1). now rewrite X. }
  rewrite E2 in *. split.
  { split; [exact Ha|]. split; [apply child_tags_plain|]. cbn [with_kids tag_attrs]. intros [D|D]; [congruence|assumption]. }
  split; [assumption|]. apply (stored_is _ cx f ty).
  - exact Ha.
  - assumption.
  - apply child_tags_plain.
  - assumption.
  - now apply put_all_order.
  - apply Forall_forall. intros v Hv. apply put_all_members in Hv as [Hv|[Hv _]]; [| |assumption].
    + rewrite Forall_forall in Hw. now apply Hw.
    + rewrite Forall_forall in Hl. now apply Hl.
  - apply Forall_forall. intros v Hv. apply put_all_members in Hv as [Hv|[Hv _]]; [| |assumption].
    + rewrite Forall_forall in Hfit. now apply Hfit.
    + rewrite Forall_forall in Fl. now apply Fl.
Qed.

Lemma add_clash c n cx f l par ws : timeline_is n cx f l -> fresh f ws ->
  ~ Forall (fun w => find_at (at_ w) l = None) ws -> tl_add c n cx par ws false = (n, Err ValueError).
Proof.
  intros H [Hw Hd] Hc. destruct (timeline_waypoints _ _ _ _ H) as (d & Ed & El & W).
  destruct H as (Ht & Hf & _ & _ & Ho & Hl).
  assert (Hw' : Forall (fun w => fps (w_time w) = f) ws) by (eapply Forall_impl; [|exact Hw]; cbn; tauto).
  assert (Hl' : Forall (fun w => fps (w_time w) = f) l) by (eapply Forall_impl; [|exact Hl]; cbn; tauto).
  unfold tl_add. rewrite Ed. cbn [bind]. rewrite El, (clashes_is f l ws) by assumption. cbn [bind].
  destruct (filter (hits ws) l) as [|v r] eqn:E; [|reflexivity]. exfalso. apply Hc.
  apply Forall_forall. intros w Hw1. apply find_at_None. intros v Hv X.
  assert (I : In v (filter (hits ws) l)) by (apply filter_In; split; [assumption|]; apply hits_iff; now exists w).
  now rewrite E in I.
Qed.

(** ** Histories *)

(** The waypoints, if any, are as the library writes them. *)
Definition written (n : node) (l : list wp) : Prop :=
  is_animated n = true -> NoDup (map fst (tag_attrs n)) /\ child_tags n = map wp_tag l.

Lemma wrote_written n n' l l' : written n l -> wrote n n' l' -> written n' l'.
Proof.
  intros W (A & B & C) _. split; [|assumption]. apply C. destruct (is_animated n) eqn:E; [right|now left]. now apply W.
Qed.

Lemma op_refines c n cx f l ty o l' r : timeline_is n cx f l -> has_type n ty -> op_means c cx f ty o l l' r ->
  snd (run_op c cx n o) = r /\ timeline_is (fst (run_op c cx n o)) cx f l' /\ has_type (fst (run_op c cx n o)) ty /\
  (written n l -> written (fst (run_op c cx n o)) l').
Proof.
  intros H Hty HO. destruct HO as [k x q w l Hk Hx Hw|k q l w Hk Hw|k q l Hk Hw|ws ow l Hne Hf Hfit Hc|ws l Hf Hc]; cbn [run_op].
  - destruct (setitem_is c n cx f l ty true k q x w H Hty Hk Hx Hw) as (n' & -> & A & T' & L). cbn [fst snd].
    split; [reflexivity|]. split; [assumption|]. split; [assumption|]. intros W. eapply wrote_written; eassumption.
  - destruct (del_is n cx f k q l ty w H Hty Hk Hw) as (n' & -> & T' & L & _ & A). cbn [fst snd].
    split; [reflexivity|]. split; [assumption|]. split; [assumption|]. intros W. destruct A as [A|A]; [|eapply wrote_written; eassumption].
    intros A'. congruence.
  - rewrite (del_missing n cx f k q l true H Hk Hw). now repeat (split; [assumption || reflexivity|]).
  - assert (Ha : is_animated n = true).
    { destruct (is_animated n) eqn:E; [reflexivity|]. elim Hne. eapply timeline_static; eassumption. }
    destruct (add_is c n cx f l ty true ws ow H Hty Ha Hf Hfit Hc) as (n' & -> & A & T' & L). cbn [fst snd].
    split; [reflexivity|]. split; [assumption|]. split; [assumption|]. intros W. eapply wrote_written; eassumption.
  - rewrite (add_clash c n cx f l true ws H Hf Hc). now repeat (split; [assumption || reflexivity|]).
Qed.

Lemma history_refines c n cx f l ty os l' : timeline_is n cx f l -> has_type n ty -> ops_mean c cx f ty os l l' ->
  timeline_is (run_ops c cx n os) cx f l' /\ has_type (run_ops c cx n os) ty /\ (written n l -> written (run_ops c cx n os) l').
Proof.
  intros H Hty HO. revert n H Hty. induction HO as [l|o os l l1 l2 r Ho Hos IH]; intros n H Hty.
  - split; [assumption|]. split; [assumption|]. auto.
  - destruct (op_refines _ _ _ _ _ _ _ _ _ H Hty Ho) as (_ & H1 & T1 & W1). cbn [run_ops fold_left].
    destruct (IH _ H1 T1) as (H2 & T2 & W2). split; [assumption|]. split; [assumption|]. auto.
Qed.
