(** Adding waypoints of which several are at the same time. *)
From Coq Require Import Lqa Lia.
From Verif Require Import TlModel TlSpec TlProofs TlProofs2 TlProofs4.

Lemma tsets_put f ws : forall d l, wfd f d -> (forall v, In v (map snd d) <-> In v l) -> Forall (fun w => fps (w_time w) = f) ws ->
  exists d', tsets ws d = Ok d' /\ wfd f d' /\ forall v, In v (map snd d') <-> In v (put_all ws l).
Proof.
  induction ws as [|w ws IH]; intros d l Hd Hl Hf; cbn [tsets]; [exists d; split; [reflexivity|]; split; [exact Hd|exact Hl]|].
  inversion Hf; subst. destruct (tset_spec _ (w_time w) w d Hd eq_refl eq_refl) as (d1 & -> & W1 & _ & I1); [reflexivity|]. cbn [bind].
  apply (IH d1 (put_wp w l) W1); [|assumption]. intros v. rewrite I1, put_members, Hl. reflexivity.
Qed.
Lemma put_all_last ws : forall l v, In v (put_all ws l) <-> (exists a b, ws = a ++ v :: b /\ Forall (fun w => ~ (at_ v == at_ w)%Q) b) \/ In v l /\ Forall (fun w => ~ (at_ v == at_ w)%Q) ws.
Proof.
  induction ws as [|w ws IH]; intros l v.
  - cbn. split; [intros I; right; split; [assumption|constructor]|]. intros [(a & b & E & _)|[I _]]; [destruct a; discriminate|exact I].
  - cbn [put_all fold_left]. change (fold_left _ ws ?x) with (put_all ws x). rewrite IH, put_members. split.
    + intros [(a & b & -> & F)|[[->|[I N]] F]]; [left; now exists (w :: a), b|left; now exists [], ws|right; split; [assumption|now constructor]].
    + intros [(a & b & E & F)|[I F]].
      * destruct a as [|w' a]; injection E as -> ->; [right; split; [now left|exact F]|left; now exists a, b].
      * inversion F; subst. right. split; [right; now split|assumption].
Qed.

(** No two of ws are at the time of one of l. *)
Definition single (l ws : list wp) : Prop := forall o a w b v c, In o l -> ws = a ++ w :: b ++ v :: c -> (at_ w == at_ o)%Q -> ~ (at_ v == at_ o)%Q.
Lemma single_tail l w ws : single l (w :: ws) -> single l ws.
Proof. intros H o a x b v c I E. apply (H o (w :: a) x b v c I). now rewrite E. Qed.
Lemma single_one l ws o : single l ws -> In o l -> map (fun _ : wp => w_time o) (filter (fun w => Qeq_bool (at_ o) (at_ w)) ws) = if hits ws o then [w_time o] else [].
Proof.
  intros H I. induction ws as [|w ws IH]; [reflexivity|]. cbn [filter hits existsb].
  destruct (Qeq_bool (at_ o) (at_ w)) eqn:E; [|apply IH; exact (single_tail _ _ _ H)]. cbn [map orb]. f_equal.
  rewrite IH by exact (single_tail _ _ _ H). replace (hits ws o) with false; [reflexivity|]. symmetry. unfold hits.
  apply not_true_is_false. intros X. apply existsb_exists in X as (v & Hv & Ev). apply Qeq_bool_iff in E, Ev.
  apply in_split in Hv as (b & c & ->). apply (H o [] w b v c I eq_refl); now symmetry.
Qed.
Lemma clashes_single f old ws : Forall (fun w => fps (w_time w) = f) old -> Forall (fun w => fps (w_time w) = f) ws ->
  single old ws -> clashes old ws = Ok (map w_time (filter (hits ws) old)).
Proof.
  intros Ho Hw Hd. induction old as [|o old IH]; [reflexivity|]. inversion Ho; subst. cbn [clashes].
  rewrite (filterM_clash _ o ws eq_refl) by assumption. cbn [bind]. rewrite IH; [|assumption|intros p a w b v c I; apply Hd; now right]. cbn [bind].
  rewrite (single_one _ _ _ Hd (or_introl eq_refl)). cbn [filter]. destruct (hits ws o); reflexivity.
Qed.

Lemma add_many c n cx f l ty par ws (ow : bool) : timeline_is n cx f l -> has_type n ty -> is_animated n = true ->
  Forall (fun w => fps (w_time w) = f /\ (0 <= at_ w)%Q) ws -> Forall (fits ty) ws -> single l ws ->
  ow = true \/ Forall (fun w => find_at (at_ w) l = None) ws ->
  exists n', tl_add c n cx par ws ow = (n', Ok tt) /\ has_type n' ty /\ timeline_is n' cx f (put_all ws l).
Proof.
  intros H Hty Ha Hw Hfit Hd Hc. destruct (timeline_waypoints _ _ _ _ H) as (d & Ed & El & W).
  pose proof (timeline_fits _ _ _ _ _ H Hty) as Fl. destruct H as (Ht & Hf & _ & _ & Ho & Hl).
  assert (Hw' : Forall (fun w => fps (w_time w) = f) ws) by (eapply Forall_impl; [|exact Hw]; cbn; tauto).
  assert (Hl' : Forall (fun w => fps (w_time w) = f) l) by (eapply Forall_impl; [|exact Hl]; cbn; tauto).
  unfold tl_add. rewrite Ed. cbn [bind]. rewrite El, (clashes_single f l ws) by assumption. cbn [bind].
  assert (X : exists d1, (if ow then tdels (map w_time (filter (hits ws) l)) d
                  else match map w_time (filter (hits ws) l) with [] => Ok d | _ :: _ => Err ValueError end) = Ok d1 /\ wfd f d1 /\
                  (forall v, In v (map snd d1) <-> In v (filter (fun v => negb (hits ws v)) l))).
  { destruct ow.
    - destruct (tdels_spec f (filter (hits ws) l) d W) as (d1 & E1 & W1 & M1).
      + apply Forall_forall. intros v Hv. apply filter_In in Hv as [Hv _]. rewrite Forall_forall in Hl'. split; [now apply Hl'|congruence].
      + apply in_order_distinct. now apply in_order_filter.
      + exists d1. split; [exact E1|]. split; [exact W1|]. intros v. rewrite M1, El, filter_In, negb_true_iff. split.
        * intros [I F]. split; [exact I|]. destruct (hits ws v) eqn:X; [|reflexivity]. exfalso. rewrite Forall_forall in F. apply (F v); [apply filter_In; now split|reflexivity].
        * intros [I F]. split; [exact I|]. apply Forall_forall. intros u Hu E. apply filter_In in Hu as [_ Hu]. apply hits_iff in Hu as (w & Hw1 & Hw2). apply hits_false in F. rewrite Forall_forall in F. apply (F w Hw1). now rewrite E.
    - destruct Hc as [Hc|Hc]; [discriminate|].
      assert (E0 : forall v, In v l -> hits ws v = false).
      { intros v I. destruct (hits ws v) eqn:I2; [|reflexivity]. exfalso. apply hits_iff in I2 as (w & I2 & I3). rewrite Forall_forall in Hc. specialize (Hc w I2). rewrite find_at_None in Hc. now apply (Hc v). }
      assert (E1 : filter (hits ws) l = []). { clear -E0. induction l as [|v l IH]; [reflexivity|]. cbn [filter]. rewrite (E0 v) by now left. apply IH. intros u I. apply E0. now right. }
      rewrite E1. exists d. split; [reflexivity|]. split; [assumption|]. rewrite El. intros v. rewrite filter_In. split; [intros I; split; [assumption|now rewrite E0]|tauto]. }
  destruct X as (d1 & -> & W1 & M1). unfold set_is_animated, animate. rewrite Ha.
  destruct (tsets_put f ws d1 _ W1 M1 Hw') as (d2 & -> & [W2 W2'] & M2).
  assert (Hs : Forall (fun w => fps (w_time w) = f) (map snd d2)).
  { apply Forall_forall. intros v Hv. apply in_map_iff in Hv as (kv & <- & Hkv). rewrite Forall_forall in W2. apply (W2 _ Hkv). }
  rewrite (sort_wps_same f) by assumption.
  eexists. split; [reflexivity|].
  assert (T2 : has_type (with_kids n (map wp_tag (sort wp_le (map snd d2)))) ty).
  { split; [reflexivity|]. destruct Hty as [_ Hty]. exact Hty. }
  assert (E2 : sort wp_le (map snd d2) = put_all ws l).
  { apply in_order_ext; [now apply sort_in_order|now apply put_all_order|]. intros v.
    rewrite sort_in, M2, !put_all_last, filter_In, negb_true_iff. split.
    - intros [I|[[I _] F]]; tauto.
    - intros [I|[I F]]; [tauto|]. right. split; [|assumption]. split; [assumption|]. now apply hits_false. }
  rewrite E2 in *. split; [assumption|]. apply (stored_is _ cx f ty).
  - exact Ha.
  - assumption.
  - apply child_tags_plain.
  - assumption.
  - now apply put_all_order.
  - apply Forall_forall. intros v Hv. apply put_all_last in Hv as [(a & b & -> & _)|[Hv _]].
    + rewrite Forall_forall in Hw. apply Hw. apply in_or_app. right. now left.
    + rewrite Forall_forall in Hl. now apply Hl.
  - apply Forall_forall. intros v Hv. apply put_all_last in Hv as [(a & b & -> & _)|[Hv _]].
    + rewrite Forall_forall in Hfit. apply Hfit. apply in_or_app. right. now left.
    + rewrite Forall_forall in Fl. now apply Fl.
Qed.

(** ** KeyError *)
Definition occs (t : T) (l : list T) : nat := length (filter (fun u => Qeq_bool (frames u) (frames t)) l).
(** The keys that are to be deleted are among the waypoints of the dictionary, in order, but one of them is repeated. *)
Lemma tdels_twice f ts : forall d, wfd f d -> Forall (fun t => fps t = f) ts ->
  (exists a t b u c, ts = a ++ t :: b ++ u :: c /\ (frames t == frames u)%Q) -> tdels ts d = Err KeyError.
Proof.
  assert (Gone : forall us d t, wfd f d -> Forall (fun t => fps t = f) us -> In t us -> find_at (frames t) (map snd d) = None -> tdels us d = Err KeyError).
  { induction us as [|u us IH]; intros d t W F I N; [destruct I|]. inversion F as [|? ? F1 F2]; subst. cbn [tdels].
    pose proof (tdel_spec (fps u) u d W eq_refl) as D. destruct (find_at (frames u) (map snd d)) eqn:E; [|now rewrite D].
    destruct D as (d' & -> & W' & _ & M). cbn [bind]. destruct I as [->|I]; [congruence|]. apply (IH d' t W' F2 I).
    apply find_at_None. intros v Hv X. apply M in Hv as [Hv _]. rewrite find_at_None in N. now apply (N v Hv). }
  induction ts as [|t ts IH]; intros d W F (a & t1 & b & u & c & E & Q); [destruct a; discriminate|].
  inversion F as [|? ? F1 F2]; subst. cbn [tdels]. pose proof (tdel_spec (fps t) t d W eq_refl) as D. destruct (find_at (frames t) (map snd d)); [|now rewrite D].
  destruct D as (d' & -> & W' & _ & M). cbn [bind]. destruct a as [|a0 a]; injection E as -> ->.
  - apply (Gone _ d' u W' F2); [apply in_or_app; right; now left|]. apply find_at_None. intros v Hv X. apply M in Hv as [_ Hv]. apply Hv. now rewrite X, Q.
  - apply (IH d' W' F2). now exists a, t1, b, u, c.
Qed.
Lemma clashes_all f old ws : Forall (fun w => fps (w_time w) = f) old -> Forall (fun w => fps (w_time w) = f) ws ->
  clashes old ws = Ok (flat_map (fun o => map (fun _ : wp => w_time o) (filter (fun w => Qeq_bool (at_ o) (at_ w)) ws)) old).
Proof.
  intros Ho Hw. induction old as [|o old IH]; [reflexivity|]. inversion Ho; subst. cbn [clashes flat_map]. rewrite (filterM_clash _ o ws eq_refl) by assumption. cbn [bind]. rewrite IH by assumption. reflexivity.
Qed.
Lemma add_twice c n cx f l par ws o a w b v e : timeline_is n cx f l ->
  Forall (fun w => fps (w_time w) = f) ws -> In o l -> ws = a ++ w :: b ++ v :: e -> (at_ w == at_ o)%Q -> (at_ v == at_ o)%Q ->
  tl_add c n cx par ws true = (n, Err KeyError).
Proof.
  intros H Hw Io E Ew Ev. destruct (timeline_waypoints _ _ _ _ H) as (d & Ed & El & W). destruct H as (Ht & Hf & _ & _ & Ho & Hl).
  assert (Hl' : Forall (fun w => fps (w_time w) = f) l) by (eapply Forall_impl; [|exact Hl]; cbn; tauto).
  unfold tl_add. rewrite Ed. cbn [bind]. rewrite El, (clashes_all f l ws) by assumption. cbn [bind].
  rewrite (tdels_twice f); [reflexivity|exact W| |].
  - apply Forall_forall. intros t I. apply in_flat_map in I as (x & Ix & I). apply in_map_iff in I as (y & <- & _). rewrite Forall_forall in Hl'. now apply Hl'.
  - apply in_split in Io as (l1 & l2 & ->). rewrite flat_map_app. cbn [flat_map]. set (L1 := flat_map _ l1). set (L2 := flat_map _ l2). rewrite E, filter_app. cbn [filter].
    assert (Bw : Qeq_bool (at_ o) (at_ w) = true) by (apply Qeq_bool_iff; now symmetry). assert (Bv : Qeq_bool (at_ o) (at_ v) = true) by (apply Qeq_bool_iff; now symmetry).
    rewrite Bw, filter_app. cbn [filter]. rewrite Bv, map_app. cbn [map]. rewrite map_app. cbn [map].
    set (k := fun _ : wp => w_time o). set (A := map k (filter _ a)). set (B := map k (filter _ b)). set (C := map k (filter _ e)).
    exists (L1 ++ A), (w_time o), B, (w_time o), (C ++ L2). split; [|reflexivity]. rewrite <- !app_assoc. cbn [app]. rewrite <- app_assoc. reflexivity.
Qed.
Lemma put_all_finds ws l : in_order l ->
  (forall a w b, ws = a ++ w :: b -> Forall (fun v => ~ (at_ v == at_ w)%Q) b -> find_at (at_ w) (put_all ws l) = Some w) /\
  (forall q, Forall (fun w => ~ (at_ w == q)%Q) ws -> find_at q (put_all ws l) = find_at q l).
Proof.
  intros O. pose proof (put_all_order ws l O) as O'. split.
  - intros a w b E F. apply find_at_In; [assumption|]. split; [|reflexivity]. apply put_all_last. left. exists a, b. split; [exact E|].
    eapply Forall_impl; [|exact F]. cbn. intros v X Y. apply X. now symmetry.
  - intros q H. destruct (find_at q l) as [v|] eqn:E1.
    + apply find_at_In in E1 as [I1 I2]; [|assumption]. apply find_at_In; [assumption|]. split; [|assumption].
      apply put_all_last. right. split; [assumption|]. eapply Forall_impl; [|exact H]. cbn. intros w X Y. apply X. rewrite <- Y. assumption.
    + apply find_at_None. intros w Hw Y. apply put_all_last in Hw. rewrite find_at_None in E1.
      destruct Hw as [(a & b & -> & _)|[Hw _]]; [|now apply (E1 w)]. rewrite Forall_forall in H. apply (H w); [|exact Y]. apply in_or_app. right. now left.
Qed.
