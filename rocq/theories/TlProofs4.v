(** Timelines: the forms of the theorems in TlProps.v *)
From Verif Require Import TlModel SerModel TimeSpec ValSpec TlSpec TlProofs TlProofs2 TlProofs3.
From Coq Require Import Permutation Lia Lqa.
Local Open Scope Z_scope.

Lemma timeline_order n cx f l : timeline_is n cx f l -> in_order l.
Proof. intros H. apply H. Qed.

Lemma gives_at c q f x w : gives c (mkT q f) x w -> at_ w = q.
Proof. now destruct 1. Qed.

Lemma set_then_get c n cx f l ty par k q x w : timeline_is n cx f l -> has_type n ty ->
  names cx f k q -> gives c (mkT q f) x w -> fits ty w ->
  exists n', tl_setitem c n cx par k x = (n', Ok tt) /\ timeline_is n' cx f (put_wp w l) /\ has_type n' ty /\
    forall k' p, names cx f k' p -> not_str k' ->
      str_contains (s "x_y") n = false -> str_contains (s "x_y") n' = false ->
      ((p == q)%Q -> tl_getitem n' cx k' = Ok w) /\
      (~ (p == q)%Q -> tl_getitem n' cx k' = tl_getitem n cx k').
Proof.
  intros L T N G F. destruct (setitem_is c n cx f l ty par k q x w L T N G F) as (n' & E & W & T' & L').
  exists n'. split; [assumption|]. split; [assumption|]. split; [assumption|].
  intros k' p N' S' X X'. pose proof (timeline_order _ _ _ _ L) as O. pose proof (gives_at _ _ _ _ _ G) as A.
  split; intros P; rewrite (getitem_is n' cx f (put_wp w l) k' p) by assumption.
  - rewrite find_put_same; [reflexivity|assumption|]. rewrite A. now symmetry.
  - rewrite (getitem_is n cx f l k' p) by assumption. rewrite find_put_other; [reflexivity|assumption|]. rewrite A. intros Y. apply P. now symmetry.
Qed.

Lemma abstract_map w l q : in_order l ->
  in_order (put_wp w l) /\ in_order (without q l) /\
  find_at (at_ w) (put_wp w l) = Some w /\ (forall p, ~ (at_ w == p)%Q -> find_at p (put_wp w l) = find_at p l) /\
  find_at q (without q l) = None /\ (forall p, ~ (p == q)%Q -> find_at p (without q l) = find_at p l).
Proof.
  intros O. split; [now apply put_in_order|]. split; [now apply in_order_filter|]. split; [now apply find_put_same|].
  split; [intros; now apply find_put_other|]. split; [apply find_without_same|]. intros; now apply find_without_other.
Qed.

Lemma setting_sorts c n cx f ty par k q x w l : is_tag n = true -> tl_values n cx = Ok l -> ctx_fps cx = Ok f ->
  Forall (fun w => (0 <= at_ w)%Q) l ->
  has_type n ty -> names cx f k q -> gives c (mkT q f) x w -> fits ty w ->
  exists n' l', tl_setitem c n cx par k x = (n', Ok tt) /\ child_tags n' = map wp_tag l' /\ in_order l' /\
    forall v, In v l' <-> v = w \/ In v l /\ ~ (at_ v == at_ w)%Q.
Proof.
  intros Ht V F P T N G Fit. unfold tl_values in V. destruct (waypoints n cx) as [d|e] eqn:W; [|discriminate].
  cbn [bind] in V. injection V as <-.
  destruct (setitem_any c n cx f ty par k q x w d Ht W F P T N G Fit) as (n' & l' & E & R & _ & L & M).
  exists n', l'. split; [assumption|]. split; [apply R|]. split; [apply L|assumption].
Qed.

Lemma history_sorted c n cx f ty os l' : is_animated n = false -> is_tag n = true -> tag_name n = ty -> ctx_fps cx = Ok f ->
  ops_mean c cx f ty os [] l' ->
  in_order l' /\ (is_animated (run_ops c cx n os) = true -> child_tags (run_ops c cx n os) = map wp_tag l').
Proof.
  intros Ha Ht Hn Hf O.
  assert (L0 : timeline_is n cx f []).
  { assert (E0 : waypoints n cx = Ok []) by (unfold waypoints, waypoint_tags; now rewrite Ha).
    split; [assumption|]. split; [assumption|]. unfold tl_values. rewrite E0. split; [reflexivity|]. unfold waypoint_tags. rewrite Ha.
    split; [reflexivity|]. split; constructor. }
  assert (T0 : has_type n ty) by (split; [assumption|]; now rewrite Ha).
  destruct (history_refines c n cx f [] ty os l' L0 T0 O) as (L & T & W).
  split; [apply L|]. intros A. apply W; [|assumption]. intros X. rewrite Ha in X. discriminate.
Qed.

Lemma deleting_the_last n cx f k q w : timeline_is n cx f [w] -> names cx f k q -> (at_ w == q)%Q ->
  tl_delitem n cx true k = (w_val w, Ok tt) /\
  (forall ty, has_type n ty -> is_animated (w_val w) = false /\ from_tag (w_val w) = Ok (w_cls w) /\ tag_name (w_val w) = ty).
Proof.
  intros L N A. split; [exact (del_last n cx f k q w true L N A)|]. intros ty T.
  pose proof (timeline_fits n cx f [w] ty L T) as F. apply Forall_inv in F. destruct F as (_ & _ & X & Y & _ & Z). auto.
Qed.

Lemma add_keeps_all c n cx f l ty par ws : timeline_is n cx f l -> has_type n ty -> is_animated n = true -> fresh f ws -> Forall (fits ty) ws ->
  Forall (fun w => find_at (at_ w) l = None) ws ->
  exists n' l', tl_add c n cx par ws false = (n', Ok tt) /\ has_type n' ty /\ timeline_is n' cx f l' /\
    forall v, In v l' <-> In v l \/ In v ws.
Proof.
  intros L T A Fr Fit N. destruct (add_is c n cx f l ty par ws false L T A Fr Fit (or_intror N)) as (n' & E & _ & T' & L').
  exists n', (put_all ws l). repeat (split; [assumption|]). intros v. rewrite put_all_members by apply Fr.
  split; [tauto|]. intros [X|X]; [|tauto]. right. split; [assumption|].
  rewrite Forall_forall in N |- *. intros w Hw Y. specialize (N w Hw). rewrite find_at_None in N. now apply (N v X).
Qed.

Lemma add_to_static c n cx f v m par ws ow : is_animated n = false -> is_tag n = true -> tag_name n = tag_name (empty_tag c) -> ctx_fps cx = Ok f ->
  get_value c n cx = Ok v -> (forall c' k cy, v <> PVal c' k cy) -> new_value c v = Ok m -> from_tag m = Ok c -> tag_name m = tag_name (empty_tag c) -> is_tag m = true ->
  fresh f ws -> Forall (fits (tag_name n)) ws ->
  exists n' l', tl_add c n cx par ws ow = (n', Ok tt) /\ is_animated n' = true /\ has_type n' (tag_name n) /\ timeline_is n' cx f l' /\
    forall w, In w l' <-> In w ws.
Proof.
  intros Ha Ht Hn Hf Hv Hp Hm Hc Hmn Hmt Fr Fit.
  destruct (add_static c n cx f v m par ws ow Ha Ht Hn Hf Hv) as (n' & E & A & T & L); [repeat split; assumption|assumption|assumption|].
  exists n', (put_all ws []). repeat (split; [assumption|]). intros w. rewrite put_all_members by apply Fr. cbn [In]. tauto.
Qed.

Lemma add_overwrites c n cx f l ty par ws : timeline_is n cx f l -> has_type n ty -> is_animated n = true -> fresh f ws -> Forall (fits ty) ws ->
  exists n' l', tl_add c n cx par ws true = (n', Ok tt) /\ has_type n' ty /\ timeline_is n' cx f l' /\
    (forall w, In w ws -> find_at (at_ w) l' = Some w) /\
    (forall q, Forall (fun w => ~ (at_ w == q)%Q) ws -> find_at q l' = find_at q l).
Proof.
  intros L T A Fr Fit. destruct (add_is c n cx f l ty par ws true L T A Fr Fit (or_introl eq_refl)) as (n' & E & _ & T' & L').
  exists n', (put_all ws l). split; [assumption|]. split; [assumption|]. split; [assumption|].
  pose proof (timeline_order _ _ _ _ L) as O. pose proof (put_all_order ws l O) as O'. split.
  - intros w Hw. apply find_at_In; [assumption|]. split; [|reflexivity]. apply put_all_members; [apply Fr|]. now left.
  - intros q Q. destruct (find_at q l) as [v|] eqn:E1.
    + apply find_at_In in E1 as [I1 I2]; [|assumption]. apply find_at_In; [assumption|]. split; [|assumption].
      apply put_all_members; [apply Fr|]. right. split; [assumption|]. eapply Forall_impl; [|exact Q]. cbn. intros w X Y. apply X. rewrite <- Y. assumption.
    + apply find_at_None. intros w Hw Y. apply put_all_members in Hw; [|apply Fr]. rewrite find_at_None in E1.
      destruct Hw as [Hw|[Hw _]]; [|now apply (E1 w)]. rewrite Forall_forall in Q. now apply (Q w).
Qed.

Lemma interp_canonical x : match check_interpolation x with
            | Ok y => interpolation y /\ check_interpolation y = Ok y /\
                      (x = y \/ (x = s "auto" /\ y = s "tcb") \/ (x = s "halt" /\ y = s "ease"))
            | Err e => e = ValueError /\ ~ interpolation x /\ x <> s "auto" /\ x <> s "halt"
            end.
Proof.
  destruct (check_interpolation x) as [y|e] eqn:E.
  - pose proof (check_interp_ok x y E) as I. split; [assumption|]. split; [now apply check_interp_fix|].
    unfold check_interpolation in E. destruct (pstr_eqb x (s "undefined")); [discriminate|].
    destruct (existsb (pstr_eqb x) interpolation_types); [injection E as <-; now left|].
    unfold interpolation_synonyms in E. cbn [aget] in E.
    repeat (match type of E with (match (if ?b then _ else _) with _ => _ end) = _ => destruct b eqn:?; [injection E as <-|] end);
      try discriminate; repeat match goal with H : pstr_eqb _ _ = true |- _ => rewrite pstr_eqb_spec in H end; subst; auto.
  - unfold check_interpolation in E. destruct (pstr_eqb x (s "undefined")) eqn:U.
    + injection E as <-. apply pstr_eqb_spec in U. subst. split; [reflexivity|]. split; [|split; discriminate].
      intros I. apply check_interp_fix in I. discriminate.
    + split.
      * destruct (existsb (pstr_eqb x) interpolation_types); [discriminate|]. destruct (aget x interpolation_synonyms); now inversion E.
      * split; [|split; intros ->; discriminate]. intros I. apply check_interp_fix in I. unfold check_interpolation in I. rewrite U in I. rewrite E in I. discriminate.
Qed.

Lemma waypoint_new_interp k v b a cx w : waypoint_new k v b a cx = Ok w -> interpolation (w_before w) /\ interpolation (w_after w).
Proof.
  unfold waypoint_new. destruct v; try discriminate. destruct (is_animated n); [discriminate|]. intros H.
  match type of H with (let* t := ?r in _) = _ => destruct r as [t|]; [|discriminate] end. cbn [bind] in H.
  destruct (check_interpolation b) as [b'|] eqn:B; [|discriminate]. destruct (check_interpolation a) as [a'|] eqn:A; [|discriminate].
  cbn [bind] in H. injection H as <-. cbn [w_before w_after]. split; eapply check_interp_ok; eassumption.
Qed.

Lemma setters_interp w x w' : interpolation (w_before w) -> interpolation (w_after w) -> set_before w x = Ok w' \/ set_after w x = Ok w' ->
  interpolation (w_before w') /\ interpolation (w_after w').
Proof.
  unfold set_before, set_after. intros B A H. destruct (check_interpolation x) as [y|] eqn:E; [|destruct H; discriminate].
  cbn [bind] in H. apply check_interp_ok in E. destruct H as [H|H]; injection H as <-; cbn; auto.
Qed.

Lemma setters_side w x :
  (forall y, check_interpolation x = Ok y ->
     set_before w x = Ok (mkW (w_time w) y (w_after w) (w_cls w) (w_val w)) /\
     set_after w x = Ok (mkW (w_time w) (w_before w) y (w_cls w) (w_val w))) /\
  (forall e, check_interpolation x = Err e -> set_before w x = Err e /\ set_after w x = Err e).
Proof. unfold set_before, set_after. split; intros y ->; auto. Qed.

Lemma without_put q w l : in_order l -> (at_ w == q)%Q -> without q (put_wp w l) = without q l.
Proof.
  intros O A. apply in_order_ext.
  - now apply in_order_filter, put_in_order.
  - now apply in_order_filter.
  - intros v. rewrite !without_members, put_members. split.
    + intros [[->|[H _]] X]; [contradiction|auto].
    + intros [H X]. split; [|assumption]. right. split; [assumption|]. now rewrite A.
Qed.

Lemma str_set_del c n cx f l ty x q v w : timeline_is n cx f l -> has_type n ty -> T_init (TStr x) cx = Ok (mkT q f) -> (0 <= q)%Q ->
  gives c (mkT q f) v w -> fits ty w ->
  exists n1 n2, tl_setitem c n cx true (KeyStr x) v = (n1, Ok tt) /\ tl_delitem n1 cx true (KeyStr x) = (n2, Ok tt) /\
    timeline_is n2 cx f (without q l).
Proof.
  intros L T X P G F. assert (N : names cx f (KeyStr x) q) by now constructor.
  destruct (setitem_is c n cx f l ty true (KeyStr x) q v w L T N G F) as (n1 & E1 & _ & T1 & L1).
  pose proof (gives_at _ _ _ _ _ G) as A. assert (A' : (at_ w == q)%Q) by now rewrite A.
  pose proof (timeline_order _ _ _ _ L) as O.
  destruct (del_is n1 cx f (KeyStr x) q (put_wp w l) ty w L1 T1 N) as (n2 & E2 & _ & L2 & _); [now apply find_put_same|].
  exists n1, n2. rewrite without_put in L2 by assumption. auto.
Qed.

Lemma tl_find_other d : forall w, tl_find COther d <> Ok w.
Proof.
  induction d as [|[t v] d IH]; intros w; cbn [tl_find]; [discriminate|].
  destruct (T_eq t COther) as [e|] eqn:E; [|discriminate]. cbn [bind]. cbn in E. injection E as <-.
  destruct (T_gt t COther) as [g|]; [|discriminate]. cbn [bind]. destruct g; [discriminate|]. apply IH.
Qed.

Lemma str_get_refuted n cx x w : tl_getitem n cx (KeyStr x) <> Ok w.
Proof.
  unfold tl_getitem. destruct (str_contains (s "x_y") n); [discriminate|]. destruct (waypoints n cx); [|discriminate]. cbn [bind cmp_of]. apply tl_find_other.
Qed.

Lemma iadd_never_ok c n cx par ws n' r : tl_iadd c n cx par ws = (n', r) -> r <> Ok tt.
Proof.
  intros H. apply iadd_raises in H. destruct (tl_add c n cx par ws true) as [n1 [u|e]]; destruct H as [_ ->]; discriminate.
Qed.

Lemma iadd_adds c n cx f l ty par ws : timeline_is n cx f l -> has_type n ty -> is_animated n = true -> fresh f ws -> Forall (fits ty) ws ->
  exists n' l', tl_iadd c n cx par ws = (n', Err TypeError) /\ timeline_is n' cx f l' /\
    (forall w, In w ws -> find_at (at_ w) l' = Some w) /\
    (forall q, Forall (fun w => ~ (at_ w == q)%Q) ws -> find_at q l' = find_at q l).
Proof.
  intros L T A Fr Fit. destruct (add_overwrites c n cx f l ty par ws L T A Fr Fit) as (n' & l' & E & _ & L' & X & Y).
  exists n', l'. split; [|auto]. unfold tl_iadd. rewrite E. reflexivity.
Qed.

Lemma wps_eq_times f l : Forall (fun w => fps (w_time w) = f) l -> forall l', Forall (fun w => fps (w_time w) = f) l' ->
  exists b, wps_eq l l' = Ok b /\ (b = true <-> Forall2 (fun v w => at_ v == at_ w)%Q l l').
Proof.
  induction 1 as [|w l0 Hw _ IH]; intros [|w' l'] H'.
  - exists true. split; [reflexivity|]. split; [constructor|reflexivity].
  - exists false. split; [reflexivity|]. split; [discriminate|inversion 1].
  - exists false. split; [reflexivity|]. split; [discriminate|inversion 1].
  - inversion H' as [|? ? Hw' H'']; subst. cbn [wps_eq]. rewrite T_eq_same by congruence. cbn [bind].
    destruct (Qeq_bool (frames (w_time w)) (frames (w_time w'))) eqn:E.
    + destruct (IH l' H'') as (b & -> & B). exists b. split; [reflexivity|]. apply Qeq_bool_eq in E.
      rewrite B. split; [now constructor|]. inversion 1. assumption.
    + exists false. split; [reflexivity|]. split; [discriminate|]. intros X. inversion X as [|? ? ? ? Y]; subst. apply Qeq_bool_iff' in E. contradiction.
Qed.

Lemma tl_eq_times n m cx f l l' : timeline_is n cx f l -> timeline_is m cx f l' ->
  exists b, tl_eq n cx m cx = Ok b /\ (b = true <-> Forall2 (fun v w => at_ v == at_ w)%Q l l').
Proof.
  intros (_ & _ & V & _ & _ & P) (_ & _ & V' & _ & _ & P'). unfold tl_eq. rewrite V, V'. cbn [bind].
  destruct (Nat.eqb (length l) (length l')) eqn:E.
  - apply (wps_eq_times f); eapply Forall_impl; try eassumption; cbn; tauto.
  - exists false. split; [reflexivity|]. split; [discriminate|]. intros X. apply Nat.eqb_neq in E. exfalso. apply E.
    clear - X. induction X; cbn; congruence.
Qed.

Lemma ins_perm {A} le (x : A) l : Permutation (x :: l) (ins le x l).
Proof.
  induction l as [|y l IH]; cbn [ins]; [reflexivity|]. destruct (le x y); [reflexivity|].
  etransitivity; [apply perm_swap|]. now constructor.
Qed.
Lemma sort_perm {A} le (l : list A) : Permutation l (sort le l).
Proof. induction l as [|x l IH]; cbn [sort]; [reflexivity|]. etransitivity; [|apply ins_perm]. now constructor. Qed.

Lemma assign_list n cx f ty par l : has_type n ty -> ctx_fps cx = Ok f -> l <> [] -> fresh f l -> Forall (fits ty) l ->
  exists n' l', tl_assign n cx par (SList l) = (n', Ok tt) /\ has_type n' ty /\ timeline_is n' cx f l' /\ Permutation l l'.
Proof.
  intros T F N [Fr Fd] Fit. destruct (set_waypoints_is n cx f ty par l T F N Fd Fr Fit) as (n' & E & _ & T' & L').
  exists n', (sort wp_le l). repeat (split; [assumption|]). apply sort_perm.
Qed.

Lemma assign_nothing n cx f w l ty : timeline_is n cx f (w :: l) -> has_type n ty ->
  tl_assign n cx true (SList []) = (w_val w, Ok tt).
Proof.
  intros L T. cbn [tl_assign set_waypoints]. unfold unanimate. destruct (is_animated n) eqn:A.
  - cbn [negb]. destruct L as (_ & _ & -> & _). reflexivity.
  - apply timeline_static in L; [discriminate|assumption].
Qed.
