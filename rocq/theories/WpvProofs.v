(** Proofs about assigning through waypoints. *)
From Verif Require Import TlModel WpvModel TlSpec TlProofs TlProofs2 TlProofs3.
From Coq Require Import Lia Arith.

(** ** Reading every tag gives the timeline *)

Lemma tset_length t w d : forall d', tset t w d = Ok d' -> (length d' <= S (length d))%nat /\ (length d' = S (length d) -> d' = d ++ [(t, w)]).
Proof.
  induction d as [|[k v] d IH]; cbn [tset]; intros d' E.
  - injection E as <-. now split.
  - destruct (tmatch t k) as [[|]|]; cbn [bind] in E; try discriminate.
    + injection E as <-. cbn [length]. split; [lia|intros; lia].
    + destruct (tset t w d) as [d1|] eqn:E1; [|discriminate]. cbn [bind] in E. injection E as <-.
      destruct (IH d1 eq_refl) as [L Q]. cbn [length app]. split; [lia|]. intros H. rewrite Q by lia. reflexivity.
Qed.
Lemma tsets_length ws : forall d d', tsets ws d = Ok d' -> (length d' <= length d + length ws)%nat /\
  (length d' = (length d + length ws)%nat -> d' = d ++ map (fun w => (w_time w, w)) ws).
Proof.
  induction ws as [|w ws IH]; intros d d' E; cbn [tsets] in E.
  - injection E as <-. cbn. rewrite app_nil_r. split; [lia|reflexivity].
  - destruct (tset (w_time w) w d) as [d1|] eqn:E1; [|discriminate]. cbn [bind] in E.
    destruct (tset_length _ _ _ _ E1) as [L1 Q1]. destruct (IH _ _ E) as [L2 Q2]. cbn [length map]. split; [lia|]. intros H.
    rewrite Q2 by lia. rewrite Q1 by lia. now rewrite <- app_assoc.
Qed.

Lemma timeline_listed n cx f l : timeline_is n cx f l -> listed n cx = Ok l.
Proof.
  intros (_ & _ & Hv & HL & _). unfold tl_values, waypoints in Hv. unfold listed. destruct (waypoint_tags n) as [|t k].
  - cbn [bind] in Hv. injection Hv as <-. reflexivity.
  - destruct (aget (s "type") (tag_attrs n)) as [ty|]; [|discriminate].
    destruct (mapM _ (t :: k)) as [ws|e1] eqn:E; [|discriminate]. cbn [bind] in Hv.
    destruct (tsets ws []) as [d|] eqn:Ed; [|discriminate]. cbn [bind] in Hv. injection Hv as <-.
    destruct (tsets_length _ _ _ Ed) as [_ Q]. apply mapM_ok_Forall2 in E. assert (E' : length (t :: k) = length ws) by (clear - E; induction E; cbn [length]; congruence).
    rewrite map_length in HL. rewrite Q by (cbn [length] in *; lia). cbn [app]. f_equal. clear. induction ws; [reflexivity|]. cbn [map snd]. now rewrite <- IHws.
Qed.

(** ** The place of a waypoint *)
Lemma last_at_nth f l : in_order l -> Forall (fun w => fps (w_time w) = f /\ (0 <= at_ w)%Q) l ->
  forall i w, nth_error l i = Some w -> last_at (w_time w) l = Some i.
Proof.
  induction l as [|a l IH]; intros O F i w H; [destruct i; discriminate|]. inversion F as [|? ? [F1 F2] F']; subst. destruct O as [O1 O2]. cbn [last_at].
  destruct i as [|i].
  - cbn [nth_error] in H. injection H as <-.
    replace (last_at (w_time a) l) with (@None nat).
    + rewrite tmatch_same by reflexivity. rewrite (proj2 (Qeq_bool_iff _ _)) by reflexivity. reflexivity.
    + symmetry. assert (N : forall v, In v l -> ~ (frames (w_time a) == at_ v)%Q /\ fps (w_time v) = fps (w_time a)).
      { intros v Hv. rewrite Forall_forall in F'. split; [|apply (F' v Hv)]. intros E. specialize (O1 v Hv). unfold at_ in *. rewrite E in O1. now apply Qlt_irrefl in O1. }
      clear - N. induction l as [|b l IH]; [reflexivity|]. cbn [last_at]. rewrite IH by (intros v Hv; apply N; now right).
      destruct (N b ltac:(now left)) as [N1 N2]. rewrite tmatch_same by congruence. now rewrite (proj2 (Qeq_bool_iff' _ _)) by exact N1.
  - cbn [nth_error] in H. now rewrite (IH O2 F' i w H).
Qed.

(** ** Changing one tag *)
Fixpoint change_nth {A} (i : nat) (f : A -> A) (l : list A) {struct l} : list A :=
  match l, i with [], _ => [] | a :: l', O => f a :: l' | a :: l', S i' => a :: change_nth i' f l' end.

Lemma at_tag_child i f k : (forall c, is_tag c = true -> is_tag (f c) = true) -> filter is_tag (at_tag i f k) = change_nth i f (filter is_tag k).
Proof.
  intros Hf. revert i. induction k as [|c k IH]; intros i; [reflexivity|]. cbn [at_tag filter]. destruct (is_tag c) eqn:E.
  - destruct i; cbn [filter change_nth]; [now rewrite (Hf _ E)|]. rewrite E. now rewrite IH.
  - cbn [filter]. now rewrite E.
Qed.

Lemma with_value_read m w ty cx x c : wp_from_tag w (AStr ty) cx = Ok x -> is_tag m = true -> is_animated m = false -> tag_name m = ty -> from_tag m = Ok c ->
  wp_from_tag (with_value m w) (AStr ty) cx = Ok (mkW (w_time x) (w_before x) (w_after x) c m).
Proof.
  intros H Tm Am Nm Cm. unfold wp_from_tag in *.
  assert (Ek : forall v, child_tags w = [v] -> child_tags (with_value m w) = [m]).
  { intros v Ev. unfold child_tags, with_value in *. cbn [with_kids tag_kids]. rewrite at_tag_child by (intros; exact Tm). now rewrite Ev. }
  unfold has_name in *. change (tag_attrs (with_value m w)) with (tag_attrs w).
  assert (HN : match w with El _ _ _ => True | Txt _ => False end).
  { destruct w; [discriminate H|exact I]. }
  destruct w as [|nm a k]; [elim HN|]. change (with_value m (El nm a k)) with (El nm a (at_tag 0 (fun _ => m) k)) in *.
  destruct (negb _); [discriminate|]. cbn [tag_attrs] in *.
  destruct (aget (s "time") a) as [tv|]; [|discriminate]. destruct (T_init (tval_of tv) cx) as [t|]; [|discriminate]. cbn [bind] in *.
  destruct (child_tags (El nm a k)) as [|v [|]] eqn:E; [discriminate| |discriminate]. rewrite (Ek v eq_refl), Am.
  destruct (is_animated v); [discriminate|]. destruct (negb (pstr_eqb (tag_name v) ty)); [discriminate|].
  subst ty. rewrite pstr_eqb_refl. cbn [negb]. destruct (from_tag v) as [c0|]; [|discriminate]. rewrite Cm. cbn [bind] in *.
  destruct (aget (s "before") a) as [b|]; [|discriminate]. destruct (aget (s "after") a) as [b'|]; [|discriminate].
  destruct (aval_interp b) as [b1|]; [|discriminate]. cbn [bind] in *. destruct (aval_interp b') as [b2|]; [|discriminate]. cbn [bind] in *.
  injection H as <-. reflexivity.
Qed.

(** ** The whole timeline *)

(** w with the value m *)
Definition revalued (m : node) (w : wp) : wp := mkW (w_time w) (w_before w) (w_after w) (w_cls w) m.

Lemma change_nth_length {A} i (f : A -> A) l : length (change_nth i f l) = length l.
Proof. revert i. induction l as [|a l IH]; intros [|i]; cbn [change_nth length]; auto. Qed.

Lemma change_nth_only f l : in_order l -> forall i w, nth_error l i = Some w ->
  change_nth i f l = map (fun x => if Qeq_bool (at_ x) (at_ w) then f x else x) l.
Proof.
  induction l as [|a l IH]; intros O i w H; [destruct i; discriminate|]. destruct O as [O1 O2]. destruct i as [|i]; cbn [nth_error] in H; cbn [change_nth map].
  - injection H as <-. rewrite (proj2 (Qeq_bool_iff _ _)) by reflexivity. f_equal. clear - O1. induction l as [|b l IH]; [reflexivity|]. cbn [map].
    rewrite <- IH by (intros; apply O1; now right). rewrite (proj2 (Qeq_bool_iff' _ _)); [reflexivity|]. intros E. specialize (O1 b ltac:(now left)). rewrite E in O1. now apply Qlt_irrefl in O1.
  - rewrite (IH O2 i w H). rewrite (proj2 (Qeq_bool_iff' _ _)); [reflexivity|]. intros E. apply nth_error_In in H. specialize (O1 w H). rewrite E in O1. now apply Qlt_irrefl in O1.
Qed.

Lemma mapM_change {A B} (g : A -> res B) f f' l : forall i ws w, mapM g l = Ok ws -> nth_error ws i = Some w ->
  (forall a, g a = Ok w -> g (f a) = Ok (f' w)) -> mapM g (change_nth i f l) = Ok (change_nth i f' ws).
Proof.
  induction l as [|a l IH]; intros i ws w E Hi Hf; cbn [mapM] in E.
  - injection E as <-. destruct i; discriminate.
  - destruct (g a) as [b|e1] eqn:Ea; [|discriminate]. cbn [bind] in E. destruct (mapM g l) as [bs|e1] eqn:El; [|discriminate]. cbn [bind] in E. injection E as <-.
    destruct i as [|i]; cbn [nth_error] in Hi; cbn [change_nth mapM].
    + injection Hi as ->. rewrite (Hf a Ea). cbn [bind]. rewrite El. reflexivity.
    + rewrite Ea. cbn [bind]. now rewrite (IH i bs w eq_refl Hi Hf).
Qed.

Lemma change_nth_nil {A} i (f : A -> A) l : l <> [] -> change_nth i f l <> [].
Proof. destruct l, i; easy. Qed.

Lemma wp_assign_is n cx f l i w v m r : timeline_is n cx f l -> nth_error l i = Some w -> set_value (w_cls w) (w_val w) v = (m, r) ->
  is_tag m = true -> is_animated m = false -> tag_name m = tag_name (w_val w) -> from_tag m = Ok (w_cls w) ->
  exists n', wp_assign n cx w v = (n', r) /\ tag_name n' = tag_name n /\ tag_attrs n' = tag_attrs n /\
    timeline_is n' cx f (map (fun x => if Qeq_bool (at_ x) (at_ w) then revalued m x else x) l).
Proof.
  intros H Hi Hm Tm Am Nm Cm. pose proof (timeline_listed _ _ _ _ H) as HL. pose proof H as (Ht & Hf & Hv & HN & Ho & Hq).
  unfold wp_assign. rewrite HL, (last_at_nth f l Ho Hq i w Hi), Hm.
  eexists. split; [reflexivity|]. split; [reflexivity|]. split; [reflexivity|].
  rewrite <- (change_nth_only (revalued m) l Ho i w Hi).
  set (n' := with_kids n _).
  assert (An : is_animated n = true).
  { destruct (is_animated n) eqn:E; [reflexivity|]. unfold waypoint_tags in HN. rewrite E in HN. destruct l; [destruct i; discriminate|discriminate]. }
  assert (An' : is_animated n' = true) by exact An.
  assert (K : waypoint_tags n' = change_nth i (with_value m) (waypoint_tags n)).
  { unfold waypoint_tags. rewrite An, An'. unfold child_tags, n'. cbn [with_kids tag_kids]. apply at_tag_child. reflexivity. }
  assert (Ho' : in_order (change_nth i (revalued m) l)).
  { rewrite (change_nth_only _ _ Ho i w Hi). generalize (at_ w). intros q. clear - Ho. induction l as [|a l IH]; [exact I|]. destruct Ho as [O1 O2]. cbn [map in_order]. split; [|now apply IH].
    intros x Hx. apply in_map_iff in Hx as (y & <- & Hy). specialize (O1 y Hy).
    assert (E : forall z, at_ (if Qeq_bool (at_ z) q then revalued m z else z) = at_ z) by (intros z; destruct (Qeq_bool _ q); reflexivity). now rewrite !E. }
  assert (Hq' : Forall (fun w => fps (w_time w) = f /\ (0 <= at_ w)%Q) (change_nth i (revalued m) l)).
  { clear - Hq. revert i. induction Hq as [|a l P Hl IH]; intros i; [destruct i; constructor|]. destruct i; cbn [change_nth]; constructor; try exact P; auto. }
  assert (W : waypoints n' cx = Ok (map (fun w => (w_time w, w)) (change_nth i (revalued m) l))).
  { unfold waypoints. rewrite K. unfold listed in HL.
    destruct (waypoint_tags n) as [|t0 k0] eqn:E; [injection HL as <-; destruct i; discriminate|].
    pose proof (change_nth_nil i (with_value m) (t0 :: k0) ltac:(discriminate)) as NE.
    destruct (change_nth i (with_value m) (t0 :: k0)) as [|t1 k1] eqn:E1; [easy|]. rewrite <- E1. clear NE.
    change (tag_attrs n') with (tag_attrs n). destruct (aget (s "type") (tag_attrs n)) as [ty|]; [|discriminate].
    assert (M : mapM (fun w => wp_from_tag w ty cx) (change_nth i (with_value m) (t0 :: k0)) = Ok (change_nth i (revalued m) l)).
    { apply (mapM_change _ _ _ _ i l w HL Hi). intros a Ea. pose proof Ea as Ea'. apply wp_from_tag_fits in Ea' as (ty' & -> & Fw & _).
      destruct Fw as (_ & _ & _ & F4 & _). apply with_value_read; congruence || assumption. }
    rewrite M. cbn [bind]. apply (tsets_snoc f _ []).
    - split; constructor.
    - eapply Forall_impl; [|exact Hq']. cbn. tauto.
    - now apply in_order_distinct. }
  repeat split; try assumption; try reflexivity.
  - unfold tl_values. rewrite W. cbn [bind]. f_equal. clear. induction (change_nth i (revalued m) l) as [|x l' IH]; [reflexivity|]. cbn [map snd]. now rewrite IH.
  - rewrite K, !change_nth_length. exact HN.
Qed.

(** What isn't changed *)
Lemma at_tag_same i f k : (forall c, nth_error (filter is_tag k) i = Some c -> f c = c) -> at_tag i f k = k.
Proof.
  revert i. induction k as [|c k IH]; intros i H; [reflexivity|]. cbn [at_tag filter] in *. destruct (is_tag c) eqn:E.
  - destruct i as [|i]; cbn [nth_error] in H; [now rewrite (H c eq_refl)|]. now rewrite (IH i H).
  - now rewrite (IH i H).
Qed.
Lemma with_kids_same n : is_tag n = true -> with_kids n (tag_kids n) = n.
Proof. now destruct n. Qed.
Lemma mapM_nth {A B} (g : A -> res B) l : forall ws i w c, mapM g l = Ok ws -> nth_error ws i = Some w -> nth_error l i = Some c -> g c = Ok w.
Proof.
  induction l as [|a l IH]; intros ws i w c E Hi Hc; [destruct i; discriminate|]. cbn [mapM] in E. destruct (g a) as [b|e1] eqn:Ea; [|discriminate]. cbn [bind] in E.
  destruct (mapM g l) as [bs|e1]; [|discriminate]. cbn [bind] in E. injection E as <-. destruct i; cbn [nth_error] in *; [congruence|]. now apply (IH bs i).
Qed.

Lemma wp_assign_same n cx f l i w v r : timeline_is n cx f l -> nth_error l i = Some w -> set_value (w_cls w) (w_val w) v = (w_val w, r) ->
  wp_assign n cx w v = (n, r).
Proof.
  intros H Hi Hm. pose proof (timeline_listed _ _ _ _ H) as HL. destruct H as (Ht & Hf & Hv & HN & Ho & Hq).
  unfold wp_assign. rewrite HL, (last_at_nth f l Ho Hq i w Hi), Hm. f_equal.
  rewrite at_tag_same; [now apply with_kids_same|]. intros c Hc.
  assert (An : is_animated n = true).
  { destruct (is_animated n) eqn:E; [reflexivity|]. unfold waypoint_tags in HN. rewrite E in HN. destruct l; [destruct i; discriminate|discriminate]. }
  unfold listed, waypoint_tags in HL. rewrite An in HL. unfold child_tags in HL. destruct (filter is_tag (tag_kids n)) as [|t0 k0] eqn:E; [destruct i; discriminate|].
  destruct (aget (s "type") (tag_attrs n)) as [ty|]; [|discriminate].
  pose proof (mapM_nth _ _ _ _ _ _ HL Hi Hc) as R. cbv beta in R. unfold wp_from_tag in R.
  destruct (has_name (s "waypoint") c) eqn:En; [|discriminate]. cbn [negb] in R. destruct (aget (s "time") (tag_attrs c)) as [tv|]; [|discriminate].
  destruct (T_init (tval_of tv) cx) as [t|]; [|discriminate]. cbn [bind] in R. destruct (child_tags c) as [|x [|]] eqn:Ek; [discriminate| |discriminate].
  destruct (is_animated x); [discriminate|]. destruct (negb _); [discriminate|]. destruct (from_tag x) as [cl|]; [|discriminate]. cbn [bind] in R.
  destruct (aget (s "before") (tag_attrs c)) as [b|]; [|discriminate]. destruct (aget (s "after") (tag_attrs c)) as [b'|]; [|discriminate].
  destruct (aval_interp b) as [b1|]; [|discriminate]. cbn [bind] in R. destruct (aval_interp b') as [b2|]; [|discriminate]. cbn [bind] in R. injection R as <-. cbn [w_val].
  unfold with_value. rewrite at_tag_same; [|intros y Hy; unfold child_tags in Ek; rewrite Ek in Hy; now injection Hy].
  apply with_kids_same. now destruct c.
Qed.
