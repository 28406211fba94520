(** Proofs about copying timelines *)
From Verif Require Import TlModel TlSpec ValSpec SerModel ValProofs SerProofs TimeSpec TimeProofs TimeProofs2 ValProofs2 TlProofs TlProofs2 PyFmtProofs PyFmtProofs2 TlProofs3 CtlModel CtlSpec.
From Coq Require Import Permutation Lia Lqa.
Local Open Scope Z_scope.

Lemma sort_ordered l : in_order l -> sort wp_le l = l.
Proof.
  induction l as [|w l IH]; [reflexivity|]. intros [H1 H2]. unfold sort in *. cbn [fold_right]. rewrite (IH H2).
  destruct l as [|v l]; [reflexivity|]. cbn [ins]. unfold wp_le at 1.
  assert (E : Qle_bool (frames (w_time w)) (frames (w_time v)) = true).
  { apply Qle_bool_iff. apply Qlt_le_weak. apply (H1 v). now left. }
  now rewrite E.
Qed.

Lemma wp_read_other ty w cx g : fits ty w -> ctx_fps cx = Ok g -> (0 <= at_ w)%Q ->
  wp_from_tag (wp_tag w) (AStr ty) cx = Ok (retimed g w).
Proof.
  destruct w as [[q f] b a c n]. intros (Hb & Ha & Hs & Hn & Ht & Hc) Hf Hq.
  unfold at_ in Hq. cbn [w_time frames w_before w_after w_cls w_val] in *.
  apply (wp_read ty (mkW (mkT q g) b a c n) cx g); try assumption; [|reflexivity].
  repeat split; assumption.
Qed.

Lemma retimed_order g l : in_order l -> in_order (map (retimed g) l).
Proof.
  induction l as [|w l IH]; [easy|]. intros [H1 H2]. split; [|now apply IH].
  intros v Hv. apply in_map_iff in Hv as (u & <- & Hu). exact (H1 u Hu).
Qed.
Lemma retimed_same f l : Forall (fun w => fps (w_time w) = f /\ (0 <= at_ w)%Q) l -> map (retimed f) l = l.
Proof.
  induction 1 as [|w l [H _] _ IH]; [reflexivity|]. cbn [map]. rewrite IH. f_equal.
  destruct w as [[q f'] b a c n]. cbn in H. subst. reflexivity.
Qed.

(** What is written is w, at whatever rate it was; it's read at the rate of the document. *)
Lemma stored_other n cx f g ty l : is_animated n = true -> has_type n ty -> child_tags n = map wp_tag l ->
  ctx_fps cx = Ok g -> in_order l -> Forall (fun w => fps (w_time w) = f /\ (0 <= at_ w)%Q) l -> Forall (fits ty) l ->
  timeline_is n cx g (map (retimed g) l).
Proof.
  intros Ha [Ht Hty] Hk Hf Ho Hq Hfit. rewrite Ha in Hty.
  assert (W : waypoints n cx = Ok (map (fun w => (w_time w, w)) (map (retimed g) l))).
  { unfold waypoints, waypoint_tags. rewrite Ha, Hk, Hty. destruct l as [|w0 l0]; [reflexivity|].
    set (l := w0 :: l0) in *. change (map wp_tag l) with (wp_tag w0 :: map wp_tag l0) at 1. cbn iota.
    change (wp_tag w0 :: map wp_tag l0) with (map wp_tag l).
    replace (mapM (fun w => wp_from_tag w (AStr ty) cx) (map wp_tag l)) with (Ok (map (retimed g) l)).
    - cbn [bind]. apply (tsets_snoc g (map (retimed g) l) []).
      + split; constructor.
      + apply Forall_map, Forall_forall. intros w _. reflexivity.
      + now apply in_order_distinct, retimed_order.
    - clearbody l. clear - Hf Hq Hfit. induction l as [|w l IH]; [reflexivity|].
      inversion Hq as [|? ? [Q1 Q2] ?]; subst. inversion Hfit; subst. cbn [map mapM].
      rewrite (wp_read_other ty w cx g) by assumption. cbn [bind]. now rewrite <- IH. }
  split; [assumption|]. split; [assumption|]. split; [|split; [|split]].
  - unfold tl_values. rewrite W. cbn [bind]. f_equal. rewrite !map_map. cbn [snd]. reflexivity.
  - unfold waypoint_tags. rewrite Ha, Hk, !map_length. reflexivity.
  - now apply retimed_order.
  - apply Forall_map. eapply Forall_impl; [|exact Hq]. cbn. intros w [_ H]. now split.
Qed.

Lemma copy_is n cx f l m cy g ty par : timeline_is n cx f l -> l <> [] -> Forall (fits ty) l -> has_type m ty -> ctx_fps cy = Ok g ->
  exists m', tl_copy false n cx m cy par = (m', Ok tt) /\ wrote m m' l /\ has_type m' ty /\
    timeline_is m' cy g (map (retimed g) l).
Proof.
  intros HL Hne Hfit Hty Hg. pose proof HL as (_ & Hf & Hv & _ & Ho & Hq).
  unfold tl_copy. rewrite Hv. cbn [tl_assign].
  unfold set_waypoints. destruct l as [|w0 l0]; [easy|]. set (l := w0 :: l0) in *.
  rewrite (sort_wps_same f) by (eapply Forall_impl; [|exact Hq]; cbn; tauto). rewrite (sort_ordered l Ho).
  eexists. split; [reflexivity|].
  set (n1 := if is_animated m then m else animated_tag m).
  assert (A1 : is_animated n1 = true) by (subst n1; destruct (is_animated m) eqn:E; [exact E|reflexivity]).
  assert (T1 : aget (s "type") (tag_attrs n1) = Some (AStr ty)).
  { subst n1. destruct Hty as [_ Hty]. destruct (is_animated m); [exact Hty|]. now rewrite <- Hty. }
  assert (A2 : is_animated (with_kids n1 (with_newlines (map wp_tag l))) = true) by exact A1.
  assert (T2 : has_type (with_kids n1 (with_newlines (map wp_tag l))) ty).
  { split; [reflexivity|]. rewrite A2. exact T1. }
  split.
  { split; [exact A2|]. split; [apply child_tags_newlines|]. intros D. cbn [with_kids tag_attrs]. subst n1.
    destruct (is_animated m); [|repeat constructor; intros []]. destruct D; [discriminate|assumption]. }
  split; [exact T2|].
  apply (stored_other _ cy f g ty); try assumption. apply child_tags_newlines.
Qed.

(** When the types differ *)
Lemma copy_bad n cx f w l m cy g ty ty' par : timeline_is n cx f (w :: l) -> has_type n ty -> has_type m ty' -> ty <> ty' -> ctx_fps cy = Ok g ->
  exists m', tl_copy false n cx m cy par = (m', Ok tt) /\ is_animated m' = true /\ tl_values m' cy = Err ValueError.
Proof.
  intros HL Htn Htm Hne Hg. pose proof (timeline_fits _ _ _ _ _ HL Htn) as Hfit. pose proof HL as (_ & Hf & Hv & _ & Ho & Hq).
  unfold tl_copy. rewrite Hv. cbn [tl_assign]. unfold set_waypoints.
  rewrite (sort_wps_same f) by (eapply Forall_impl; [|exact Hq]; cbn; tauto). rewrite (sort_ordered _ Ho).
  eexists. split; [reflexivity|].
  set (n1 := if is_animated m then m else animated_tag m).
  assert (A1 : is_animated n1 = true) by (subst n1; destruct (is_animated m) eqn:E; [exact E|reflexivity]).
  assert (T1 : aget (s "type") (tag_attrs n1) = Some (AStr ty')).
  { subst n1. destruct Htm as [_ Hty]. destruct (is_animated m); [exact Hty|]. now rewrite <- Hty. }
  split; [exact A1|]. unfold tl_values, waypoints, waypoint_tags.
  change (is_animated (with_kids n1 (with_newlines (map wp_tag (w :: l))))) with (is_animated n1). rewrite A1.
  unfold with_kids at 1. rewrite child_tags_newlines. change (tag_attrs (with_kids n1 ?k)) with (tag_attrs n1). rewrite T1. cbn [map mapM].
  assert (E : wp_from_tag (wp_tag w) (AStr ty') cy = Err ValueError).
  { inversion Hfit as [|? ? HF _]; subst. inversion Hq as [|? ? [_ Hq0] _]; subst. destruct w as [[q f'] b a c v].
    destruct HF as (Hb & Ha & Hs & Hn & Ht & Hc). unfold at_ in Hq0. cbn [w_time frames w_before w_after w_cls w_val] in *.
    unfold wp_from_tag, wp_tag. cbn [w_time w_before w_after w_val].
    unfold has_name. change (tag_name (El ?a ?b ?c)) with a. rewrite pstr_eqb_refl. cbn [negb].
    change (aget (s "time") (tag_attrs (El (s "waypoint") [(s "time", ?x); ?y; ?z] ?k))) with (Some x).
    cbn [tval_of frames]. rewrite (T_init_num q cy g Hg Hq0). cbn [bind].
    unfold child_tags. cbn [tag_kids filter]. rewrite Ht, Hs.
    replace (pstr_eqb (tag_name v) ty') with false; [reflexivity|]. symmetry. apply pstr_eqb_neq. congruence. }
  rewrite E. reflexivity.
Qed.

(** Reading, at another rate, what was printed *)
Lemma str_parse_other n p q c : 0 <= n < 2 ^ 53 -> 0 < p <= 10 ^ 6 -> 0 < q -> spelt_again p q n <= 2 ^ 53 -> at_fps (inject_Z q) c ->
  T_init (TStr (T_str (mkT (inject_Z n) (Some (inject_Z p))))) c = Ok (mkT (inject_Z (spelt_again p q n)) (Some (inject_Z q))).
Proof.
  intros Hn Hp Hq Hs Hc. unfold spelt_again in *. rewrite T_str_val by lia. replace (n <? 0) with false by lia. rewrite Z.abs_eq by lia.
  rewrite <- items_write by (apply printed_nonempty; lia).
  destruct (frames_of_printed false n p ltac:(lia) ltac:(lia)) as [F1 _]. destruct (F1 eq_refl) as (S1 & _ & S3).
  assert (Hd : 0 <= n / p) by (apply Z.div_pos; lia). pose proof (Z.mod_pos_bound n p ltac:(lia)) as HM.
  rewrite (T_spec_value _ [] q c).
  - do 3 f_equal. unfold frames_of. rewrite S1, S3. replace (n / p <? 0) with false by lia. reflexivity.
  - split; [apply items_wf|]. split; [constructor|]. rewrite items_units. apply printed_nodup.
  - assumption.
  - assumption.
  - unfold small. pose proof (printed_amounts n p ltac:(lia) ltac:(lia)) as (A1 & A2 & A3 & A4).
    rewrite !(amount_items false) by (auto using printed_nodup; apply printed_pos; lia).
    destruct (printed n p) eqn:E; [apply printed_nonempty in E; lia|]. cbn [andb].
    rewrite A1, A2, A3, A4. replace (Z.max q 1) with q by lia.
    rewrite (Z.abs_eq (n / p / 3600)), (Z.abs_eq ((n / p) mod 3600 / 60)), (Z.abs_eq ((n / p) mod 60)), (Z.abs_eq (n mod p)) by lia.
    rewrite hms_sum by assumption. lia.
  - rewrite S3. right. lia.
Qed.

Lemma spelt_same p n : 0 < p -> spelt_again p p n = n.
Proof. intros H. unfold spelt_again. pose proof (Z.div_mod n p ltac:(lia)). lia. Qed.
Lemma spelt_first p q n : 0 <= n < p -> spelt_again p q n = n.
Proof. intros H. unfold spelt_again. rewrite Z.div_small, Z.mod_small by lia. lia. Qed.
Lemma spelt_iff p q n : 0 < p -> 0 <= n -> spelt_again p q n = n <-> p = q \/ n < p.
Proof.
  intros Hp Hn. split.
  - intros H. unfold spelt_again in H. pose proof (Z.div_mod n p ltac:(lia)) as D. pose proof (Z.mod_pos_bound n p Hp).
    destruct (Z.lt_ge_cases n p) as [L|L]; [now right|left].
    assert (1 <= n / p) by (apply Z.div_le_lower_bound; lia). nia.
  - intros [<-|L]; [now apply spelt_same|]. apply spelt_first. lia.
Qed.
Lemma spelt_mono p q n k : 0 < p <= q -> 0 <= n < k -> spelt_again p q n < spelt_again p q k.
Proof.
  intros Hp Hn. unfold spelt_again. pose proof (Z.div_mod n p ltac:(lia)) as D. pose proof (Z.mod_pos_bound n p ltac:(lia)).
  pose proof (Z.div_mod k p ltac:(lia)) as D'. pose proof (Z.mod_pos_bound k p ltac:(lia)).
  assert (n / p <= k / p) by (apply Z.div_le_mono; lia).
  destruct (Z.eq_dec (n / p) (k / p)) as [E|E]; [rewrite E in *; lia|]. nia.
Qed.

Lemma back_order p q l l' : 0 < p <= q -> Forall2 (comes_back p q) l l' -> in_order l -> in_order l'.
Proof.
  intros Hp H. induction H as [|w w' l l' Hw HF IH]; [easy|]. intros [O1 O2]. split; [|now apply IH].
  intros v' Hv'. assert (exists v, In v l /\ comes_back p q v v') as (v & Hv & Cv).
  { clear - HF Hv'. induction HF; [destruct Hv'|]; destruct Hv' as [->|Hv']; [eexists; split; [now left|assumption]|].
    destruct (IHHF Hv') as (v & ? & ?). exists v. split; [now right|assumption]. }
  specialize (O1 _ Hv). destruct Hw as [n [En Hn]], Cv as [k [Ek Hk]]. unfold at_ at 1 2. cbn [w_time frames].
  rewrite En, Ek in O1. rewrite <- Zlt_Qlt in *. apply spelt_mono; lia.
Qed.

Lemma read_back ty p q w w' cx : fits ty w -> attrs_distinct (w_val w) -> fps (w_time w) = Some (inject_Z p) ->
  0 < p <= 10 ^ 6 -> 0 < q -> at_fps (inject_Z q) cx -> comes_back p q w w' -> (at_ w' <= inject_Z (2 ^ 53))%Q ->
  wp_from_tag (reload (wp_tag w)) (AStr ty) cx = Ok w'.
Proof.
  intros Hfit Hd Hf Hp Hq Hc [n [En Hn]] Hs. unfold at_ in Hs. cbn [w_time frames] in Hs. rewrite <- Zle_Qle in Hs.
  destruct w as [[r f] b a c m]. destruct Hfit as (Hb & Ha & Hst & Hnm & Ht & Hcl). unfold at_ in En.
  cbn [w_time w_before w_after w_cls w_val frames fps] in *. subst r f.
  unfold wp_from_tag. unfold has_name. rewrite tag_name_reload, tag_attrs_reload, child_tags_reload.
  unfold wp_tag. cbn [w_time w_before w_after w_val tag_name tag_attrs]. rewrite pstr_eqb_refl. cbn [negb].
  set (t := mkT (inject_Z n) (Some (inject_Z p))).
  assert (ND : NoDup (map fst [(s "time", ATime t); (s "before", AStr b); (s "after", AStr a)])).
  { cbn [map fst]. repeat (constructor; [cbn; intuition discriminate|]). constructor. }
  rewrite !aget_reload by exact ND.
  change (aget (s "time") [(s "time", ?x); ?y; ?z]) with (Some x).
  change (aget (s "before") [?x; (s "before", ?y); ?z]) with (Some y).
  change (aget (s "after") [?x; ?z; (s "after", ?y)]) with (Some y).
  cbn [option_map aval_str tval_of]. rewrite norm_attr_id by apply T_str_no_ctrl'.
  unfold t. rewrite (str_parse_other n p q cx) by assumption. cbn [bind].
  unfold child_tags. cbn [tag_kids filter]. rewrite Ht. cbn [map].
  rewrite is_animated_reload, Hst, tag_name_reload. subst ty. rewrite pstr_eqb_refl. cbn [negb].
  rewrite (from_tag_reload m c Hst Hd Hcl). cbn [bind aval_interp].
  rewrite (norm_attr_id b) by now apply interp_no_ctrl. rewrite (norm_attr_id a) by now apply interp_no_ctrl.
  now rewrite (check_interp_fix b Hb), (check_interp_fix a Ha).
Qed.

Lemma saved_back n cx p q ty l l' : is_animated n = true -> has_type n ty -> attrs_distinct n -> child_tags n = map wp_tag l ->
  0 < p <= 10 ^ 6 -> 0 < q -> at_fps (inject_Z q) cx -> in_order l' -> Forall (fun w => fps (w_time w) = Some (inject_Z p)) l ->
  Forall (fits ty) l -> Forall (fun w => attrs_distinct (w_val w)) l -> Forall2 (comes_back p q) l l' ->
  Forall (fun w => at_ w <= inject_Z (2 ^ 53))%Q l' ->
  timeline_is (reload n) cx (Some (inject_Z q)) l'.
Proof.
  intros Ha [Ht Hty] Hd Hk Hp Hpq Hc O' Hfps Hfit Hdist HB Hsm. rewrite Ha in Hty.
  assert (Q' : Forall (fun w => fps (w_time w) = Some (inject_Z q) /\ (0 <= at_ w)%Q) l').
  { clear - HB Hp Hpq. induction HB as [|w w' l l' [n [En Hn]] _ IH]; constructor; [|assumption]. cbn [w_time fps]. split; [reflexivity|].
    unfold at_. cbn [w_time frames]. change 0%Q with (inject_Z 0). rewrite <- Zle_Qle. unfold spelt_again.
    assert (0 <= n / p) by (apply Z.div_pos; lia). pose proof (Z.mod_pos_bound n p ltac:(lia)). nia. }
  split; [now rewrite reload_is_tag|].
  split; [apply ctx_fps_at; [assumption|]; change 0%Q with (inject_Z 0); rewrite <- Zlt_Qlt; lia|].
  assert (W : waypoint_tags (reload n) = map reload (map wp_tag l)).
  { unfold waypoint_tags. now rewrite is_animated_reload, Ha, child_tags_reload, Hk. }
  split; [|split; [|split; [exact O'|exact Q']]].
  - unfold tl_values, waypoints. rewrite W. destruct HB as [|w0 w0' l0 l0' H0 HB]; [reflexivity|].
    assert (HB' : Forall2 (comes_back p q) (w0 :: l0) (w0' :: l0')) by now constructor. clear H0 HB. rename HB' into HB.
    set (l := w0 :: l0) in *. set (l' := w0' :: l0') in *.
    change (map reload (map wp_tag l)) with (reload (wp_tag w0) :: map reload (map wp_tag l0)) at 1. cbn iota.
    change (reload (wp_tag w0) :: map reload (map wp_tag l0)) with (map reload (map wp_tag l)).
    rewrite tag_attrs_reload, aget_reload, Hty by assumption. cbn [option_map aval_str].
    rewrite norm_attr_id by (eapply fits_type_no_ctrl; exact (Forall_inv Hfit)).
    replace (mapM (fun w => wp_from_tag w (AStr ty) cx) (map reload (map wp_tag l))) with (Ok l').
    + cbn [bind]. rewrite (tsets_snoc (Some (inject_Z q)) l' []).
      * cbn [bind app]. f_equal. rewrite map_map. cbn [snd]. apply map_id.
      * split; constructor.
      * eapply Forall_impl; [|exact Q']. cbn. tauto.
      * now apply in_order_distinct.
    + clearbody l l'. clear - Hfit Hfps Hdist HB Hsm Hp Hpq Hc. induction HB as [|w w' l l' H0 HB IH]; [reflexivity|].
      inversion Hfit; inversion Hfps; inversion Hdist; inversion Hsm; subst. cbn [map mapM].
      rewrite (read_back ty p q w w') by (assumption || lia). cbn [bind]. rewrite <- IH by assumption. reflexivity.
  - rewrite W, !map_length. clear - HB. induction HB; cbn [length]; congruence.
Qed.

(** ** Times of another document as keys *)

Lemma tset_foreign f g t w d : wfd (Some f) d -> fps t = Some g -> ~ (g == f)%Q -> ~ (frames t == 0)%Q -> tset t w d = Ok (d ++ [(t, w)]).
Proof.
  intros [Hd _] Hg Hne Hz. induction d as [|[k v] d IH]; [reflexivity|]. inversion Hd as [|? ? H1 H2]; subst. cbn [tset app].
  assert (E : tmatch t k = Ok false).
  { unfold tmatch, T_hash. assert (Z : Qeq_bool (frames t) 0 = false) by (apply not_true_iff_false; rewrite Qeq_bool_iff; exact Hz). rewrite Z.
    destruct (Qeq_bool (frames k) 0); [reflexivity|]. rewrite Hg. destruct H1 as [H1 _]. cbn [fst] in H1. rewrite H1. cbn [opt_qeq].
    assert (Y : Qeq_bool g f = false) by (apply not_true_iff_false; rewrite Qeq_bool_iff; exact Hne). rewrite Y. now rewrite andb_false_r. }
  rewrite E. cbn [bind]. now rewrite (IH H2).
Qed.

Lemma new_waypoint_time c t x w : new_waypoint c t x = Ok w -> w_time w = t.
Proof.
  unfold new_waypoint. destruct x as [w0|v]; [now intros [= <-]|].
  assert (M : forall r : res node, (let* m := r in Ok (mkW t (s "clamped") (s "clamped") c m)) = Ok w -> w_time w = t).
  { intros [m|e] H; [|discriminate]. cbn [bind] in H. now injection H as <-. }
  destruct v; try apply M. destruct (inst c c0); [|apply M]. destruct (is_animated n); [discriminate|]. now intros [= <-].
Qed.

Lemma mixed_sort f g l w : Forall (fun v => fps (w_time v) = Some f) l -> l <> [] -> fps (w_time w) = Some g -> ~ (g == f)%Q ->
  sort_wps (l ++ [w]) = Err ValueError.
Proof.
  intros Hf Hne Hg Hd. unfold sort_wps.
  assert (A : existsb (fun a => existsb (fun b => conflict (w_time a) (w_time b)) (l ++ [w])) (l ++ [w]) = true).
  { destruct l as [|v l]; [easy|]. apply existsb_exists. exists w. split; [apply in_or_app; right; now left|].
    apply existsb_exists. exists v. split; [now left|]. inversion Hf as [|? ? Hv _]; subst. unfold conflict. rewrite Hg, Hv.
    apply negb_true_iff, not_true_iff_false. now rewrite Qeq_bool_iff. }
  rewrite A.
  assert (B : existsb (fun a => match fps (w_time a) with None => true | _ => false end) (l ++ [w]) = false).
  { rewrite existsb_app. cbn [existsb]. rewrite Hg, !orb_false_r. clear - Hf. induction Hf as [|v l Hv _ IH]; [reflexivity|]. cbn [existsb]. now rewrite Hv. }
  now rewrite B.
Qed.

Lemma cleared n cx : is_animated n = true -> is_animated (with_kids n []) = true /\ tl_values (with_kids n []) cx = Ok [].
Proof.
  intros A. assert (B : is_animated (with_kids n []) = true) by exact A. split; [exact B|].
  unfold tl_values, waypoints, waypoint_tags. rewrite B. reflexivity.
Qed.

Lemma foreign_set c n cx f l par t g x w : timeline_is n cx (Some f) l -> l <> [] -> fps t = Some g -> ~ (g == f)%Q -> ~ (frames t == 0)%Q ->
  new_waypoint c t x = Ok w ->
  tl_setitem c n cx par (KeyT t) x = (with_kids n [], Err ValueError) /\ is_animated n = true.
Proof.
  intros HL Hne Hg Hd Hz Hw. assert (A : is_animated n = true).
  { destruct (is_animated n) eqn:E; [reflexivity|]. elim Hne. eapply timeline_static; eassumption. }
  split; [|exact A]. destruct (timeline_waypoints _ _ _ _ HL) as (d & Ed & <- & W).
  unfold tl_setitem. cbn [ensure_fps]. rewrite Hg, Hw, A, Ed. cbn [bind].
  rewrite (tset_foreign f g t w d) by assumption. rewrite map_app. cbn [map snd]. unfold set_waypoints.
  destruct (map snd d ++ [w]) as [|w0 l0] eqn:E; [destruct (map snd d); discriminate|]. rewrite <- E. rewrite A.
  rewrite (mixed_sort f g); try assumption; [reflexivity| |].
  - destruct HL as (_ & _ & _ & _ & _ & F). eapply Forall_impl; [|exact F]. cbn. tauto.
  - now rewrite (new_waypoint_time _ _ _ _ Hw).
Qed.

Lemma foreign_first c n cx f ty par t g x w : timeline_is n cx (Some f) [] -> has_type n ty -> fps t = Some g -> (0 <= frames t)%Q ->
  new_waypoint c t x = Ok w -> fits ty w ->
  exists n', tl_setitem c n cx par (KeyT t) x = (n', Ok tt) /\ has_type n' ty /\ timeline_is n' cx (Some f) [retimed (Some f) w].
Proof.
  intros HL Hty Hg Hz Hw Hfit. pose proof (new_waypoint_time _ _ _ _ Hw) as Ht. unfold tl_setitem. cbn [ensure_fps]. rewrite Hg, Hw.
  set (n1 := if is_animated n then n else animated_tag (with_kids n [])).
  assert (A1 : is_animated n1 = true) by (subst n1; destruct (is_animated n) eqn:E; [exact E|reflexivity]).
  assert (T1 : aget (s "type") (tag_attrs n1) = Some (AStr ty)).
  { subst n1. destruct Hty as [_ Hty]. destruct (is_animated n); [exact Hty|]. cbn [animated_tag tag_attrs with_kids tag_name]. cbn [aget]. rewrite pstr_eqb_refl. now rewrite Hty. }
  assert (W1 : waypoints n1 cx = Ok []).
  { unfold waypoints. assert (E : waypoint_tags n1 = []); [|now rewrite E]. subst n1. destruct (is_animated n) eqn:E.
    - destruct HL as (_ & _ & _ & HL & _). destruct (waypoint_tags n); [reflexivity|discriminate].
    - unfold waypoint_tags. cbn [animated_tag with_kids tag_kids]. reflexivity. }
  rewrite W1. cbn [bind tset map snd]. unfold set_waypoints. rewrite A1. rewrite (sort_wps_same (Some g)) by (repeat constructor; now rewrite Ht).
  eexists. split; [reflexivity|]. change (sort wp_le [w]) with [w].
  assert (T2 : has_type (with_kids n1 (with_newlines (map wp_tag [w]))) ty).
  { split; [reflexivity|]. change (is_animated (with_kids n1 ?k)) with (is_animated n1). rewrite A1. exact T1. }
  split; [exact T2|]. apply (stored_other _ cx (Some g) (Some f) ty [w]); try assumption.
  - apply child_tags_newlines.
  - apply HL.
  - split; [intros v []|exact I].
  - constructor; [|constructor]. rewrite Ht. split; [assumption|]. unfold at_. now rewrite Ht.
  - now constructor.
Qed.

Lemma foreign_assigned n cx f g l w par : Forall (fun v => fps (w_time v) = Some f) l -> l <> [] -> fps (w_time w) = Some g -> ~ (g == f)%Q ->
  tl_assign n cx par (SList (l ++ [w])) = (with_kids (if is_animated n then n else animated_tag n) [], Err ValueError).
Proof.
  intros Hf Hne Hg Hd. cbn [tl_assign]. unfold set_waypoints. destruct (l ++ [w]) as [|w0 l0] eqn:E; [destruct l; discriminate|]. rewrite <- E.
  now rewrite (mixed_sort f g).
Qed.
