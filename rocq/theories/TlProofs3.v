(** Animating and un-animating, failures, and saving. *)
From Coq Require Import Permutation Lia Lqa ZifyBool ZifyN.
From Verif Require Import TlModel TlSpec ValSpec SerModel ValProofs SerProofs TimeSpec TimeProofs TimeProofs2 ValProofs2 TlProofs TlProofs2 PyFmtProofs PyFmtProofs2.
Local Open Scope Z_scope.

(** ** Iteration *)

Lemma iter_sorted n cx l : tl_values n cx = Ok l ->
  exists l', tl_iter n cx = Ok l' /\ Permutation l l' /\ in_order l'.
Proof.
  intros H. unfold tl_values in H. destruct (waypoints n cx) as [d|] eqn:E; [|discriminate]. cbn [bind] in H. injection H as <-.
  assert (X : d = [] \/ exists f, ctx_fps cx = Ok f).
  { destruct d as [|kv d]; [now left|]. right. unfold waypoints in E.
    destruct (waypoint_tags n) as [|t ts]; [discriminate|]. destruct (aget (s "type") (tag_attrs n)) as [ty|]; [|discriminate].
    cbn [mapM] in E. destruct (wp_from_tag t ty cx) as [w|] eqn:Ew; [|discriminate].
    apply wp_from_tag_fits in Ew as (? & _ & _ & Ew). eexists; exact Ew. }
  unfold tl_iter, tl_values. rewrite E. cbn [bind]. destruct X as [->|[f Hf]].
  - exists []. repeat split; constructor.
  - pose proof (waypoints_wfd _ _ _ _ E Hf) as [W1 W2]. rewrite (sort_wps_same f).
    + eexists. split; [reflexivity|]. split; [apply Permutation_sym, sort_perm|now apply sort_in_order].
    + apply Forall_forall. intros v Hv. apply in_map_iff in Hv as (kv & <- & Hkv). rewrite Forall_forall in W1. apply (W1 _ Hkv).
Qed.

(** ** Animating *)

Lemma put_nil w : put_wp w [] = [w].
Proof. reflexivity. Qed.

(** What the constructor makes of v *)
Definition sets_to (c : vcls) (v : pyval) (m : node) : Prop :=
  (forall c' k cy, v <> PVal c' k cy) /\ new_value c v = Ok m /\ from_tag m = Ok c /\ tag_name m = tag_name (empty_tag c) /\ is_tag m = true.

Lemma animate_is c n cx f par v m : is_animated n = false -> is_tag n = true -> tag_name n = tag_name (empty_tag c) -> ctx_fps cx = Ok f ->
  get_value c n cx = Ok v -> sets_to c v m ->
  let w := mkW (mkT 0 f) (s "clamped") (s "clamped") c m in
  exists n1, set_is_animated c n cx par true = (n1, Ok tt) /\ is_animated n1 = true /\ has_type n1 (tag_name n) /\ timeline_is n1 cx f [w] /\
    set_is_animated c n1 cx true false = (m, Ok tt).
Proof.
  intros Ha Ht Hn Hf Hv (Hp & Hm & Hc & Hmn & Hmt). cbv zeta. set (w := mkW (mkT 0 f) (s "clamped") (s "clamped") c m).
  cbn [set_is_animated]. unfold animate. rewrite Ha, Hv.
  assert (Hz : (match c, v with VCanvas, PList (_ :: _) => true | _, _ => false end) = false).
  { destruct c; try reflexivity. destruct v; try reflexivity. destruct l; [reflexivity|discriminate Hm]. }
  rewrite Hz. clear Hz.
  set (n0 := with_kids (animated_tag n) []).
  assert (L0 : timeline_is n0 cx f []).
  { subst n0. repeat split; try assumption; try reflexivity. constructor. }
  assert (T0 : has_type n0 (tag_name n)) by (split; reflexivity).
  assert (Hfit : fits (tag_name n) w).
  { repeat split; cbn [w_before w_after w_val w_cls w]; try assumption.
    - unfold interpolation; cbn [In]; tauto.
    - unfold interpolation; cbn [In]; tauto.
    - unfold is_animated in *. rewrite Hmn, <- Hn. exact Ha.
    - congruence. }
  destruct (setitem_is c n0 cx f [] (tag_name n) par (KeyNum 0) 0 (AVal v) w L0 T0) as (n1 & E & A & T1 & L1).
  - constructor. lra.
  - constructor; assumption.
  - assumption.
  - rewrite put_nil in L1. exists n1. split; [assumption|]. split; [apply A|]. split; [assumption|]. split; [assumption|].
    unfold unanimate. rewrite (proj1 A). cbn [negb]. destruct L1 as (_ & _ & -> & _). reflexivity.
Qed.

Lemma new_of_set c v n : c <> VBlendMethod -> c <> VTransformation -> c <> VGradient ->
  set_value c (empty_tag c) v = (n, Ok tt) -> new_value c v = Ok n.
Proof. intros H1 H2 H3. destruct c; try congruence; cbn [set_value new_value]; unfold new_flat; intros E; try rewrite E; try reflexivity; try discriminate E. Qed.


Lemma set_value_name c v n : plain c -> set_value c (empty_tag c) v = (n, Ok tt) -> tag_name n = tag_name (empty_tag c) /\ is_tag n = true.
Proof.
  intros Hc. unfold plain in Hc. cbn [In] in Hc.
  destruct Hc as [<-|[<-|[<-|[<-|[<-|[<-|[<-|[<-|[]]]]]]]]]; cbn [set_value];
    try (unfold simple_set; destruct (simple_str _ v); intros [= <-]; split; reflexivity).
  - unfold string_set. destruct (py_str v); intros [= <-]; split; reflexivity.
  - unfold color_set. destruct (color_conv v); intros [= <-]; split; reflexivity.
  - unfold vector_set. destruct (vector_members v); [|discriminate]. destruct (py_items v) as [[|]|].
    + destruct (vector_append _ _). intros [= <- _]. split; reflexivity.
    + discriminate.
    + destruct (vector_append _ _). intros [= <- _]. split; reflexivity.
Qed.

Lemma plain_new c v n : plain c -> set_value c (empty_tag c) v = (n, Ok tt) -> new_value c v = Ok n.
Proof. intros Hc. unfold plain in Hc. cbn [In] in Hc. apply new_of_set; intros ->; intuition discriminate. Qed.

(** If assigning v stores v, animating and un-animating gives v. *)
Lemma animate_roundtrip c n cx f v : plain c -> is_animated n = false -> is_tag n = true -> tag_name n = tag_name (empty_tag c) -> ctx_fps cx = Ok f ->
  get_value c n cx = Ok v -> (forall c' k cy, v <> PVal c' k cy) ->
  (exists m, set_value c (empty_tag c) v = (m, Ok tt) /\ from_tag m = Ok c /\ get_value c m cx = Ok v) ->
  exists n1 n2 w, set_is_animated c n cx true true = (n1, Ok tt) /\ is_animated n1 = true /\
    timeline_is n1 cx f [w] /\ w_time w = mkT 0 f /\ get_value c (w_val w) cx = Ok v /\
    set_is_animated c n1 cx true false = (n2, Ok tt) /\ is_animated n2 = false /\ get_value c n2 cx = Ok v.
Proof.
  intros Hc Ha Ht Hn Hf Hv Hp (m & Hs & Hm & Hg).
  destruct (set_value_name c v m Hc Hs) as [Nm Tm].
  destruct (animate_is c n cx f true v m Ha Ht Hn Hf Hv) as (n1 & E1 & A1 & _ & L1 & E2).
  { repeat split; try assumption. now apply plain_new. }
  exists n1, m, (mkW (mkT 0 f) (s "clamped") (s "clamped") c m). repeat (split; [assumption || reflexivity|]).
  split; [|assumption]. unfold is_animated in *. now rewrite Nm, <- Hn.
Qed.

Lemma vector_append_strs l : forall acc, vector_append acc (map (fun kv => (KS (fst kv), PStr (snd kv))) l)
  = (acc ++ map (fun kv => El (fst kv) [] [Txt (snd kv)]) l, Ok tt).
Proof.
  induction l as [|[k x] l IH]; intros acc; cbn [map vector_append fst snd].
  - now rewrite app_nil_r.
  - cbn [py_str]. rewrite IH. now rewrite <- app_assoc.
Qed.

Lemma vector_tags_dict l : NoDup (map fst l) ->
  vector_dict (El (s "vector") [] (map (fun kv : pstr * pstr => El (fst kv) [] [Txt (snd kv)]) l)) = map (fun kv => (fst kv, Some (snd kv))) l.
Proof.
  intros H. unfold vector_dict, child_tags. cbn [tag_kids].
  replace (filter is_tag (map (fun kv : pstr * pstr => El (fst kv) [] [Txt (snd kv)]) l)) with (map (fun kv : pstr * pstr => El (fst kv) [] [Txt (snd kv)]) l).
  2:{ clear. induction l as [|kv l IH]; [reflexivity|]. cbn [map filter is_tag]. now rewrite <- IH. }
  rewrite map_map. cbn [tag_name node_string].
  rewrite adict_id.
  - reflexivity.
  - rewrite map_map. cbn [fst]. exact H.
Qed.

(** The value of a vector with text in all its components can be assigned back. *)
Lemma vector_value_stores n cx l : from_tag n = Ok VXY -> is_animated n = false -> tag_name n = s "vector" ->
  vector_dict n = map (fun kv => (fst kv, Some (snd kv))) l ->
  exists m, set_value VXY (empty_tag VXY) (PDict (map (fun kv => (fst kv, PStr (snd kv))) l)) = (m, Ok tt) /\ from_tag m = Ok VXY /\
    get_value VXY m cx = Ok (PDict (map (fun kv => (fst kv, PStr (snd kv))) l)).
Proof.
  intros Hc Ha Hn Hd.
  assert (ND : NoDup (map fst l)).
  { replace (map fst l) with (map fst (vector_dict n)); [apply adict_NoDup|]. rewrite Hd, map_map. reflexivity. }
  eexists. split; [|split].
  - cbn [set_value vector_set vector_members py_items]. unfold vector_set. cbn [vector_members py_items].
    rewrite map_map. cbn [fst snd]. rewrite vector_append_strs. reflexivity.
  - assert (X : forall k, In k (map tag_name (child_tags n)) <-> In k (map fst l)).
    { intros k. replace (map fst l) with (map fst (vector_dict n)) by (rewrite Hd, map_map; reflexivity).
      unfold vector_dict. rewrite in_keys_adict, map_map. reflexivity. }
    unfold from_tag in Hc |- *. rewrite Ha, Hn in Hc. cbn [bind] in Hc.
    change (from_name value_registry (s "vector")) with (Ok VXY) in Hc. cbn [bind] in Hc.
    change (is_animated (El (s "vector") ?a ?k)) with false. cbn [bind tag_name].
    change (from_name value_registry (s "vector")) with (Ok VXY). cbn [bind].
    unfold vector_construct in Hc |- *. rewrite Ha in Hc. change (is_animated (El (s "vector") ?a ?k)) with false. cbn iota.
    cbn [app empty_tag tag_kids].
    replace (map tag_name (child_tags (El (s "vector") [] (map (fun kv : pstr * pstr => El (fst kv) [] [Txt (snd kv)]) l)))) with (map fst l).
    2:{ clear. unfold child_tags. cbn [tag_kids]. induction l as [|kv l IH]; [reflexivity|]. cbn [map filter is_tag tag_name]. now rewrite IH. }
    revert Hc X. generalize (map tag_name (child_tags n)) (map fst l). intros a b Hc X.
    destruct a as [|a0 a]; [discriminate|]. destruct (forallb _ (a0 :: a)) eqn:F1; [|discriminate].
    destruct (existsb (pstr_eqb (s "x")) (a0 :: a)) eqn:F2; [|discriminate].
    destruct (existsb (pstr_eqb (s "y")) (a0 :: a)) eqn:F3; [|discriminate].
    assert (G1 : forallb (fun k => pstr_eqb k (s "x") || pstr_eqb k (s "y")) b = true).
    { apply forallb_forall. intros k Hk. apply X in Hk. rewrite forallb_forall in F1. now apply F1. }
    assert (G2 : existsb (pstr_eqb (s "x")) b = true).
    { apply existsb_exists in F2 as (k & K1 & K2). apply existsb_exists. exists k. split; [now apply X|assumption]. }
    assert (G3 : existsb (pstr_eqb (s "y")) b = true).
    { apply existsb_exists in F3 as (k & K1 & K2). apply existsb_exists. exists k. split; [now apply X|assumption]. }
    destruct b; [discriminate|]. now rewrite G1, G2, G3.
  - cbn [get_value app tag_kids empty_tag]. rewrite vector_tags_dict by assumption. rewrite map_map. reflexivity.
Qed.

(** ** Failures *)


Lemma sort_wps_ok l : (forall a b, In a l -> In b l -> conflict (w_time a) (w_time b) = false) -> sort_wps l = Ok (sort wp_le l).
Proof.
  intros H. unfold sort_wps. destruct (existsb _ l) eqn:E; [|reflexivity]. exfalso.
  apply existsb_exists in E as (a & Ha & E). apply existsb_exists in E as (b & Hb & E). rewrite H in E by assumption. discriminate.
Qed.

Lemma tset_members t w d : forall d', tset t w d = Ok d' -> d' <> [] /\ forall v, In v (map snd d') -> v = w \/ In v (map snd d).
Proof.
  induction d as [|[k u] d IH]; intros d' H; cbn [tset] in H.
  - injection H as <-. split; [discriminate|]. cbn. intuition congruence.
  - destruct (tmatch t k) as [[|]|]; cbn [bind] in H; [| |discriminate].
    + injection H as <-. split; [discriminate|]. cbn [map snd In]. intuition congruence.
    + destruct (tset t w d) as [d1|]; [|discriminate]. cbn [bind] in H. injection H as <-. split; [discriminate|].
      cbn [map snd In]. intros v [<-|Hv]; [now right; left|]. destruct (IH d1 eq_refl) as [_ IH1].
      destruct (IH1 v Hv); [now left|right; now right].
Qed.

Lemma waypoints_speed n cx d : waypoints n cx = Ok d -> forall v, In v (map snd d) -> ctx_fps cx = Ok (fps (w_time v)).
Proof.
  unfold waypoints. destruct (waypoint_tags n) as [|t l]; [intros [= <-] v []|].
  destruct (aget (s "type") (tag_attrs n)) as [ty|]; [|discriminate].
  destruct (mapM _ (t :: l)) as [ws|] eqn:E; [|discriminate]. cbn [bind]. intros H.
  assert (F : Forall (fun w => ctx_fps cx = Ok (fps (w_time w))) ws).
  { apply mapM_ok_Forall2 in E. clear - E. induction E as [|x w l0 ws H _ IH]; constructor; [|assumption].
    now apply wp_from_tag_fits in H as (? & _ & _ & H). }
  assert (G : forall v, In v (map snd (@nil (T * wp))) -> ctx_fps cx = Ok (fps (w_time v))) by intros v [].
  clear E. revert F G H. generalize (@nil (T * wp)). induction ws as [|w ws IH]; intros d0 F G H; cbn [tsets] in H.
  - injection H as <-. assumption.
  - inversion F; subst. destruct (tset (w_time w) w d0) as [d1|] eqn:E1; [|discriminate]. cbn [bind] in H.
    apply (IH d1); try assumption. intros v Hv. apply (tset_members _ _ _ _ E1) in Hv as [->|Hv]; [assumption|now apply G].
Qed.


Lemma conflict_sym a b : conflict a b = conflict b a.
Proof.
  unfold conflict. destruct (fps a) as [x|], (fps b) as [y|]; try reflexivity. f_equal.
  apply eq_true_iff_eq. rewrite !Qeq_bool_iff. split; intros E; now symmetry.
Qed.
Lemma conflict_refl a : conflict a a = false.
Proof. unfold conflict. destruct (fps a); [now rewrite Qeq_bool_refl|reflexivity]. Qed.

Lemma ensure_speed cx k t : ensure_fps cx k = Ok t -> key_speed cx k -> forall f, ctx_fps cx = Ok f -> same_speed t (mkT 0 f).
Proof.
  intros H Hk f Hf. unfold same_speed.
  assert (G : forall v, T_init v cx = Ok t -> conflict t (mkT 0 f) = false).
  { intros v Hv. apply T_init_fps in Hv. rewrite Hf in Hv. injection Hv as ->. unfold conflict. cbn [fps].
    destruct (fps t); [now rewrite Qeq_bool_refl|reflexivity]. }
  destruct k; cbn [ensure_fps] in H; try (now apply (G _ H)); [|discriminate].
  destruct (fps t0) eqn:E; [|now apply (G _ H)]. injection H as <-. now apply Hk.
Qed.

Lemma new_waypoint_time c t x w : new_waypoint c t x = Ok w -> w_time w = t.
Proof.
  destruct x as [w0|v]; cbn [new_waypoint]; [now intros [= <-]|].
  assert (G : (let* m := new_value c v in Ok (mkW t (s "clamped") (s "clamped") c m)) = Ok w -> w_time w = t).
  { destruct (new_value c v); [|discriminate]. now intros [= <-]. }
  destruct v; try exact G. destruct (inst c c0); [|exact G]. destruct (is_animated n); [discriminate|]. now intros [= <-].
Qed.

Lemma setitem_atomic c n cx par k x n' e : key_speed cx k -> tl_setitem c n cx par k x = (n', Err e) -> n' = n.
Proof.
  intros Hk. unfold tl_setitem. destruct (ensure_fps cx k) as [t|] eqn:Et; [|now intros [= <- _]].
  destruct (new_waypoint c t x) as [w|] eqn:Ew; [|now intros [= <- _]].
  apply new_waypoint_time in Ew. set (n1 := if is_animated n then n else animated_tag (with_kids n [])).
  destruct (let* d := waypoints n1 cx in tset t w d) as [d'|e'] eqn:Ed.
  - destruct (waypoints n1 cx) as [d|] eqn:Ew1; [|discriminate]. cbn [bind] in Ed.
    destruct (tset_members _ _ _ _ Ed) as [Hne Hm].
    assert (S : forall v, In v (map snd d') -> v = w \/ ctx_fps cx = Ok (fps (w_time v))).
    { intros v Hv. apply Hm in Hv as [->|Hv]; [now left|right]. eapply waypoints_speed; eassumption. }
    assert (C1 : forall v, v = w \/ ctx_fps cx = Ok (fps (w_time v)) -> conflict (w_time w) (w_time v) = false).
    { intros v [->|Hv]; [apply conflict_refl|]. rewrite Ew.
      pose proof (ensure_speed cx k t Et Hk (fps (w_time v)) Hv) as X. exact X. }
    unfold set_waypoints. destruct (map snd d') as [|v0 l0] eqn:El; [destruct d'; [now elim Hne|discriminate]|].
    rewrite sort_wps_ok; [discriminate|]. intros a b Ha Hb. apply S in Ha, Hb.
    destruct Ha as [->|Ha]; [now apply C1|]. destruct Hb as [->|Hb].
    + rewrite conflict_sym. apply C1. now right.
    + rewrite Ha in Hb. injection Hb as Hb. unfold conflict. rewrite Hb. destruct (fps (w_time b)); [now rewrite Qeq_bool_refl|reflexivity].
  - intros [= <- <-]. subst n1. destruct (is_animated n) eqn:A; [reflexivity|]. exfalso.
    unfold waypoints, waypoint_tags in Ed. cbn in Ed. discriminate.
Qed.

Lemma tdel_members t d : forall d', tdel t d = Ok d' -> d <> [] /\ forall v, In v (map snd d') -> In v (map snd d).
Proof.
  induction d as [|[k u] d IH]; intros d' H; cbn [tdel] in H; [discriminate|]. split; [discriminate|].
  destruct (tmatch t k) as [[|]|]; cbn [bind] in H; [| |discriminate].
  - injection H as <-. cbn [map snd In]. tauto.
  - destruct (tdel t d) as [d1|]; [|discriminate]. cbn [bind] in H. injection H as <-. destruct (IH d1 eq_refl) as [_ IH1].
    cbn [map snd In]. intros v [<-|Hv]; [now left|right; now apply IH1].
Qed.

Lemma delitem_atomic n cx k n' e : tl_delitem n cx true k = (n', Err e) -> n' = n.
Proof.
  unfold tl_delitem. destruct (match k with KeyOther => _ | _ => _ end) as [t|]; [|now intros [= <- _]].
  destruct (let* d := waypoints n cx in tdel t d) as [d'|e'] eqn:Ed; [|now intros [= <- _]].
  destruct (waypoints n cx) as [d|] eqn:Ew; [|discriminate]. cbn [bind] in Ed.
  destruct (tdel_members _ _ _ Ed) as [Hne Hm].
  unfold set_waypoints. destruct (map snd d') as [|v0 l0] eqn:El.
  - unfold unanimate. destruct (is_animated n) eqn:A; [|discriminate]. cbn [negb]. unfold tl_values. rewrite Ew. cbn [bind].
    destruct d as [|kv d]; [now elim Hne|discriminate].
  - rewrite sort_wps_ok; [discriminate|]. intros a b Ha Hb. apply Hm in Ha, Hb.
    pose proof (waypoints_speed _ _ _ Ew _ Ha) as Fa. pose proof (waypoints_speed _ _ _ Ew _ Hb) as Fb. rewrite Fa in Fb. injection Fb as Fb.
    unfold conflict. rewrite Fb. destruct (fps (w_time b)); [now rewrite Qeq_bool_refl|reflexivity].
Qed.

Lemma unanimate_atomic n cx n' e : unanimate n cx true = (n', Err e) -> n' = n.
Proof.
  unfold unanimate. destruct (negb (is_animated n)); [discriminate|]. destruct (tl_values n cx) as [[|]|]; try discriminate; now intros [= <- _].
Qed.

Lemma tsets_members ws : forall d d', tsets ws d = Ok d' -> forall v, In v (map snd d') -> In v ws \/ In v (map snd d).
Proof.
  induction ws as [|w ws IH]; intros d d' H v Hv; cbn [tsets] in H.
  - injection H as <-. now right.
  - destruct (tset (w_time w) w d) as [d1|] eqn:E; [|discriminate]. cbn [bind] in H.
    destruct (IH d1 d' H v Hv) as [I|I]; [left; now right|]. apply (tset_members _ _ _ _ E) in I as [->|I]; [left; now left|now right].
Qed.
Lemma tdels_members ts : forall d d', tdels ts d = Ok d' -> forall v, In v (map snd d') -> In v (map snd d).
Proof.
  induction ts as [|t ts IH]; intros d d' H v Hv; cbn [tdels] in H.
  - now injection H as <-.
  - destruct (tdel t d) as [d1|] eqn:E; [|discriminate]. cbn [bind] in H.
    destruct (tdel_members _ _ _ E) as [_ M]. apply M. now apply (IH d1 d').
Qed.


Lemma add_atomic c n cx par ws ow n' e : is_animated n = true -> speeds_agree cx ws -> tl_add c n cx par ws ow = (n', Err e) -> n' = n.
Proof.
  intros Ha [S1 S2]. unfold tl_add.
  destruct (let* existing := waypoints n cx in _) as [d1|e'] eqn:E1; [|now intros [= <- _]].
  destruct (waypoints n cx) as [d|] eqn:Ew; [|discriminate]. cbn [bind] in E1.
  destruct (clashes (map snd d) ws) as [cl|]; [|discriminate]. cbn [bind] in E1.
  assert (M1 : forall v, In v (map snd d1) -> In v (map snd d)).
  { destruct ow; [eapply tdels_members; eassumption|]. destruct cl; [injection E1 as <-; auto|discriminate]. }
  cbn [set_is_animated]. unfold animate. rewrite Ha.
  destruct (tsets ws d1) as [d2|] eqn:E2; [|now intros [= <- _]].
  rewrite sort_wps_ok; [discriminate|]. intros a b Ia Ib.
  assert (X : forall v, In v (map snd d2) -> In v ws \/ ctx_fps cx = Ok (fps (w_time v))).
  { intros v Hv. apply (tsets_members _ _ _ E2) in Hv as [Hv|Hv]; [now left|right].
    eapply waypoints_speed; [eassumption|]. now apply M1. }
  apply X in Ia, Ib. destruct Ia as [Ia|Ia], Ib as [Ib|Ib].
  - now apply S1.
  - exact (S2 a _ Ia Ib).
  - rewrite conflict_sym. exact (S2 b _ Ib Ia).
  - rewrite Ia in Ib. injection Ib as Ib. unfold conflict. rewrite Ib. destruct (fps (w_time b)); [now rewrite Qeq_bool_refl|reflexivity].
Qed.

(** ** Adding in place *)

Lemma iadd_raises c n cx par ws n' r : tl_iadd c n cx par ws = (n', r) ->
  match tl_add c n cx par ws true with
  | (n1, Ok _) => n' = n1 /\ r = Err TypeError
  | (n1, Err e) => n' = n1 /\ r = Err e
  end.
Proof. unfold tl_iadd. destruct (tl_add c n cx par ws true) as [n1 [u|e]]; cbn [tl_assign]; now intros [= <- <-]. Qed.

(** ** Saving *)

Lemma merge_child_tags l : filter is_tag (map norm_node (merge_texts l)) = filter is_tag l.
Proof.
  induction l as [|[x|nm a k] l IH]; [reflexivity| |].
  - cbn [merge_texts filter is_tag]. destruct (merge_texts l) as [|[y|nm a k] r] eqn:E.
    + destruct x; rewrite <- IH; reflexivity.
    + rewrite <- IH. reflexivity.
    + destruct x; rewrite <- IH; reflexivity.
  - cbn [merge_texts filter is_tag map norm_node]. now rewrite IH.
Qed.

Lemma child_tags_reload n : child_tags (reload n) = map reload (child_tags n).
Proof.
  destruct n as [x|nm a k]; [reflexivity|]. unfold child_tags. cbn [reload tag_kids]. rewrite merge_child_tags.
  induction k as [|c k IH]; [reflexivity|]. cbn [map filter]. rewrite reload_is_tag, IH. destruct (is_tag c); reflexivity.
Qed.
Lemma tag_name_reload n : tag_name (reload n) = tag_name n.
Proof. now destruct n. Qed.
Lemma is_animated_reload n : is_animated (reload n) = is_animated n.
Proof. unfold is_animated. now rewrite tag_name_reload. Qed.
Lemma tag_attrs_reload n : tag_attrs (reload n) = reload_attrs (tag_attrs n).
Proof. now destruct n. Qed.


Lemma lower_letters x t : lower x = t -> Forall (fun c => (97 <= c <= 122)%N) t -> no_ctrl x.
Proof.
  intros <- H. unfold lower in H. apply Forall_forall. intros c Hc. rewrite Forall_forall in H.
  specialize (H (lower_char c) (in_map _ _ _ Hc)). unfold lower_char, is_upper in H.
  destruct ((65 <=? c)%N && (c <=? 90)%N) eqn:E; lia.
Qed.

Lemma from_tag_reload v c : is_animated v = false -> attrs_distinct v -> from_tag v = Ok c -> from_tag (reload v) = Ok c.
Proof.
  intros Ha Hd. unfold from_tag. rewrite is_animated_reload, Ha, tag_name_reload. cbn [bind].
  destruct (from_name value_registry (tag_name v)) as [c0|]; [|discriminate]. cbn [bind].
  destruct c0; try (intros H; exact H).
  - unfold vector_construct. rewrite is_animated_reload, Ha, child_tags_reload, map_map.
    replace (map (fun x => tag_name (reload x)) (child_tags v)) with (map tag_name (child_tags v)); [intros H; exact H|].
    apply map_ext. intros; symmetry; apply tag_name_reload.
  - unfold composite_construct. rewrite tag_attrs_reload, aget_reload by assumption.
    destruct (aget (s "type") (tag_attrs v)) as [[x| | |]|]; cbn [option_map]; try discriminate. cbn [aval_str].
    destruct (pstr_eqb (lower x) (s "transformation")) eqn:E; [|discriminate]. intros [= <-].
    apply pstr_eqb_spec in E. rewrite norm_attr_id.
    + apply pstr_eqb_spec in E. now rewrite E.
    + apply (lower_letters _ _ E). repeat constructor; discriminate.
Qed.

Lemma T_str_no_ctrl' t : no_ctrl (T_str t).
Proof.
  unfold no_ctrl, T_str. assert (F1 : forall q, Forall (fun c => (32 <= c)%N) (fmt_g 6 q ++ s "f")).
  { intros q. apply Forall_app. split; [apply num_no_ctrl, fmt_g_num|]. repeat constructor; discriminate. }
  destruct (fps t) as [f|]; [|apply F1].
  assert (G : forall us st, Forall (Forall (fun c => (32 <= c)%N)) (fst st) -> Forall (fun u : N * Z => (32 <= fst u)%N) us ->
    Forall (Forall (fun c => (32 <= c)%N)) (fst (fold_left str_unit us st))).
  { induction us as [|u us IH]; intros [out sec] H Hu; cbn [fold_left]; [exact H|]. inversion Hu; subst. apply IH; [|assumption].
    unfold str_unit. destruct (Qle_bool _ _); [|exact H]. cbn [fst] in *. apply Forall_app. split; [exact H|].
    constructor; [|constructor]. apply Forall_app. split; [apply num_no_ctrl, dec_Z_num|]. constructor; [assumption|constructor]. }
  specialize (G unit_sizes ([], Qabs (fdiv (frames t) f)) ltac:(constructor) ltac:(repeat constructor; discriminate)).
  destruct (fold_left str_unit unit_sizes ([], Qabs (fdiv (frames t) f))) as [out rest] eqn:E0.
  assert (G' : Forall (Forall (fun c => (32 <= c)%N)) out).
  { change out with (fst (out, rest)). rewrite <- E0. exact G. }
  clear G. rename G' into G.
  apply Forall_app. split.
  { unfold minus_if. destruct (Qlt_bool _ _); repeat constructor; discriminate. }
  assert (J : forall l, Forall (Forall (fun c => (32 <= c)%N)) l -> Forall (fun c => (32 <= c)%N) (join (s " ") l)).
  { induction l as [|a l IH]; intros H; [constructor|]. inversion H; subst. cbn [join]. destruct l; [assumption|].
    apply Forall_app. split; [assumption|]. apply Forall_app. split; [repeat constructor; discriminate|]. now apply IH. }
  apply J. destruct (_ || _); [|exact G]. apply Forall_app. split; [exact G|]. constructor; [apply F1|constructor].
Qed.



Lemma interp_no_ctrl x : interpolation x -> no_ctrl x.
Proof. unfold interpolation; cbn [In]. intuition; subst; repeat constructor; discriminate. Qed.

Lemma wp_read_reload ty w cx : fits ty w -> kept_time cx (w_time w) -> attrs_distinct (w_val w) ->
  wp_from_tag (reload (wp_tag w)) (AStr ty) cx = Ok (reload_wp w).
Proof.
  destruct w as [t b a c m]. intros (Hb & Ha & Hs & Hn & Ht & Hc) Hk Hd. unfold reload_wp.
  cbn [w_time w_before w_after w_cls w_val] in *.
  unfold wp_from_tag. unfold has_name. rewrite tag_name_reload, tag_attrs_reload, child_tags_reload.
  unfold wp_tag. cbn [w_time w_before w_after w_val tag_name tag_attrs]. rewrite pstr_eqb_refl. cbn [negb].
  assert (ND : NoDup (map fst [(s "time", ATime t); (s "before", AStr b); (s "after", AStr a)])).
  { cbn [map fst]. repeat (constructor; [cbn; intuition discriminate|]). constructor. }
  rewrite !aget_reload by exact ND.
  change (aget (s "time") [(s "time", ?x); ?y; ?z]) with (Some x).
  change (aget (s "before") [?x; (s "before", ?y); ?z]) with (Some y).
  change (aget (s "after") [?x; ?z; (s "after", ?y)]) with (Some y).
  cbn [option_map aval_str tval_of]. rewrite norm_attr_id by apply T_str_no_ctrl'. rewrite Hk. cbn [bind].
  unfold child_tags. cbn [tag_kids filter]. rewrite Ht. cbn [map].
  rewrite is_animated_reload, Hs, tag_name_reload. subst ty. rewrite pstr_eqb_refl. cbn [negb].
  rewrite (from_tag_reload m c Hs Hd Hc). cbn [bind aval_interp].
  rewrite (norm_attr_id b) by now apply interp_no_ctrl. rewrite (norm_attr_id a) by now apply interp_no_ctrl.
  now rewrite (check_interp_fix b Hb), (check_interp_fix a Ha).
Qed.

Lemma type_no_ctrl ty c : from_name value_registry ty = Ok c -> no_ctrl ty.
Proof.
  unfold from_name. destruct (aget (normalise ty) value_registry) as [c'|] eqn:E; [|discriminate]. intros _.
  apply aget_In in E.
  assert (L : Forall (fun k : pstr * vcls => Forall (fun c => (97 <= c <= 122)%N) (fst k)) value_registry).
  { vm_compute. repeat constructor; discriminate. }
  rewrite Forall_forall in L. specialize (L _ E). cbn [fst] in L. clear E.
  unfold normalise, remove_char, lower in L. apply Forall_forall. intros x Hx. rewrite Forall_forall in L.
  destruct (N.eq_dec (lower_char x) 95) as [e|e].
  - unfold lower_char, is_upper in e. destruct ((65 <=? x)%N && (x <=? 90)%N) eqn:U; lia.
  - specialize (L (lower_char x)). assert (I : In (lower_char x) (filter (fun d => negb (d =? 95)%N) (map lower_char ty))).
    { apply filter_In. split; [now apply in_map|]. lia. }
    specialize (L I). unfold lower_char, is_upper in L. destruct ((65 <=? x)%N && (x <=? 90)%N) eqn:U; lia.
Qed.

Lemma fits_type_no_ctrl ty w : fits ty w -> no_ctrl ty.
Proof.
  intros (_ & _ & Hs & Hn & _ & Hc). unfold from_tag in Hc. rewrite Hs in Hc. cbn [bind] in Hc. rewrite Hn in Hc.
  destruct (from_name value_registry ty) eqn:E; [|discriminate]. eapply type_no_ctrl; eassumption.
Qed.

Lemma saved_is n cx f ty l : is_animated n = true -> has_type n ty -> attrs_distinct n -> child_tags n = map wp_tag l ->
  timeline_is n cx f l -> Forall (fun w => kept_time cx (w_time w) /\ attrs_distinct (w_val w)) l ->
  timeline_is (reload n) cx f (map reload_wp l).
Proof.
  intros Ha Hty Hd Hk HL Hkeep. pose proof (timeline_fits _ _ _ _ _ HL Hty) as Hfit.
  destruct Hty as [Ht Hty]. rewrite Ha in Hty. destruct HL as (_ & Hf & _ & _ & Ho & Hq).
  assert (O' : in_order (map reload_wp l)).
  { clear - Ho. induction l as [|w l IH]; [exact I|]. destruct Ho as [O1 O2]. split; [|now apply IH].
    intros v Hv. apply in_map_iff in Hv as (u & <- & Hu). exact (O1 u Hu). }
  split; [now rewrite reload_is_tag|]. split; [assumption|].
  assert (W : waypoint_tags (reload n) = map reload (map wp_tag l)).
  { unfold waypoint_tags. now rewrite is_animated_reload, Ha, child_tags_reload, Hk. }
  split; [|split; [|split; [exact O'|]]].
  - unfold tl_values, waypoints. rewrite W. destruct l as [|w0 l0]; [reflexivity|]. set (l := w0 :: l0) in *.
    change (map reload (map wp_tag l)) with (reload (wp_tag w0) :: map reload (map wp_tag l0)) at 1. cbn iota.
    change (reload (wp_tag w0) :: map reload (map wp_tag l0)) with (map reload (map wp_tag l)).
    rewrite tag_attrs_reload, aget_reload, Hty by assumption. cbn [option_map aval_str].
    rewrite norm_attr_id by (eapply fits_type_no_ctrl; exact (Forall_inv Hfit)).
    replace (mapM (fun w => wp_from_tag w (AStr ty) cx) (map reload (map wp_tag l))) with (Ok (map reload_wp l)).
    + cbn [bind]. rewrite (tsets_snoc f (map reload_wp l) []).
      * cbn [bind app]. f_equal. rewrite map_map. cbn [snd]. apply map_id.
      * split; constructor.
      * apply Forall_map. eapply Forall_impl; [|exact Hq]. cbn. tauto.
      * now apply in_order_distinct.
    + clearbody l. clear - Hfit Hkeep. induction l as [|w l IH]; [reflexivity|].
      inversion Hkeep as [|? ? [K1 K2] K3]; subst. inversion Hfit; subst. cbn [map mapM].
      rewrite wp_read_reload by assumption. cbn [bind]. now rewrite <- IH.
  - rewrite W, !map_length. reflexivity.
  - apply Forall_map. eapply Forall_impl; [|exact Hq]. cbn. tauto.
Qed.

(** Whole frames are kept. *)
Lemma whole_kept cx r m : at_fps (inject_Z r) cx -> 0 < r <= 10 ^ 6 -> 0 <= m < 2 ^ 53 ->
  kept_time cx (mkT (inject_Z m) (Some (inject_Z r))).
Proof. intros Hc Hr Hm. apply (str_roundtrip m r cx); [lia|assumption|assumption|]. now left. Qed.
Lemma whole_kept_none m : 0 <= m < 10 ^ 6 -> kept_time None (mkT (inject_Z m) None).
Proof. intros Hm. apply (str_roundtrip_none m). lia. Qed.

Lemma history_saved c n cx f ty os l' : is_animated n = false -> is_tag n = true -> tag_name n = ty -> ctx_fps cx = Ok f ->
  ops_mean c cx f ty os [] l' ->
  Forall (fun w => kept_time cx (w_time w) /\ attrs_distinct (w_val w)) l' ->
  timeline_is (run_ops c cx n os) cx f l' /\ timeline_is (reload (run_ops c cx n os)) cx f (map reload_wp l').
Proof.
  intros Ha Ht Hn Hf Ho Hk.
  assert (H : timeline_is n cx f []).
  { repeat split; try assumption; try (constructor; fail).
    - unfold tl_values, waypoints, waypoint_tags. now rewrite Ha.
    - unfold waypoint_tags. now rewrite Ha. }
  assert (Hty : has_type n ty) by (split; [assumption|now rewrite Ha]).
  destruct (history_refines c n cx f [] ty os l' H Hty Ho) as (L & T' & W). split; [assumption|].
  destruct (is_animated (run_ops c cx n os)) eqn:A.
  - destruct (W ltac:(intros X; congruence) A) as [D K]. eapply saved_is; eassumption.
  - pose proof (timeline_static _ _ _ _ A L) as ->. split; [rewrite reload_is_tag; apply L|]. split; [assumption|].
    unfold tl_values, waypoints, waypoint_tags. rewrite is_animated_reload, A. repeat split. constructor.
Qed.

(** ** Values that are kept *)

Lemma canonical_again y : Forall is_hex y -> length y = 6%nat \/ length y = 8%nat ->
  exists z, canonical_hex y = 35%N :: z /\ Forall is_hex z /\ (length z = 6%nat \/ length z = 8%nat) /\ canonical_hex z = canonical_hex y.
Proof.
  intros Hy HL. unfold canonical_hex. eexists. split; [reflexivity|].
  assert (LH : Forall is_hex (lower y)).
  { apply Forall_map. eapply Forall_impl; [|exact Hy]. intros a Ha. destruct (is_hex_val a Ha) as (v & _ & Hv & E & _). cbn beta. rewrite <- E.
    clear - Hv. assert (X : Forall is_hex (map hex_char [0;1;2;3;4;5;6;7;8;9;10;11;12;13;14;15]%N)).
    { apply Forall_forall. intros x Hx. unfold is_hex. vm_compute in Hx. vm_compute.
      repeat match type of Hx with _ \/ _ => destruct Hx as [<-|Hx]; [repeat (try (left; reflexivity); right)|] end. destruct Hx. }
    rewrite Forall_forall in X. apply X, in_map.
    change [0;1;2;3;4;5;6;7;8;9;10;11;12;13;14;15]%N with (map N.of_nat (seq 0 16)).
    apply in_map_iff. exists (N.to_nat v). split; [apply N2Nat.id|]. apply in_seq. lia. }
  assert (LL : length (lower y) = length y) by apply map_length.
  assert (ID : lower (lower y) = lower y).
  { unfold lower. rewrite map_map. apply map_ext. intros a. unfold lower_char, is_upper.
    destruct ((65 <=? a)%N && (a <=? 90)%N) eqn:E; [|now rewrite E]. replace ((65 <=? a + 32)%N && (a + 32 <=? 90)%N) with false by lia. reflexivity. }
  rewrite LL. destruct (Nat.eqb (length y) 8 && pstr_eqb (skipn 6 (lower y)) (s "ff")) eqn:E.
  - apply andb_prop in E as [E _]. apply PeanoNat.Nat.eqb_eq in E.
    assert (L6 : length (firstn 6 (lower y)) = 6%nat) by (rewrite firstn_length; lia).
    assert (ID6 : lower (firstn 6 (lower y)) = firstn 6 (lower y)).
    { unfold lower in *. rewrite <- firstn_map. now rewrite ID. }
    split; [apply Forall_forall; intros a Ha; rewrite Forall_forall in LH; apply LH; rewrite <- (firstn_skipn 6 (lower y)); apply in_app_iff; now left|]. split; [now left|]. rewrite ID6, L6. reflexivity.
  - split; [assumption|]. split; [lia|]. rewrite ID, LL, E. reflexivity.
Qed.

Lemma keepable_kept c n cx v : plain c -> is_animated n = false -> from_tag n = Ok c -> tag_name n = tag_name (empty_tag c) ->
  get_value c n cx = Ok v -> keepable c cx v ->
  (forall c' k cy, v <> PVal c' k cy) /\
  exists m, set_value c (empty_tag c) v = (m, Ok tt) /\ from_tag m = Ok c /\ get_value c m cx = Ok v.
Proof.
  intros Hc Ha Hfc Hn Hv Hk.
  assert (G : stores c (empty_tag c) v v -> exists m, set_value c (empty_tag c) v = (m, Ok tt) /\ from_tag m = Ok c /\ get_value c m cx = Ok v).
  { intros (m & E & X). destruct (X cx) as (X1 & X2 & _). now exists m. }
  unfold keepable in Hk. unfold plain in Hc. cbn [In] in Hc.
  destruct Hc as [<-|[<-|[<-|[<-|[<-|[<-|[<-|[<-|[]]]]]]]]]; destruct v; try contradiction; (split; [discriminate|]).
  - apply G. pose proof (real_stores (empty_tag VReal) q) as X. now rewrite Hk in X.
  - apply G, integer_stores.
  - apply G, bool_stores.
  - now apply G, angle_stores.
  - destruct Hk as (m & p & -> & Hm & Hp & Hat). exists (value_tag VTime (T_str (mkT (inject_Z m) None))). split; [|split].
    + cbn [set_value]. unfold simple_set, simple_str. cbn [eq_empty_tuple bind is_none orb py_T py_float frames]. unfold py_T, py_float. cbn [frames].
      unfold T_init. cbn [ctx_fps bind]. change 0%Q with (inject_Z 0). rewrite Qlt_bool_Z. replace (m <? 0) with false by lia. reflexivity.
    + apply from_tag_simple. cbn; tauto.
    + cbn [get_value]. unfold simple_val, value_tag. cbn [tag_attrs aget]. rewrite pstr_eqb_refl. now rewrite (T_frames_at m p).
  - exists (El (s "string") [] [Txt x]). repeat split.
  - destruct Hk as (y & Hy & HL & ->). destruct (canonical_again y Hy HL) as (z & E & Hz & HLz & Ez).
    apply G. rewrite <- Ez at 2. rewrite E. exact (color_hex_stores (empty_tag VColor) true z Hz HLz).
  - cbn [get_value] in Hv. injection Hv as Hv.
    assert (X : exists l0, vector_dict n = map (fun kv => (fst kv, Some (snd kv))) l0 /\ l = map (fun kv => (fst kv, PStr (snd kv))) l0).
    { clear - Hv Hk. subst l. induction (vector_dict n) as [|[k o] d IH]; [exists []; now split|].
      cbn [map] in Hk. inversion Hk as [|? ? (x & Hx) Hk']; subst. cbn [snd fst] in Hx. destruct o as [y|]; [|discriminate].
      destruct (IH Hk') as (l0 & E1 & E2). exists ((k, y) :: l0). cbn [map fst snd]. now rewrite <- E1, <- E2. }
    destruct X as (l0 & E1 & ->). now apply (vector_value_stores n cx l0).
Qed.

Lemma animate_roundtrip_kept c n cx f v : plain c -> is_animated n = false -> is_tag n = true -> from_tag n = Ok c -> tag_name n = tag_name (empty_tag c) ->
  ctx_fps cx = Ok f -> get_value c n cx = Ok v -> keepable c cx v ->
  exists n1 n2 w, set_is_animated c n cx true true = (n1, Ok tt) /\ is_animated n1 = true /\
    timeline_is n1 cx f [w] /\ w_time w = mkT 0 f /\ get_value c (w_val w) cx = Ok v /\
    set_is_animated c n1 cx true false = (n2, Ok tt) /\ is_animated n2 = false /\ get_value c n2 cx = Ok v.
Proof.
  intros Hc Ha Ht Hfc Hn Hf Hv Hk. destruct (keepable_kept c n cx v Hc Ha Hfc Hn Hv Hk) as [Hp X].
  now apply animate_roundtrip.
Qed.

(** ** New values fit *)

Lemma new_value_fits c v m t : In c [VReal; VInteger; VBool; VAngle; VTime; VString; VColor] -> new_value c v = Ok m ->
  fits (tag_name (empty_tag c)) (mkW t (s "clamped") (s "clamped") c m).
Proof.
  intros Hc H.
  assert (X : tag_name m = tag_name (empty_tag c) /\ is_tag m = true /\ from_tag m = Ok c /\ is_animated m = false).
  { cbn [In] in Hc. destruct Hc as [<-|[<-|[<-|[<-|[<-|[<-|[<-|[]]]]]]]]; cbn [new_value] in H; unfold new_flat in H;
      cbv beta iota zeta in H;
      try (unfold simple_set in H; destruct (simple_str _ v) as [x|e]; cbv beta iota zeta delta [bind] in H; [|discriminate H]; injection H as <-;
           split; [reflexivity|]; split; [reflexivity|];
           split; [vm_compute; reflexivity|reflexivity]).
    - unfold string_set in H. destruct (py_str v) as [x|e]; cbv beta iota zeta delta [bind] in H; [|discriminate H]. injection H as <-. repeat split.
    - unfold color_set in H. destruct (color_conv v) as [x|e]; cbv beta iota zeta delta [bind] in H; [|discriminate H]. injection H as <-. split; [reflexivity|]. split; [reflexivity|]. split; [apply color_from_tag|reflexivity]. }
  destruct X as (X1 & X2 & X3 & X4). repeat split; cbn [w_before w_after w_val w_cls]; try assumption;
    unfold interpolation; cbn [In]; tauto.
Qed.

Lemma new_pair_fits x y m t : new_value VXY (PTuple [PFlo x; PFlo y]) = Ok m -> fits (s "vector") (mkW t (s "clamped") (s "clamped") VXY m).
Proof.
  intros H. cbv beta iota delta [new_value new_flat vector_set vector_members is_number andb py_items empty_tag tag_kids vector_append app bind] in H.
  injection H as <-. repeat split; cbn [w_before w_after w_val w_cls]; unfold interpolation; cbn [In]; tauto || reflexivity.
Qed.

(** ** Adding to a static value *)

Lemma add_static c n cx f v m par ws ow : is_animated n = false -> is_tag n = true -> tag_name n = tag_name (empty_tag c) -> ctx_fps cx = Ok f ->
  get_value c n cx = Ok v -> sets_to c v m -> fresh f ws -> Forall (fits (tag_name n)) ws ->
  exists n', tl_add c n cx par ws ow = (n', Ok tt) /\ is_animated n' = true /\ has_type n' (tag_name n) /\ timeline_is n' cx f (put_all ws []).
Proof.
  intros Ha Ht Hn Hf Hv Hm [Hw Hd] Hfit.
  assert (Hw' : Forall (fun w => fps (w_time w) = f) ws) by (eapply Forall_impl; [|exact Hw]; cbn; tauto).
  unfold tl_add. assert (E0 : waypoints n cx = Ok []) by (unfold waypoints, waypoint_tags; now rewrite Ha).
  rewrite E0. cbn [bind map clashes]. set (z := if ow then _ else _). assert (Ez : z = Ok []) by (now destruct ow). rewrite Ez. clear z Ez.
  destruct (animate_is c n cx f par v m Ha Ht Hn Hf Hv Hm) as (n1 & -> & A1 & T1 & L1 & _).
  destruct (tsets_spec f ws [] ltac:(split; constructor) Hw' Hd) as (d2 & -> & [W2 W2'] & _ & M2).
  assert (Hs : Forall (fun w => fps (w_time w) = f) (map snd d2)).
  { apply Forall_forall. intros u Hu. apply in_map_iff in Hu as (kv & <- & Hkv). rewrite Forall_forall in W2. apply (W2 _ Hkv). }
  rewrite (sort_wps_same f) by assumption. eexists. split; [reflexivity|].
  assert (E2 : sort wp_le (map snd d2) = put_all ws []).
  { apply in_order_ext; [now apply sort_in_order|now apply put_all_order|]. intros u.
    rewrite sort_in, M2, put_all_members by assumption. reflexivity. }
  rewrite E2. assert (T2 : has_type (with_kids n1 (map wp_tag (put_all ws []))) (tag_name n)).
  { split; [reflexivity|]. destruct T1 as [_ T1]. exact T1. }
  split; [|split; [assumption|]].
  - exact A1.
  - apply (stored_is _ cx f (tag_name n)); try assumption.
    + apply child_tags_plain.
    + now apply put_all_order.
    + apply Forall_forall. intros u Hu. apply put_all_members in Hu as [Hu|[[] _]]; [|assumption]. rewrite Forall_forall in Hw. now apply Hw.
    + apply Forall_forall. intros u Hu. apply put_all_members in Hu as [Hu|[[] _]]; [|assumption]. rewrite Forall_forall in Hfit. now apply Hfit.
Qed.
