(** Vectors, transformations and gradients. *)
From Verif Require Import SerModel ValSpec SerProofs PyFloatProofs PyFmtProofs PyFmtProofs2 PyRoundProofs PyGProofs ValProofs.
From Coq Require Import Lia ZifyBool ZifyN ZifyNat Lqa Permutation.
Local Open Scope Z_scope.

Lemma F2_length {A B} (R : A -> B -> Prop) l m : Forall2 R l m -> length l = length m.
Proof. induction 1; cbn; congruence. Qed.
Lemma F2_impl {A B} (R S : A -> B -> Prop) l m : (forall a b, R a b -> S a b) -> Forall2 R l m -> Forall2 S l m.
Proof. intros H. induction 1; constructor; auto. Qed.

(** ** Vectors *)

Definition xy_tags (x y : Q) : list node := [El (s "x") [] [Txt (fmt_f 10 x)]; El (s "y") [] [Txt (fmt_f 10 y)]].

Lemma vector_set_pair n x y :
  set_value VXY n (PTuple [PFlo x; PFlo y]) = (El (s "vector") [] (tag_kids n ++ xy_tags x y), Ok tt).
Proof. cbn. now rewrite <- app_assoc. Qed.

Lemma child_tags_app nm a k l : child_tags (El nm a (k ++ l)) = child_tags (El nm a k) ++ child_tags (El nm a l).
Proof. unfold child_tags. cbn [tag_kids]. apply filter_app. Qed.

Lemma adict_snoc {V} (l : list (pstr * V)) k v : adict (l ++ [(k, v)]) = aset k v (adict l).
Proof. unfold adict. now rewrite fold_left_app. Qed.

Lemma vector_dict_pair nm k x y :
  vector_dict (El nm [] (k ++ xy_tags x y))
  = aset (s "y") (Some (fmt_f 10 y)) (aset (s "x") (Some (fmt_f 10 x)) (vector_dict (El nm [] k))).
Proof.
  unfold vector_dict. rewrite child_tags_app, map_app.
  change (map (fun t => (tag_name t, node_string t)) (child_tags (El nm [] (xy_tags x y))))
    with ([(s "x", Some (fmt_f 10 x))] ++ [(s "y", Some (fmt_f 10 y))]).
  now rewrite app_assoc, !adict_snoc.
Qed.

Lemma in_keys_aset {V} k (v : V) d k' : In k' (map fst (aset k v d)) <-> k' = k \/ In k' (map fst d).
Proof.
  rewrite aset_keys. destruct (in_dec pstr_dec k (map fst d)) as [i|i].
  - split; [auto|]. intros [-> |]; auto.
  - rewrite in_app_iff. cbn. firstorder.
Qed.

Lemma in_keys_adict {V} (l : list (pstr * V)) k : In k (map fst (adict l)) <-> In k (map fst l).
Proof.
  induction l as [|[k0 v0] l IH] using rev_ind; [reflexivity|].
  rewrite adict_snoc, in_keys_aset, map_app, in_app_iff, IH. cbn. firstorder.
Qed.

Lemma xy_ne : s "x" <> s "y".
Proof. discriminate. Qed.

Lemma two_keys (l : list pstr) : NoDup l -> (forall k, In k l <-> k = s "x" \/ k = s "y") ->
  l = [s "x"; s "y"] \/ l = [s "y"; s "x"].
Proof.
  intros Hn Hi. destruct l as [|a [|b [|c l]]].
  - exfalso. apply (Hi (s "x")). auto.
  - exfalso. assert (In (s "x") [a] /\ In (s "y") [a]) as [[A|[]] [B|[]]] by (split; apply Hi; auto). apply xy_ne. congruence.
  - assert (A : a = s "x" \/ a = s "y") by (apply Hi; cbn; auto).
    assert (B : b = s "x" \/ b = s "y") by (apply Hi; cbn; auto).
    inversion Hn as [|? ? N _]. destruct A as [-> | ->], B as [-> | ->]; auto; exfalso; apply N; cbn; auto.
  - exfalso.
    assert (A : a = s "x" \/ a = s "y") by (apply Hi; cbn; auto).
    assert (B : b = s "x" \/ b = s "y") by (apply Hi; cbn; auto).
    assert (C : c = s "x" \/ c = s "y") by (apply Hi; cbn; auto).
    inversion Hn as [|? ? N1 Hn2]. inversion Hn2 as [|? ? N2 _]. cbn in N1, N2.
    destruct A as [-> | ->], B as [-> | ->], C as [-> | ->]; tauto.
Qed.

Lemma vector_keys_xy nm k x y : only_xy (El nm [] k) ->
  vector_keys (El nm [] (k ++ xy_tags x y)) = [s "x"; s "y"].
Proof.
  intros H. unfold vector_keys. set (d := vector_dict (El nm [] (k ++ xy_tags x y))).
  assert (HN : NoDup (map fst d)) by apply adict_NoDup.
  assert (HI : forall k', In k' (map fst d) <-> k' = s "x" \/ k' = s "y").
  { intros k'. unfold d. rewrite vector_dict_pair, !in_keys_aset. unfold vector_dict. rewrite in_keys_adict, map_map.
    split; [|tauto]. intros [|[|HI]]; auto. apply in_map_iff in HI as (t & <- & Ht).
    unfold only_xy in H. rewrite Forall_forall in H. destruct (H t Ht); auto. }
  destruct (two_keys _ HN HI) as [-> | ->]; reflexivity.
Qed.

Lemma vector_tuple_last n x y : only_xy n ->
  vector_tuple (fst (set_value VXY n (PTuple [PFlo x; PFlo y]))) = Ok [round_dec 10 x; round_dec 10 y].
Proof.
  intros H. rewrite vector_set_pair. cbn [fst]. unfold vector_tuple.
  assert (H' : only_xy (El (s "vector") [] (tag_kids n))) by (destruct n; exact H).
  rewrite vector_keys_xy by exact H'. cbn [mapM]. rewrite vector_dict_pair, !aget_aset.
  change (pstr_eqb (s "x") (s "y")) with false. rewrite !pstr_eqb_refl.
  cbn [float_opt]. rewrite !parse_fmt_f. reflexivity.
Qed.

Lemma only_xy_set n x y : only_xy n -> only_xy (fst (set_value VXY n (PTuple [PFlo x; PFlo y]))).
Proof.
  intros H. rewrite vector_set_pair. cbn [fst]. unfold only_xy. rewrite child_tags_app. apply Forall_app. split.
  - destruct n; exact H.
  - constructor; [now left|constructor; [now right|constructor]].
Qed.

Lemma only_xy_history h : forall n, only_xy n -> only_xy (assign_pairs n h).
Proof. induction h as [|p h IH]; intros n H; [exact H|]. apply IH, only_xy_set, H. Qed.

Lemma vector_history n h x y : only_xy n -> vector_tuple (assign_pairs n (h ++ [(x, y)])) = Ok [round_dec 10 x; round_dec 10 y].
Proof.
  intros H. unfold assign_pairs. rewrite fold_left_app. cbn [fold_left].
  apply vector_tuple_last. now apply only_xy_history.
Qed.

(** The subscripts and attributes show the first assignment. *)
Lemma vector_get_app nm k l key : In key (map tag_name (child_tags (El nm [] k))) ->
  vector_getitem (El nm [] (k ++ l)) key = vector_getitem (El nm [] k) key.
Proof.
  intros H. unfold vector_getitem, vector_get. rewrite child_tags_app, filter_app.
  destruct (filter (has_name key) (child_tags (El nm [] k))) as [|t r] eqn:E; [exfalso|reflexivity].
  apply in_map_iff in H as (t & Hn & Ht).
  assert (In t (filter (has_name key) (child_tags (El nm [] k)))) as HI.
  { apply filter_In. split; [assumption|]. unfold has_name. rewrite Hn. apply pstr_eqb_refl. }
  now rewrite E in HI.
Qed.

Lemma vector_fresh_reads n x y : child_tags n = [] -> 
  exists n', set_value VXY n (PTuple [PFlo x; PFlo y]) = (n', Ok tt) /\ from_tag n' = Ok VXY /\
    vector_tuple n' = Ok [round_dec 10 x; round_dec 10 y] /\
    vector_getitem n' (s "x") = Ok (round_dec 10 x) /\ vector_getitem n' (s "y") = Ok (round_dec 10 y) /\
    vector_attr n' (s "x") = Ok (round_dec 10 x) /\ vector_attr n' (s "y") = Ok (round_dec 10 y) /\
    vector_getitem_int n' 0 = Ok (round_dec 10 x) /\ vector_getitem_int n' 1 = Ok (round_dec 10 y).
Proof.
  intros H. exists (El (s "vector") [] (tag_kids n ++ xy_tags x y)).
  assert (O : only_xy n) by (unfold only_xy; rewrite H; constructor).
  assert (O' : only_xy (El (s "vector") [] (tag_kids n))) by (destruct n; exact O).
  assert (H' : child_tags (El (s "vector") [] (tag_kids n)) = []) by (destruct n; exact H).
  assert (HC : child_tags (El (s "vector") [] (tag_kids n ++ xy_tags x y)) = xy_tags x y) by (rewrite child_tags_app, H'; reflexivity).
  assert (HD : forall p, find_first p (El (s "vector") [] (tag_kids n ++ xy_tags x y)) = hd_error (filter p (xy_tags x y))).
  { intros p. unfold find_first, find_all. f_equal. cbn [descendants]. rewrite flat_map_app, filter_app.
    assert (E0 : flat_map (fun c => match c with Txt _ => [] | El _ _ _ => c :: descendants c end) (tag_kids n) = []).
    { unfold child_tags in H. induction (tag_kids n) as [|c l IH]; [reflexivity|]. cbn [filter] in H.
      destruct c; cbn [is_tag] in H; [|discriminate]. cbn [flat_map app]. auto. }
    rewrite E0. reflexivity. }
  assert (GX : vector_getitem (El (s "vector") [] (tag_kids n ++ xy_tags x y)) (s "x") = Ok (round_dec 10 x)).
  { unfold vector_getitem, vector_get. rewrite HC. cbn. now rewrite parse_fmt_f. }
  assert (GY : vector_getitem (El (s "vector") [] (tag_kids n ++ xy_tags x y)) (s "y") = Ok (round_dec 10 y)).
  { unfold vector_getitem, vector_get. rewrite HC. cbn. now rewrite parse_fmt_f. }
  repeat split.
  - apply vector_set_pair.
  - unfold from_tag. cbn [is_animated tag_name]. change (is_animated (El (s "vector") [] (tag_kids n ++ xy_tags x y))) with false.
    cbv iota. cbn [bind tag_name]. change (from_name value_registry (s "vector")) with (Ok VXY). cbn [bind].
    unfold vector_construct. change (is_animated (El (s "vector") [] (tag_kids n ++ xy_tags x y))) with false. cbv iota.
    rewrite HC. reflexivity.
  - pose proof (vector_tuple_last n x y O) as V. rewrite vector_set_pair in V. exact V.
  - exact GX.
  - exact GY.
  - unfold vector_attr. rewrite HD. cbn [s]. cbn. now rewrite app_nil_r, parse_fmt_f.
  - unfold vector_attr. rewrite HD. cbn. now rewrite app_nil_r, parse_fmt_f.
  - unfold vector_getitem_int. rewrite vector_keys_xy by assumption. exact GX.
  - unfold vector_getitem_int. rewrite vector_keys_xy by assumption. exact GY.
Qed.

(** ** Transformations *)

Definition subtag (k : pstr) (t : node) : node := El k [] [t; Txt [10%N]].

Lemma composite_append_ok l : forall acc ts,
  Forall2 (fun kv t => exists c, aget (fst kv) transformation_keys = Some c /\ new_flat c (snd kv) = Ok t) l ts ->
  composite_append acc l = (acc ++ map (fun kt => subtag (fst kt) (snd kt)) (combine (map fst l) ts), Ok tt).
Proof.
  induction l as [|[k v] l IH]; intros acc ts H; inversion H as [|? t ? ts' Ht Hts]; subst.
  - cbn. now rewrite app_nil_r.
  - destruct Ht as (c & Hc & Hn). cbn [composite_append map fst combine snd] in *. rewrite Hc, Hn.
    rewrite (IH _ ts' Hts). now rewrite <- app_assoc.
Qed.

Lemma new_flat_value c k v : aget k transformation_keys = Some c -> new_value c v = new_flat c v.
Proof.
  unfold transformation_keys. cbn [aget]. 
  repeat (destruct (pstr_eqb k _); [intros [= <-]; reflexivity|]). discriminate.
Qed.

Lemma str_keys_dict l : str_keys (map (fun kv : pstr * pyval => (KS (fst kv), snd kv)) l) = Some l.
Proof. induction l as [|[k v] l IH]; [reflexivity|]. cbn [map str_keys fst snd]. now rewrite IH. Qed.

(** The values that a key can hold. *)
Definition composite_value_ok (cx : ctx) (k : pstr) (v : pyval) (t : node) (c : vcls) : Prop :=
  aget k transformation_keys = Some c /\ new_value c v = Ok t /\ from_tag t = Ok c.

Lemma filter_subtag ks : forall ts k t, NoDup ks -> length ks = length ts -> In (k, t) (combine ks ts) ->
  filter (has_name k) (map (fun kt => subtag (fst kt) (snd kt)) (combine ks ts)) = [subtag k t].
Proof.
  induction ks as [|k0 ks IH]; intros [|t0 ts] k t Hn Hl Hi; try discriminate; [destruct Hi|].
  inversion Hn as [|? ? N Hn']; subst. cbn [combine map fst snd filter].
  assert (FN : forall ks' ts', ~ In k ks' -> filter (has_name k) (map (fun kt => subtag (fst kt) (snd kt)) (combine ks' ts')) = []).
  { induction ks' as [|k1 ks' IH']; intros ts' Hk; [reflexivity|]. destruct ts' as [|t1 ts']; [reflexivity|].
    cbn [combine map fst snd filter]. unfold has_name at 1. cbn [tag_name subtag].
    replace (pstr_eqb k1 k) with false by (symmetry; apply pstr_eqb_neq; intros ->; apply Hk; now left).
    apply IH'. intros HI; apply Hk; now right. }
  destruct Hi as [Hi|Hi].
  - inversion Hi; subst. unfold has_name at 1. cbn [tag_name subtag]. rewrite pstr_eqb_refl. now rewrite FN.
  - unfold has_name at 1. cbn [tag_name subtag].
    assert (Ik : In k ks) by (eapply in_combine_l; eassumption).
    replace (pstr_eqb k0 k) with false by (symmetry; apply pstr_eqb_neq; intros ->; contradiction).
    apply IH; auto.
Qed.

Lemma child_tags_subtags nm a ks : forall ts, 
  child_tags (El nm a (map (fun kt => subtag (fst kt) (snd kt)) (combine ks ts))) = map (fun kt => subtag (fst kt) (snd kt)) (combine ks ts).
Proof.
  unfold child_tags. cbn [tag_kids].
  induction ks as [|k ks IH]; intros ts; [reflexivity|]. destruct ts as [|t ts]; [reflexivity|]. cbn. now rewrite IH.
Qed.

Lemma vector_append_acc l : forall acc r k, vector_append acc l = (k, r) -> exists k', k = acc ++ k'.
Proof.
  induction l as [|[[k0|q] v] l IH]; intros acc r k H; cbn [vector_append] in H.
  - inversion H. exists []. now rewrite app_nil_r.
  - destruct (match v with PFlo q => Ok (fmt_f 10 q) | _ => py_str v end).
    + apply IH in H as (k' & ->). rewrite <- app_assoc. eauto.
    + inversion H. exists []. now rewrite app_nil_r.
  - inversion H. exists []. now rewrite app_nil_r.
Qed.

Lemma vector_set_tag n v n' r : is_tag n = true -> vector_set n v = (n', r) -> is_tag n' = true.
Proof.
  intros Hn. unfold vector_set. destruct (vector_members v); [|intros [= <- _]; exact Hn].
  destruct (py_items v) as [[l'|e]|].
  - destruct (vector_append _ _). now intros [= <- _].
  - now intros [= <- _].
  - destruct (vector_append _ _). now intros [= <- _].
Qed.

Lemma new_flat_tag k c v t : aget k transformation_keys = Some c -> new_flat c v = Ok t -> is_tag t = true.
Proof.
  intros Hk Hv. assert (C : c = VXY \/ c = VAngle).
  { unfold transformation_keys in Hk. cbn [aget] in Hk.
    repeat (destruct (pstr_eqb k _); [inversion Hk; auto|]). discriminate. }
  destruct C as [-> | ->]; unfold new_flat in Hv.
  - destruct (vector_set (empty_tag VXY) v) as [n r] eqn:E. apply vector_set_tag in E; [|reflexivity].
    destruct r; cbn [bind] in Hv; [|discriminate]. now inversion Hv; subst.
  - unfold simple_set in Hv. destruct (simple_str VAngle v); cbn [bind] in Hv; [|discriminate]. now inversion Hv.
Qed.

Lemma composite_set_reads n l : is_tag n = true -> NoDup (map fst l) ->
  (forall k v, In (k, v) l -> exists c t, aget k transformation_keys = Some c /\ new_value c v = Ok t /\ from_tag t = Ok c) ->
  exists n', set_value VTransformation n (PDict l) = (n', Ok tt) /\
    (forall k v c t cx, In (k, v) l -> aget k transformation_keys = Some c -> new_value c v = Ok t ->
       composite_getitem n' cx k = Ok (PVal c t cx) /\
       (from_tag (reload t) = Ok c -> composite_getitem (reload n') cx k = Ok (PVal c (reload t) cx))) /\
    (forall k cx, ~ In k (map fst l) -> composite_getitem n' cx k = Err KeyError).
Proof.
  intros Ht Hn Hl.
  assert (X : exists ts, Forall2 (fun kv t => exists c, aget (fst kv) transformation_keys = Some c /\ new_flat c (snd kv) = Ok t /\ from_tag t = Ok c) l ts).
  { clear Hn. induction l as [|[k v] l IH]; [now exists []|].
    destruct IH as (ts & Hts); [intros; apply Hl; now right|].
    destruct (Hl k v (or_introl eq_refl)) as (c & t & Hc & Hv & Hf). exists (t :: ts). constructor; [|assumption].
    exists c. cbn [fst snd]. rewrite <- (new_flat_value c k) by assumption. auto. }
  destruct X as (ts & Hts).
  destruct n as [?|nm a kids]; [discriminate|].
  set (sub := map (fun kt => subtag (fst kt) (snd kt)) (combine (map fst l) ts)).
  exists (El nm a sub).
  assert (HL : length (map fst l) = length ts) by (rewrite map_length; eapply F2_length; eassumption).
  assert (HI : forall k v c t, In (k, v) l -> aget k transformation_keys = Some c -> new_value c v = Ok t ->
                 In (k, t) (combine (map fst l) ts) /\ from_tag t = Ok c /\ is_tag t = true).
  { clear Hn sub HL Hl. intros k v c t Hi Hc Hv. induction Hts as [|[k0 v0] t0 l ts' (c0 & Hc0 & Hv0 & Hf0) _ IH]; [destruct Hi|].
    cbn [map fst combine snd] in *. destruct Hi as [Hi|Hi].
    - inversion Hi; subst. rewrite Hc in Hc0. inversion Hc0; subst c0.
      rewrite (new_flat_value c k) in Hv by assumption. rewrite Hv in Hv0. inversion Hv0; subst.
      split; [now left|]. split; [assumption|]. eapply new_flat_tag; eassumption.
    - destruct (IH Hi) as (A & B). split; [now right|assumption]. }
  split; [|split].
  - cbn [set_value]. unfold composite_set. cbn [py_items]. rewrite str_keys_dict.
    replace (forallb _ l) with true.
    2:{ symmetry. apply forallb_forall. intros [k v] Hi. cbn [fst]. destruct (Hl k v Hi) as (c & t & -> & _). reflexivity. }
    rewrite (composite_append_ok l [] ts).
    + reflexivity.
    + revert Hts. apply F2_impl. intros x y (c & A & B & _). eauto.
  - intros k v c t cx Hi Hc Hv. destruct (HI k v c t Hi Hc Hv) as (Hin & Hf & Htt). split.
    + unfold composite_getitem, composite_get. unfold sub. rewrite child_tags_subtags, (filter_subtag _ ts k t) by assumption.
      assert (CT : child_tags (subtag k t) = [t]) by (destruct t; [discriminate|reflexivity]).
      rewrite CT, Hf. reflexivity.
    + intros Hf'. 
      assert (RS : forall k t, is_tag t = true -> reload (subtag k t) = subtag k (reload t)).
      { intros k' [?|nm' a' k'']; [discriminate|]. intros _. unfold subtag. reflexivity. }
      assert (TAGS : Forall (fun n => is_tag n = true) sub).
      { apply Forall_forall. intros x Hx. unfold sub in Hx. apply in_map_iff in Hx as ([k' t'] & <- & _). reflexivity. }
      rewrite reload_tags by assumption.
      assert (ALL : Forall (fun t => is_tag t = true) ts).
      { apply Forall_forall. intros x Hx. clear - Hts Hx. induction Hts as [|? ? ? ? (c0 & A & B & _) _ IH]; [destruct Hx|].
        destruct Hx as [<-|Hx]; [eapply new_flat_tag; eassumption|auto]. }
      assert (RM : map reload sub = map (fun kt => subtag (fst kt) (snd kt)) (combine (map fst l) (map reload ts))).
      { unfold sub. clear - ALL RS. revert ts ALL. induction (map fst l) as [|k0 ks IH]; intros ts ALL; [reflexivity|].
        destruct ALL as [|t0 ts A0 ALL]; [reflexivity|]. cbn [combine map fst snd]. rewrite RS by assumption. f_equal. auto. }
      rewrite RM. unfold composite_getitem, composite_get. rewrite child_tags_subtags, (filter_subtag _ _ k (reload t)).
      * assert (CT : child_tags (subtag k (reload t)) = [reload t]) by (destruct t; [discriminate|reflexivity]).
        rewrite CT, Hf'. reflexivity.
      * assumption.
      * rewrite (map_length reload). assumption.
      * clear - Hin. revert ts Hin. induction (map fst l) as [|k0 ks IH]; intros ts Hin; [destruct Hin|].
        destruct ts as [|t0 ts]; [destruct Hin|]. cbn [combine map] in *. destruct Hin as [Hin|Hin]; [left; congruence|right; auto].
  - intros k cx Hk. unfold composite_getitem, composite_get. unfold sub. rewrite child_tags_subtags.
    replace (filter _ _) with (@nil node); [reflexivity|]. symmetry.
    clear - Hk. revert ts. induction (map fst l) as [|k0 ks IH]; intros ts; [reflexivity|]. destruct ts as [|t0 ts]; [reflexivity|].
    cbn [combine map fst snd filter]. unfold has_name at 1. cbn [tag_name subtag].
    replace (pstr_eqb k0 k) with false by (symmetry; apply pstr_eqb_neq; intros ->; apply Hk; now left).
    apply IH. intros HI; apply Hk; now right.
Qed.

Lemma composite_unknown n l k v : In (k, v) l -> aget k transformation_keys = None ->
  set_value VTransformation n (PDict l) = (n, Err KeyError).
Proof.
  intros Hi Hk. cbn [set_value]. unfold composite_set. cbn [py_items]. rewrite str_keys_dict.
  replace (forallb _ l) with false; [reflexivity|]. symmetry. apply not_true_is_false. intros H.
  rewrite forallb_forall in H. specialize (H _ Hi). cbn [fst] in H. now rewrite Hk in H.
Qed.

(** The values that go in. *)
Lemma xy_value x y : new_value VXY (PTuple [PFlo x; PFlo y]) = Ok (El (s "vector") [] (xy_tags x y)).
Proof. reflexivity. Qed.
Lemma xy_tag x y : from_tag (El (s "vector") [] (xy_tags x y)) = Ok VXY.
Proof. reflexivity. Qed.
Lemma xy_reload x y : reload (El (s "vector") [] (xy_tags x y)) = El (s "vector") [] (xy_tags x y).
Proof.
  unfold xy_tags. rewrite reload_tags by repeat constructor. cbn [map].
  rewrite !reload_leaf by (try apply all_num_visible; try apply fmt_f_num; apply fmt_f_nonempty). reflexivity.
Qed.
Lemma xy_reads x y : vector_tuple (El (s "vector") [] (xy_tags x y)) = Ok [round_dec 10 x; round_dec 10 y].
Proof. change (xy_tags x y) with ([] ++ xy_tags x y). apply (vector_tuple_last (El (s "vector") [] [])). constructor. Qed.

Lemma angle_value q : new_value VAngle (PFlo q) = Ok (value_tag VAngle (repr_float q)).
Proof. reflexivity. Qed.
Lemma angle_reload q : reload (value_tag VAngle (repr_float q)) = value_tag VAngle (repr_float q).
Proof. apply reload_value, num_no_ctrl, repr_float_num. Qed.
Lemma angle_reads q cx : is_dbl q -> get_value VAngle (value_tag VAngle (repr_float q)) cx = Ok (PFlo q).
Proof.
  intros H. cbn [get_value]. unfold simple_val, value_tag. cbn [tag_attrs aget]. rewrite pstr_eqb_refl. now rewrite parse_repr.
Qed.
Lemma angle_tag q : from_tag (value_tag VAngle (repr_float q)) = Ok VAngle.
Proof. apply from_tag_simple. cbn; tauto. Qed.

Lemma full_set n l ox oy a k sx sy cx : is_tag n = true -> is_dbl a -> is_dbl k -> Permutation l (full ox oy a k sx sy) ->
  exists n', set_value VTransformation n (PDict l) = (n', Ok tt) /\
    forall m, m = n' \/ m = reload n' ->
    exists t1 t2 t3 t4,
    composite_getitem m cx (s "offset") = Ok (PVal VXY t1 cx) /\ vector_tuple t1 = Ok [round_dec 10 ox; round_dec 10 oy] /\
    composite_getitem m cx (s "angle") = Ok (PVal VAngle t2 cx) /\ get_value VAngle t2 cx = Ok (PFlo a) /\
    composite_getitem m cx (s "skew_angle") = Ok (PVal VAngle t3 cx) /\ get_value VAngle t3 cx = Ok (PFlo k) /\
    composite_getitem m cx (s "scale") = Ok (PVal VXY t4 cx) /\ vector_tuple t4 = Ok [round_dec 10 sx; round_dec 10 sy].
Proof.
  intros Hn Ha Hk HP.
  destruct (composite_set_reads n l Hn) as (n' & Hs & Hr & _).
  - eapply Permutation_NoDup; [apply Permutation_map, Permutation_sym; eassumption|].
    repeat (constructor; [cbn; intuition discriminate|]). constructor.
  - intros k0 v0 Hi. eapply Permutation_in in Hi; [|eassumption].
    repeat (destruct Hi as [[= <- <-]|Hi]; [eexists; eexists; split; [reflexivity|split; [reflexivity|]]; first [apply xy_tag|apply angle_tag]|]). destruct Hi.
  - exists n'. split; [assumption|]. intros m Hm.
    assert (IN : forall p, In p (full ox oy a k sx sy) -> In p l) by (intros p; apply Permutation_in, Permutation_sym; assumption).
    exists (El (s "vector") [] (xy_tags ox oy)), (value_tag VAngle (repr_float a)), (value_tag VAngle (repr_float k)), (El (s "vector") [] (xy_tags sx sy)).
    assert (G : forall kk v c t, In (kk, v) (full ox oy a k sx sy) -> aget kk transformation_keys = Some c -> new_value c v = Ok t -> reload t = t -> from_tag t = Ok c ->
              composite_getitem m cx kk = Ok (PVal c t cx)).
    { intros kk v c t H1 H2 H3 H4 H5. destruct (Hr kk v c t cx (IN _ H1) H2 H3) as (A & B). destruct Hm as [-> | ->]; [assumption|].
      rewrite H4 in B. auto. }
    repeat split.
    + eapply G; [left; reflexivity|reflexivity|apply xy_value|apply xy_reload|apply xy_tag].
    + apply xy_reads.
    + eapply G; [right; left; reflexivity|reflexivity|apply angle_value|apply angle_reload|apply angle_tag].
    + now apply angle_reads.
    + eapply G; [right; right; left; reflexivity|reflexivity|apply angle_value|apply angle_reload|apply angle_tag].
    + now apply angle_reads.
    + eapply G; [right; right; right; left; reflexivity|reflexivity|apply xy_value|apply xy_reload|apply xy_tag].
    + apply xy_reads.
Qed.

(** ** Gradients *)

Lemma position_eq a b : 0 <= a <= 10 ^ 6 -> 0 <= b <= 10 ^ 6 -> (position a == position b)%Q -> a = b.
Proof.
  intros Ha Hb E. destruct (Z.lt_total a b) as [L|[L|L]]; [|assumption|].
  - pose proof (millionth_lt a b Ha Hb L) as P. unfold millionth in P. unfold position in E. lra.
  - pose proof (millionth_lt b a Hb Ha L) as P. unfold millionth in P. unfold position in E. lra.
Qed.

Lemma position_le a b : 0 <= a <= 10 ^ 6 -> 0 <= b <= 10 ^ 6 -> (position a <= position b)%Q -> a <= b.
Proof.
  intros Ha Hb E. destruct (Z_le_gt_dec a b) as [L|L]; [assumption|].
  pose proof (millionth_lt b a Hb Ha ltac:(lia)) as P. unfold millionth in P. unfold position in E. lra.
Qed.

(** Insertion sort gives an ordered list. *)
Inductive ordered : list (Q * pyval) -> Prop :=
| ord_nil : ordered []
| ord_cons a l : (forall b, In b l -> (fst a <= fst b)%Q) -> ordered l -> ordered (a :: l).

Lemma ins_ordered a l : ordered l -> ordered (ins key_le a l).
Proof.
  induction 1 as [|b l Hb Hl IH]; cbn [ins].
  - constructor; [intros ? []|constructor].
  - unfold key_le at 1. destruct (Qle_bool (fst a) (fst b)) eqn:E.
    + apply Qle_bool_iff in E. constructor.
      * intros c [<-|Hc]; [assumption|]. pose proof (Hb c Hc). lra.
      * now constructor.
    + apply Qle_bool_false in E. constructor; [|assumption].
      intros c Hc. eapply Permutation_in in Hc; [|apply ins_perm].
      destruct Hc as [<-|Hc]; [lra|auto].
Qed.

Lemma sort_ordered l : ordered (sort key_le l).
Proof. unfold sort. induction l as [|a l IH]; cbn [fold_right]; [constructor|]. now apply ins_ordered. Qed.

Lemma increasing_lt a d : increasing (a :: d) -> forall b, In b d -> fst a < fst b.
Proof.
  revert a. induction d as [|b d IH]; intros a H c []; inversion H; subst; [assumption|].
  specialize (IH b ltac:(assumption) c ltac:(assumption)). lia.
Qed.
Lemma increasing_tail a d : increasing (a :: d) -> increasing d.
Proof. inversion 1; subst; [constructor|assumption]. Qed.

Lemma increasing_unique d : forall e, increasing d -> Permutation e d ->
  (forall l1 a l2 b l3, e = l1 ++ a :: l2 ++ b :: l3 -> fst a <= fst b) -> e = d.
Proof.
  induction d as [|a d IH]; intros e Hd HP He.
  - now apply Permutation_nil, Permutation_sym.
  - destruct e as [|b e]; [apply Permutation_nil in HP; discriminate|].
    assert (b = a).
    { assert (Ib : In b (a :: d)) by (eapply Permutation_in; [eassumption|now left]).
      assert (Ia : In a (b :: e)) by (eapply Permutation_in; [apply Permutation_sym; eassumption|now left]).
      destruct Ib as [|Ib]; [congruence|]. destruct Ia as [|Ia]; [congruence|].
      pose proof (increasing_lt a d Hd b Ib). apply in_split in Ia as (l2 & l3 & ->).
      specialize (He [] b l2 a l3 eq_refl). lia. }
    subst b. f_equal. apply IH.
    + eapply increasing_tail; eassumption.
    + eapply Permutation_cons_inv; eassumption.
    + intros l1 x l2 y l3 ->. apply (He (a :: l1) x l2 y l3). reflexivity.
Qed.

Lemma F2_perm {A B} (R : A -> B -> Prop) l l' m : Permutation l l' -> Forall2 R l m -> exists m', Permutation m m' /\ Forall2 R l' m'.
Proof.
  intros HP. revert m. induction HP as [|x l l' HP IH|x y l|l1 l2 l3 H1 IH1 H2 IH2]; intros m H.
  - inversion H; subst. exists []. auto.
  - inversion H as [|? b ? m0 Hx Hm]; subst. destruct (IH m0 Hm) as (m' & P & F). exists (b :: m'). split; [now constructor|now constructor].
  - inversion H as [|? b ? m0 Hx Hm]; subst. inversion Hm as [|? c ? m1 Hy Hm1]; subst.
    exists (c :: b :: m1). split; [constructor|repeat constructor; assumption].
  - destruct (IH1 m H) as (m1 & P1 & F1). destruct (IH2 m1 F1) as (m2 & P2 & F2). exists m2. split; [etransitivity; eassumption|assumption].
Qed.

(** A key and colour to be stored, and the stop they make. *)
Definition makes (kv : Q * pyval) (a : stop) : Prop :=
  fst kv = position (fst a) /\ exists l, color_conv (snd kv) = Ok l /\ length l = 4%nat /\ six_decimals l = snd a.

Definition pos_node (m : Z) (l : list Q) : node := color_node [(s "pos", AStr (fmt_g 6 (position m)))] l.
Definition node_of (t : node) (a : stop) : Prop := exists l, length l = 4%nat /\ six_decimals l = snd a /\ t = pos_node (fst a) l.

Lemma gradient_append_makes l : forall acc d, Forall2 makes l d ->
  exists ts, gradient_append acc l = (acc ++ ts, Ok tt) /\ Forall2 node_of ts d.
Proof.
  induction l as [|[k v] l IH]; intros acc d H; inversion H as [|? a ? d' Ha Hd]; subst.
  - exists []. rewrite app_nil_r. split; [reflexivity|constructor].
  - destruct Ha as (Hk & c & Hc & Hl & Hs). cbn [fst snd] in Hk, Hc. cbn [gradient_append].
    unfold new_flat, color_set. rewrite Hc. cbn [bind].
    destruct (IH (acc ++ [set_attr (s "pos") (AStr (fmt_g 6 k)) (color_node [] c)]) d' Hd) as (ts & E & F).
    rewrite E. exists (pos_node (fst a) c :: ts). split.
    + rewrite <- app_assoc. subst k. reflexivity.
    + constructor; [|assumption]. exists c. auto.
Qed.

Lemma pos_node_desc m l : length l = 4%nat -> filter (has_name (s "color")) (descendants (pos_node m l)) = [].
Proof. intros H. destruct l as [|q1 [|q2 [|q3 [|q4 [|? ?]]]]]; try discriminate. reflexivity. Qed.

Lemma find_colors nm a ts : Forall (fun t => exists m l, length l = 4%nat /\ t = pos_node m l) ts ->
  find_all (has_name (s "color")) (El nm a ts) = ts.
Proof.
  intros H. unfold find_all. cbn [descendants]. induction H as [|t ts (m & l & Hl & ->) _ IH]; [reflexivity|].
  cbn [flat_map]. unfold pos_node at 1, color_node at 1. cbn [app]. cbn [filter].
  fold (color_node [(s "pos", AStr (fmt_g 6 (position m)))] l). fold (pos_node m l).
  change (has_name (s "color") (pos_node m l)) with true. cbv iota. rewrite filter_app, pos_node_desc by assumption.
  cbn [app]. now rewrite IH.
Qed.

Lemma qset_new k v l : Forall (fun kv => ~ (k == fst kv)%Q) l -> qset k v l = l ++ [(k, v)].
Proof.
  induction 1 as [|[k' v'] l H _ IH]; [reflexivity|]. cbn [fst] in H. cbn [qset app].
  replace (Qeq_bool k k') with false by (symmetry; now apply Qeq_bool_false). now rewrite IH.
Qed.

Lemma qdict_distinct l d : Forall2 (fun (kv : Q * pyval) (a : stop) => fst kv = position (fst a)) l d -> increasing d -> Forall stop_ok d ->
  qdict l = l.
Proof.
  intros H Hi Ho. assert (G : forall acc e, Forall2 (fun (kv : Q * pyval) (a : stop) => fst kv = position (fst a)) acc e -> Forall stop_ok e ->
    (forall a b, In a e -> In b d -> fst a < fst b) ->
    fold_left (fun d kv => qset (fst kv) (snd kv) d) l acc = acc ++ l).
  { revert Hi Ho. induction H as [|[k v] b l d Hk Hl IH]; intros Hi Ho acc e Ha Hoe Hlt.
    - now rewrite app_nil_r.
    - inversion Ho as [|? ? Hob Hod]; subst. cbn [fold_left fst snd] in *.
      rewrite qset_new.
      + rewrite (IH (increasing_tail _ _ Hi) Hod (acc ++ [(k, v)]) (e ++ [b])).
        * now rewrite <- app_assoc.
        * apply Forall2_app; [assumption|]. constructor; [assumption|constructor].
        * apply Forall_app. split; [assumption|]. constructor; [assumption|constructor].
        * intros x y Hx Hy. apply in_app_iff in Hx as [Hx|[<-|[]]].
          -- apply Hlt; [assumption|now right].
          -- eapply increasing_lt; eassumption.
      + clear IH Hl. subst k. induction Ha as [|[k' v'] x acc e Hx Ha IHa]; [constructor|].
        inversion Hoe as [|? ? Hox Hoe']; subst. constructor.
        * cbn [fst] in *. subst k'. intros E. apply position_eq in E; [|apply Hob|apply Hox].
          specialize (Hlt x b (or_introl eq_refl) (or_introl eq_refl)). lia.
        * apply IHa; [assumption|]. intros; apply Hlt; [now right|assumption]. }
  unfold qdict. rewrite (G [] []); [reflexivity|constructor|constructor|intros ? ? []].
Qed.

Lemma color_tuple_six a l : length l = 4%nat -> color_tuple (color_node a l) = Ok (six_decimals l).
Proof. intros H. destruct l as [|q1 [|q2 [|q3 [|q4 [|? ?]]]]]; try discriminate. apply color_tuple_node. Qed.

Lemma nodes_show nm a ts d cx : Forall2 node_of ts d -> gradient_ok d -> shows (El nm a ts) cx d.
Proof.
  intros H (Hi & Ho & HL).
  assert (FC : find_all (has_name (s "color")) (El nm a ts) = ts).
  { apply find_colors. clear - H. induction H as [|t b ts d (l & A & B & C) _ IH]; constructor; [|assumption]. eauto. }
  unfold shows. cbn [get_value]. unfold gradient_val. rewrite FC.
  assert (LT : length ts = length d) by (eapply F2_length; eassumption).
  replace (Z.of_nat (length ts) <? 2) with false by lia. cbv iota.
  assert (M : exists l, mapM (fun c => match aget (s "pos") (tag_attrs c) with
                                | None => Err KeyError
                                | Some v => let* q := float_of_aval v in Ok (q, PVal VColor c cx)
                                end) ts = Ok l /\
     Forall2 (fun kv b => fst kv = position (fst b) /\ exists t, snd kv = PVal VColor t cx /\ color_tuple t = Ok (snd b)) l d).
  { clear HL Hi FC LT. induction H as [|t b ts d (l & A & B & ->) _ IH]; [exists []; split; [reflexivity|constructor]|].
    inversion Ho as [|? ? Hb Ho']; subst. destruct (IH Ho') as (l' & E & F).
    exists ((position (fst b), PVal VColor (pos_node (fst b) l) cx) :: l'). split.
    - cbn [mapM]. rewrite E. unfold pos_node, color_node. cbn [tag_attrs aget]. rewrite pstr_eqb_refl.
      cbn [float_of_aval]. change (fmt_g 6 (position (fst b))) with (fmt_g 6 (millionth (fst b))). rewrite millionth_read by apply Hb. reflexivity.
    - constructor; [|assumption]. cbn [fst snd]. split; [reflexivity|]. eexists. split; [reflexivity|].
      unfold pos_node. rewrite color_tuple_six by assumption. now rewrite B. }
  destruct M as (l & E & F). rewrite E. cbn [bind]. rewrite (qdict_distinct l d).
  - exists l. auto.
  - revert F. apply F2_impl. now intros ? ? [? _].
  - assumption.
  - assumption.
Qed.

Lemma pos_node_reload m l : length l = 4%nat -> reload (pos_node m l) = pos_node m l.
Proof.
  intros H. destruct l as [|q1 [|q2 [|q3 [|q4 [|? ?]]]]]; try discriminate.
  unfold pos_node, color_node. rewrite reload_tags by (cbn; repeat constructor).
  f_equal.
  - unfold reload_attrs, sort. cbn [fold_right ins map fst snd aval_str]. now rewrite norm_attr_id by apply num_no_ctrl, fmt_g_num.
  - cbn [combine rgba map]. cbn [map fst snd].
    rewrite !reload_leaf by (try apply all_num_visible; try apply fmt_f_num; apply fmt_f_nonempty). reflexivity.
Qed.

Lemma nodes_reload nm a ts d : Forall2 node_of ts d -> reload (El nm a ts) = El nm (reload_attrs a) ts.
Proof.
  intros H. rewrite reload_tags.
  - f_equal. induction H as [|t b ts d (l & A & B & ->) _ IH]; [reflexivity|]. cbn [map]. rewrite pos_node_reload by assumption. now rewrite IH.
  - induction H as [|t b ts d (l & A & B & ->) _ IH]; constructor; [reflexivity|assumption].
Qed.

Lemma gradient_set_dict_shows n l d0 d : Forall2 makes l d0 -> Permutation d0 d -> gradient_ok d ->
  exists n', gradient_set_dict n l = (n', Ok tt) /\ tag_name n' = tag_name n /\ is_tag n' = true /\
    forall cx, shows n' cx d /\ shows (reload n') cx d.
Proof.
  intros Hm HP Hok.
  assert (HL : length l = length d) by (erewrite F2_length by eassumption; now apply Permutation_length).
  destruct (F2_perm makes l (sort key_le l) d0) as (d1 & P1 & F1); [apply Permutation_sym, sort_perm|assumption|].
  assert (D1 : d1 = d).
  { destruct Hok as (Hi & Ho & _). apply increasing_unique; [assumption|transitivity d0; [now apply Permutation_sym|assumption]|].
    intros l1 a l2 b l3 E.
    assert (O1 : Forall stop_ok d1).
    { apply Forall_forall. intros x Hx. rewrite Forall_forall in Ho. apply Ho.
      eapply Permutation_in; [|exact Hx]. transitivity d0; [now apply Permutation_sym|assumption]. }
    pose proof (sort_ordered l) as HO. revert HO F1. generalize (sort key_le l). intros sl HO F1.
    subst d1. apply Forall2_app_inv_r in F1 as (s1 & s2 & F1 & F2 & ->).
    inversion F2 as [|ka ? s3 ? Ha F3]; subst. apply Forall2_app_inv_r in F3 as (s4 & s5 & F4 & F5 & ->).
    inversion F5 as [|kb ? s6 ? Hb F6]; subst.
    assert (LE : (fst ka <= fst kb)%Q).
    { clear - HO. induction s1 as [|x s1 IH]; cbn [app] in HO.
      - inversion HO as [|? ? Hx _]; subst. apply Hx. apply in_app_iff. right. now left.
      - apply IH. now inversion HO. }
    destruct Ha as (Ka & _), Hb as (Kb & _). rewrite Ka, Kb in LE.
    apply position_le in LE; [assumption| |];
      (rewrite Forall_forall in O1; apply O1; apply in_app_iff; right).
    - now left.
    - right. apply in_app_iff. right. now left. }
  subst d1. destruct (gradient_append_makes (sort key_le l) [] d F1) as (ts & E & F).
  exists (El (tag_name n) (tag_attrs n) ts). unfold gradient_set_dict.
  replace (Z.of_nat (length l) <? 2) with false by (destruct Hok as (_ & _ & ?); lia). cbv iota. rewrite E.
  split; [reflexivity|]. split; [reflexivity|]. split; [reflexivity|]. intros cx. split; [now apply nodes_show|].
  erewrite nodes_reload by eassumption. now apply nodes_show.
Qed.

(** ** Single stops *)

Lemma colour_arg_conv c : length c = 4%nat -> color_conv (colour_arg c) = Ok c.
Proof. intros H. destruct c as [|q1 [|q2 [|q3 [|q4 [|? ?]]]]]; try discriminate. reflexivity. Qed.

Lemma put_in m c d x : In x (put m c d) -> x = (m, c) \/ In x d.
Proof.
  induction d as [|[m' c'] d IH]; cbn [put]; intros H; [destruct H as [H|[]]; auto|].
  destruct (m <? m'); [destruct H as [H|H]; auto|]. destruct (m =? m'); [destruct H as [H|H]; cbn; auto|].
  destruct H as [H|H]; [cbn; auto|]. destruct (IH H); cbn; auto.
Qed.

Lemma put_increasing m c d : increasing d -> increasing (put m c d).
Proof.
  induction d as [|[m' c'] d IH]; intros H; cbn [put]; [constructor|].
  destruct (m <? m') eqn:E1; [constructor; [cbn; lia|assumption]|].
  destruct (m =? m') eqn:E2.
  - inversion H; subst; constructor; [cbn in *; lia|assumption].
  - specialize (IH (increasing_tail _ _ H)). destruct (put m c d) as [|b r] eqn:P; constructor; [|assumption].
    assert (Ib : In b (put m c d)) by (rewrite P; now left). apply put_in in Ib as [->|Ib]; [cbn; lia|].
    eapply increasing_lt; eassumption.
Qed.

Lemma put_length m c d : (length d <= length (put m c d))%nat.
Proof.
  induction d as [|[m' c'] d IH]; cbn [put length]; [lia|]. destruct (m <? m'); [cbn [length]; lia|].
  destruct (m =? m'); cbn [length]; lia.
Qed.

Lemma put_ok m c d : gradient_ok d -> stop_ok (m, c) -> gradient_ok (put m c d).
Proof.
  intros (Hi & Ho & HL) Hc. split; [now apply put_increasing|]. split.
  - apply Forall_forall. intros x Hx. apply put_in in Hx as [->|Hx]; [assumption|]. rewrite Forall_forall in Ho. auto.
  - pose proof (put_length m c d). lia.
Qed.

(** Python's dictionaries keep the place of a key; the sorting makes up for it. *)
Lemma qset_makes v l m c : stop_ok (m, c) -> makes (position m, v) (m, c) -> forall d, increasing d -> Forall stop_ok d -> Forall2 makes l d ->
  exists d0, Forall2 makes (qset (position m) v l) d0 /\ Permutation d0 (put m c d).
Proof.
  intros Hmc Hv d Hi Ho H. revert Hi Ho. induction H as [|[k v'] [m' c'] l d Hk Hl IH]; intros Hi Ho.
  - exists [(m, c)]. split; [constructor; [assumption|constructor]|reflexivity].
  - inversion Ho as [|? ? Hom Ho']; subst. destruct (IH (increasing_tail _ _ Hi) Ho') as (d0 & F & P).
    assert (Ek : k = position m') by apply Hk. subst k. cbn [qset].
    destruct (Qeq_bool (position m) (position m')) eqn:E.
    + apply Qeq_bool_iff in E. apply position_eq in E; [|apply Hmc|apply Hom]. subst m'.
      exists ((m, c) :: d). split; [constructor; assumption|]. cbn [put].
      replace (m <? m) with false by lia. replace (m =? m) with true by lia. reflexivity.
    + assert (N : m <> m') by (intros ->; rewrite (proj2 (Qeq_bool_iff _ _)) in E; [discriminate|reflexivity]).
      exists ((m', c') :: d0). split; [constructor; assumption|]. cbn [put].
      replace (m =? m') with false by lia. destruct (m <? m') eqn:L; [|now constructor].
      assert (PD : put m c d = (m, c) :: d).
      { destruct d as [|[m2 c2] d]; [reflexivity|]. cbn [put]. inversion Hi; subst. cbn [fst] in *.
        replace (m <? m2) with true by lia. reflexivity. }
      rewrite PD in P. rewrite P. apply perm_swap.
Qed.

Lemma six_idem c : Forall is_dbl c -> six_decimals (six_decimals c) = six_decimals c.
Proof. unfold six_decimals. induction 1 as [|q c H _ IH]; [reflexivity|]. cbn [map]. rewrite IH. f_equal. now apply round6_idem. Qed.

Lemma six_dbl c : Forall is_dbl (six_decimals c).
Proof. unfold six_decimals. induction c; constructor; auto. apply round_dec_dbl. Qed.

Lemma shows_makes n cx d l : get_value VGradient n cx = Ok (PDictF l) ->
  Forall2 (fun kv a => fst kv = position (fst a) /\ exists t, snd kv = PVal VColor t cx /\ color_tuple t = Ok (snd a)) l d ->
  Forall stop_ok d -> Forall (fun a => six_decimals (snd a) = snd a) d -> Forall2 makes l d.
Proof.
  intros _ H. induction H as [|kv a l d (Hk & t & Ht & Hc) _ IH]; intros Ho Hs; [constructor|].
  inversion Ho as [|? ? Ha Ho']; inversion Hs as [|? ? Hsa Hs']; subst. constructor; [|auto].
  split; [assumption|]. exists (snd a). rewrite Ht. cbn [color_conv]. split; [assumption|]. split; [apply Ha|assumption].
Qed.

Lemma setitem_shows n cx d m c : shows n cx d -> gradient_ok d -> six_stops d -> stop_ok (m, c) ->
  exists n', gradient_setitem n cx (position m) (colour_arg c) = (n', Ok tt) /\ tag_name n' = tag_name n /\ is_tag n' = true /\
    (forall cy, shows n' cy (put m (six_decimals c) d) /\ shows (reload n') cy (put m (six_decimals c) d)) /\
    gradient_ok (put m (six_decimals c) d) /\ six_stops (put m (six_decimals c) d).
Proof.
  intros (l & Hg & HF) Hok Hs Hc. pose proof Hok as (Hi & Ho & HL).
  cbn [get_value] in Hg. unfold gradient_setitem. destruct (gradient_val n cx) as [l'|] eqn:E; cbn [bind] in Hg; [|discriminate].
  injection Hg as ->.
  assert (Hm : Forall2 makes l d) by (eapply shows_makes; [|eassumption|assumption|assumption]; cbn [get_value]; rewrite E; reflexivity).
  assert (Hc6 : stop_ok (m, six_decimals c)).
  { destruct Hc as (A & B & C). split; [exact A|]. split; [cbn [snd] in *; unfold six_decimals; now rewrite map_length|apply six_dbl]. }
  destruct (qset_makes (colour_arg c) l m (six_decimals c) Hc6) with (d := d) as (d0 & F & P); [|assumption|assumption|assumption|].
  { split; [reflexivity|]. exists c. cbn [snd]. destruct Hc as (A & B & C). rewrite colour_arg_conv by assumption. auto. }
  assert (OK : gradient_ok (put m (six_decimals c) d)) by now apply put_ok.
  destruct (gradient_set_dict_shows n _ d0 _ F P OK) as (n' & S1 & S2 & S3 & S4).
  exists n'. repeat (split; [assumption|]).
  apply Forall_forall. intros x Hx. apply put_in in Hx as [->|Hx].
  - cbn [snd]. apply six_idem. apply Hc.
  - unfold six_stops in Hs. rewrite Forall_forall in Hs. auto.
Qed.

(** Reading one. *)
Lemma shows_getitem n cx d m c : shows n cx d -> gradient_ok d -> In (m, c) d ->
  exists t, gradient_getitem n cx (position m) = Ok (PVal VColor t cx) /\ color_tuple t = Ok c.
Proof.
  intros (l & Hg & HF) (Hi & Ho & _) Hin. cbn [get_value] in Hg. unfold gradient_getitem.
  destruct (gradient_val n cx) as [l'|] eqn:E; cbn [bind] in *; [|discriminate]. injection Hg as ->. clear E.
  induction HF as [|[k v] a l d (Hk & t & Ht & Hc) _ IH]; [destruct Hin|].
  inversion Ho as [|? ? Ha Ho']; subst. cbn [fst snd] in *. subst k v. cbn [qget].
  destruct Hin as [->|Hin].
  - cbn [fst]. rewrite (proj2 (Qeq_bool_iff _ _)) by reflexivity. eauto.
  - replace (Qeq_bool (position m) (position (fst a))) with false.
    + apply IH; [eapply increasing_tail; eassumption|assumption|assumption].
    + symmetry. apply Qeq_bool_false. intros Eq. pose proof (increasing_lt a d Hi _ Hin) as L.
      rewrite Forall_forall in Ho'. apply position_eq in Eq; [|apply (Ho' _ Hin)|apply Ha]. cbn [fst] in L. lia.
Qed.

Lemma shows_missing n cx d m : shows n cx d -> Forall stop_ok d -> 0 <= m <= 10 ^ 6 -> ~ In m (map fst d) ->
  gradient_getitem n cx (position m) = Err KeyError.
Proof.
  intros (l & Hg & HF) Ho Hm Hn. cbn [get_value] in Hg. unfold gradient_getitem.
  destruct (gradient_val n cx) as [l'|] eqn:E; cbn [bind] in *; [|discriminate]. injection Hg as ->. clear E.
  replace (qget (position m) l) with (@None pyval); [reflexivity|]. symmetry.
  induction HF as [|[k v] a l d (Hk & _) _ IH]; [reflexivity|]. inversion Ho as [|? ? Ha Ho']; subst. cbn [fst snd map] in *. subst k. cbn [qget].
  replace (Qeq_bool (position m) (position (fst a))) with false.
  - apply IH; [assumption|]. intros HI; apply Hn; now right.
  - symmetry. apply Qeq_bool_false. intros Eq. apply position_eq in Eq; [|assumption|apply Ha]. apply Hn. now left.
Qed.

(** ** Whole dictionaries, and any sequence of changes *)

Lemma dict_makes d0 : Forall stop_ok d0 ->
  Forall2 makes (map (fun a => (position (fst a), colour_arg (snd a))) d0) (map (fun a => (fst a, six_decimals (snd a))) d0).
Proof.
  induction 1 as [|a d0 Ha _ IH]; cbn [map]; constructor; [|assumption].
  split; [reflexivity|]. exists (snd a). cbn [fst snd]. destruct Ha as (_ & B & _). rewrite colour_arg_conv by assumption. auto.
Qed.

Lemma six_each_ok d : gradient_ok d -> gradient_ok (six_each d) /\ six_stops (six_each d).
Proof.
  intros (Hi & Ho & HL). split; [split; [|split]|].
  - clear - Hi. unfold six_each. induction Hi as [|a|a b l H Hi IH]; cbn [map] in *; constructor; [assumption|assumption].
  - apply Forall_forall. intros x Hx. apply in_map_iff in Hx as (a & <- & Ha). rewrite Forall_forall in Ho. destruct (Ho a Ha) as (A & B & C).
    split; [exact A|]. split; [cbn [snd]; unfold six_decimals; now rewrite map_length|apply six_dbl].
  - unfold six_each. now rewrite map_length.
  - apply Forall_forall. intros x Hx. apply in_map_iff in Hx as (a & <- & Ha). rewrite Forall_forall in Ho. destruct (Ho a Ha) as (A & B & C).
    cbn [snd]. now apply six_idem.
Qed.

Lemma gradient_dict_shows n d0 d : Permutation d0 d -> gradient_ok d ->
  exists n', set_value VGradient n (PDictF (map (fun a => (position (fst a), colour_arg (snd a))) d0)) = (n', Ok tt) /\
    tag_name n' = tag_name n /\ is_tag n' = true /\ forall cx, shows n' cx (six_each d) /\ shows (reload n') cx (six_each d).
Proof.
  intros HP Hok. cbn [set_value gradient_set].
  apply (gradient_set_dict_shows n _ (six_each d0) (six_each d)).
  - apply dict_makes. destruct Hok as (_ & Ho & _). apply Forall_forall. intros x Hx. rewrite Forall_forall in Ho. apply Ho.
    eapply Permutation_in; eassumption.
  - now apply Permutation_map.
  - now apply six_each_ok.
Qed.

Lemma gradient_history cx h : forall n d, is_tag n = true -> shows n cx d -> shows (reload n) cx d -> gradient_ok d -> six_stops d -> Forall stop_ok h ->
  shows (sets n cx h) cx (fold_left (fun d a => put (fst a) (six_decimals (snd a)) d) h d) /\
  shows (reload (sets n cx h)) cx (fold_left (fun d a => put (fst a) (six_decimals (snd a)) d) h d).
Proof.
  induction h as [|[m c] h IH]; intros n d Ht Hn Hr Hok Hs Hh; [split; assumption|].
  inversion Hh as [|? ? Hc Hh']; subst. cbn [fold_left fst snd].
  destruct (setitem_shows n cx d m c Hn Hok Hs Hc) as (n' & E & _ & T & S & O & S6).
  unfold sets. cbn [fold_left fst snd]. rewrite E. cbn [fst]. fold (sets n' cx h).
  destruct (S cx). apply IH; assumption.
Qed.

Lemma gradient_small n d : (length d < 2)%nat -> set_value VGradient n (PDictF d) = (n, Err ValueError).
Proof. intros H. cbn [set_value gradient_set]. unfold gradient_set_dict. replace (Z.of_nat (length d) <? 2) with true by lia. reflexivity. Qed.

(** ** For the property theorems *)

Lemma real_prop prior x : exists w, stores VReal prior (PFlo x) (PFlo w) /\ rounded_to 10 x w /\
  (Qabs (w - x) <= (1 # 20000000000) + Qabs x * pow2 (-52))%Q.
Proof.
  exists (round_dec 10 x). split; [apply real_stores|]. split; [apply round_dec_rounded|].
  pose proof (round10_err x) as H. assert (E : ((1 # 2) * pow10 (-10) == 1 # 20000000000)%Q) by reflexivity. lra.
Qed.

Lemma real_same_value prior x w : is_dbl x -> stores VReal prior (PFlo x) (PFlo w) -> forall prior', stores VReal prior' (PFlo w) (PFlo w).
Proof.
  intros Hx (n & Hs & Hr) prior'. destruct (real_stores prior x) as (n' & Hs' & Hr').
  rewrite Hs in Hs'. injection Hs' as <-. destruct (Hr None) as (A & _), (Hr' None) as (B & _). rewrite A in B. injection B as ->.
  pose proof (real_stores prior' (round_dec 10 x)) as R. now rewrite round10_idem in R.
Qed.

Lemma rounded10 x : rounded_to 10 x (round_dec 10 x).
Proof. apply round_dec_rounded. Qed.

Lemma color_prop prior q1 q2 q3 q4 : exists n w1 w2 w3 w4,
  set_value VColor prior (PTuple [PFlo q1; PFlo q2; PFlo q3; PFlo q4]) = (n, Ok tt) /\
  from_tag n = Ok VColor /\ reload n = n /\ color_tuple n = Ok [w1; w2; w3; w4] /\
  rounded_to 6 q1 w1 /\ rounded_to 6 q2 w2 /\ rounded_to 6 q3 w3 /\ rounded_to 6 q4 w4.
Proof.
  destruct (color_tuple_stores prior q1 q2 q3 q4) as (n & A & B & C & D). exists n. do 4 eexists.
  repeat (split; [eassumption|]). repeat split; apply round_dec_rounded.
Qed.

Lemma color3_prop prior q1 q2 q3 : exists n w1 w2 w3,
  set_value VColor prior (PTuple [PFlo q1; PFlo q2; PFlo q3]) = (n, Ok tt) /\
  from_tag n = Ok VColor /\ reload n = n /\ color_tuple n = Ok [w1; w2; w3; 1%Q] /\
  rounded_to 6 q1 w1 /\ rounded_to 6 q2 w2 /\ rounded_to 6 q3 w3.
Proof.
  destruct (color_tuple3_stores prior q1 q2 q3) as (n & A & B & C & D). exists n. do 3 eexists.
  repeat (split; [eassumption|]). repeat split; apply round_dec_rounded.
Qed.

Lemma vector_prop n x y : child_tags n = [] -> exists n' u v,
  set_value VXY n (PTuple [PFlo x; PFlo y]) = (n', Ok tt) /\ from_tag n' = Ok VXY /\
  rounded_to 10 x u /\ rounded_to 10 y v /\
  vector_tuple n' = Ok [u; v] /\ vector_getitem n' (s "x") = Ok u /\ vector_getitem n' (s "y") = Ok v /\
  vector_attr n' (s "x") = Ok u /\ vector_attr n' (s "y") = Ok v /\
  vector_getitem_int n' 0 = Ok u /\ vector_getitem_int n' 1 = Ok v.
Proof.
  intros H. destruct (vector_fresh_reads n x y H) as (n' & R). exists n', (round_dec 10 x), (round_dec 10 y).
  destruct R as (A & B & R). split; [assumption|]. split; [assumption|]. split; [apply rounded10|]. split; [apply rounded10|]. exact R.
Qed.

Lemma vector_history_prop n h x y : only_xy n -> exists u v,
  vector_tuple (assign_pairs n (h ++ [(x, y)])) = Ok [u; v] /\ rounded_to 10 x u /\ rounded_to 10 y v.
Proof.
  intros H. do 2 eexists. split; [now apply vector_history|]. split; apply rounded10.
Qed.

Lemma composite_prop n l ox oy a k sx sy cx : is_tag n = true -> is_dbl a -> is_dbl k -> Permutation l (full ox oy a k sx sy) ->
  exists n', set_value VTransformation n (PDict l) = (n', Ok tt) /\
    forall m, m = n' \/ m = reload n' ->
    exists t1 t2 t3 t4 ox' oy' sx' sy',
    rounded_to 10 ox ox' /\ rounded_to 10 oy oy' /\ rounded_to 10 sx sx' /\ rounded_to 10 sy sy' /\
    composite_getitem m cx (s "offset") = Ok (PVal VXY t1 cx) /\ vector_tuple t1 = Ok [ox'; oy'] /\
    composite_getitem m cx (s "angle") = Ok (PVal VAngle t2 cx) /\ get_value VAngle t2 cx = Ok (PFlo a) /\
    composite_getitem m cx (s "skew_angle") = Ok (PVal VAngle t3 cx) /\ get_value VAngle t3 cx = Ok (PFlo k) /\
    composite_getitem m cx (s "scale") = Ok (PVal VXY t4 cx) /\ vector_tuple t4 = Ok [sx'; sy'].
Proof.
  intros H1 H2 H3 H4. destruct (full_set n l ox oy a k sx sy cx H1 H2 H3 H4) as (n' & A & B).
  exists n'. split; [assumption|]. intros m Hm. destruct (B m Hm) as (t1 & t2 & t3 & t4 & R).
  exists t1, t2, t3, t4, (round_dec 10 ox), (round_dec 10 oy), (round_dec 10 sx), (round_dec 10 sy).
  do 4 (split; [apply rounded10|]). exact R.
Qed.

Lemma gradient_whole n d0 d h cx : Permutation d0 d -> gradient_ok d -> Forall stop_ok h ->
  exists n', set_value VGradient n (PDictF (map (fun a => (position (fst a), colour_arg (snd a))) d0)) = (n', Ok tt) /\
    shows (sets n' cx h) cx (puts (six_each d) h) /\ shows (reload (sets n' cx h)) cx (puts (six_each d) h).
Proof.
  intros HP Hok Hh. destruct (gradient_dict_shows n d0 d HP Hok) as (n' & E & _ & T & S). exists n'. split; [assumption|].
  destruct (S cx) as (S1 & S2). destruct (six_each_ok d Hok) as (O & S6). unfold puts. now apply gradient_history.
Qed.

Lemma gradient_one n cx d m c : shows n cx d -> gradient_ok d -> six_stops d -> stop_ok (m, c) ->
  exists n', gradient_setitem n cx (position m) (colour_arg c) = (n', Ok tt) /\
    (exists t, gradient_getitem n' cx (position m) = Ok (PVal VColor t cx) /\ color_tuple t = Ok (six_decimals c)) /\
    (forall m' c', m' <> m -> In (m', c') d ->
       exists t, gradient_getitem n' cx (position m') = Ok (PVal VColor t cx) /\ color_tuple t = Ok c') /\
    (forall m', m' <> m -> 0 <= m' <= 10 ^ 6 -> ~ In m' (map fst d) -> gradient_getitem n' cx (position m') = Err KeyError).
Proof.
  intros Hn Hok Hs Hc. destruct (setitem_shows n cx d m c Hn Hok Hs Hc) as (n' & E & _ & _ & S & O & _).
  destruct (S cx) as (S1 & _). exists n'. split; [assumption|].
  assert (P1 : In (m, six_decimals c) (put m (six_decimals c) d)).
  { clear. induction d as [|[m' c'] d IH]; cbn [put]; [now left|]. destruct (m <? m'); [now left|]. destruct (m =? m'); [now left|now right]. }
  assert (P2 : forall m' c', m' <> m -> In (m', c') d -> In (m', c') (put m (six_decimals c) d)).
  { clear. intros m' c' N. induction d as [|[m2 c2] d IH]; cbn [put]; [intros []|]. intros I.
    destruct (m <? m2); [now right|]. destruct (m =? m2) eqn:E.
    - destruct I as [I|I]; [inversion I; subst; lia|now right].
    - destruct I as [I|I]; [now left|right; auto]. }
  split; [eapply shows_getitem; eassumption|]. split.
  - intros m' c' N I. eapply shows_getitem; [eassumption|assumption|auto].
  - intros m' N R I. eapply shows_missing; [eassumption|apply O|assumption|].
    intros J. apply in_map_iff in J as ([m2 c2] & <- & J). apply put_in in J as [J|J]; [inversion J; subst; now apply N|].
    apply I. apply in_map_iff. exists (m2, c2). auto.
Qed.

Lemma vector_stale : exists n, (forall h, vector_getitem (assign_pairs n h) (s "x") = Ok 1%Q) /\
    vector_tuple (assign_pairs n [(3, 4)]%Q) = Ok [3; 4]%Q /\
    vector_attr (assign_pairs n [(3, 4)]%Q) (s "x") = Ok 1%Q.
Proof.
  exists (El (s "vector") [] [El (s "x") [] [Txt (s "1")]; El (s "y") [] [Txt (s "2")]]).
  split; [|split; vm_compute; reflexivity]. intros h.
  assert (G : forall n, tag_name n = s "vector" -> tag_attrs n = [] -> In (s "x") (map tag_name (child_tags n)) -> 
                 vector_getitem (assign_pairs n h) (s "x") = vector_getitem n (s "x")).
  { induction h as [|p h IH]; intros n Hn Ha Hx; [reflexivity|]. unfold assign_pairs. cbn [fold_left].
    rewrite vector_set_pair. cbn [fst]. fold (assign_pairs (El (s "vector") [] (tag_kids n ++ xy_tags (fst p) (snd p))) h).
    destruct n as [?|nm a k]; [discriminate|]. cbn [tag_name tag_attrs tag_kids] in *. subst nm a. rewrite IH.
    - now apply vector_get_app.
    - reflexivity.
    - reflexivity.
    - rewrite child_tags_app, map_app, in_app_iff. now left. }
  rewrite G; [vm_compute; reflexivity|reflexivity|reflexivity|cbn; auto].
Qed.

Definition T30 : node := fst (set_value VTransformation (empty_tag VTransformation) (PDict (full 0 0 30 0 1 1))).

Lemma composite_wipes : exists n n', set_value VTransformation (empty_tag VTransformation) (PDict (full 0 0 30 0 1 1)) = (n, Ok tt) /\
    (exists t, composite_getitem n None (s "angle") = Ok (PVal VAngle t None) /\ get_value VAngle t None = Ok (PFlo 30)) /\
    set_value VTransformation n (PDict [(s "offset", PTuple [PFlo 1; PFlo 2])]) = (n', Ok tt) /\
    composite_getitem n' None (s "angle") = Err KeyError.
Proof.
  exists T30. eexists. split; [vm_compute; reflexivity|]. split; [eexists; split; [vm_compute; reflexivity|vm_compute; reflexivity]|].
  split; [vm_compute; reflexivity|]. vm_compute. reflexivity.
Qed.

Lemma composite_loses : exists n n', set_value VTransformation (empty_tag VTransformation) (PDict (full 0 0 30 0 1 1)) = (n, Ok tt) /\
    set_value VTransformation n (PDict [(s "angle", PStr (s "thirty"))]) = (n', Err ValueError) /\ tag_kids n' = [].
Proof. exists T30. eexists. split; [vm_compute; reflexivity|]. split; [vm_compute; reflexivity|]. reflexivity. Qed.

Lemma gradient_collision : exists a b n, ~ (a == b)%Q /\
    set_value VGradient (empty_tag VGradient) (PDictF [(a, PStr (s "#000000")); (b, PStr (s "#ffffff"))]) = (n, Ok tt) /\
    exists v, get_value VGradient n None = Ok (PDictF [v]).
Proof.
  exists (rnd64 (1 # 10)), (rnd64 (10000001 # 100000000)). eexists. split; [vm_compute; discriminate|].
  split; [vm_compute; reflexivity|]. eexists. vm_compute. reflexivity.
Qed.

Lemma gradient_loses : exists n n', set_value VGradient (empty_tag VGradient) (PDictF [(0%Q, PStr (s "#000000")); (1%Q, PStr (s "#ffffff"))]) = (n, Ok tt) /\
    gradient_setitem n None (1 # 2)%Q (PStr (s "red")) = (n', Err ValueError) /\ get_value VGradient n' None = Err ValueError.
Proof. eexists. eexists. split; [vm_compute; reflexivity|]. split; [vm_compute; reflexivity|vm_compute; reflexivity]. Qed.

Lemma detected (n : node) :
  (forall v, py_items v = None -> exists e, set_value VTransformation n v = (n, Err e)) /\
  (forall l k v, In (k, v) l -> aget k transformation_keys = None -> set_value VTransformation n (PDict l) = (n, Err KeyError)) /\
  (forall d, (length d < 2)%nat -> set_value VGradient n (PDictF d) = (n, Err ValueError)).
Proof.
  split; [|split].
  - intros v H. exists TypeError. cbn [set_value]. unfold composite_set. now rewrite H.
  - intros l k v. apply composite_unknown.
  - apply gradient_small.
Qed.

Lemma bool_copy prior m cy b : get_value VBool m cy = Ok (PBool b) -> stores VBool prior (PVal VBool m cy) (PBool b).
Proof.
  cbn [get_value]. intros H. apply (simple_stores _ _ _ (if b then s "true" else s "false")); [cbn; tauto| | |].
  - unfold simple_str, eq_empty_tuple, py_bool. rewrite H. destruct b; reflexivity.
  - destruct b; vm_compute; repeat constructor; discriminate.
  - intros cx. destruct b; reflexivity.
Qed.

Lemma number_copy c prior m cy : In c [VReal; VInteger; VAngle] -> set_value c prior (PVal c m cy) = (prior, Err TypeError).
Proof. intros [<-|[<-|[<-|[]]]]; reflexivity. Qed.

Lemma transformation_copy : exists n n', set_value VTransformation (empty_tag VTransformation) (PDict (full 0 0 30 0 1 1)) = (n, Ok tt) /\
    set_value VTransformation (empty_tag VTransformation) (PVal VTransformation n None) = (n', Err TypeError).
Proof. exists T30. eexists. split; [vm_compute; reflexivity|vm_compute; reflexivity]. Qed.

Lemma parse_float_err y e : parse_float y = Err e -> e = ValueError \/ e = EUnmodelled.
Proof.
  unfold parse_float. destruct (drop_underscores 0%N (strip y)) as [z|]; [|intros [= <-]; auto].
  destruct (split_sign z) as [neg r]. destruct (existsb _ _); [intros [= <-]; auto|].
  destruct (parse_unsigned r) as [[m e']|]; [discriminate|intros [= <-]; auto].
Qed.

Lemma numbers_compare n cx x v : get_value VReal n cx = Ok (PFlo x) ->
  (exists q, v = PFlo q) \/ (exists z, v = PInt z) \/ (exists b, v = PBool b) \/ (exists y, v = PStr y /\ parse_float y <> Err EUnmodelled) ->
  exists b, simple_eq VReal n cx v = Ok b.
Proof.
  cbn [get_value]. intros H Hv. unfold simple_eq.
  destruct Hv as [(q & ->)|[(z & ->)|[(b & ->)|(y & -> & Hy)]]]; cbn [is_instance py_float conv_or_keep bind]; rewrite ?H; cbn [bind]; eauto.
  destruct (parse_float y) as [q|e] eqn:E; cbn [conv_or_keep bind]; rewrite ?H; cbn [bind]; eauto.
  pose proof (parse_float_err y e E) as [-> | ->]; [|now contradict Hy].
  cbn [conv_or_keep bind]. rewrite ?H. cbn [bind]. eauto.
Qed.

Lemma defaults :
  (forall cx n, new_value VReal (PTuple []) = Ok n -> get_value VReal n cx = Ok (PFlo 0) /\ from_tag n = Ok VReal) /\
  (forall cx n, new_value VInteger (PTuple []) = Ok n -> get_value VInteger n cx = Ok (PInt 0) /\ from_tag n = Ok VInteger) /\
  (forall cx n, new_value VAngle (PTuple []) = Ok n -> get_value VAngle n cx = Ok (PFlo 0) /\ from_tag n = Ok VAngle) /\
  (forall cx n, new_value VBool (PTuple []) = Ok n -> get_value VBool n cx = Ok (PBool false) /\ from_tag n = Ok VBool) /\
  (forall cx n, new_value VColor (PTuple []) = Ok n -> get_value VColor n cx = Ok (PStr (s "#ffffff")) /\ from_tag n = Ok VColor).
Proof. repeat split; vm_compute in H; inversion H; vm_compute; reflexivity. Qed.

Lemma class_recognised c prior v n : In c [VReal; VInteger; VBool; VAngle; VTime; VColor] ->
  set_value c prior v = (n, Ok tt) -> from_tag n = Ok c.
Proof.
  intros Hc H. assert (S : is_simple c \/ c = VColor) by (unfold is_simple; cbn in *; intuition auto). destruct S as [S | ->].
  - rewrite set_simple in H by assumption. unfold simple_set in H. destruct (simple_str c v) as [x|]; [|discriminate].
    inversion H. now apply from_tag_simple.
  - cbn [set_value] in H. unfold color_set in H. destruct (color_conv v); inversion H. apply color_from_tag.
Qed.
