(** Recreating times; values whose expressions cannot be passed to the constructor. *)
From Coq Require Import Permutation.
From Verif Require Import PexModel PexSpec SerProofs TimeSpec TimeProofs TimeProofs2 ValProofs ValProofs2 ValSpec PyRoundProofs PyFmtProofs2 PexProofs PexProofs2 PexProofs3.
From Verif Require Import PyFmtProofs PyFloatProofs ValProofs2 ValSpec.
From Coq Require Import Lqa.
Local Open Scope Z_scope.

(** Less than a second: the same with and without FPS. *)
Lemma short_same k p : Z.abs k < p -> 0 < p <= 10 ^ 6 ->
  T_str (mkT (inject_Z k) (Some (inject_Z p))) = T_str (mkT (inject_Z k) None).
Proof.
  intros Hk Hp. rewrite T_str_val by lia. unfold printed. rewrite (Z.div_small (Z.abs k) p), (Z.mod_small (Z.abs k) p) by lia.
  unfold T_str. cbn [fps frames]. change (hms 0) with (@nil (Z * tunit)). rewrite orb_true_r. cbn [app map join]. unfold show. cbn [fst snd].
  rewrite app_assoc. f_equal. destruct (Z.ltb_spec k 0) as [E|E].
  - replace k with (- Z.abs k) at 2 by lia. rewrite fmt_g_neg_int by (change (Z.of_nat 6) with 6; lia). reflexivity.
  - rewrite fmt_g_int by (change (Z.of_nat 6) with 6; lia). cbn [minus_if app]. now rewrite Z.abs_eq by lia.
Qed.

Lemma num_points x : all_num x -> code_points x.
Proof.
  intros H. apply Forall_forall. intros c Hc. unfold all_num in H. rewrite Forall_forall in H. specialize (H c Hc). unfold numchar, is_digit in H. lia.
Qed.

Lemma points_app a b : code_points a -> code_points b -> code_points (a ++ b).
Proof. intros. apply Forall_app. auto. Qed.
Lemma points_join sep l : code_points sep -> Forall code_points l -> code_points (join sep l).
Proof.
  intros Hs. induction 1 as [|x l Hx Hl IH]; [constructor|]. destruct l as [|y l]; [exact Hx|].
  change (join sep (x :: y :: l)) with (x ++ sep ++ join sep (y :: l)). repeat apply points_app; assumption.
Qed.

Lemma time_points k p : Z.abs k < 2 ^ 53 -> 0 < p <= 10 ^ 6 -> code_points (T_str (mkT (inject_Z k) (Some (inject_Z p)))).
Proof.
  intros Hk Hp. rewrite T_str_val by lia. apply points_app; [destruct (k <? 0); repeat constructor|].
  apply points_join; [repeat constructor|]. apply Forall_map, Forall_forall. intros [z u] _. unfold show. cbn [fst snd].
  apply points_app; [|destruct u; repeat constructor]. apply num_points, all_digits_num, dec_N_digits.
Qed.

Lemma T_zero k p : T_eq (whole_time k p) (CNum 0) = Ok (k =? 0).
Proof. unfold T_eq, T_compare, whole_time. cbn [frames]. change 0%Q with (inject_Z 0). now rewrite Qeq_bool_Z. Qed.

Lemma time_expr pr n cx k p : get_value VTime n cx = Ok (PT (whole_time k p)) ->
  expression pr VTime n cx = Ok (if k =? 0 then EInt 0 else EStr (repr_str pr (T_str (whole_time k p)))).
Proof.
  intros H. cbn [get_value] in H. cbn [expression flat_expr]. rewrite H. cbn [bind]. rewrite T_zero. cbn [bind]. destruct (k =? 0); reflexivity.
Qed.

Lemma recreate_time pr n cx k p : get_value VTime n cx = Ok (PT (whole_time k p)) -> 0 < p <= 10 ^ 6 -> Z.abs k < p ->
  exists m, recreates pr VTime n cx m /\ forall cy, at_fps (inject_Z p) cy -> get_value VTime m cy = Ok (PT (whole_time k p)).
Proof.
  intros H Hp Hk. set (x := T_str (mkT (inject_Z k) None)). exists (value_tag VTime x). split.
  - pose proof (time_expr pr n cx k p H) as HE. destruct (k =? 0) eqn:E.
    + assert (k = 0) by lia. subst k. exists (EInt 0), (PInt 0). split; [exact HE|]. split; [apply literal_int|reflexivity].
    + exists (EStr (repr_str pr (T_str (whole_time k p)))), (PStr (T_str (whole_time k p))). split; [exact HE|].
      split; [apply literal_string; apply time_points; lia|].
      unfold new_value, new_flat, simple_set, simple_str. cbn [eq_empty_tuple bind is_none orb py_T].
      unfold whole_time. rewrite (short_same k p Hk Hp), str_roundtrip_none by lia. reflexivity.
  - intros cy Hcy. cbn [get_value]. unfold simple_val, value_tag. cbn [tag_attrs aget]. rewrite pstr_eqb_refl. unfold x.
    rewrite <- (short_same k p Hk Hp). destruct (str_roundtrip k p cy ltac:(lia) Hp Hcy) as [_ HR]. cbv zeta in HR. rewrite HR; [reflexivity|].
    right. left. rewrite Z.div_small by lia. lia.
Qed.

Lemma long_seconds k p : Z.abs k < 2 ^ 53 -> 0 < p <= Z.abs k -> seconds_of (items_of (k <? 0) (printed (Z.abs k) p)) <> 0.
Proof.
  intros Hk Hp. destruct (frames_of_printed (k <? 0) (Z.abs k) p ltac:(lia) ltac:(lia)) as [F1 F2].
  assert (Hq : 1 <= Z.abs k / p) by (apply Z.div_le_lower_bound; lia). destruct (k <? 0) eqn:E.
  - destruct (F2 eq_refl ltac:(lia)) as (A1 & A2 & A3 & _). unfold seconds_of.
    set (q := Z.abs k / p) in *. clearbody q. set (l := items_of true (printed (Z.abs k) p)) in *. clearbody l. clear F1 F2.
    destruct (one_unit_hms q ltac:(lia)) as (Q1 & Q2 & Q3 & Q4 & _). set (h := q / 3600) in *. set (mm := q mod 3600 / 60) in *. set (x := q mod 60) in *. clearbody h mm x. lia.
  - destruct (F1 eq_refl) as (-> & _). lia.
Qed.

Lemma small_one p l : 0 < p -> small p l -> small 1 l.
Proof.
  unfold small. intros Hp. set (z := 3600 * Z.abs (amount UH l) + 60 * Z.abs (amount UM l) + Z.abs (amount US l)).
  assert (Hz : 0 <= z) by lia. clearbody z. replace (Z.max p 1) with p by lia. replace (Z.max 1 1) with 1 by lia. nia.
Qed.

Lemma never_time pr n cx k p : get_value VTime n cx = Ok (PT (whole_time k p)) -> 0 < p <= 10 ^ 6 -> p <= Z.abs k < 2 ^ 53 ->
  exists x, expression pr VTime n cx = Ok (EStr x) /\ is_literal x (PStr (T_str (whole_time k p))) /\
    new_value VTime (PStr (T_str (whole_time k p))) = Err ValueError /\ forall m, ~ recreates pr VTime n cx m.
Proof.
  intros H Hp Hk. pose proof (time_expr pr n cx k p H) as HE. replace (k =? 0) with false in HE by lia.
  assert (HL : is_literal (repr_str pr (T_str (whole_time k p))) (PStr (T_str (whole_time k p)))) by (apply literal_string, time_points; lia).
  assert (HN : new_value VTime (PStr (T_str (whole_time k p))) = Err ValueError).
  { unfold new_value, new_flat, simple_set, simple_str. cbn [eq_empty_tuple bind is_none orb py_T].
    assert (HT : T_init (TStr (T_str (whole_time k p))) None = Err ValueError).
    { unfold whole_time. rewrite T_str_val by lia. rewrite <- items_write by (apply printed_nonempty; lia). rewrite T_spec_unanchored.
      - replace (seconds_of _ =? 0) with false; [reflexivity|]. symmetry. apply Z.eqb_neq, long_seconds; lia.
      - split; [apply items_wf|]. split; [constructor|]. rewrite items_units. apply printed_nodup.
      - apply (small_one p); [lia|]. apply printed_small; lia. }
    rewrite HT. reflexivity. }
  exists (repr_str pr (T_str (whole_time k p))). split; [exact HE|]. split; [exact HL|]. split; [exact HN|].
  intros m (e & v & He & Hv & Hm). rewrite HE in He. injection He as <-. cbn [expr_text] in Hv.
  rewrite (literal_unique _ _ _ Hv HL) in Hm. congruence.
Qed.

(** Animated values *)
Lemma animated_literal v : ~ is_literal (s "(animated)") v.
Proof. intros (f & H). do 3 (destruct f as [|f]; [discriminate H|]). vm_compute in H. discriminate H. Qed.

Lemma never_animated pr c n cx m : In c [VReal; VInteger; VBool; VXY] -> is_animated n = true -> ~ recreates pr c n cx m.
Proof.
  intros Hc Ha (e & v & He & Hv & _). assert (e = EStr (s "(animated)")).
  { destruct Hc as [<-|[<-|[<-|[<-|[]]]]]; cbn [expression flat_expr py_str] in He; unfold vector_str in He; rewrite Ha in He; injection He as <-; reflexivity. }
  subst e. exact (animated_literal v Hv).
Qed.

Lemma never_blend pr n cx m : ~ recreates pr VBlendMethod n cx m.
Proof.
  intros (e & v & He & Hv & _). cbn [expression flat_expr] in He. destruct (py_str (PVal VBlendMethod n cx)) as [x|]; [|discriminate]. injection He as <-.
  destruct Hv as (f & Hf). destruct f as [|f]; [discriminate|]. cbn [expr_text] in Hf. vm_compute in Hf. discriminate Hf.
Qed.

(** ** For the property theorems *)

Lemma real_assigned pr prior y n cx : is_dbl y -> set_value VReal prior (PFlo y) = (n, Ok tt) ->
  exists m, recreates pr VReal n cx m /\ forall cy, get_value VReal m cy = get_value VReal n cy.
Proof.
  intros Hy Hs. destruct (real_stores prior y) as (n' & Hn & Hr). rewrite Hs in Hn. injection Hn as <-.
  assert (Ha : is_animated n = false) by (cbn [set_value] in Hs; unfold simple_set in Hs; destruct (simple_str VReal (PFlo y)); [injection Hs as <-; reflexivity|discriminate]).
  destruct (real_stores (empty_tag VReal) (round_dec 10 y)) as (m & Hm & Hrm). exists m. split.
  - exists (EStr (repr_float (round_dec 10 y))), (PFlo (round_dec 10 y)). split; [|split; [apply literal_float, round_dec_dbl|]].
    + cbn [expression flat_expr py_str]. rewrite Ha. pose proof (proj1 (Hr cx)) as H. cbn [get_value] in H. rewrite H. reflexivity.
    + cbn [set_value] in Hm. unfold new_value, new_flat. rewrite Hm. reflexivity.
  - intros cy. rewrite (proj1 (Hr cy)), (proj1 (Hrm cy)), round10_idem by exact Hy. reflexivity.
Qed.

Lemma xy_assigned pr x y n cx : is_dbl x -> is_dbl y -> new_value VXY (PTuple [PFlo x; PFlo y]) = Ok n ->
  exists m l, recreates pr VXY n cx m /\ vector_tuple n = Ok l /\ vector_tuple m = Ok l /\ vector_eq m l = Ok true.
Proof.
  intros Hx Hy Hn. rewrite xy_value in Hn. injection Hn as <-.
  exists (El (s "vector") [] (xy_tags (round_dec 10 x) (round_dec 10 y))), [round_dec 10 x; round_dec 10 y].
  assert (HM : vector_tuple (El (s "vector") [] (xy_tags (round_dec 10 x) (round_dec 10 y))) = Ok [round_dec 10 x; round_dec 10 y])
    by (rewrite xy_reads, !round10_idem by assumption; reflexivity).
  split; [|split; [apply xy_reads|split; [exact HM|]]].
  - exists (EStr (tuple_str [round_dec 10 x; round_dec 10 y])), (PTuple [PFlo (round_dec 10 x); PFlo (round_dec 10 y)]).
    split; [apply xy_text; [apply xy_tag|reflexivity|apply xy_reads]|]. split; [|reflexivity].
    apply (literal_tuple [round_dec 10 x; round_dec 10 y]); [cbn; lia|]. repeat constructor; apply round_dec_dbl.
  - assert (I : vector_items (El (s "vector") [] (xy_tags (round_dec 10 x) (round_dec 10 y))) = Ok [(s "x", round_dec 10 x); (s "y", round_dec 10 y)]).
    { unfold vector_items, xy_tags. change (vector_dict _) with [(s "x", Some (fmt_f 10 (round_dec 10 x))); (s "y", Some (fmt_f 10 (round_dec 10 y)))].
      cbn [mapM fst snd float_opt bind]. rewrite !parse_fmt_f. cbn [bind]. rewrite !round10_idem by assumption. reflexivity. }
    set (m := El (s "vector") [] (xy_tags (round_dec 10 x) (round_dec 10 y))) in *.
    assert (L : length (vector_dict m) = 2%nat) by reflexivity. assert (A : is_animated m = false) by reflexivity. clearbody m.
    unfold vector_eq, vector_values. rewrite L, A, I. cbn [length Nat.eqb negb bind combine forallb map fst snd].
    rewrite !(proj2 (Qeq_bool_iff _ _)) by reflexivity. reflexivity.
Qed.

Lemma color_static pr n cx m : recreates pr VColor n cx m -> is_animated m = false.
Proof.
  intros (e & v & _ & _ & H). unfold new_value, new_flat, color_set in H. destruct (color_conv v) as [l|]; [|discriminate]. cbn [bind] in H. injection H as <-. reflexivity.
Qed.

Lemma gradient_exact pr n cx d : shows n cx d -> gradient_ok d -> six_stops d ->
  exists m, recreates pr VGradient n cx m /\ forall cy, shows m cy d.
Proof.
  intros Hs Hok H6. destruct (recreate_gradient pr n cx d Hs Hok) as (m & Hm & Hr). exists m. split; [exact Hm|].
  assert (E : six_each d = d); [|rewrite E in Hr; exact Hr]. unfold six_each. clear - H6. induction H6 as [|[z l] d H _ IH]; [reflexivity|].
  cbn [map fst snd] in *. now rewrite H, IH.
Qed.

Lemma transformation_prop pr n cx d t1 t2 t3 t4 ox oy a k sx sy :
  get_value VTransformation n cx = Ok (PDict d) -> Permutation d (four cx t1 t2 t3 t4) ->
  is_animated t1 = false -> is_animated t4 = false ->
  vector_tuple t1 = Ok [ox; oy] -> get_value VAngle t2 cx = Ok (PFlo a) -> get_value VAngle t3 cx = Ok (PFlo k) -> vector_tuple t4 = Ok [sx; sy] ->
  exists m, recreates pr VTransformation n cx m /\ forall cy,
    exists u1 u2 u3 u4 ox' oy' sx' sy',
    rounded_to 10 ox ox' /\ rounded_to 10 oy oy' /\ rounded_to 10 sx sx' /\ rounded_to 10 sy sy' /\
    close 10 ox' ox /\ close 10 oy' oy /\ close 10 sx' sx /\ close 10 sy' sy /\
    composite_getitem m cy (s "offset") = Ok (PVal VXY u1 cy) /\ vector_tuple u1 = Ok [ox'; oy'] /\
    composite_getitem m cy (s "angle") = Ok (PVal VAngle u2 cy) /\ get_value VAngle u2 cy = Ok (PFlo a) /\
    composite_getitem m cy (s "skew_angle") = Ok (PVal VAngle u3 cy) /\ get_value VAngle u3 cy = Ok (PFlo k) /\
    composite_getitem m cy (s "scale") = Ok (PVal VXY u4 cy) /\ vector_tuple u4 = Ok [sx'; sy'].
Proof.
  intros H1 H2 H3 H4 V1 V2 V3 V4.
  destruct (recreate_transformation pr n cx d t1 t2 t3 t4 ox oy a k sx sy H1 H2 H3 H4 V1 V2 V3 V4) as (m & Hm & HR).
  pose proof (vector_tuple_dbl _ _ V1) as D1. pose proof (vector_tuple_dbl _ _ V4) as D4.
  inversion D1 as [|? ? X1 D1']; subst. inversion D1' as [|? ? X2 _]; subst. inversion D4 as [|? ? X3 D4']; subst. inversion D4' as [|? ? X4 _]; subst.
  exists m. split; [exact Hm|]. intros cy. destruct (HR cy) as (u1 & u2 & u3 & u4 & R).
  exists u1, u2, u3, u4, (round_dec 10 ox), (round_dec 10 oy), (round_dec 10 sx), (round_dec 10 sy).
  do 4 (split; [apply rounded10|]).
  split; [exact (round_dec_close 10 ox X1)|]. split; [exact (round_dec_close 10 oy X2)|].
  split; [exact (round_dec_close 10 sx X3)|]. split; [exact (round_dec_close 10 sy X4)|]. exact R.
Qed.
