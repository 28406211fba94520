(** Simple values, strings and colours. *)
From Verif Require Import SerModel ValSpec SerProofs PyFloatProofs PyFmtProofs PyFmtProofs2 PyRoundProofs TimeSpec TimeProofs TimeProofs2.
From Coq Require Import Lia ZifyBool ZifyN ZifyNat Lqa Permutation.
Local Open Scope Z_scope.
Ltac Zify.zify_post_hook ::= Z.div_mod_to_equations.

(** ** Simple values *)

Definition is_simple (c : vcls) : Prop := In c [VReal; VInteger; VBool; VAngle; VTime].

Definition value_tag (c : vcls) (x : pstr) : node := El (name_for_tag c) [(s "value", AStr x)] [].

Lemma from_tag_simple c x : is_simple c -> from_tag (value_tag c x) = Ok c.
Proof. intros [<-|[<-|[<-|[<-|[<-|[]]]]]]; vm_compute; reflexivity. Qed.

Lemma set_simple c prior v : is_simple c -> set_value c prior v = simple_set c prior v.
Proof. intros [<-|[<-|[<-|[<-|[<-|[]]]]]]; reflexivity. Qed.
Lemma get_simple c n cx : is_simple c -> get_value c n cx = simple_val c n cx.
Proof. intros [<-|[<-|[<-|[<-|[<-|[]]]]]]; reflexivity. Qed.

Lemma simple_stores c prior v x w : is_simple c -> simple_str c v = Ok x -> no_ctrl x ->
  (forall cx, simple_val c (value_tag c x) cx = Ok w) -> stores c prior v w.
Proof.
  intros Hc Hs Hx Hv. exists (value_tag c x). split.
  - rewrite set_simple by assumption. unfold simple_set. now rewrite Hs.
  - intros cx. unfold value_tag at 3 4. rewrite reload_value by assumption. fold (value_tag c x).
    rewrite get_simple, from_tag_simple, Hv by assumption. auto.
Qed.

Lemma num_no_ctrl x : all_num x -> no_ctrl x.
Proof. intros H. now apply visible_no_ctrl, all_num_visible. Qed.

Lemma integer_stores prior z : stores VInteger prior (PInt z) (PInt z).
Proof.
  apply (simple_stores _ _ _ (dec_Z z)); [cbn; tauto|reflexivity| |].
  - apply num_no_ctrl, dec_Z_num.
  - intros cx. unfold simple_val, value_tag. cbn [tag_attrs aget]. rewrite pstr_eqb_refl. now rewrite parse_int_dec.
Qed.

Lemma bool_stores prior b : stores VBool prior (PBool b) (PBool b).
Proof.
  apply (simple_stores _ _ _ (if b then s "true" else s "false")); [cbn; tauto|reflexivity| |].
  - destruct b; vm_compute; repeat constructor; discriminate.
  - intros cx. destruct b; reflexivity.
Qed.

Lemma bool_reads n cx x : aget (s "value") (tag_attrs n) = Some (AStr x) ->
  get_value VBool n cx = Ok (PBool (pstr_eqb (lower x) (s "true"))).
Proof. intros H. cbn [get_value]. unfold simple_val. now rewrite H. Qed.

Lemma real_stores prior x : stores VReal prior (PFlo x) (PFlo (round_dec 10 x)).
Proof.
  apply (simple_stores _ _ _ (fmt_f 10 x)); [cbn; tauto|reflexivity| |].
  - apply num_no_ctrl, fmt_f_num.
  - intros cx. unfold simple_val, value_tag. cbn [tag_attrs aget]. rewrite pstr_eqb_refl. now rewrite parse_fmt_f.
Qed.

Lemma pow10_decimal k m : (decimal k m == inject_Z m * pow10 (- Z.of_nat k))%Q.
Proof.
  unfold decimal. pose proof (pow10_opp_l (Z.of_nat k)) as H.
  rewrite (pow10_Z (Z.of_nat k)) in H by lia.
  pose proof (Z.pow_pos_nonneg 10 (Z.of_nat k) ltac:(lia) ltac:(lia)) as P.
  set (p := (10 ^ Z.of_nat k)%Z) in *.
  assert (E : (inject_Z m == (m # Z.to_pos p) * inject_Z p)%Q).
  { unfold Qeq, inject_Z. cbn. rewrite Pos.mul_1_r, Z2Pos.id by assumption. lia. }
  rewrite E. 
  transitivity ((m # Z.to_pos p) * (pow10 (- Z.of_nat k) * inject_Z p))%Q; [rewrite H; ring|ring].
Qed.

Lemma round_dec_rounded k x : rounded_to k x (round_dec k x).
Proof.
  exists (round_he (x * pow10 (Z.of_nat k))). split.
  - unfold round_dec. apply rnd64_comp. symmetry. apply pow10_decimal.
  - intros m'. rewrite !pow10_decimal. set (i := pow10 (- Z.of_nat k)).
    pose proof (pow10_pos (- Z.of_nat k)) as Ip. fold i in Ip.
    assert (PI : (i * pow10 (Z.of_nat k) == 1)%Q) by apply pow10_opp_l.
    assert (E : forall z, (Qabs (inject_Z z * i - x) == Qabs (inject_Z z - x * pow10 (Z.of_nat k)) * i)%Q).
    { intros z. rewrite <- (Qabs_pos i) at 2 by lra. rewrite <- Qabs_Qmult. apply Qabs_wd.
      transitivity (inject_Z z * i - x * (i * pow10 (Z.of_nat k)))%Q; [rewrite PI; ring|ring]. }
    rewrite !E. pose proof (round_he_nearest (x * pow10 (Z.of_nat k)) m') as N. nra.
Qed.

Lemma real_again prior x : is_dbl x -> (0 <= x)%Q \/ ~ (round_dec 10 x == 0)%Q ->
  forall n w, set_value VReal prior (PFlo x) = (n, Ok tt) -> get_value VReal n None = Ok w ->
  set_value VReal n w = (n, Ok tt).
Proof.
  intros Hx Hs n w Hn Hw. cbn in Hn. injection Hn as <-.
  cbn [get_value] in Hw. unfold simple_val in Hw. cbn [tag_attrs aget] in Hw. rewrite pstr_eqb_refl, parse_fmt_f in Hw.
  cbn [bind] in Hw. injection Hw as <-. cbn [set_value]. unfold simple_set, simple_str.
  cbn [eq_empty_tuple bind is_none orb py_float]. now rewrite fmt10_again.
Qed.

Lemma angle_stores prior x : is_dbl x -> stores VAngle prior (PFlo x) (PFlo x).
Proof.
  intros Hx. apply (simple_stores _ _ _ (repr_float x)); [cbn; tauto|reflexivity| |].
  - apply num_no_ctrl, repr_float_num.
  - intros cx. unfold simple_val, value_tag. cbn [tag_attrs aget]. rewrite pstr_eqb_refl. now rewrite parse_repr.
Qed.

Lemma int_angle prior z : Z.abs z <= 2 ^ 53 -> stores VAngle prior (PInt z) (PFlo (inject_Z z)).
Proof.
  intros Hz. apply (simple_stores _ _ _ (repr_float (inject_Z z))); [cbn; tauto| | |].
  - cbn [simple_str eq_empty_tuple bind is_none orb py_float]. now rewrite f_of_Z_exact.
  - apply num_no_ctrl, repr_float_num.
  - intros cx. unfold simple_val, value_tag. cbn [tag_attrs aget]. rewrite pstr_eqb_refl. rewrite parse_repr; [reflexivity|].
    unfold is_dbl. now apply rnd64_Z.
Qed.

(** Times: whole numbers of frames, read at any frame rate. *)
Lemma frames_spec n : 0 <= n < 10 ^ 6 -> T_str (mkT (inject_Z n) None) = write [citem [] false (n, UF)] [].
Proof.
  intros Hn. unfold T_str. cbn [fps frames]. unfold write. cbn [flat_map].
  rewrite !app_nil_r, write_item_eq, citem_body. cbn [citem sep app]. unfold show. cbn [fst snd].
  rewrite fmt_g_int by (change (Z.of_nat 6) with 6; lia). reflexivity.
Qed.

Lemma T_frames_at n p cx : 0 <= n < 10 ^ 6 -> 0 < p -> at_fps (inject_Z p) cx ->
  T_init (TStr (T_str (mkT (inject_Z n) None))) cx = Ok (mkT (inject_Z n) (Some (inject_Z p))).
Proof.
  intros Hn Hp Hc. rewrite frames_spec by assumption.
  assert (HC : count (citem [] false (n, UF)) = n) by (rewrite citem_count; cbn [fst]; lia).
  assert (HA : amount UF [citem [] false (n, UF)] = n /\ seconds_of [citem [] false (n, UF)] = 0).
  { unfold seconds_of. cbn [amount fold_right citem unit_ tunit_eqb snd]. cbn [citem] in HC. rewrite HC. lia. }
  destruct HA as [HA HS].
  rewrite (T_spec_value _ _ p); auto.
  - unfold frames_of. rewrite HS, HA. reflexivity.
  - split; [constructor; [apply citem_wf; constructor|constructor]|]. split; [constructor|]. repeat constructor. intros [].
  - unfold small. rewrite HA. cbn [amount fold_right citem unit_ tunit_eqb snd]. lia.
Qed.

Lemma T_str_no_ctrl n : no_ctrl (T_str (mkT n None)).
Proof.
  unfold T_str. cbn [fps frames]. apply Forall_app. split; [apply num_no_ctrl, fmt_g_num|].
  repeat constructor; discriminate.
Qed.

Lemma time_stores prior n p cx : 0 <= n < 10 ^ 6 -> 0 < p -> at_fps (inject_Z p) cx ->
  exists t, set_value VTime prior (PInt n) = (t, Ok tt) /\ from_tag t = Ok VTime /\
    get_value VTime t cx = Ok (PT (mkT (inject_Z n) (Some (inject_Z p)))) /\
    get_value VTime (reload t) cx = Ok (PT (mkT (inject_Z n) (Some (inject_Z p)))).
Proof.
  intros Hn Hp Hc. exists (value_tag VTime (T_str (mkT (inject_Z n) None))).
  split; [|split; [|split]].
  - cbn [set_value]. unfold simple_set, simple_str. cbn [eq_empty_tuple bind is_none orb].
    unfold py_T, py_float. rewrite f_of_Z_exact by lia. unfold T_init. cbn [ctx_fps bind].
    change 0%Q with (inject_Z 0). rewrite Qlt_bool_Z. replace (n <? 0) with false by lia. reflexivity.
  - apply from_tag_simple. cbn; tauto.
  - cbn [get_value]. unfold simple_val, value_tag. cbn [tag_attrs aget]. rewrite pstr_eqb_refl.
    now rewrite (T_frames_at n p).
  - unfold value_tag. rewrite reload_value by apply T_str_no_ctrl.
    cbn [get_value]. unfold simple_val, value_tag. cbn [tag_attrs aget]. rewrite pstr_eqb_refl.
    now rewrite (T_frames_at n p).
Qed.

(** ** Failed assignments *)

Lemma simple_atomic c n v n' e : is_simple c \/ c = VBlendMethod \/ c = VColor \/ c = VString ->
  set_value c n v = (n', Err e) -> n' = n.
Proof.
  intros Hc H.
  assert (S : forall d, simple_set d n v = (n', Err e) -> n' = n).
  { intros d. unfold simple_set. destruct (simple_str d v); intros [=]; auto. }
  destruct Hc as [Hc|[->|[->| ->]]].
  - rewrite set_simple in H by assumption. eauto.
  - exact (S _ H).
  - cbn [set_value] in H. unfold color_set in H. destruct (color_conv v); inversion H; auto.
  - cbn [set_value] in H. unfold string_set in H. destruct (py_str v); inversion H; auto.
Qed.

(** ** Equality of reals *)

Lemma rnd64_abs q : Qabs (rnd64 q) = rnd64 (Qabs q).
Proof. apply Qabs_rnd64. Qed.

Lemma near_true d : (Qabs d <= 1 # 10000)%Q -> Qle_bool (Qabs (rnd64 d)) near = true.
Proof. intros H. apply Qle_bool_iff. rewrite rnd64_abs. unfold near. now apply rnd64_mono. Qed.

Lemma near_false d : ((1 # 10000) * (1 + pow2 (-51)) < Qabs d)%Q -> Qle_bool (Qabs (rnd64 d)) near = false.
Proof.
  intros H. apply Qle_bool_false. rewrite rnd64_abs. set (a := Qabs d) in *.
  assert (P : (pow2 (-1022) <= 1 # 10000)%Q) by (vm_compute; discriminate).
  assert (P51 : (0 < pow2 (-51))%Q) by apply pow2_pos.
  assert (A : Qabs a = a) by apply Qabs_nonneg_eq, Qabs_nonneg.
  pose proof (rnd64_rel a) as R. rewrite A in R. specialize (R ltac:(lra)).
  apply Qabs_Qle_condition in R.
  assert (N : (near <= (1#10000) * (1 + pow2 (-53)))%Q) by (vm_compute; discriminate).
  assert (P53 : (pow2 (-51) == 4 * pow2 (-53))%Q) by reflexivity.
  assert (P53p : (0 < pow2 (-53))%Q) by apply pow2_pos.
  assert (P53s : (pow2 (-53) < 1 # 1000)%Q) by reflexivity.
  assert (B : (a * (1 - pow2 (-53)) <= rnd64 a)%Q) by lra.
  assert (C : ((1 # 10000) * (1 + pow2 (-51)) * (1 - pow2 (-53)) < a * (1 - pow2 (-53)))%Q) by (apply Qmult_lt_compat_r; lra).
  nra.
Qed.

Lemma Qabs_opp_eq q : Qabs (- q) = Qabs q.
Proof. destruct q as [a b]. unfold Qopp, Qabs. cbn. now rewrite Z.abs_opp. Qed.

Lemma real_eq_tolerance n cx x m cy y : get_value VReal n cx = Ok (PFlo x) -> get_value VReal m cy = Ok (PFlo y) ->
  (forall v, v = PVal VReal m cy \/ v = PFlo y ->
    ((Qabs (x - y) <= 1 # 10000)%Q -> simple_eq VReal n cx v = Ok true) /\
    (((1 # 10000) * (1 + pow2 (-51)) < Qabs (x - y))%Q -> simple_eq VReal n cx v = Ok false)) /\
  simple_eq VReal m cy (PVal VReal n cx) = simple_eq VReal n cx (PVal VReal m cy).
Proof.
  cbn [get_value]. intros Hx Hy.
  assert (E : forall v, v = PVal VReal m cy \/ v = PFlo y -> simple_eq VReal n cx v = Ok (Qle_bool (Qabs (fsub x y)) near)).
  { intros v [-> | ->]; cbn [simple_eq is_instance py_float conv_or_keep]; rewrite ?Hy; cbn [bind]; rewrite Hx; reflexivity. }
  split.
  - intros v Hv. rewrite (E v Hv). unfold fsub. split; intros H; f_equal; [now apply near_true|now apply near_false].
  - rewrite (E (PVal VReal m cy)) by auto. cbn [simple_eq is_instance]. rewrite Hx. cbn [bind]. rewrite Hy. cbn [bind].
    do 2 f_equal. unfold fsub.
    assert (D : (y - x == - (x - y))%Q) by ring. rewrite (rnd64_comp _ _ D), rnd64_opp.
    now rewrite Qabs_opp_eq.
Qed.

(** ** Strings *)

Lemma string_reads n x : is_tag n = true ->
  exists n', set_value VString n (PStr x) = (n', Ok tt) /\ forall cx, get_value VString n' cx = Ok (PStr x).
Proof. destruct n as [t|nm a k]; [discriminate|]. intros _. eexists. split; reflexivity. Qed.

Lemma string_tag a k : from_tag (El (s "string") a k) = Ok VString.
Proof. unfold from_tag, is_animated. cbn [tag_name]. vm_compute. reflexivity. Qed.

Lemma string_stores prior x : has_name (s "string") prior = true ->
  Forall (fun c => xml_char c = true) x -> Exists (fun c => ascii_space c = false) x ->
  stores VString prior (PStr x) (PStr x).
Proof.
  intros Hp Hx He. unfold has_name in Hp. apply pstr_eqb_spec in Hp.
  destruct prior as [t|nm a k]; [discriminate|]. cbn [tag_name] in Hp. subst nm.
  exists (El (s "string") a [Txt x]). split; [reflexivity|]. intros cx.
  assert (R : reload (El (s "string") a [Txt x]) = El (s "string") (reload_attrs a) [Txt x]).
  { cbn [reload map merge_texts]. destruct x as [|c x]; [inversion He|]. cbn [map norm_node].
    rewrite norm_text_id; [reflexivity| |].
    - revert Hx. apply Forall_impl. intros d. unfold xml_char. lia.
    - revert He. clear. generalize (c :: x) as y. induction 1 as [d y H|d y H IH]; cbn [forallb]; [now rewrite H|].
      rewrite IH. now rewrite andb_false_r. }
  rewrite R, !string_tag. repeat split.
Qed.

(** ** Colours *)

Lemma color_reload l : length l = 4%nat -> reload (color_node [] l) = color_node [] l.
Proof.
  intros H. destruct l as [|q1 [|q2 [|q3 [|q4 [|? ?]]]]]; try discriminate.
  unfold color_node. rewrite reload_tags by (cbn; repeat constructor).
  f_equal. cbn [combine rgba map]. cbn [map fst snd].
  rewrite !reload_leaf by (try apply all_num_visible; try apply fmt_f_num; apply fmt_f_nonempty). reflexivity.
Qed.

Lemma color_from_tag a l : from_tag (color_node a l) = Ok VColor.
Proof. unfold from_tag, is_animated, color_node. cbn [tag_name]. vm_compute. reflexivity. Qed.

Lemma color_tuple_node a q1 q2 q3 q4 : color_tuple (color_node a [q1; q2; q3; q4])
  = Ok [round_dec 6 q1; round_dec 6 q2; round_dec 6 q3; round_dec 6 q4].
Proof.
  unfold color_tuple, rgba, color_node, color_comp, find_all, has_name.
  cbn [combine map rgba fst snd mapM].
  cbn [descendants flat_map app].
  repeat (cbn [filter tag_name hd_error]; 
    repeat match goal with |- context [pstr_eqb (s ?a) (s ?b)] => 
      let v := eval vm_compute in (pstr_eqb (s a) (s b)) in change (pstr_eqb (s a) (s b)) with v end;
    cbn [node_string]; rewrite ?parse_fmt_f; cbn [bind]).
  reflexivity.
Qed.

(** *** Hexadecimal *)

Definition comp_of (z : Z) : Q := round_dec 6 (fdiv (inject_Z z) 255).

Lemma hex_roundtrip_comp z : 0 <= z < 256 ->
  fmt_02x (round_he (fmul (round_dec 6 (comp_of z)) 255)) = [hex_char (Z.to_N z / 16); hex_char (Z.to_N z mod 16)]%N.
Proof.
  intros Hz.
  assert (C : forallb (fun z => pstr_eqb (fmt_02x (round_he (fmul (round_dec 6 (comp_of z)) 255)))
                [hex_char (Z.to_N z / 16); hex_char (Z.to_N z mod 16)]%N) (map Z.of_nat (seq 0 256)) = true)
    by (vm_compute; reflexivity).
  rewrite forallb_forall in C. apply pstr_eqb_spec, C.
  rewrite <- (Z2Nat.id z) by lia. apply in_map, in_seq. lia.
Qed.

Lemma is_hex_val c : is_hex c -> exists v, hex_val c = Some v /\ (v < 16)%N /\ hex_char v = lower_char c /\ c <> 35%N.
Proof.
  intros H. unfold is_hex in H. vm_compute in H.
  repeat (destruct H as [<-|H]; [eexists; repeat split; try reflexivity; discriminate|]). contradiction.
Qed.

Lemma parse_hex2_hex a b : is_hex a -> is_hex b ->
  exists z, parse_hex2 a b = Ok z /\ 0 <= z < 256 /\
    [hex_char (Z.to_N z / 16); hex_char (Z.to_N z mod 16)]%N = [lower_char a; lower_char b].
Proof.
  intros Ha Hb. destruct (is_hex_val a Ha) as (x & Ex & Lx & Cx & _). destruct (is_hex_val b Hb) as (y & Ey & Ly & Cy & _).
  unfold parse_hex2. rewrite Ex, Ey. exists (Z.of_N (16 * x + y)). split; [reflexivity|]. split; [lia|].
  rewrite N2Z.id. rewrite <- Cx, <- Cy. f_equal; [f_equal; lia|]. f_equal. f_equal. lia.
Qed.

Lemma lower_ff c : is_hex c -> forall d, lower_char c = 102%N -> d = lower_char c -> d = 102%N.
Proof. intros _ d H1 H2. congruence. Qed.

Lemma firstn7_strip c1 c2 c3 c4 c5 c6 c7 c8 :
  (let r := 35%N :: [c1; c2; c3; c4; c5; c6; c7; c8] in
   if ends_with (s "ff") r then firstn (length r - 2) r else r)
  = 35%N :: if (c7 =? 102)%N && (c8 =? 102)%N then [c1; c2; c3; c4; c5; c6] else [c1; c2; c3; c4; c5; c6; c7; c8].
Proof.
  cbv zeta. unfold ends_with. change (s "ff") with [102; 102]%N. cbn [rev app starts_with].
  rewrite (N.eqb_sym 102 c8), (N.eqb_sym 102 c7).
  destruct (c7 =? 102)%N, (c8 =? 102)%N; reflexivity.
Qed.

Lemma strip_hash x : Forall is_hex x -> drop_hash x = x.
Proof.
  intros H. destruct x as [|a x]; [reflexivity|]. inversion H as [|? ? H1 _].
  destruct (is_hex_val _ H1) as (_ & _ & _ & _ & Na).
  destruct a as [|p]; [reflexivity|]. repeat (destruct p as [p|p|]; try reflexivity). now contradict Na.
Qed.

Lemma color8_stores prior a b c d e f g h pre : Forall is_hex [a; b; c; d; e; f; g; h] ->
  color_parse_hex pre = color_parse_hex [a; b; c; d; e; f; g; h] ->
  stores VColor prior (PStr pre)
    (PStr (35%N :: let y := map lower_char [a; b; c; d; e; f; g; h] in
      if (lower_char g =? 102)%N && (lower_char h =? 102)%N then firstn 6 y else y)).
Proof.
  intros H Hpre. pose proof H as HF.
  inversion_clear H as [|? ? Ha H1]. inversion_clear H1 as [|? ? Hb H2]. inversion_clear H2 as [|? ? Hc H3].
  inversion_clear H3 as [|? ? Hd H4]. inversion_clear H4 as [|? ? He H5]. inversion_clear H5 as [|? ? Hf H6].
  inversion_clear H6 as [|? ? Hg H7]. inversion_clear H7 as [|? ? Hh _].
  destruct (is_hex_val a Ha) as (_ & _ & _ & _ & Na).
  destruct (parse_hex2_hex a b Ha Hb) as (z1 & P1 & B1 & E1).
  destruct (parse_hex2_hex c d Hc Hd) as (z2 & P2 & B2 & E2).
  destruct (parse_hex2_hex e f He Hf) as (z3 & P3 & B3 & E3).
  destruct (parse_hex2_hex g h Hg Hh) as (z4 & P4 & B4 & E4).
  assert (HP : color_parse_hex pre = Ok [comp_of z1; comp_of z2; comp_of z3; comp_of z4]).
  { rewrite Hpre. unfold color_parse_hex.
    rewrite (strip_hash [a; b; c; d; e; f; g; h] HF). cbn [length Nat.eqb bind]. now rewrite P1, P2, P3, P4. }
  exists (color_node [] [comp_of z1; comp_of z2; comp_of z3; comp_of z4]). split.
  - cbn [set_value]. unfold color_set, color_conv. now rewrite HP.
  - intros cx. rewrite color_reload by reflexivity. rewrite color_from_tag.
    assert (G : get_value VColor (color_node [] [comp_of z1; comp_of z2; comp_of z3; comp_of z4]) cx =
      Ok (PStr (35%N :: let y := map lower_char [a; b; c; d; e; f; g; h] in
      if (lower_char g =? 102)%N && (lower_char h =? 102)%N then firstn 6 y else y))).
    { cbn [get_value]. unfold color_hex. rewrite color_tuple_node. cbn [bind flat_map].
      rewrite !hex_roundtrip_comp by assumption. rewrite E1, E2, E3, E4. cbn [app].
      rewrite firstn7_strip. cbv zeta. cbn [map firstn]. reflexivity. }
    rewrite G. auto.
Qed.

Lemma hex_no_hash x : Forall is_hex x -> (forall y, x <> 35%N :: y).
Proof. intros H y ->. inversion H as [|? ? H1 _]. destruct (is_hex_val _ H1) as (_ & _ & _ & _ & N). now apply N. Qed.

Lemma color_parse_hash x : Forall is_hex x -> color_parse_hex (35%N :: x) = color_parse_hex x.
Proof. intros H. unfold color_parse_hex. cbn [drop_hash]. now rewrite (strip_hash x H). Qed.

Lemma color_parse_six x : Forall is_hex x -> length x = 6%nat -> color_parse_hex x = color_parse_hex (x ++ s "FF").
Proof.
  intros H HL. unfold color_parse_hex.
  rewrite (strip_hash x H). rewrite (strip_hash (x ++ s "FF")) by (apply Forall_app; split; [assumption|repeat constructor; cbn; tauto]).
  rewrite app_length, HL. cbn [Nat.eqb bind Nat.add length s]. reflexivity.
Qed.

Lemma list8 {A} (x : list A) : length x = 8%nat -> exists a b c d e f g h, x = [a; b; c; d; e; f; g; h].
Proof.
  intros H. destruct x as [|a [|b [|c [|d [|e [|f [|g [|h [|? ?]]]]]]]]]; try discriminate. now exists a, b, c, d, e, f, g, h.
Qed.

Lemma color_hex_stores prior (hash : bool) x : Forall is_hex x -> length x = 6%nat \/ length x = 8%nat ->
  stores VColor prior (PStr ((if hash then s "#" else []) ++ x)) (PStr (canonical_hex x)).
Proof.
  intros Hx HL.
  assert (Hpre : color_parse_hex ((if hash then s "#" else []) ++ x) = color_parse_hex x).
  { destruct hash; [|reflexivity]. now apply color_parse_hash. }
  destruct HL as [HL|HL].
  - assert (H8 : Forall is_hex (x ++ s "FF")) by (apply Forall_app; split; [assumption|repeat constructor; cbn; tauto]).
    rewrite (color_parse_six x Hx HL) in Hpre.
    destruct x as [|a [|b [|c [|d [|e [|f [|? ?]]]]]]]; try discriminate.
    exact (color8_stores prior _ _ _ _ _ _ _ _ _ H8 Hpre).
  - destruct (list8 x HL) as (a & b & c & d & e & f & g & h & ->).
    pose proof (color8_stores prior _ _ _ _ _ _ _ _ _ Hx Hpre) as S.
    match type of S with stores _ _ _ (PStr ?u) => assert (E : canonical_hex [a; b; c; d; e; f; g; h] = u) end.
    { unfold canonical_hex, lower. cbn [map length Nat.eqb andb skipn]. change (s "ff") with [102; 102]%N. cbn [pstr_eqb].
      destruct (lower_char g =? 102)%N, (lower_char h =? 102)%N; reflexivity. }
    now rewrite E.
Qed.

(** *** Tuples *)

Lemma color_tuple_stores prior q1 q2 q3 q4 : 
  exists n, set_value VColor prior (PTuple [PFlo q1; PFlo q2; PFlo q3; PFlo q4]) = (n, Ok tt) /\ from_tag n = Ok VColor /\
    color_tuple n = Ok [round_dec 6 q1; round_dec 6 q2; round_dec 6 q3; round_dec 6 q4] /\ reload n = n.
Proof.
  exists (color_node [] [q1; q2; q3; q4]). split; [reflexivity|]. rewrite color_from_tag, color_tuple_node, color_reload by reflexivity. auto.
Qed.

Lemma color_tuple3_stores prior q1 q2 q3 : 
  exists n, set_value VColor prior (PTuple [PFlo q1; PFlo q2; PFlo q3]) = (n, Ok tt) /\ from_tag n = Ok VColor /\
    color_tuple n = Ok [round_dec 6 q1; round_dec 6 q2; round_dec 6 q3; 1%Q] /\ reload n = n.
Proof.
  exists (color_node [] [q1; q2; q3; 1%Q]). split; [reflexivity|]. rewrite color_from_tag, color_tuple_node, color_reload by reflexivity. auto.
Qed.

(** Assigning one colour to another. *)
Lemma mapM_length {A B} (f : A -> res B) l r : mapM f l = Ok r -> length r = length l.
Proof.
  revert r; induction l as [|a l IH]; cbn [mapM]; intros r H; [now inversion H|].
  destruct (f a); [|discriminate]. cbn [bind] in H. destruct (mapM f l); [|discriminate]. cbn [bind] in H.
  inversion H. cbn [length]. f_equal. now apply IH.
Qed.

Lemma color_copy prior m cy l : color_tuple m = Ok l ->
  exists n, set_value VColor prior (PVal VColor m cy) = (n, Ok tt) /\ color_tuple n = Ok (map (round_dec 6) l) /\ reload n = n.
Proof.
  intros H. pose proof (mapM_length _ _ _ H) as HL. 
  destruct l as [|q1 [|q2 [|q3 [|q4 [|? ?]]]]]; try discriminate.
  exists (color_node [] [q1; q2; q3; q4]). cbn [set_value]. unfold color_set. cbn [color_conv]. rewrite H.
  rewrite color_tuple_node, color_reload by reflexivity. auto.
Qed.

(** Comparing with a hexadecimal string *)
Lemma color_eq_hex n x (hash : bool) y : get_value VColor n None = Ok (PStr x) -> is_animated n = false ->
  Forall is_hex y -> length y = 6%nat \/ length y = 8%nat ->
  color_eq n (PStr ((if hash then s "#" else []) ++ y)) = Ok (pstr_eqb x (canonical_hex y)).
Proof.
  intros Hx Ha Hy HL. cbn [get_value] in Hx. destruct (color_hex n) as [x'|] eqn:E; [|discriminate]. injection Hx as ->.
  cbn [color_eq py_str]. rewrite Ha, E. cbn [bind].
  assert (HO : (let o := lower ((if hash then s "#" else []) ++ y) in match o with 35%N :: _ => o | _ => 35%N :: o end) = 35%N :: lower y).
  { cbv zeta. destruct hash; [reflexivity|]. cbn [app]. destruct y as [|c y]; [reflexivity|].
    inversion Hy as [|? ? H1 _]. assert (Nc : lower_char c <> 35%N).
    { unfold lower_char, is_upper. destruct (is_hex_val c H1) as (_ & _ & _ & _ & Nc).
      destruct ((65 <=? c)%N && (c <=? 90)%N) eqn:Eu; lia. }
    cbn [lower map]. destruct (lower_char c) as [|p]; [reflexivity|]. repeat (destruct p as [p|p|]; try reflexivity). now contradict Nc. }
  cbv zeta in HO |- *. rewrite HO. do 2 f_equal. unfold canonical_hex. cbv zeta.
  assert (LL : length (lower y) = length y) by apply map_length. cbn [length]. rewrite LL.
  destruct HL as [HL|HL]; rewrite HL; [reflexivity|].
  destruct (list8 y HL) as (a & b & c & d & e & f & g & h & ->). unfold lower. cbn [map Nat.eqb andb].
  unfold ends_with. change (s "ff") with [102; 102]%N. cbn [rev app starts_with skipn pstr_eqb length firstn Nat.sub].
  rewrite (N.eqb_sym 102 (lower_char h)), (N.eqb_sym 102 (lower_char g)).
  destruct (lower_char g =? 102)%N, (lower_char h =? 102)%N; reflexivity.
Qed.
