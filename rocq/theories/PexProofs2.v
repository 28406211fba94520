(** Recreating values from their expressions. *)
From Coq Require Import Lqa Permutation.
From Verif Require Import PexModel PexSpec SerProofs ValProofs ValProofs2 ValSpec PyRoundProofs PyFmtProofs2 PexProofs.
From Verif Require Import PyFmtProofs PyFloatProofs ValProofs2 ValSpec.
Local Open Scope Z_scope.

Lemma parse_float_dbl x q : parse_float x = Ok q -> is_dbl q.
Proof.
  unfold parse_float. destruct (drop_underscores 0 (strip x)) as [y|]; [|discriminate]. destruct (split_sign y) as [neg r].
  destruct (existsb _ _); [discriminate|]. destruct (parse_unsigned r) as [[m e]|]; [|discriminate]. intros H. injection H as <-. apply rnd64_is_dbl.
Qed.

(** A double and what is left of it after rounding to k decimals: at most the rounding error away, twice. *)
Lemma round_dec_close k x : is_dbl x -> (Qabs (round_dec k x - x) <= pow10 (- Z.of_nat k))%Q.
Proof.
  intros Hx. unfold round_dec. set (z := round_he (x * pow10 (Z.of_nat k))).
  assert (HZ : (Qabs (inject_Z z * pow10 (- Z.of_nat k) - x) <= (1#2) * pow10 (- Z.of_nat k))%Q).
  { pose proof (round_he_half (x * pow10 (Z.of_nat k))) as H. fold z in H.
    pose proof (pow10_pos (- Z.of_nat k)) as HP. pose proof (pow10_opp_l (Z.of_nat k)) as HI.
    setoid_replace (inject_Z z * pow10 (- Z.of_nat k) - x)%Q with ((inject_Z z - x * pow10 (Z.of_nat k)) * pow10 (- Z.of_nat k))%Q.
    - rewrite Qabs_Qmult, (Qabs_pos (pow10 _)) by lra. apply Qmult_le_compat_r; [exact H|lra].
    - transitivity (inject_Z z * pow10 (- Z.of_nat k) - x * (pow10 (- Z.of_nat k) * pow10 (Z.of_nat k)))%Q; [rewrite HI; ring|ring]. }
  set (y := (inject_Z z * pow10 (- Z.of_nat k))%Q) in *. clearbody y. pose proof (rnd64_best y x Hx) as HB.
  set (w := rnd64 y) in *. clearbody w. clear z.
  destruct (Qabs_cases (w - x)) as [[? E1]|[? E1]], (Qabs_cases (w - y)) as [[? E2]|[? E2]], (Qabs_cases (x - y)) as [[? E3]|[? E3]], (Qabs_cases (y - x)) as [[? E4]|[? E4]];
    rewrite E1; rewrite E2 in HB; rewrite E3 in HB; rewrite E4 in HZ; lra.
Qed.

(** ** Tuples *)

Lemma repr_head q : exists c t, repr_float q = c :: t /\ (is_digit c = true \/ c = 45%N).
Proof.
  destruct (repr_shape q) as (neg & b & -> & Hd & _). destruct b as [|c b]; [contradiction|].
  destruct neg; cbn [minus_if app]; eauto.
Qed.

Lemma skip_repr q r : skip (repr_float q ++ r) = repr_float q ++ r.
Proof.
  destruct (repr_head q) as (c & t & -> & Hc). cbn [app skip]. replace (blank_char c) with false; [reflexivity|].
  unfold blank_char. destruct Hc as [Hc| ->]; [|reflexivity]. apply is_digit_iff in Hc. lia.
Qed.

Lemma read_tuple_step f x : (match x with c :: _ => c <> 41%N | [] => True end) -> read_tuple (S f) x =
  match read f x with
  | None => None
  | Some (v, r) =>
      match skip r with
      | 44%N :: r' => match read_tuple f (skip r') with
                      | Some (l, comma, b) => Some (v :: l, comma, b)
                      | None => None
                      end
      | 41%N :: r' => Some ([v], false, r')
      | _ => None
      end
  end.
Proof.
  intros H. cbn [read_tuple]. destruct x as [|c x]; [reflexivity|]. destruct c as [|c]; [reflexivity|].
  repeat (destruct c as [c|c|]; try reflexivity). contradiction (H eq_refl).
Qed.
Lemma read_dict_step f x : (match x with c :: _ => c <> 125%N | [] => True end) -> read_dict (S f) x =
  match read f x with
  | None => None
  | Some (k, r) =>
      match skip r with
      | 58%N :: r' =>
          match read f (skip r') with
          | None => None
          | Some (v, r) =>
              match skip r with
              | 44%N :: r' => match read_dict f (skip r') with
                              | Some (l, b) => Some ((k, v) :: l, b)
                              | None => None
                              end
              | 125%N :: r' => Some ([(k, v)], r')
              | _ => None
              end
          end
      | _ => None
      end
  end.
Proof.
  intros H. cbn [read_dict]. destruct x as [|c x]; [reflexivity|]. destruct c as [|c]; [reflexivity|].
  repeat (destruct c as [c|c|]; try reflexivity). contradiction (H eq_refl).
Qed.

Lemma repr_not (z : N) q r : is_digit z = false -> z <> 45%N -> match repr_float q ++ r with c :: _ => c <> z | [] => True end.
Proof. intros Hz Hm. destruct (repr_head q) as (c & t & -> & [Hc| ->]); cbn; [intros ->; congruence|congruence]. Qed.

Lemma read_floats l : forall f r, l <> [] -> Forall is_dbl l -> (length l < f)%nat ->
  read_tuple f (join (s ", ") (map repr_float l) ++ 41%N :: r) = Some (map PFlo l, false, r).
Proof.
  induction l as [|q l IH]; intros f r Hne Hl Hf; [contradiction|]. inversion Hl as [|? ? Hq Hl']; subst.
  destruct f as [|[|f]]; cbn [length] in Hf; [lia|lia|]. destruct l as [|q' l].
  - cbn [map join]. rewrite read_tuple_step by (apply repr_not; [reflexivity|discriminate]).
    rewrite read_float by (try exact Hq; reflexivity). reflexivity.
  - change (join (s ", ") (map repr_float (q :: q' :: l))) with (repr_float q ++ [44%N; 32%N] ++ join (s ", ") (map repr_float (q' :: l))).
    rewrite <- !app_assoc. cbn [app]. rewrite read_tuple_step by (apply repr_not; [reflexivity|discriminate]).
    rewrite read_float by (try exact Hq; reflexivity).
    change (skip (44%N :: 32%N :: join (s ", ") (map repr_float (q' :: l)) ++ 41%N :: r)) with (44%N :: 32%N :: join (s ", ") (map repr_float (q' :: l)) ++ 41%N :: r).
    cbv iota.
    replace (skip (32%N :: join (s ", ") (map repr_float (q' :: l)) ++ 41%N :: r)) with (join (s ", ") (map repr_float (q' :: l)) ++ 41%N :: r).
    + rewrite IH; [reflexivity|discriminate|exact Hl'|cbn [length] in *; lia].
    + change (skip (32%N :: join (s ", ") (map repr_float (q' :: l)) ++ 41%N :: r)) with (skip (join (s ", ") (map repr_float (q' :: l)) ++ 41%N :: r)).
      symmetry. destruct l as [|q2 l]; [apply skip_repr|].
      change (join (s ", ") (map repr_float (q' :: q2 :: l))) with (repr_float q' ++ [44%N; 32%N] ++ join (s ", ") (map repr_float (q2 :: l))).
      rewrite <- app_assoc. apply skip_repr.
Qed.

Lemma read_tuple_str l f r : (2 <= length l)%nat -> Forall is_dbl l -> (S (length l) < f)%nat ->
  read f (tuple_str l ++ r) = Some (PTuple (map PFlo l), r).
Proof.
  intros H2 Hl Hf. destruct f as [|f]; [lia|].
  assert (E : tuple_str l = 40%N :: join (s ", ") (map repr_float l) ++ [41%N]) by (destruct l as [|q [|q' l]]; cbn [length] in H2; [lia|lia|reflexivity]).
  rewrite E. cbn [app]. rewrite <- app_assoc. cbn [app].
  replace (read (S f) (40%N :: join (s ", ") (map repr_float l) ++ 41%N :: r)) with
    (match read_tuple f (skip (join (s ", ") (map repr_float l) ++ 41%N :: r)) with
     | Some (l, comma, b) => Some (match l with [v] => if comma : bool then PTuple [v] else v | _ => PTuple l end, b)
     | None => None
     end) by reflexivity.
  replace (skip (join (s ", ") (map repr_float l) ++ 41%N :: r)) with (join (s ", ") (map repr_float l) ++ 41%N :: r).
  - rewrite read_floats; [|destruct l; [cbn in H2; lia|discriminate]|exact Hl|lia].
    destruct l as [|q [|q' l]]; cbn [length] in H2; [lia|lia|reflexivity].
  - symmetry. destruct l as [|q [|q' l]]; cbn [length] in H2; [lia|lia|].
    change (join (s ", ") (map repr_float (q :: q' :: l))) with (repr_float q ++ [44%N; 32%N] ++ join (s ", ") (map repr_float (q' :: l))).
    rewrite <- app_assoc. apply skip_repr.
Qed.

(** ** Whole literals *)

Lemma literal_float q : is_dbl q -> is_literal (repr_float q) (PFlo q).
Proof. intros H. exists 1%nat. rewrite <- (app_nil_r (repr_float q)). apply read_float; [exact H|exact I]. Qed.
Lemma literal_int z : is_literal (dec_Z z) (PInt z).
Proof. exists 1%nat. rewrite <- (app_nil_r (dec_Z z)). apply read_int. exact I. Qed.
Lemma literal_bool (b : bool) : is_literal (if b then s "True" else s "False") (PBool b).
Proof. exists 1%nat. destruct b; reflexivity. Qed.
Lemma literal_string pr x : code_points x -> is_literal (repr_str pr x) (PStr x).
Proof. intros H. exists 1%nat. rewrite <- (app_nil_r (repr_str pr x)). apply read_string. exact H. Qed.
Lemma literal_tuple l : (2 <= length l)%nat -> Forall is_dbl l -> is_literal (tuple_str l) (PTuple (map PFlo l)).
Proof. intros H2 H. exists (S (S (length l))). rewrite <- (app_nil_r (tuple_str l)). apply read_tuple_str; [exact H2|exact H|lia]. Qed.

(** ** Numbers, truth values, texts *)

Lemma simple_val_cases c n cx w : get_value c n cx = Ok w -> is_simple c ->
  match c, w with
  | VReal, PFlo q | VAngle, PFlo q => is_dbl q
  | VInteger, PInt _ | VBool, PBool _ | VTime, PT _ => True
  | _, _ => False
  end.
Proof.
  intros H Hc. rewrite get_simple in H by exact Hc. unfold simple_val in H.
  destruct (aget (s "value") (tag_attrs n)) as [[x|q|z|t]|]; try discriminate.
  destruct Hc as [<-|[<-|[<-|[<-|[<-|[]]]]]].
  - destruct (parse_float x) as [q|] eqn:E; [|discriminate]. injection H as <-. now apply parse_float_dbl in E.
  - destruct (parse_int x); [|discriminate]. injection H as <-. exact I.
  - injection H as <-. exact I.
  - destruct (parse_float x) as [q|] eqn:E; [|discriminate]. injection H as <-. now apply parse_float_dbl in E.
  - destruct (T_init (TStr x) cx); [|discriminate]. injection H as <-. exact I.
Qed.

Lemma exact_ones pr c n cx w : In c [VInteger; VBool; VAngle; VString] -> is_animated n = false -> get_value c n cx = Ok w -> text_points w ->
  exists m, recreates pr c n cx m /\ forall cy, get_value c m cy = Ok w.
Proof.
  intros Hc Ha Hw Ht. destruct Hc as [<-|[<-|[<-|[<-|[]]]]].
  - pose proof (simple_val_cases VInteger n cx w Hw ltac:(cbn; tauto)) as HC. destruct w as [ | |z| | | | | | | | | ]; try contradiction.
    destruct (integer_stores (empty_tag VInteger) z) as (m & Hm & Hr). exists m. split.
    + exists (EStr (dec_Z z)), (PInt z). split; [|split; [apply literal_int|]].
      * cbn [expression flat_expr py_str]. rewrite Ha. cbn [get_value] in Hw. rewrite Hw. reflexivity.
      * cbn [set_value] in Hm. unfold new_value, new_flat. rewrite Hm. reflexivity.
    + intros cy. apply (Hr cy).
  - pose proof (simple_val_cases VBool n cx w Hw ltac:(cbn; tauto)) as HC. destruct w as [ |b| | | | | | | | | | ]; try contradiction.
    destruct (bool_stores (empty_tag VBool) b) as (m & Hm & Hr). exists m. split.
    + exists (EStr (if b then s "True" else s "False")), (PBool b). split; [|split; [apply literal_bool|]].
      * cbn [expression flat_expr py_str]. rewrite Ha. cbn [get_value] in Hw. rewrite Hw. reflexivity.
      * cbn [set_value] in Hm. unfold new_value, new_flat. rewrite Hm. reflexivity.
    + intros cy. apply (Hr cy).
  - pose proof (simple_val_cases VAngle n cx w Hw ltac:(cbn; tauto)) as HC. destruct w as [ | | |q| | | | | | | | ]; try contradiction.
    destruct (angle_stores (empty_tag VAngle) q HC) as (m & Hm & Hr). exists m. split.
    + exists (EStr (repr_float q)), (PFlo q). split; [|split; [apply literal_float, HC|]].
      * cbn [expression flat_expr py_str]. cbn [get_value] in Hw. rewrite Hw. reflexivity.
      * cbn [set_value] in Hm. unfold new_value, new_flat. rewrite Hm. reflexivity.
    + intros cy. apply (Hr cy).
  - cbn [get_value] in Hw. injection Hw as <-. cbn [text_points] in Ht. exists (El (s "string") [] [Txt (string_val n)]). split; [|reflexivity].
    exists (EStr (repr_str pr (string_val n))), (PStr (string_val n)). split; [reflexivity|]. split; [apply literal_string, Ht|reflexivity].
Qed.

Lemma recreate_real pr n cx x : is_animated n = false -> get_value VReal n cx = Ok (PFlo x) ->
  exists m w, recreates pr VReal n cx m /\ (forall cy, get_value VReal m cy = Ok (PFlo w)) /\ rounded_to 10 x w /\ close 10 w x /\
    (forall cy, simple_eq VReal n cx (PVal VReal m cy) = Ok true) /\ (forall cy, simple_eq VReal m cy (PVal VReal n cx) = Ok true).
Proof.
  intros Ha Hw. pose proof (simple_val_cases VReal n cx _ Hw ltac:(cbn; tauto)) as HC. cbv iota in HC.
  destruct (real_stores (empty_tag VReal) x) as (m & Hm & Hr). exists m, (round_dec 10 x).
  assert (HCl : close 10 (round_dec 10 x) x) by exact (round_dec_close 10 x HC).
  split; [|split; [|split; [|split; [exact HCl|]]]].
  - exists (EStr (repr_float x)), (PFlo x). split; [|split; [apply literal_float, HC|]].
    + cbn [expression flat_expr py_str]. rewrite Ha. cbn [get_value] in Hw. rewrite Hw. reflexivity.
    + cbn [set_value] in Hm. unfold new_value, new_flat. rewrite Hm. reflexivity.
  - intros cy. apply (Hr cy).
  - apply round_dec_rounded.
  - assert (HT : (Qabs (x - round_dec 10 x) <= 1 # 10000)%Q).
    { unfold close in HCl. rewrite Qabs_Qminus. assert (E : (pow10 (- (10)) <= 1 # 10000)%Q) by (intros H; discriminate). lra. }
    split; intros cy.
    + destruct (real_eq_tolerance n cx x m cy (round_dec 10 x) Hw (proj1 (Hr cy))) as (H & _). exact (proj1 (H _ (or_introl eq_refl)) HT).
    + destruct (real_eq_tolerance m cy (round_dec 10 x) n cx x (proj1 (Hr cy)) Hw) as (H & _).
      apply (proj1 (H _ (or_introl eq_refl))). rewrite Qabs_Qminus. exact HT.
Qed.

(** ** Vectors *)

Lemma vector_tuple_dbl n l : vector_tuple n = Ok l -> Forall is_dbl l.
Proof.
  unfold vector_tuple. generalize (vector_keys n). intros ks. revert l. induction ks as [|k ks IH]; intros l H; cbn [mapM bind] in H.
  - injection H as <-. constructor.
  - destruct (float_opt _) as [q|] eqn:E; [|discriminate]. cbn [bind] in H. destruct (mapM _ ks) as [r|] eqn:E2; [|discriminate].
    cbn [bind] in H. injection H as <-. constructor; [|now apply IH].
    unfold float_opt in E. destruct (match aget k (vector_dict n) with Some v => v | None => None end); [|discriminate]. now apply parse_float_dbl in E.
Qed.

Lemma xy_keys n : from_tag n = Ok VXY -> is_animated n = false -> vector_keys n = [s "x"; s "y"].
Proof.
  intros Hf Ha. unfold from_tag in Hf. rewrite Ha in Hf. cbn [bind] in Hf.
  destruct (from_name value_registry (tag_name n)) as [c|]; [|discriminate]. cbn [bind] in Hf.
  destruct c; try discriminate; [|unfold composite_construct in Hf; destruct (aget (s "type") (tag_attrs n)) as [[]|]; try discriminate; destruct (pstr_eqb _ _); discriminate].
  unfold vector_construct in Hf. rewrite Ha in Hf.
  assert (HN : NoDup (map fst (vector_dict n))) by apply adict_NoDup.
  assert (HI : forall k, In k (map fst (vector_dict n)) <-> k = s "x" \/ k = s "y").
  { intros k. unfold vector_dict. rewrite in_keys_adict, map_map. cbn [fst].
    change (map (fun x => tag_name x) (child_tags n)) with (map tag_name (child_tags n)).
    set (l := map tag_name (child_tags n)) in *. clearbody l.
    assert (HB : forallb (fun k => pstr_eqb k (s "x") || pstr_eqb k (s "y")) l && existsb (pstr_eqb (s "x")) l && existsb (pstr_eqb (s "y")) l = true).
    { destruct l; [discriminate|]. destruct (_ && _ && _); [reflexivity|discriminate]. }
    apply andb_true_iff in HB as [HB H3]. apply andb_true_iff in HB as [H1 H2]. rewrite forallb_forall in H1. split.
    - intros Hk. specialize (H1 k Hk). apply orb_true_iff in H1 as [H1|H1]; apply pstr_eqb_spec in H1; auto.
    - apply existsb_exists in H2 as (a & Ia & Ea). apply existsb_exists in H3 as (b & Ib & Eb).
      apply pstr_eqb_spec in Ea. apply pstr_eqb_spec in Eb. subst a b. intros [-> | ->]; assumption. }
  unfold vector_keys. destruct (two_keys _ HN HI) as [-> | ->]; reflexivity.
Qed.

Lemma xy_text pr n cx x y : from_tag n = Ok VXY -> is_animated n = false -> vector_tuple n = Ok [x; y] ->
  flat_expr pr VXY n cx = Ok (EStr (tuple_str [x; y])).
Proof.
  intros Hf Ha Hv. cbn [flat_expr]. unfold vector_str. rewrite Ha, (xy_keys n Hf Ha). rewrite !pstr_eqb_refl. cbn [andb]. rewrite Hv. reflexivity.
Qed.

Lemma recreate_xy pr n cx x y : from_tag n = Ok VXY -> is_animated n = false -> vector_tuple n = Ok [x; y] ->
  exists m u v, recreates pr VXY n cx m /\ from_tag m = Ok VXY /\ vector_tuple m = Ok [u; v] /\ rounded_to 10 x u /\ rounded_to 10 y v /\ close 10 u x /\ close 10 v y.
Proof.
  intros Hf Ha Hv. pose proof (vector_tuple_dbl n _ Hv) as HD. inversion HD as [|? ? Hx HD']; subst. inversion HD' as [|? ? Hy _]; subst.
  exists (El (s "vector") [] (xy_tags x y)), (round_dec 10 x), (round_dec 10 y). split; [|split; [apply xy_tag|split; [apply xy_reads|]]].
  - exists (EStr (tuple_str [x; y])), (PTuple [PFlo x; PFlo y]). split; [now apply xy_text|]. split; [|reflexivity].
    apply (literal_tuple [x; y]); [cbn; lia|exact HD].
  - split; [apply rounded10|]. split; [apply rounded10|]. split; [exact (round_dec_close 10 x Hx)|exact (round_dec_close 10 y Hy)].
Qed.

(** ** Colours *)

Lemma color_tuple_dbl n l : color_tuple n = Ok l -> Forall is_dbl l /\ length l = 4%nat.
Proof.
  intros H. split; [|exact (mapM_length _ _ _ H)]. revert H. unfold color_tuple. generalize rgba. intros ks. revert l.
  induction ks as [|k ks IH]; intros l H; cbn [mapM bind] in H.
  - injection H as <-. constructor.
  - destruct (color_comp n k) as [q|] eqn:E; [|discriminate]. cbn [bind] in H. destruct (mapM _ ks) as [r|] eqn:E2; [|discriminate].
    cbn [bind] in H. injection H as <-. constructor; [|now apply IH].
    unfold color_comp in E. destruct (find_all _ _); [discriminate|]. destruct (node_string _); [|discriminate]. now apply parse_float_dbl in E.
Qed.

Lemma recreate_color pr n cx l : color_tuple n = Ok l ->
  exists m ws, recreates pr VColor n cx m /\ from_tag m = Ok VColor /\ color_tuple m = Ok ws /\ Forall2 (rounded_to 6) l ws /\ Forall2 (close 6) ws l.
Proof.
  intros H. destruct (color_tuple_dbl n l H) as [HD HL]. exists (color_node [] l), (six_decimals l).
  split; [|split; [apply color_from_tag|split; [now apply color_tuple_six|]]].
  - exists (ETuple l), (PTuple (map PFlo l)). split; [cbn [expression flat_expr]; rewrite H; reflexivity|].
    split; [apply literal_tuple; [lia|exact HD]|].
    unfold new_value, new_flat, color_set. pose proof (colour_arg_conv l HL) as HC. unfold colour_arg in HC. rewrite HC. reflexivity.
  - clear - HD. split; induction HD as [|q l Hq _ IH]; constructor; auto; [apply round_dec_rounded|exact (round_dec_close 6 q Hq)].
Qed.

(** What was stored by the library is unchanged. *)
Lemma color_exact pr n cx l : color_tuple n = Ok l -> six_decimals l = l -> exists m, recreates pr VColor n cx m /\ color_tuple m = Ok l /\ color_hex m = color_hex n.
Proof.
  intros H H6. destruct (color_tuple_dbl n l H) as [HD HL]. exists (color_node [] l).
  assert (E : color_tuple (color_node [] l) = Ok l) by (rewrite color_tuple_six by exact HL; now rewrite H6).
  split; [|split; [exact E|unfold color_hex; now rewrite E, H]].
  exists (ETuple l), (PTuple (map PFlo l)). split; [cbn [expression flat_expr]; rewrite H; reflexivity|].
  split; [apply literal_tuple; [lia|exact HD]|].
  unfold new_value, new_flat, color_set. pose proof (colour_arg_conv l HL) as HC. unfold colour_arg in HC. rewrite HC. reflexivity.
Qed.
