From Verif Require Import TimeModel TimeSpec PyFloatProofs PyFmtProofs PyFmtProofs2.
From Coq Require Import Permutation FinFun Lqa ZifyBool ZifyN ZifyNat.
Local Open Scope Z_scope.

(** ** Splitting *)

Definition num_str (i : item) : pstr := (if neg i then [45%N] else []) ++ map (fun d => (48 + d)%N) (digits i).
Definition body_str (i : item) : pstr := num_str i ++ [unit_char (unit_ i)].

Lemma write_item_eq i : write_item i = sep i ++ body_str i.
Proof. unfold write_item, body_str, num_str. now rewrite !app_assoc. Qed.

Lemma in_num_digit d : (d < 10)%N -> in_num (48 + d) = true.
Proof. unfold in_num, is_digit. lia. Qed.
Lemma in_num_unit u : in_num (unit_char u) = false.
Proof. destruct u; reflexivity. Qed.
Lemma in_unit_unit u : in_unit (unit_char u) = true.
Proof. destruct u; reflexivity. Qed.
Lemma space_not_num c : is_space c = true -> in_num c = false /\ c <> 45%N.
Proof.
  unfold is_space, in_num, is_digit. intros H.
  repeat (apply orb_true_iff in H as [H|H]); lia.
Qed.

Lemma ts_match_num_digits ds u r : ds <> [] -> Forall (fun d => (d < 10)%N) ds ->
  ts_match_num (map (fun d => (48 + d)%N) ds ++ unit_char u :: r) = Some (S (length ds)).
Proof.
  intros Hne Hd. unfold ts_match_num.
  rewrite span_all.
  - rewrite map_length. destruct ds; [contradiction|]. cbn [map]. now rewrite in_unit_unit.
  - apply Forall_map. eapply Forall_impl; [|exact Hd]. intros d. apply in_num_digit.
  - apply in_num_unit.
Qed.

Lemma ts_match_item i r : wf_item i -> ts_match (body_str i ++ r) = Some (length (body_str i)).
Proof.
  intros (_ & Hne & Hd). unfold body_str, num_str. rewrite <- !app_assoc.
  pose proof (ts_match_num_digits (digits i) (unit_ i) r Hne Hd) as HM.
  cbn [app] in *. destruct (neg i); cbn [app].
  - unfold ts_match. rewrite HM. cbn [option_map]. f_equal. cbn [length]. rewrite app_length, map_length. cbn [length]. lia.
  - assert (HH : ts_match (map (fun d => (48 + d)%N) (digits i) ++ unit_char (unit_ i) :: r)
               = ts_match_num (map (fun d => (48 + d)%N) (digits i) ++ unit_char (unit_ i) :: r)).
    { destruct (digits i) as [|d ds]; [contradiction|]. inversion Hd; subst. cbn [map app].
      unfold ts_match. destruct (N.eq_dec (48 + d) 45) as [E|E]; [lia|].
      destruct (48 + d)%N as [|q] eqn:EE; [lia|].
      repeat (destruct q as [q|q|]; try reflexivity; try (exfalso; apply E; reflexivity)). }
    rewrite HH, HM. f_equal. rewrite app_length, map_length. cbn [length]. lia.
Qed.

Lemma ts_match_space c r : is_space c = true -> ts_match (c :: r) = None.
Proof.
  intros H. destruct (space_not_num c H) as [H1 H2].
  assert (HH : ts_match (c :: r) = ts_match_num (c :: r)).
  { unfold ts_match. destruct c as [|q]; [reflexivity|].
    repeat (destruct q as [q|q|]; try reflexivity; try (exfalso; apply H2; reflexivity)). }
  rewrite HH. unfold ts_match_num. cbn [span]. rewrite H1. reflexivity.
Qed.

Lemma ts_split_spaces sp r acc : blank sp -> ts_split (sp ++ r) acc 0 = ts_split r (rev sp ++ acc) 0.
Proof.
  revert acc; induction sp as [|c sp IH]; intros acc Hb; [reflexivity|].
  inversion Hb; subst. cbn [app]. cbn [ts_split]. rewrite ts_match_space by assumption.
  rewrite IH by assumption. cbn [rev]. now rewrite <- app_assoc.
Qed.

Lemma ts_split_copy w r acc : w <> [] ->
  ts_split (w ++ r) acc (length w) = (rev acc ++ w) :: ts_split r [] 0.
Proof.
  revert acc; induction w as [|c w IH]; intros acc Hne; [contradiction|].
  destruct w as [|d w].
  - cbn [app length ts_split rev]. reflexivity.
  - change (ts_split ((c :: d :: w) ++ r) acc (length (c :: d :: w)))
      with (ts_split ((d :: w) ++ r) (c :: acc) (length (d :: w))).
    rewrite IH by discriminate. cbn [rev]. now rewrite <- app_assoc.
Qed.

Lemma ts_split_item i r acc : wf_item i ->
  ts_split (body_str i ++ r) acc 0 = rev acc :: body_str i :: ts_split r [] 0.
Proof.
  intros Hw. pose proof (ts_match_item i r Hw) as HM.
  assert (Hl : (2 <= length (body_str i))%nat).
  { destruct Hw as (_ & Hne & _). unfold body_str, num_str. rewrite !app_length, map_length.
    destruct (digits i); [contradiction|]. cbn [length]. lia. }
  destruct (body_str i) as [|c w] eqn:E; [cbn [length] in Hl; lia|].
  destruct w as [|c2 w]; [cbn [length] in Hl; lia|].
  cbn [app] in HM |- *. cbn [ts_split]. cbn [ts_split] in *. rewrite HM. cbn [length].
  f_equal. pose proof (ts_split_copy (c2 :: w) r [c] ltac:(discriminate)) as HC.
  cbn [app length rev] in HC. exact HC.
Qed.

Lemma ts_split_write l trail : Forall wf_item l -> blank trail ->
  ts_split (write l trail) [] 0 = flat_map (fun i => [sep i; body_str i]) l ++ [trail].
Proof.
  intros Hl Ht. unfold write. induction Hl as [|i l Hi Hl IH].
  - cbn [flat_map app]. rewrite <- (app_nil_r trail) at 1. rewrite ts_split_spaces by assumption.
    cbn [ts_split]. rewrite app_nil_r. now rewrite rev_involutive.
  - cbn [flat_map]. rewrite write_item_eq, <- !app_assoc.
    rewrite ts_split_spaces by apply Hi. rewrite app_nil_r, ts_split_item by assumption.
    rewrite rev_involutive. cbn [app]. do 2 f_equal. exact IH.
Qed.

(** ** Stripping *)

Lemma lstrip_blank sp r : blank sp -> lstrip (sp ++ r) = lstrip r.
Proof. induction 1 as [|c sp H _ IH]; [reflexivity|]. cbn [app lstrip]. now rewrite H. Qed.
Lemma blank_rev sp : blank sp -> blank (rev sp).
Proof. intros H. apply Forall_forall. intros c Hc. apply in_rev in Hc. revert c Hc. now apply Forall_forall. Qed.
Lemma strip_blank sp : blank sp -> strip sp = [].
Proof.
  intros H. unfold strip. assert (E : lstrip sp = []). { rewrite <- (app_nil_r sp). rewrite lstrip_blank by assumption. reflexivity. }
  rewrite E. reflexivity.
Qed.

Lemma lstrip_head c r : is_space c = false -> lstrip (c :: r) = c :: r.
Proof. intros H. cbn [lstrip]. now rewrite H. Qed.

Lemma body_head i : wf_item i -> exists c r, body_str i = c :: r /\ is_space c = false.
Proof.
  intros (_ & Hne & Hd). unfold body_str, num_str. destruct (neg i); cbn [app]; [eauto|].
  destruct (digits i) as [|d ds]; [contradiction|]. inversion Hd; subst. cbn [map app].
  eexists _, _. split; [reflexivity|]. unfold is_space. lia.
Qed.
Lemma unit_not_space u : is_space (unit_char u) = false.
Proof. destruct u; reflexivity. Qed.

(** Stripping a written spec only drops the outer blanks. *)
Lemma strip_write l trail : Forall wf_item l -> blank trail ->
  exists l', strip (write l trail) = write l' [] /\ Forall wf_item l'
     /\ map body_str l' = map body_str l /\ map unit_ l' = map unit_ l.
Proof.
  intros Hl Ht. destruct l as [|i l].
  - exists []. cbn [write flat_map app]. unfold write. cbn [flat_map app].
    rewrite strip_blank by assumption. auto.
  - inversion Hl as [|? ? Hi Hl']; subst.
    exists (mkItem [] (neg i) (digits i) (unit_ i) :: l). split; [|split; [|split; reflexivity]].
    + unfold write. cbn [flat_map]. rewrite !write_item_eq. cbn [sep].
      change (body_str {| sep := []; neg := neg i; digits := digits i; unit_ := unit_ i |}) with (body_str i).
      rewrite <- !app_assoc. cbn [app]. unfold strip. rewrite lstrip_blank by apply Hi.
      destruct (body_head i Hi) as (c & r & Eb & Hc).
      replace (lstrip (body_str i ++ flat_map write_item l ++ trail)) with (body_str i ++ flat_map write_item l ++ trail)
        by (rewrite Eb; cbn [app]; now rewrite lstrip_head).
      unfold rstrip. rewrite !rev_app_distr, app_nil_r. rewrite <- app_assoc.
      rewrite lstrip_blank by now apply blank_rev.
      assert (HE : exists c r, rev (flat_map write_item l) ++ rev (body_str i) = c :: r /\ is_space c = false).
      { destruct l as [|j l] using rev_ind.
        - cbn [flat_map rev app]. unfold body_str. rewrite rev_app_distr. cbn [rev app]. eexists _, _. split; [reflexivity|apply unit_not_space].
        - clear IHl. rewrite flat_map_app. cbn [flat_map]. rewrite app_nil_r, write_item_eq. unfold body_str at 1.
          rewrite !rev_app_distr. cbn [rev app]. eexists _, _. split; [reflexivity|apply unit_not_space]. }
      destruct HE as (c' & r' & E' & Hc'). rewrite E', lstrip_head by assumption.
      rewrite <- E', rev_app_distr, !rev_involutive. reflexivity.
    + constructor; [|assumption]. destruct Hi as (_ & H2 & H3). split; [constructor|]. cbn. auto.
Qed.

(** ** The pieces *)

Lemma number_from_val acc ds : Forall (fun d => (d < 10)%N) ds -> 0 <= acc ->
  number_from acc ds = acc * 10 ^ Z.of_nat (length ds) + Z.of_N (digits_val (map (fun d => (48 + d)%N) ds)).
Proof.
  intros Hd. revert acc. induction Hd as [|d ds H Hd IH]; intros acc Ha.
  - cbn [number_from length map]. change (digits_val []) with 0%N. cbn. lia.
  - cbn [number_from length map]. rewrite IH by lia. rewrite digits_val_cons, map_length.
    replace (48 + d - 48)%N with d by lia.
    rewrite N2Z.inj_add, N2Z.inj_mul, N2Z.inj_pow, nat_N_Z. rewrite Nat2Z.inj_succ, Z.pow_succ_r by lia.
    change (Z.of_N 10) with 10. ring.
Qed.

Lemma number_from_nonneg acc ds : 0 <= acc -> 0 <= number_from acc ds.
Proof. revert acc; induction ds as [|d ds IH]; intros acc H; cbn [number_from]; [assumption|]. apply IH. lia. Qed.

Lemma digits_map_ok ds : Forall (fun d => (d < 10)%N) ds -> all_digits (map (fun d => (48 + d)%N) ds).
Proof. intros H. apply Forall_map. eapply Forall_impl; [|exact H]. intros d Hd. cbv beta in *. apply is_digit_iff. lia. Qed.

Lemma parse_num_str i : wf_item i -> parse_float (num_str i) = Ok (rnd64 (inject_Z (count i))).
Proof.
  intros (_ & Hne & Hd).
  pose proof (parse_float_dec (neg i) (map (fun d => (48 + d)%N) (digits i)) [] false [] 0
     (digits_map_ok _ Hd) ltac:(constructor) ltac:(destruct (digits i); [contradiction|discriminate]) ltac:(auto) ltac:(auto)) as HP.
  cbn [app] in HP. rewrite app_nil_r in HP. unfold num_str.
  change (if neg i then [45%N] else []) with (minus_if (neg i)). rewrite HP. f_equal.
  apply rnd64_comp. unfold decval, count. rewrite app_nil_r. cbn [length]. change (- Z.of_nat 0) with 0. change (pow10 0) with 1%Q.
  rewrite (number_from_val 0 (digits i) Hd) by lia. rewrite Z.mul_0_l, Z.add_0_l.
  destruct (neg i); cbv zeta; rewrite ?inject_Z_opp; ring.
Qed.

Lemma strip_nonblank c x y : is_space c = false -> In c (x ++ c :: y) -> strip (x ++ [c]) <> [].
Proof.
  intros H _ E. unfold strip in E.
  assert (HL : exists r, lstrip (x ++ [c]) = r ++ [c]).
  { clear E. induction x as [|d x [r IH]]; [exists []; cbn [app]; now rewrite lstrip_head|].
    cbn [app lstrip]. destruct (is_space d); [exists r; assumption|exists (d :: x); reflexivity]. }
  destruct HL as [r HL]. rewrite HL in E. unfold rstrip in E. rewrite rev_app_distr in E. cbn [rev app] in E.
  rewrite lstrip_head in E by assumption. cbn [rev] in E. destruct (rev (rev r)); discriminate.
Qed.

Lemma last_char_snoc x c : last_char (x ++ [c]) = Some c.
Proof. unfold last_char. rewrite rev_app_distr. reflexivity. Qed.
Lemma init_str_snoc x c : init_str (x ++ [c]) = x.
Proof. unfold init_str. apply removelast_last. Qed.

Lemma ts_parts_blank sp l p : blank sp -> ts_parts (sp :: l) p = ts_parts l p.
Proof. intros H. cbn [ts_parts]. now rewrite strip_blank. Qed.

Lemma ts_parts_body i l p : wf_item i ->
  ts_parts (body_str i :: l) p =
  match pget (unit_char (unit_ i)) p with
  | Some _ => Err ValueError
  | None => ts_parts l (p ++ [(unit_char (unit_ i), rnd64 (inject_Z (count i)))])
  end.
Proof.
  intros Hw. cbn [ts_parts].
  destruct (strip (body_str i)) eqn:E.
  - exfalso. unfold body_str in E. apply (strip_nonblank (unit_char (unit_ i)) (num_str i) []); auto using unit_not_space.
    apply in_or_app. right. now left.
  - unfold body_str at 1. rewrite last_char_snoc. unfold body_str. rewrite init_str_snoc, parse_num_str by assumption. reflexivity.
Qed.

Definition part_of (i : item) : N * Q := (unit_char (unit_ i), rnd64 (inject_Z (count i))).

Lemma pget_In u p q : pget u p = Some q -> In u (map fst p).
Proof.
  induction p as [|[u' q'] p IH]; [discriminate|]. cbn [pget map fst]. destruct (N.eqb_spec u u'); [left; auto|right; auto].
Qed.
Lemma pget_None u p : ~ In u (map fst p) -> pget u p = None.
Proof. intros H. destruct (pget u p) eqn:E; [|reflexivity]. apply pget_In in E. contradiction. Qed.
Lemma pget_notin u p : pget u p = None -> ~ In u (map fst p).
Proof.
  induction p as [|[u' q'] p IH]; [auto|]. cbn [pget map fst]. destruct (N.eqb_spec u u'); [discriminate|].
  intros H [H1|H1]; [congruence|]. now apply IH.
Qed.

Lemma unit_char_inj a b : unit_char a = unit_char b -> a = b.
Proof. destruct a, b; discriminate || reflexivity. Qed.

Lemma ts_parts_write l p : Forall wf_item l -> NoDup (map fst p ++ map (fun i => unit_char (unit_ i)) l) ->
  ts_parts (flat_map (fun i => [sep i; body_str i]) l ++ [[]]) p = Ok (p ++ map part_of l).
Proof.
  intros Hl. revert p. induction Hl as [|i l Hi Hl IH]; intros p Hn.
  - cbn [flat_map app map]. rewrite ts_parts_blank by constructor. cbn [ts_parts]. now rewrite app_nil_r.
  - cbn [flat_map app map]. rewrite ts_parts_blank by apply Hi. rewrite ts_parts_body by assumption.
    rewrite pget_None.
    + rewrite IH; [now rewrite <- app_assoc|]. rewrite map_app, <- app_assoc. exact Hn.
    + cbn [map] in Hn. apply NoDup_remove_2 in Hn. intros Hin. apply Hn. apply in_or_app. now left.
Qed.

Lemma ts_parts_dup l p : Forall wf_item l -> ~ NoDup (map fst p ++ map (fun i => unit_char (unit_ i)) l) -> NoDup (map fst p) ->
  ts_parts (flat_map (fun i => [sep i; body_str i]) l ++ [[]]) p = Err ValueError.
Proof.
  intros Hl. revert p. induction Hl as [|i l Hi Hl IH]; intros p Hn Hp.
  - cbn [map] in Hn. rewrite app_nil_r in Hn. contradiction.
  - cbn [flat_map app map]. rewrite ts_parts_blank by apply Hi. rewrite ts_parts_body by assumption.
    destruct (pget (unit_char (unit_ i)) p) eqn:E; [reflexivity|].
    apply IH.
    + rewrite map_app, <- app_assoc. exact Hn.
    + rewrite map_app. cbn [map fst].
      apply (Permutation.Permutation_NoDup (Permutation.Permutation_cons_append _ _)).
      constructor; [|assumption]. now apply pget_notin.
Qed.

Lemma body_str_inj i j : wf_item i -> wf_item j -> body_str i = body_str j -> part_of i = part_of j.
Proof.
  intros Hi Hj E. unfold body_str in E. apply app_inj_tail in E as [E1 E2].
  unfold part_of. rewrite E2. f_equal.
  pose proof (parse_num_str i Hi) as P1. pose proof (parse_num_str j Hj) as P2. rewrite E1, P2 in P1. congruence.
Qed.

Lemma part_of_map l l' : Forall wf_item l -> Forall wf_item l' -> map body_str l' = map body_str l -> map part_of l' = map part_of l.
Proof.
  revert l'; induction l as [|i l IH]; intros [|j l'] H1 H2 E; try discriminate; [reflexivity|].
  inversion H1; inversion H2; subst. injection E as E1 E2. cbn [map]. f_equal; [now apply body_str_inj|now apply IH].
Qed.

Lemma spec_parts l trail : wf_spec l trail ->
  ts_parts (ts_split (strip (write l trail)) [] 0) [] = Ok (map part_of l).
Proof.
  intros (Hl & Ht & Hn). destruct (strip_write l trail Hl Ht) as (l' & -> & Hl' & Hb & Hu).
  rewrite ts_split_write by (auto; constructor).
  rewrite ts_parts_write; auto.
  - cbn [app]. f_equal. now apply part_of_map.
  - cbn [app map]. rewrite <- (map_map unit_ unit_char), Hu.
    apply FinFun.Injective_map_NoDup; [exact unit_char_inj|assumption].
Qed.

Lemma spec_parts_dup l trail : Forall wf_item l -> blank trail -> ~ NoDup (map unit_ l) ->
  ts_parts (ts_split (strip (write l trail)) [] 0) [] = Err ValueError.
Proof.
  intros Hl Ht Hn. destruct (strip_write l trail Hl Ht) as (l' & -> & Hl' & Hb & Hu).
  rewrite ts_split_write by (auto; constructor).
  apply ts_parts_dup; auto; [|constructor].
  cbn [app map]. rewrite <- (map_map unit_ unit_char), Hu. intros H. apply Hn. now apply NoDup_map_inv in H.
Qed.

(** ** Adding up *)

Lemma tunit_eqb_char a b : tunit_eqb a b = (unit_char a =? unit_char b)%N.
Proof. destruct a, b; reflexivity. Qed.

Lemma pget_amount u l : NoDup (map unit_ l) ->
  match pget (unit_char u) (map part_of l) with
  | Some q => q = rnd64 (inject_Z (amount u l))
  | None => amount u l = 0
  end.
Proof.
  induction l as [|i l IH]; intros Hn; [reflexivity|]. cbn [map pget part_of amount fold_right].
  rewrite tunit_eqb_char. inversion Hn; subst.
  rewrite N.eqb_sym. destruct (unit_char (unit_ i) =? unit_char u)%N eqn:E; [reflexivity|].
  apply IH. assumption.
Qed.

Lemma rndZ n : Z.abs n <= 2 ^ 53 -> rnd64 (inject_Z n) = inject_Z n.
Proof. apply rnd64_Z. Qed.

Definition small' (l : list item) : Prop :=
  3600 * Z.abs (amount UH l) + 60 * Z.abs (amount UM l) + Z.abs (amount US l) <= 2 ^ 53 /\ Z.abs (amount UF l) <= 2 ^ 53.

Lemma small_small' p l : small p l -> small' l /\ Z.abs (seconds_of l * Z.max p 1) + Z.abs (amount UF l) <= 2 ^ 53.
Proof.
  unfold small, small', seconds_of. intros Hs.
  pose proof (Z.abs_triangle (3600 * amount UH l + 60 * amount UM l) (amount US l)) as T1.
  pose proof (Z.abs_triangle (3600 * amount UH l) (60 * amount UM l)) as T2.
  rewrite !Z.abs_mul in T2. change (Z.abs 3600) with 3600 in T2. change (Z.abs 60) with 60 in T2.
  set (A := 3600 * Z.abs (amount UH l) + 60 * Z.abs (amount UM l) + Z.abs (amount US l)) in *.
  assert (HA : 0 <= A) by lia. assert (HP : 1 <= Z.max p 1) by lia.
  assert (A <= A * Z.max p 1) by nia.
  split; [split; lia|]. rewrite Z.abs_mul, (Z.abs_eq (Z.max p 1)) by lia. 
  assert (Z.abs (3600 * amount UH l + 60 * amount UM l + amount US l) * Z.max p 1 <= A * Z.max p 1) by (apply Z.mul_le_mono_nonneg_r; lia).
  lia.
Qed.

Lemma ts_seconds_spec l : NoDup (map unit_ l) -> small' l ->
  match ts_seconds (map part_of l) with
  | Some q => q = inject_Z (seconds_of l)
  | None => seconds_of l = 0
  end.
Proof.
  intros Hn [Hs1 Hs2]. unfold ts_seconds, unit_sizes. cbn [fold_left fst snd].
  pose proof (pget_amount UH l Hn) as PH. pose proof (pget_amount UM l Hn) as PM. pose proof (pget_amount US l Hn) as PS.
  change (unit_char UH) with 104%N in PH. change (unit_char UM) with 109%N in PM. change (unit_char US) with 115%N in PS.
  unfold seconds_of. set (h := amount UH l) in *. set (m := amount UM l) in *. set (sc := amount US l) in *.
  destruct (pget 104 (map part_of l)) as [qh|]; destruct (pget 109 (map part_of l)) as [qm|]; destruct (pget 115 (map part_of l)) as [qs|];
    subst; rewrite ?(rndZ h), ?(rndZ m), ?(rndZ sc) by lia;
    repeat first [rewrite fmul_Z by lia | change 0%Q with (inject_Z 0); rewrite fadd_Z by lia];
    rewrite ?PH, ?PM, ?PS; try (f_equal; ring); try lia.
Qed.

Lemma truthy_Z n : truthy (Some (inject_Z n)) = negb (n =? 0).
Proof.
  unfold truthy. f_equal. unfold Qeq_bool, inject_Z. simpl. rewrite Z.mul_1_r. destruct (Z.eqb_spec n 0) as [->|]; [reflexivity|].
  destruct n; simpl; try reflexivity. contradiction.
Qed.
Lemma Qlt_bool_Z a b : Qlt_bool (inject_Z a) (inject_Z b) = (a <? b).
Proof.
  unfold Qlt_bool, Qle_bool, inject_Z. simpl. rewrite !Z.mul_1_r.
  destruct (Z.leb_spec b a), (Z.ltb_spec a b); simpl; lia.
Qed.
Lemma Qle_bool_Z a b : Qle_bool (inject_Z a) (inject_Z b) = (a <=? b).
Proof. unfold Qle_bool, inject_Z. simpl. now rewrite !Z.mul_1_r. Qed.
Lemma Qeq_bool_Z a b : Qeq_bool (inject_Z a) (inject_Z b) = (a =? b).
Proof.
  unfold Qeq_bool, inject_Z. simpl. rewrite !Z.mul_1_r. destruct (Z.eqb_spec a b) as [->|E]; [now apply Zeq_is_eq_bool|].
  destruct (Zeq_bool a b) eqn:E2; [|reflexivity]. apply Zeq_is_eq_bool in E2. contradiction.
Qed.

(** The parser on integer specifications. *)
Lemma parse_write_some l trail p : wf_spec l trail -> 0 < p -> small p l ->
  parse_time_spec (Some (inject_Z p)) (write l trail) =
  if negb (seconds_of l =? 0) && (amount UF l <? 0) then Err ValueError else Ok (inject_Z (frames_of p l)).
Proof.
  intros Hw Hp Hs. pose proof (spec_parts l trail Hw) as HP. destruct Hw as (Hl & Ht & Hn).
  apply small_small' in Hs as [Hs Hs3]. replace (Z.max p 1) with p in Hs3 by lia.
  pose proof (ts_seconds_spec l Hn Hs) as HS. pose proof (pget_amount UF l Hn) as PF.
  change (unit_char UF) with 102%N in PF.
  unfold parse_time_spec. rewrite HP. cbn [bind].
  set (sc := seconds_of l) in *. set (f := amount UF l) in *.
  assert (Hsc : Z.abs (sc * p) <= 2 ^ 53 /\ Z.abs f <= 2 ^ 53) by lia. destruct Hsc as [Hsp Hf].
  assert (Habs : Z.abs sc <= Z.abs (sc * p)). { rewrite Z.abs_mul, (Z.abs_eq p) by lia. nia. }
  assert (HR : (if truthy (ts_seconds (map part_of l)) then
      match ts_seconds (map part_of l) with Some sec => Ok (fadd 0 (fmul sec (inject_Z p))) | None => Err ValueError end
      else Ok 0%Q) = Ok (inject_Z (sc * p))).
  { destruct (ts_seconds (map part_of l)) as [q|]; [subst q; rewrite truthy_Z|cbn [truthy]; rewrite HS; reflexivity].
    destruct (Z.eqb_spec sc 0) as [->|]; [reflexivity|]. cbn [negb].
    rewrite fmul_Z by lia. change 0%Q with (inject_Z 0). rewrite fadd_Z by lia. reflexivity. }
  rewrite HR. cbn [bind].
  assert (HT : truthy (ts_seconds (map part_of l)) = negb (sc =? 0)).
  { destruct (ts_seconds (map part_of l)) as [q|]; [subst q; now rewrite truthy_Z|]. cbn [truthy]. rewrite HS. reflexivity. }
  assert (HQ : match ts_seconds (map part_of l) with Some q => q | None => 0%Q end = inject_Z sc).
  { destruct (ts_seconds (map part_of l)) as [q|]; [assumption|]. rewrite HS. reflexivity. }
  rewrite HT, HQ. unfold frames_of. fold sc f.
  destruct (pget 102 (map part_of l)) as [q|].
  - subst q. rewrite rndZ by lia. change 0%Q with (inject_Z 0). rewrite !Qlt_bool_Z.
    destruct (negb (sc =? 0) && (f <? 0)) eqn:E; [reflexivity|].
    destruct (sc <? 0) eqn:E2.
    + rewrite fsub_Z by lia. reflexivity.
    + rewrite fadd_Z by lia. reflexivity.
  - rewrite PF. rewrite andb_false_r. f_equal. destruct (sc <? 0); f_equal; lia.
Qed.

Lemma parse_write_none l trail : wf_spec l trail -> small 1 l ->
  parse_time_spec None (write l trail) =
  if negb (seconds_of l =? 0) then Err ValueError else Ok (inject_Z (amount UF l)).
Proof.
  intros Hw Hs. pose proof (spec_parts l trail Hw) as HP. destruct Hw as (Hl & Ht & Hn).
  apply small_small' in Hs as [Hs Hs3].
  pose proof (ts_seconds_spec l Hn Hs) as HS. pose proof (pget_amount UF l Hn) as PF.
  change (unit_char UF) with 102%N in PF.
  unfold parse_time_spec. rewrite HP. cbn [bind].
  set (sc := seconds_of l) in *. set (f := amount UF l) in *.
  assert (HT : truthy (ts_seconds (map part_of l)) = negb (sc =? 0)).
  { destruct (ts_seconds (map part_of l)) as [q|]; [subst q; now rewrite truthy_Z|]. cbn [truthy]. rewrite HS. reflexivity. }
  rewrite HT. destruct (Z.eqb_spec sc 0) as [E|E]; cbn [negb]; [|reflexivity]. cbn [bind andb].
  assert (HQ : match ts_seconds (map part_of l) with Some q => q | None => 0%Q end = inject_Z 0).
  { destruct (ts_seconds (map part_of l)) as [q|]; [now rewrite <- E|reflexivity]. }
  rewrite HQ. destruct (pget 102 (map part_of l)) as [q|].
  - subst q. rewrite rndZ by lia. change 0%Q with (inject_Z 0). rewrite Qlt_bool_Z. cbn. rewrite fadd_Z by lia. f_equal.
  - rewrite PF. reflexivity.
Qed.

Lemma parse_write_dup f l trail : Forall wf_item l -> blank trail -> ~ NoDup (map unit_ l) ->
  parse_time_spec f (write l trail) = Err ValueError.
Proof. intros H1 H2 H3. unfold parse_time_spec. now rewrite spec_parts_dup. Qed.

Lemma ctx_fps_at p c : at_fps p c -> (0 < p)%Q -> ctx_fps c = Ok (Some p).
Proof.
  intros (a & v & -> & Hv & Hp) Hpos. cbn [ctx_fps]. rewrite Hv.
  assert (float_of_aval v = Ok p) as ->.
  { destruct v; cbn [float_of_aval]; try (now subst); try contradiction; auto.
    destruct Hp as [<- Hz]. now rewrite f_of_Z_exact. }
  cbn [bind]. destruct (Qle_bool p 0) eqn:E; [|reflexivity]. apply Qle_bool_iff in E. lra.
Qed.

Lemma T_spec_value l trail p c : wf_spec l trail -> at_fps (inject_Z p) c -> 0 < p -> small p l ->
  (seconds_of l = 0 \/ 0 <= amount UF l) ->
  T_init (TStr (write l trail)) c = Ok (mkT (inject_Z (frames_of p l)) (Some (inject_Z p))).
Proof.
  intros Hw Hc Hp Hs Hf. unfold T_init.
  rewrite (ctx_fps_at _ _ Hc) by (change 0%Q with (inject_Z 0); apply inject_Z_lt; lia).
  cbn [bind]. rewrite parse_write_some by assumption.
  replace (negb (seconds_of l =? 0) && (amount UF l <? 0)) with false by lia. reflexivity.
Qed.

Lemma T_spec_neg_frames l trail p c : wf_spec l trail -> at_fps (inject_Z p) c -> 0 < p -> small p l ->
  seconds_of l <> 0 -> amount UF l < 0 ->
  T_init (TStr (write l trail)) c = Err ValueError.
Proof.
  intros Hw Hc Hp Hs H1 H2. unfold T_init.
  rewrite (ctx_fps_at _ _ Hc) by (change 0%Q with (inject_Z 0); apply inject_Z_lt; lia).
  cbn [bind]. rewrite parse_write_some by assumption.
  replace (negb (seconds_of l =? 0) && (amount UF l <? 0)) with true by lia. reflexivity.
Qed.

Lemma T_spec_dup c f l trail : ctx_fps c = Ok f -> Forall wf_item l -> blank trail -> ~ NoDup (map unit_ l) ->
  T_init (TStr (write l trail)) c = Err ValueError.
Proof. intros Hc H1 H2 H3. unfold T_init. rewrite Hc. cbn [bind]. now rewrite parse_write_dup. Qed.

Lemma T_spec_unanchored l trail : wf_spec l trail -> small 1 l ->
  T_init (TStr (write l trail)) None =
  if seconds_of l =? 0 then Ok (mkT (inject_Z (amount UF l)) None) else Err ValueError.
Proof.
  intros Hw Hs. unfold T_init. cbn [ctx_fps bind]. rewrite parse_write_none by assumption.
  destruct (seconds_of l =? 0); reflexivity.
Qed.
