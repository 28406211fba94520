(** Printing times and reading them back; comparisons; references. *)
From Verif Require Import TimeModel TimeSpec PyFloatProofs PyFmtProofs PyFmtProofs2 TimeProofs.
From Coq Require Import Lqa Qfield ZifyBool ZifyN ZifyNat.
Ltac Zify.zify_post_hook ::= Z.div_mod_to_equations.
Local Open Scope Z_scope.

(** ** Floor division and remainder by an integer *)

Lemma inject_Z_pos z : 0 < z -> (0 < inject_Z z)%Q.
Proof. intros H. change 0%Q with (inject_Z 0). now apply inject_Z_lt. Qed.

Lemma Qfloor_div a z : 0 < z -> Qfloor (a / inject_Z z) = Qfloor a / z.
Proof.
  intros Hz. pose proof (inject_Z_pos z Hz) as Hq. destruct (Qfloor_spec a) as [F1 F2].
  apply Qfloor_unique. 
  pose proof (Z.div_mod (Qfloor a) z ltac:(lia)) as HD. pose proof (Z.mod_pos_bound (Qfloor a) z Hz) as HM.
  set (k := Qfloor a / z) in *. split.
  - apply Qle_shift_div_l; [assumption|]. rewrite <- inject_Z_mult.
    apply Qle_trans with (inject_Z (Qfloor a)); [apply inject_Z_le; nia|assumption].
  - apply Qlt_shift_div_r; [assumption|]. change 1%Q with (inject_Z 1). rewrite <- inject_Z_plus, <- inject_Z_mult.
    eapply Qlt_le_trans; [exact F2|]. change 1%Q with (inject_Z 1). rewrite <- inject_Z_plus. apply inject_Z_le. nia.
Qed.

Lemma fmod_val a z : 0 < z -> (fmod_pos a (inject_Z z) == a - inject_Z (z * (Qfloor a / z)))%Q.
Proof. intros Hz. unfold fmod_pos. rewrite Qred_correct, Qfloor_div by assumption. now rewrite inject_Z_mult. Qed.

Lemma fmod_floor a z : 0 < z -> Qfloor (fmod_pos a (inject_Z z)) = Qfloor a mod z.
Proof.
  intros Hz. destruct (Qfloor_spec a) as [F1 F2]. apply Qfloor_unique. rewrite fmod_val by assumption.
  pose proof (Z.div_mod (Qfloor a) z ltac:(lia)) as HD.
  assert (HE : (inject_Z (Qfloor a mod z) == inject_Z (Qfloor a) - inject_Z (z * (Qfloor a / z)))%Q).
  { unfold Qminus. rewrite <- inject_Z_opp, <- inject_Z_plus. replace (Qfloor a + - (z * (Qfloor a / z))) with (Qfloor a mod z) by lia. reflexivity. }
  rewrite HE. split; lra.
Qed.

Lemma fmod_frac a z : 0 < z ->
  (fmod_pos a (inject_Z z) == 0)%Q <-> (a == inject_Z (Qfloor a))%Q /\ Qfloor a mod z = 0.
Proof.
  intros Hz. split.
  - intros H. pose proof (fmod_floor a z Hz) as HF.
    rewrite (Qfloor_comp _ _ H) in HF. change (Qfloor 0) with 0 in HF.
    split; [|lia]. rewrite fmod_val in H by assumption.
    assert (Hl : z * (Qfloor a / z) = Qfloor a) by (pose proof (Z.div_mod (Qfloor a) z ltac:(lia)); lia).
    rewrite Hl in H. lra.
  - intros [H1 H2]. rewrite fmod_val by assumption.
    assert (Hl : z * (Qfloor a / z) = Qfloor a) by (pose proof (Z.div_mod (Qfloor a) z ltac:(lia)); lia).
    rewrite Hl, <- H1. ring.
Qed.

Lemma Qle_floor a z : Qle_bool (inject_Z z) a = (z <=? Qfloor a).
Proof.
  destruct (Qle_bool (inject_Z z) a) eqn:E.
  - apply Qle_bool_iff in E. symmetry. apply Z.leb_le. 
    destruct (Qfloor_spec a) as [_ F2]. 
    assert (inject_Z z < inject_Z (Qfloor a + 1))%Q by (rewrite inject_Z_plus; change (inject_Z 1) with 1%Q; lra).
    apply inject_Z_lt_inv in H. lia.
  - apply Qle_bool_false in E. symmetry. apply Z.leb_gt.
    destruct (Qfloor_spec a) as [F1 _]. assert (inject_Z (Qfloor a) < inject_Z z)%Q by lra. now apply inject_Z_lt_inv in H.
Qed.

Lemma ffloordiv_val a z : 0 < z -> 0 <= Qfloor a <= 2 ^ 53 -> trunc (ffloordiv_pos a (inject_Z z)) = Qfloor a / z.
Proof.
  intros Hz Ha. unfold ffloordiv_pos.
  pose proof (Z.div_mod (Qfloor a) z ltac:(lia)) as HD. pose proof (Z.mod_pos_bound (Qfloor a) z Hz) as HM.
  set (k := Qfloor a / z) in *.
  assert (Hk : 0 <= k) by (apply Z.div_pos; lia).
  assert (E1 : fsub a (fmod_pos a (inject_Z z)) = inject_Z (z * k)).
  { unfold fsub. apply rnd64_eqZ; [|nia]. rewrite fmod_val by assumption. fold k. ring. }
  rewrite E1.
  assert (E2 : fdiv (inject_Z (z * k)) (inject_Z z) = inject_Z k).
  { unfold fdiv. apply rnd64_eqZ; [|nia]. rewrite inject_Z_mult. pose proof (inject_Z_pos z Hz). field. lra. }
  rewrite E2.
  assert (E3 : Qfloor (inject_Z k) = k) by (apply Qfloor_Z). rewrite E3.
  assert (E4 : fsub (inject_Z k) (inject_Z k) = inject_Z 0). { rewrite fsub_Z; [f_equal; lia|lia]. }
  rewrite E4. change (Qle_bool (inject_Z 0) (1#2)) with true. cbn iota. rewrite Qred_inject_Z. apply trunc_Z.
Qed.

(** ** The printed parts *)

(** The parts [str(t)] prints for n frames (n >= 0) at p frames per second. *)
Definition hms (sec : Z) : list (Z * tunit) :=
  (if 3600 <=? sec then [(sec / 3600, UH)] else [])
  ++ (if 60 <=? sec mod 3600 then [(sec mod 3600 / 60, UM)] else [])
  ++ (if 1 <=? sec mod 60 then [(sec mod 60, US)] else []).
Definition printed (n p : Z) : list (Z * tunit) :=
  hms (n / p) ++ (if negb (n mod p =? 0) || (n / p =? 0) then [(n mod p, UF)] else []).

Definition show (ku : Z * tunit) : pstr := dec_N (Z.to_N (fst ku)) ++ [unit_char (snd ku)].

Lemma str_unit_step out a u z : 0 < z -> 0 <= Qfloor a <= 2 ^ 53 ->
  exists a', str_unit (out, a) (unit_char u, z) = (out ++ (if z <=? Qfloor a then [show (Qfloor a / z, u)] else []), a')
  /\ Qfloor a' = Qfloor a mod z
  /\ ((a' == 0)%Q <-> (a == inject_Z (Qfloor a))%Q /\ Qfloor a mod z = 0)
  /\ (a' == inject_Z (Qfloor a') <-> a == inject_Z (Qfloor a))%Q.
Proof.
  intros Hz Ha. unfold str_unit. cbn [fst snd]. rewrite Qle_floor.
  destruct (z <=? Qfloor a) eqn:E.
  - eexists. split; [|split; [|split]].
    + rewrite ffloordiv_val by assumption. unfold show. cbn [fst snd]. unfold dec_Z.
      replace (Qfloor a / z <? 0) with false by (assert (0 <= Qfloor a / z) by (apply Z.div_pos; lia); lia). reflexivity.
    + now apply fmod_floor.
    + now apply fmod_frac.
    + rewrite fmod_floor, fmod_val by assumption.
      assert (HE : (inject_Z (Qfloor a mod z) == inject_Z (Qfloor a) - inject_Z (z * (Qfloor a / z)))%Q).
      { unfold Qminus. rewrite <- inject_Z_opp, <- inject_Z_plus.
        pose proof (Z.div_mod (Qfloor a) z ltac:(lia)) as HD.
        replace (Qfloor a + - (z * (Qfloor a / z))) with (Qfloor a mod z) by lia. reflexivity. }
      rewrite HE. split; intros; lra.
  - exists a. rewrite app_nil_r. split; [reflexivity|]. rewrite Z.mod_small by lia. split; [reflexivity|].
    split; [|reflexivity]. split.
    + intros H. rewrite (Qfloor_comp _ _ H). change (Qfloor 0) with 0. rewrite H. split; reflexivity.
    + intros [H1 H2]. rewrite H1, H2. reflexivity.
Qed.

Lemma str_loop a : 0 <= Qfloor a <= 2 ^ 53 -> exists a',
  fold_left str_unit unit_sizes ([], a) = (map show (hms (Qfloor a)), a')
  /\ (a' == 0 <-> a == inject_Z (Qfloor a))%Q.
Proof.
  intros Ha. unfold unit_sizes. cbn [fold_left].
  change 104%N with (unit_char UH). change 109%N with (unit_char UM). change 115%N with (unit_char US).
  destruct (str_unit_step [] a UH 3600 ltac:(lia) Ha) as (a1 & -> & F1 & _ & I1).
  destruct (str_unit_step ([] ++ (if 3600 <=? Qfloor a then [show (Qfloor a / 3600, UH)] else [])) a1 UM 60 ltac:(lia) ltac:(lia)) as (a2 & -> & F2 & _ & I2).
  match goal with |- context[str_unit (?o, a2) _] => destruct (str_unit_step o a2 US 1 ltac:(lia) ltac:(lia)) as (a3 & -> & F3 & Z3 & _) end.
  exists a3. split.
  - f_equal. rewrite F2, F1. unfold hms. rewrite !map_app. cbn [app].
    assert (E60 : Qfloor a mod 3600 mod 60 = Qfloor a mod 60).
    { clear. lia. }
    rewrite E60, Z.div_1_r.
    rewrite <- app_assoc. f_equal; [destruct (3600 <=? Qfloor a); reflexivity|].
    f_equal; [destruct (60 <=? Qfloor a mod 3600); reflexivity|].
    destruct (1 <=? Qfloor a mod 60); reflexivity.
  - rewrite Z3, I2, I1, Z.mod_1_r. tauto.
Qed.

Lemma Qabs_nonneg_eq q : (0 <= q)%Q -> Qabs q = q.
Proof. intros H. destruct q as [n d]. unfold Qabs. f_equal. unfold Qle in H. simpl in H. lia. Qed.
Lemma Qabs_inject n : Qabs (inject_Z n) = inject_Z (Z.abs n).
Proof. reflexivity. Qed.

Lemma Qabs_rnd64 q : Qabs (rnd64 q) = rnd64 (Qabs q).
Proof.
  destruct (Qlt_le_dec q 0) as [H|H].
  - rewrite (rnd64_comp (Qabs q) (- q)) by (apply Qabs_neg; lra). rewrite rnd64_opp.
    assert (rnd64 q <= 0)%Q by (apply rnd64_nonpos; lra).
    destruct (rnd64 q) as [n d]. unfold Qabs, Qopp. simpl. f_equal. unfold Qle in H0. simpl in H0. lia.
  - rewrite (rnd64_comp (Qabs q) q) by (now apply Qabs_pos). apply Qabs_nonneg_eq. now apply rnd64_nonneg.
Qed.

Lemma fdiv_abs n p : 0 < p -> Qabs (fdiv (inject_Z n) (inject_Z p)) = rnd64 (inject_Z (Z.abs n) / inject_Z p).
Proof.
  intros Hp. unfold fdiv. rewrite Qabs_rnd64. apply rnd64_comp.
  unfold Qdiv. rewrite Qabs_Qmult, Qabs_inject.
  rewrite (Qabs_pos (/ inject_Z p)); [reflexivity|].
  apply Qlt_le_weak, Qinv_lt_0_compat, inject_Z_pos. assumption.
Qed.

Lemma fmod_Z n p : 0 < p -> fmod_pos (inject_Z n) (inject_Z p) = inject_Z (n mod p).
Proof.
  intros Hp. unfold fmod_pos. rewrite Qfloor_div by assumption. rewrite Qfloor_Z.
  rewrite <- (Qred_inject_Z (n mod p)). apply Qred_complete.
  rewrite <- inject_Z_mult. unfold Qminus. rewrite <- inject_Z_opp, <- inject_Z_plus.
  pose proof (Z.div_mod n p ltac:(lia)). replace (n + - (p * (n / p))) with (n mod p) by lia. reflexivity.
Qed.

Lemma quotient_integral n p : 0 <= n < 2 ^ 53 -> 0 < p <= 2 ^ 53 ->
  (rnd64 (inject_Z n / inject_Z p) == inject_Z (n / p))%Q <-> n mod p = 0.
Proof.
  intros Hn [Hp Hp2]. pose proof (Z.div_mod n p ltac:(lia)) as HD. pose proof (Z.mod_pos_bound n p Hp) as HM.
  assert (Hb : 0 <= n / p <= n). { split; [apply Z.div_pos; lia|]. apply Z.div_le_upper_bound; nia. }
  pose proof (inject_Z_pos p Hp) as HP. split.
  - intros H. destruct (Z.eq_dec (n mod p) 0) as [|Hne]; [assumption|exfalso].
    assert (HG : (inject_Z (n / p) < rnd64 (inject_Z n / inject_Z p))%Q).
    { apply rnd64_div_gt; auto; [lia|]. apply Qlt_shift_div_l; [assumption|]. rewrite <- inject_Z_mult. apply inject_Z_lt. nia. }
    lra.
  - intros H. assert (E : rnd64 (inject_Z n / inject_Z p) = inject_Z (n / p)); [|rewrite E; reflexivity].
    apply rnd64_eqZ; [|lia]. assert (Hn2 : n = p * (n / p)) by lia. rewrite Hn2 at 1. rewrite inject_Z_mult. field. lra.
Qed.

(** What [str(t)] is for a whole number of frames at a whole FPS. *)
Lemma T_str_val n p : Z.abs n < 2 ^ 53 -> 0 < p <= 10 ^ 6 ->
  T_str (mkT (inject_Z n) (Some (inject_Z p))) =
  minus_if (n <? 0) ++ join (s " ") (map show (printed (Z.abs n) p)).
Proof.
  intros Hn Hp. unfold T_str. cbn [fps frames]. rewrite fdiv_abs by lia.
  set (m := Z.abs n) in *. assert (Hm : 0 <= m < 2 ^ 53) by lia.
  assert (HF : Qfloor (rnd64 (inject_Z m / inject_Z p)) = m / p) by (apply Qfloor_rnd64_div; lia).
  assert (Hb : 0 <= m / p <= m). { split; [apply Z.div_pos; lia|]. apply Z.div_le_upper_bound; nia. }
  destruct (str_loop (rnd64 (inject_Z m / inject_Z p)) ltac:(lia)) as (a' & -> & HZ). rewrite HF in *.
  rewrite quotient_integral in HZ by lia.
  change 0%Q with (inject_Z 0). rewrite Qlt_bool_Z. f_equal. f_equal.
  rewrite Qabs_inject. fold m. rewrite fmod_Z by lia.
  assert (HG : fmt_g 6 (inject_Z (m mod p)) = dec_N (Z.to_N (m mod p))).
  { apply fmt_g_int; [lia|]. change (10 ^ Z.of_nat 6) with (10 ^ 6). pose proof (Z.mod_pos_bound m p ltac:(lia)). lia. }
  rewrite HG. unfold printed. rewrite map_app.
  assert (HE : match map show (hms (m / p)) with [] => true | _ :: _ => false end = (m / p =? 0)).
  { unfold hms. destruct (Z.eqb_spec (m / p) 0) as [->|Hne]; [reflexivity|].
    destruct (3600 <=? m / p) eqn:E1; [reflexivity|]. rewrite Z.mod_small by lia.
    destruct (60 <=? m / p) eqn:E2; [reflexivity|]. rewrite Z.mod_small by lia.
    replace (1 <=? m / p) with true by lia. reflexivity. }
  rewrite HE.
  assert (HQ : Qeq_bool a' (inject_Z 0) = (m mod p =? 0)).
  { destruct (Z.eqb_spec (m mod p) 0) as [E|E].
    - apply Qeq_bool_iff. now apply HZ.
    - apply Qeq_bool_false. intros H. apply E. now apply HZ. }
  rewrite HQ. destruct (negb (m mod p =? 0) || (m / p =? 0)); [reflexivity|]. cbn [map]. now rewrite app_nil_r.
Qed.

(** ** As a specification *)

Definition citem (sp : pstr) (ng : bool) (ku : Z * tunit) : item :=
  mkItem sp ng (map (fun c => (c - 48)%N) (dec_N (Z.to_N (fst ku)))) (snd ku).

Lemma undigits x : all_digits x -> map (fun d => (48 + d)%N) (map (fun c => (c - 48)%N) x) = x.
Proof.
  induction 1 as [|c x H _ IH]; [reflexivity|]. cbn [map]. rewrite IH. f_equal. apply is_digit_iff in H. lia.
Qed.
Lemma undigits_lt x : all_digits x -> Forall (fun d => (d < 10)%N) (map (fun c => (c - 48)%N) x).
Proof. induction 1 as [|c x H _ IH]; [constructor|]. cbn [map]. constructor; [|assumption]. apply is_digit_iff in H. lia. Qed.

Lemma citem_body sp ng ku : body_str (citem sp ng ku) = minus_if ng ++ show ku.
Proof.
  unfold body_str, num_str, citem, show. cbn [neg digits unit_]. rewrite undigits by apply dec_N_digits.
  now rewrite <- app_assoc.
Qed.
Lemma citem_count sp ng ku : 0 <= fst ku -> count (citem sp ng ku) = if ng then - fst ku else fst ku.
Proof.
  intros H. unfold count, citem. cbn [neg digits].
  rewrite number_from_val by (auto using undigits_lt, dec_N_digits; lia).
  rewrite undigits by apply dec_N_digits. rewrite dec_N_val. rewrite Z.mul_0_l. destruct ng; lia.
Qed.
Lemma citem_wf sp ng ku : blank sp -> wf_item (citem sp ng ku).
Proof.
  intros H. split; [exact H|]. unfold citem. cbn [digits]. split.
  - intros E. apply map_eq_nil in E. now apply dec_N_nonempty in E.
  - apply undigits_lt, dec_N_digits.
Qed.

Definition items_of (ng : bool) (l : list (Z * tunit)) : list item :=
  match l with [] => [] | ku :: l' => citem [] ng ku :: map (citem (s " ") false) l' end.

Lemma blank_space : blank (s " ").
Proof. repeat constructor. Qed.

Lemma items_wf ng l : Forall wf_item (items_of ng l).
Proof.
  destruct l as [|ku l]; [constructor|]. constructor; [apply citem_wf; constructor|].
  apply Forall_map, Forall_forall. intros x _. apply citem_wf, blank_space.
Qed.

Lemma items_write ng l : l <> [] -> write (items_of ng l) [] = minus_if ng ++ join (s " ") (map show l).
Proof.
  destruct l as [|ku l]; [contradiction|]. intros _. unfold write, items_of. cbn [flat_map].
  rewrite app_nil_r, write_item_eq, citem_body. cbn [sep citem app]. rewrite <- app_assoc. f_equal. cbn [map].
  revert ku; induction l as [|k2 l IH]; intros ku; [cbn [map flat_map join]; now rewrite app_nil_r|].
  cbn [map flat_map]. rewrite write_item_eq, citem_body. cbn [sep citem minus_if app join].
  f_equal. rewrite <- app_assoc. f_equal. exact (IH k2).
Qed.

Lemma items_units ng l : map unit_ (items_of ng l) = map snd l.
Proof. destruct l as [|ku l]; [reflexivity|]. cbn [items_of map]. f_equal. rewrite map_map. reflexivity. Qed.

Lemma printed_nonempty n p : 0 <= n -> 0 < p -> printed n p <> [].
Proof.
  intros Hn Hp. unfold printed, hms. assert (Hq : 0 <= n / p) by (apply Z.div_pos; lia).
  set (q := n / p) in *. set (r := n mod p) in *. clearbody q r. intros E. apply app_eq_nil in E as [E1 E2].
  destruct (Z.eqb_spec q 0) as [Hz|Hz]; [rewrite orb_true_r in E2; discriminate|].
  apply app_eq_nil in E1 as [E1 E3]. apply app_eq_nil in E3 as [E3 E4].
  destruct (3600 <=? q) eqn:A; [discriminate|]. destruct (60 <=? q mod 3600) eqn:B; [discriminate|].
  destruct (1 <=? q mod 60) eqn:C; [discriminate|]. lia.
Qed.

Lemma printed_nodup n p : NoDup (map snd (printed n p)).
Proof.
  unfold printed, hms.
  destruct (3600 <=? n / p), (60 <=? (n / p) mod 3600), (1 <=? (n / p) mod 60), (negb (n mod p =? 0) || (n / p =? 0));
    cbn [app map snd]; repeat constructor; cbn [In]; intuition discriminate.
Qed.

(** The amounts given by the printed form. *)
Lemma amount_app u a b : NoDup (map unit_ (a ++ b)) -> amount u (a ++ b) = amount u a + amount u b.
Proof.
  induction a as [|i a IH]; intros Hn; [reflexivity|]. cbn [app amount fold_right map] in *. inversion Hn; subst.
  destruct (tunit_eqb (unit_ i) u) eqn:E.
  - assert (Hz : amount u b = 0).
    { clear - H1 E. assert (Hb : ~ In u (map unit_ b)).
      { intros Hin. apply H1. rewrite map_app. apply in_or_app. right. destruct (unit_ i), u; discriminate || assumption. }
      clear H1 E. induction b as [|j b IHb]; [reflexivity|]. cbn [amount fold_right]. cbn [map In] in Hb.
      destruct (tunit_eqb (unit_ j) u) eqn:E; [exfalso; apply Hb; left; destruct (unit_ j), u; discriminate || reflexivity|].
      apply IHb. tauto. }
    fold (amount u b). lia.
  - apply IH. assumption.
Qed.

Definition amt (u : tunit) (l : list (Z * tunit)) : Z :=
  fold_right (fun ku a => if tunit_eqb (snd ku) u then fst ku else a) 0 l.

Lemma amount_items ng u l : Forall (fun ku => 0 <= fst ku) l -> NoDup (map snd l) ->
  amount u (items_of ng l) =
  match l with
  | [] => 0
  | ku :: _ => if ng && tunit_eqb (snd ku) u then - amt u l else amt u l
  end.
Proof.
  intros Hp Hn. destruct l as [|ku l]; [reflexivity|]. inversion Hp; subst. inversion Hn; subst.
  cbn [items_of amount fold_right]. rewrite citem_count by assumption. cbn [citem unit_ amt fold_right].
  destruct (tunit_eqb (snd ku) u) eqn:E; [destruct ng; reflexivity|]. rewrite andb_false_r.
  clear - H2. fold (amt u l). fold (amount u (map (citem (s " ") false) l)).
  induction H2 as [|k l H _ IH]; [reflexivity|]. cbn [map amount fold_right amt].
  rewrite citem_count by assumption. cbn [citem unit_]. destruct (tunit_eqb (snd k) u); auto.
Qed.

(** The parts printed for n frames add up to n frames. *)
Lemma printed_amounts n p : 0 <= n -> 0 < p ->
  amt UH (printed n p) = n / p / 3600 /\ amt UM (printed n p) = (n / p) mod 3600 / 60
  /\ amt US (printed n p) = (n / p) mod 60 /\ amt UF (printed n p) = n mod p.
Proof.
  intros Hn Hp. assert (Hq : 0 <= n / p) by (apply Z.div_pos; lia).
  pose proof (Z.mod_pos_bound n p Hp) as HM.
  set (q := n / p) in *. set (r := n mod p) in *. unfold printed. fold q r. clearbody q r. unfold hms.
  destruct (3600 <=? q) eqn:E1, (60 <=? q mod 3600) eqn:E2, (1 <=? q mod 60) eqn:E3, (negb (r =? 0) || (q =? 0)) eqn:E4;
    cbn [app amt fold_right fst snd tunit_eqb]; repeat split; lia.
Qed.

Lemma printed_pos n p : 0 <= n -> 0 < p -> Forall (fun ku => 0 <= fst ku) (printed n p).
Proof.
  intros Hn Hp. assert (Hq : 0 <= n / p) by (apply Z.div_pos; lia).
  pose proof (Z.mod_pos_bound n p Hp) as HM.
  set (q := n / p) in *. set (r := n mod p) in *. unfold printed. fold q r. clearbody q r. unfold hms.
  destruct (3600 <=? q) eqn:E1, (60 <=? q mod 3600) eqn:E2, (1 <=? q mod 60) eqn:E3, (negb (r =? 0) || (q =? 0)) eqn:E4;
    cbn [app]; repeat constructor; cbn [fst]; lia.
Qed.


Lemma hms_sum sec : 0 <= sec -> 3600 * (sec / 3600) + 60 * (sec mod 3600 / 60) + sec mod 60 = sec.
Proof. intros. lia. Qed.

Lemma one_unit_hms q : 0 <= q ->
  q = 3600 * (q / 3600) + 60 * (q mod 3600 / 60) + q mod 60 /\ 0 <= q / 3600
  /\ 0 <= q mod 3600 / 60 < 60 /\ 0 <= q mod 60 < 60
  /\ (one_unit q <-> (q / 3600 = 0 /\ q mod 3600 / 60 = 0) \/ (q / 3600 = 0 /\ q mod 60 = 0) \/ (q mod 3600 / 60 = 0 /\ q mod 60 = 0)).
Proof. intros H. unfold one_unit. repeat split; lia. Qed.

(** Reading the printed form: the frame count it denotes. *)
Lemma frames_of_printed (ng : bool) n p : 0 <= n -> 0 < p ->
  let l := items_of ng (printed n p) in
  (ng = false -> seconds_of l = n / p /\ frames_of p l = n /\ amount UF l = n mod p)
  /\ (ng = true -> 0 < n ->
        Z.abs (amount UH l) = n / p / 3600 /\ Z.abs (amount UM l) = (n / p) mod 3600 / 60 /\ Z.abs (amount US l) = (n / p) mod 60
        /\ Z.abs (amount UF l) = n mod p
        /\ (seconds_of l = 0 \/ 0 <= amount UF l)
        /\ (frames_of p l = - n <-> one_unit (n / p))).
Proof.
  intros Hn Hp. cbv zeta.
  pose proof (printed_amounts n p Hn Hp) as (A1 & A2 & A3 & A4).
  pose proof (amount_items ng UH _ (printed_pos n p Hn Hp) (printed_nodup n p)) as BH.
  pose proof (amount_items ng UM _ (printed_pos n p Hn Hp) (printed_nodup n p)) as BM.
  pose proof (amount_items ng US _ (printed_pos n p Hn Hp) (printed_nodup n p)) as BS.
  pose proof (amount_items ng UF _ (printed_pos n p Hn Hp) (printed_nodup n p)) as BF.
  assert (Hq : 0 <= n / p) by (apply Z.div_pos; lia).
  pose proof (Z.mod_pos_bound n p Hp) as HM. pose proof (Z.div_mod n p ltac:(lia)) as HD.
  set (l := items_of ng (printed n p)) in *. clearbody l.
  destruct (printed n p) as [|[k u] r] eqn:EP; [apply printed_nonempty in EP; lia|].
  rewrite A1 in BH. rewrite A2 in BM. rewrite A3 in BS. rewrite A4 in BF.
  split; intros ->.
  - cbn [andb] in *. unfold frames_of, seconds_of. rewrite BH, BM, BS, BF.
    rewrite (hms_sum (n / p)) by assumption. clear - HD Hq HM.
    set (q := n / p) in *. set (f := n mod p) in *. clearbody q f. replace (q <? 0) with false by lia. repeat split; lia.
  - intros Hpos. cbn [andb snd] in *.
    unfold printed in EP.
    assert (HU : (u = UH /\ 3600 <= n / p) \/ (u = UM /\ 60 <= n / p < 3600) \/ (u = US /\ 1 <= n / p < 60) \/ (u = UF /\ n / p = 0)).
    { set (q := n / p) in *. set (f := n mod p) in *. unfold hms in EP.
      destruct (3600 <=? q) eqn:E1; [inversion EP; left; split; auto; lia|].
      rewrite Z.mod_small in EP by lia.
      destruct (60 <=? q) eqn:E2; [inversion EP; right; left; split; auto; lia|].
      rewrite Z.mod_small in EP by lia.
      destruct (1 <=? q) eqn:E3; [inversion EP; right; right; left; split; auto; lia|].
      replace (q =? 0) with true in EP by lia. rewrite orb_true_r in EP. inversion EP. right; right; right. split; auto. lia. }
    clear EP A1 A2 A3 A4. unfold frames_of, seconds_of.
    set (q := n / p) in *. set (f := n mod p) in *. clearbody q f.
    destruct (one_unit_hms q Hq) as (Q1 & Q2 & Q3 & Q4 & Q5).
    rewrite Q5. clear Q5.
    set (h := q / 3600) in *. set (m := q mod 3600 / 60) in *. set (x := q mod 60) in *. clearbody h m x.
    assert (HP : forall y, y * p - f = - n <-> y = - q) by (intros y; subst n; split; [intros; assert (y * p = (- q) * p) by lia; nia|intros ->; lia]).
    assert (HP2 : forall y, (y <? 0) = true -> (y * p + (if y <? 0 then - f else f) = - n <-> y = - q)) by (intros y ->; rewrite <- HP; lia).
    destruct HU as [[-> HU]|[[-> HU]|[[-> HU]|[-> HU]]]]; cbn [tunit_eqb] in *; rewrite BH, BM, BS, BF.
    + repeat (split; [lia|]). rewrite HP2 by lia. lia.
    + repeat (split; [lia|]). rewrite HP2 by lia. lia.
    + repeat (split; [lia|]). rewrite HP2 by lia. lia.
    + assert (h = 0 /\ m = 0 /\ x = 0) as (-> & -> & ->) by lia. repeat (split; [lia|]). cbn. lia.
Qed.

Lemma printed_small (ng : bool) n p : 0 <= n < 2 ^ 53 -> 0 < p -> (ng = true -> 0 < n) ->
  small p (items_of ng (printed n p)).
Proof.
  intros Hn Hp Hng. unfold small. replace (Z.max p 1) with p by lia.
  assert (Hq : 0 <= n / p) by (apply Z.div_pos; lia).
  pose proof (Z.div_mod n p ltac:(lia)) as HD. pose proof (Z.mod_pos_bound n p Hp) as HM.
  destruct (frames_of_printed ng n p ltac:(lia) Hp) as [F1 F2]. destruct ng.
  - destruct (F2 eq_refl (Hng eq_refl)) as (-> & -> & -> & -> & _). rewrite hms_sum by assumption. nia.
  - clear F1 F2.
    pose proof (printed_amounts n p ltac:(lia) Hp) as (A1 & A2 & A3 & A4).
    rewrite !(amount_items false) by (auto using printed_nodup; apply printed_pos; lia).
    destruct (printed n p) eqn:E; [apply printed_nonempty in E; lia|]. cbn [andb].
    rewrite A1, A2, A3, A4. rewrite (Z.abs_eq (n / p / 3600)), (Z.abs_eq ((n / p) mod 3600 / 60)), (Z.abs_eq ((n / p) mod 60)), (Z.abs_eq (n mod p)) by lia.
    rewrite hms_sum by assumption. nia.
Qed.

(** Reading back what was printed. *)
Lemma str_parse n p c : Z.abs n < 2 ^ 53 -> 0 < p <= 10 ^ 6 -> at_fps (inject_Z p) c ->
  let l := items_of (n <? 0) (printed (Z.abs n) p) in
  T_init (TStr (T_str (mkT (inject_Z n) (Some (inject_Z p))))) c
  = Ok (mkT (inject_Z (frames_of p l)) (Some (inject_Z p))).
Proof.
  intros Hn Hp Hc. cbv zeta. rewrite T_str_val by assumption.
  rewrite <- items_write by (apply printed_nonempty; lia).
  destruct (frames_of_printed (n <? 0) (Z.abs n) p ltac:(lia) ltac:(lia)) as [F1 F2].
  apply T_spec_value; auto; [|lia| |].
  - split; [apply items_wf|]. split; [constructor|]. rewrite items_units. apply printed_nodup.
  - apply printed_small; lia.
  - destruct (n <? 0) eqn:E.
    + destruct (F2 eq_refl ltac:(lia)) as (_ & _ & _ & _ & H & _). exact H.
    + destruct (F1 eq_refl) as (_ & _ & ->). right. apply Z.mod_pos_bound. lia.
Qed.

Lemma str_roundtrip n p c : Z.abs n < 2 ^ 53 -> 0 < p <= 10 ^ 6 -> at_fps (inject_Z p) c ->
  let t := mkT (inject_Z n) (Some (inject_Z p)) in
  T_init (TStr (T_str t)) c = Ok t <-> 0 <= n \/ one_unit (Z.abs n / p).
Proof.
  intros Hn Hp Hc. cbv zeta. rewrite (str_parse n p c Hn Hp Hc). cbv zeta.
  destruct (frames_of_printed (n <? 0) (Z.abs n) p ltac:(lia) ltac:(lia)) as [F1 F2].
  destruct (Z.ltb_spec n 0) as [E|E].
  - destruct (F2 eq_refl ltac:(lia)) as (_ & _ & _ & _ & _ & H). rewrite <- H. split.
    + intros HH. right. apply (f_equal (fun r => match r with Ok t => Qnum (frames t) | _ => 0 end)) in HH.
      cbv beta iota delta [frames Qnum inject_Z] in HH. lia.
    + intros [HH|HH]; [lia|]. rewrite HH. do 3 f_equal. lia.
  - destruct (F1 eq_refl) as (_ & -> & _). split; [auto|]. intros _. do 3 f_equal. lia.
Qed.

(** Without FPS *)
Lemma fmt_g_neg_int k n : (0 < k)%nat -> 0 < n < 10 ^ Z.of_nat k -> fmt_g k (inject_Z (- n)) = 45%N :: dec_N (Z.to_N n).
Proof.
  intros Hk Hn. rewrite <- (fmt_g_int k n Hk) by lia. unfold fmt_g.
  change 0%Q with (inject_Z 0). rewrite !Qeq_bool_Z, !Qlt_bool_Z, !Qabs_inject, Z.abs_opp.
  replace (- n =? 0) with false by lia. replace (n =? 0) with false by lia.
  replace (- n <? 0) with true by lia. replace (n <? 0) with false by lia.
  cbn [minus_if app]. destruct (sig_digits k (inject_Z (Z.abs n))) as [m x]. destruct ((-4 <=? x) && (x <? Z.of_nat k)); reflexivity.
Qed.

Lemma str_roundtrip_none n : Z.abs n < 10 ^ 6 ->
  let t := mkT (inject_Z n) None in T_init (TStr (T_str t)) None = Ok t.
Proof.
  intros Hn. cbv zeta. unfold T_str. cbn [fps frames].
  assert (HW : fmt_g 6 (inject_Z n) ++ s "f" = write [citem [] (n <? 0) (Z.abs n, UF)] []).
  { unfold write. cbn [flat_map]. rewrite !app_nil_r, write_item_eq, citem_body. cbn [citem sep app]. unfold show. cbn [fst snd].
    destruct (Z.ltb_spec n 0) as [E|E].
    - replace n with (- Z.abs n) at 1 by lia. rewrite fmt_g_neg_int by (change (Z.of_nat 6) with 6; lia). reflexivity.
    - rewrite fmt_g_int by (change (Z.of_nat 6) with 6; lia). cbn [minus_if app]. replace (Z.abs n) with n by lia. reflexivity. }
  rewrite HW. rewrite T_spec_unanchored.
  - assert (HC : count (citem [] (n <? 0) (Z.abs n, UF)) = n) by (rewrite citem_count by (cbn [fst]; lia); cbn [fst]; destruct (n <? 0) eqn:E; lia).
    unfold seconds_of. cbn [amount fold_right citem unit_ tunit_eqb snd]. cbn [citem] in HC. rewrite HC. reflexivity.
  - split; [constructor; [apply citem_wf; constructor|constructor]|]. split; [constructor|]. repeat constructor. intros [].
  - unfold small. cbn [amount fold_right citem unit_ tunit_eqb snd].
    assert (HC : count (citem [] (n <? 0) (Z.abs n, UF)) = n) by (rewrite citem_count by (cbn [fst]; lia); cbn [fst]; destruct (n <? 0) eqn:E; lia).
    cbn [citem] in HC. rewrite HC. lia.
Qed.

(** ** Order *)


Lemma compare_compat op t u : compat t u -> T_compare op t (CT u) = Ok (op (frames t) (frames u)).
Proof.
  unfold compat, T_compare. destruct (fps t) as [a|], (fps u) as [b|]; auto.
  intros H. assert (Qeq_bool b a = true) as ->; [|reflexivity]. apply Qeq_bool_iff. now symmetry.
Qed.
Lemma compare_conflict op t u : ~ compat t u -> T_compare op t (CT u) = Err ValueError.
Proof.
  unfold compat, T_compare. destruct (fps t) as [a|], (fps u) as [b|]; try tauto.
  intros H. destruct (Qeq_bool b a) eqn:E; [|reflexivity]. apply Qeq_bool_iff in E. exfalso. apply H. now symmetry.
Qed.

Lemma Qeq_bool_dec a b : {Qeq_bool a b = true /\ (a == b)%Q} + {Qeq_bool a b = false /\ ~ (a == b)%Q}.
Proof. destruct (Qeq_bool a b) eqn:E; [left|right]; split; auto; [now apply Qeq_bool_iff|now apply Qeq_bool_false]. Qed.

Lemma six_comparisons t u : compat t u ->
  exists lt eq gt le ge ne,
    T_lt t (CT u) = Ok lt /\ T_eq t (CT u) = Ok eq /\ T_gt t (CT u) = Ok gt
    /\ T_le t (CT u) = Ok le /\ T_ge t (CT u) = Ok ge /\ T_ne t (CT u) = Ok ne
    /\ (lt = true <-> frames t < frames u)%Q /\ (eq = true <-> frames t == frames u)%Q
    /\ (gt = true <-> frames u < frames t)%Q /\ (le = true <-> frames t <= frames u)%Q
    /\ (ge = true <-> frames u <= frames t)%Q /\ (ne = true <-> ~ frames t == frames u)%Q.
Proof.
  intros H. unfold T_gt, T_le, T_ge, T_ne, T_lt, T_eq. rewrite !compare_compat by assumption. cbn [bind].
  set (a := frames t). set (b := frames u).
  destruct (Qlt_bool a b) eqn:E1; [apply Qlt_bool_iff in E1|apply Qlt_bool_false in E1];
    (destruct (Qeq_bool a b) eqn:E2; [apply Qeq_bool_iff in E2|apply Qeq_bool_false in E2]);
    cbn [negb]; do 6 eexists; do 6 (split; [reflexivity|]); repeat split; intros; try reflexivity; try discriminate; try lra; try tauto.
Qed.

(** ** Negative frame numbers *)

Lemma root_time_spec p a k l trail : aget k a = Some (AStr (write l trail)) ->
  wf_spec l trail -> 0 < p -> small p l -> (seconds_of l = 0 \/ 0 <= amount UF l) ->
  root_time (Some (inject_Z p)) a k = Ok (inject_Z (frames_of p l)).
Proof.
  intros H Hw Hp Hs Hf. unfold root_time. rewrite H.
  destruct Hw as (W1 & W2 & W3). 
  rewrite parse_write_some by (auto; split; auto).
  assert (negb (seconds_of l =? 0) && (amount UF l <? 0) = false) as ->; [lia|]. reflexivity.
Qed.

(** ** Malformed specifications *)

Lemma ts_split_concat x : forall acc k, concat (ts_split x acc k) = rev acc ++ x.
Proof.
  induction x as [|c x IH]; intros acc k; [reflexivity|]. cbn [ts_split].
  destruct k as [|[|k]].
  - destruct (ts_match (c :: x)) as [k|].
    + cbn [concat]. destruct k as [|[|k]]; cbn [concat]; rewrite IH; reflexivity.
    + rewrite IH. cbn [rev]. now rewrite <- app_assoc.
  - cbn [concat]. rewrite IH. cbn [rev app]. now rewrite <- app_assoc.
  - rewrite IH. cbn [rev]. now rewrite <- app_assoc.
Qed.

(** A blank piece, or a number in Python's syntax followed by one character. *)
Definition piece_ok (x : pstr) : Prop := exists num q u, x = num ++ [u] /\ parse_float num = Ok q.

Lemma strip_nil_blank x : strip x = [] -> blank x.
Proof.
  unfold strip, rstrip. intros H. apply (f_equal (@rev N)) in H. rewrite rev_involutive in H.
  assert (HL : forall y, lstrip y = [] -> blank y).
  { clear. induction y as [|c y IH]; intros H; [constructor|]. cbn [lstrip] in H.
    destruct (is_space c) eqn:E; [|discriminate]. constructor; [assumption|now apply IH]. }
  apply HL in H. apply blank_rev in H. rewrite rev_involutive in H.
  clear HL. induction x as [|c x IH]; [constructor|]. cbn [lstrip] in H.
  destruct (is_space c) eqn:E; [constructor; [assumption|now apply IH]|]. apply Forall_inv in H. cbv beta in H. congruence.
Qed.

Lemma last_init x u : last_char x = Some u -> x = init_str x ++ [u].
Proof.
  unfold last_char, init_str. destruct (rev x) as [|c r] eqn:E; [discriminate|]. intros [= ->].
  apply (f_equal (@rev N)) in E. rewrite rev_involutive in E. cbn [rev] in E. subst x. now rewrite removelast_last.
Qed.

Definition final (x : pstr) : list N := match last_char x with Some c => [c] | None => [] end.

Lemma ts_parts_pieces l : forall p p', ts_parts l p = Ok p' -> NoDup (map fst p) ->
  Forall (fun x => blank x \/ piece_ok x) l
  /\ map fst p' = map fst p ++ flat_map final (filter (fun x => match strip x with [] => false | _ => true end) l)
  /\ NoDup (map fst p').
Proof.
  induction l as [|x l IH]; intros p p' H Hn; cbn [ts_parts] in H.
  - inversion H; subst. split; [constructor|]. cbn. now rewrite app_nil_r.
  - cbn [filter flat_map]. destruct (strip x) as [|c r] eqn:E.
    + destruct (IH p p' H Hn) as (H1 & H2 & H3). split; [|auto]. constructor; [left; now apply strip_nil_blank|assumption].
    + destruct (last_char x) as [u|] eqn:EL.
      2:{ unfold last_char in EL. destruct (rev x) eqn:Er; [|discriminate].
          apply (f_equal (@rev N)) in Er. rewrite rev_involutive in Er. subst x. discriminate E. }
      destruct (pget u p) eqn:EP; [discriminate|].
      destruct (parse_float (init_str x)) as [q|] eqn:EF; [|discriminate].
      apply pget_notin in EP.
      destruct (IH _ _ H) as (H1 & H2 & H3).
      { rewrite map_app. cbn [map fst]. apply NoDup_Add with (a := u) (l := map fst p); [|now split].
        pose proof (Add_app u (map fst p) []) as HA. now rewrite app_nil_r in HA. }
      split; [|split; [|assumption]].
      * constructor; [|assumption]. right. exists (init_str x), q, u. split; [now apply last_init|assumption].
      * rewrite H2, map_app. cbn [map fst flat_map]. unfold final at 2. rewrite EL. now rewrite <- app_assoc.
Qed.

Lemma accepted_shape f x q : parse_time_spec f x = Ok q ->
  exists pieces, concat pieces = strip x /\ Forall (fun y => blank y \/ piece_ok y) pieces
    /\ NoDup (flat_map final (filter (fun y => match strip y with [] => false | _ => true end) pieces)).
Proof.
  unfold parse_time_spec. destruct (ts_parts _ _) as [p|] eqn:E; [|discriminate]. intros _.
  exists (ts_split (strip x) [] 0). rewrite ts_split_concat. split; [reflexivity|].
  destruct (ts_parts_pieces _ _ _ E) as (H1 & H2 & H3); [constructor|]. split; [assumption|]. now rewrite H2 in H3.
Qed.

(** Text without a digit is never a number. *)
Definition nodigit (x : pstr) : Prop := Forall (fun c => is_digit c = false) x.

Lemma nodigit_span x : nodigit x -> span is_digit x = ([], x).
Proof. destruct x as [|c x]; [reflexivity|]. intros H. inversion H; subst. cbn [span]. now rewrite H2. Qed.

Lemma drop_underscores_nodigit x : forall p y, drop_underscores p x = Some y -> nodigit x -> nodigit y.
Proof.
  induction x as [|c x IH]; intros p y H Hx; cbn [drop_underscores] in H.
  - destruct (p =? 95)%N; inversion H. constructor.
  - inversion Hx; subst. destruct (c =? 95)%N.
    + destruct (is_digit p); [|discriminate]. eapply IH; eassumption.
    + destruct ((p =? 95)%N && negb (is_digit c)); [discriminate|].
      destruct (drop_underscores c x) eqn:E; [|discriminate]. inversion H; subst. constructor; [assumption|]. eapply IH; eassumption.
Qed.

Lemma lstrip_Forall (P : N -> Prop) x : Forall P x -> Forall P (lstrip x).
Proof. induction 1 as [|c x H Hx IH]; cbn [lstrip]; [constructor|]. destruct (is_space c); [assumption|now constructor]. Qed.
Lemma strip_Forall (P : N -> Prop) x : Forall P x -> Forall P (strip x).
Proof. intros H. unfold strip, rstrip. apply Forall_rev, lstrip_Forall, Forall_rev, lstrip_Forall, H. Qed.

Lemma split_sign_tail x : split_sign x = (false, x) \/ exists c, x = c :: snd (split_sign x).
Proof.
  destruct x as [|c x]; [now left|].
  destruct (N.eq_dec c 45) as [->|]; [right; now exists 45%N|].
  destruct (N.eq_dec c 43) as [->|]; [right; now exists 43%N|].
  left. unfold split_sign. repeat (destruct c as [|c]; try reflexivity; try (exfalso; congruence)).
  all: repeat (destruct c as [c|c|]; try reflexivity; try (exfalso; congruence)).
Qed.

Lemma nodigit_parse_unsigned x : nodigit x -> parse_unsigned x = None.
Proof.
  intros H. unfold parse_unsigned. rewrite nodigit_span by assumption.
  destruct x as [|c x]; [reflexivity|]. inversion H; subst.
  destruct (N.eq_dec c 46) as [->|]; [rewrite nodigit_span by assumption; reflexivity|].
  match goal with |- (let (_, _) := ?M in _) = _ => assert (HE : M = ([], c :: x)) end.
  { repeat (destruct c as [|c]; try reflexivity; try (exfalso; congruence)).
    all: repeat (destruct c as [c|c|]; try reflexivity; try (exfalso; congruence)). }
  rewrite HE. reflexivity.
Qed.

Lemma nodigit_parse x : nodigit x -> (exists e, parse_float x = Err e) /\
  (Forall (fun c => lower_char c <> 110%N) x -> parse_float x = Err ValueError).
Proof.
  intros H. unfold parse_float.
  destruct (drop_underscores 0 (strip x)) as [y|] eqn:E; [|split; eauto].
  assert (Hy : nodigit y) by (eapply drop_underscores_nodigit; [eassumption|]; now apply strip_Forall).
  assert (Hn : Forall (fun c => lower_char c <> 110%N) x -> Forall (fun c => lower_char c <> 110%N) y).
  { intros HN. apply strip_Forall in HN. revert E HN. generalize (strip x) 0%N y. clear.
    induction p as [|c p IH]; intros pr y E H; cbn [drop_underscores] in E.
    - destruct (pr =? 95)%N; inversion E. constructor.
    - inversion H; subst. destruct (c =? 95)%N.
      + destruct (is_digit pr); [|discriminate]. eauto.
      + destruct ((pr =? 95)%N && negb (is_digit c)); [discriminate|].
        destruct (drop_underscores c p) eqn:E2; [|discriminate]. inversion E; subst. constructor; eauto. }
  destruct (split_sign y) as [sg r] eqn:ES.
  assert (Hr : nodigit r /\ (Forall (fun c => lower_char c <> 110%N) x -> Forall (fun c => lower_char c <> 110%N) r)).
  { destruct (split_sign_tail y) as [HS|[c HS]]; rewrite ES in HS.
    - inversion HS; subst. auto.
    - cbn [snd] in HS. subst y. inversion Hy; subst. split; [assumption|]. intros HN. specialize (Hn HN). now inversion Hn. }
  destruct Hr as [Hr1 Hr2]. rewrite nodigit_parse_unsigned by assumption. split; [destruct (existsb _ _); eauto|].
  intros HN. specialize (Hr2 HN).
  assert (existsb (pstr_eqb (lower r)) [s "inf"; s "infinity"; s "nan"] = false) as ->; [|reflexivity].
  apply not_true_iff_false. intros HE. apply existsb_exists in HE as (w & Hw & HE). apply pstr_eqb_spec in HE.
  assert (Hl : Forall (fun c => c <> 110%N) (lower r)) by (unfold lower; apply Forall_map; assumption).
  rewrite HE in Hl. clear - Hw Hl. cbn [In] in Hw.
  destruct Hw as [<-|[<-|[<-|[]]]]; vm_compute in Hl; repeat match goal with H : Forall _ (_ :: _) |- _ => inversion H; clear H; subst end; congruence.
Qed.

Lemma strip_idem_nonblank x : strip x <> [] -> forall P : N -> Prop, Forall P x -> Forall P (strip x).
Proof. intros _ P. apply strip_Forall. Qed.

Lemma ts_match_nodigit x : nodigit x -> Forall (fun c => c <> 46%N) x -> ts_match x = None.
Proof.
  intros H1 H2.
  assert (HN : forall y, nodigit y -> Forall (fun c => c <> 46%N) y -> ts_match_num y = None).
  { clear. intros [|c y] H1 H2; [reflexivity|]. inversion H1; inversion H2; subst. unfold ts_match_num. cbn [span].
    unfold in_num. rewrite H3. replace (c =? 46)%N with false by (symmetry; now apply N.eqb_neq). reflexivity. }
  destruct x as [|c x]; [reflexivity|].
  destruct (N.eq_dec c 45) as [->|].
  - cbn [ts_match]. inversion H1; inversion H2; subst. now rewrite HN.
  - transitivity (ts_match_num (c :: x)); [|now apply HN]. unfold ts_match.
    repeat (destruct c as [|c]; try reflexivity; try (exfalso; congruence)).
    all: repeat (destruct c as [c|c|]; try reflexivity; try (exfalso; congruence)).
Qed.

Lemma nodigit_concat l : nodigit (concat l) -> Forall nodigit l.
Proof.
  induction l as [|x l IH]; intros H; [constructor|]. cbn [concat] in H. apply Forall_app in H as [H1 H2].
  constructor; auto.
Qed.
Lemma Forall_concat_inv (P : N -> Prop) l : Forall P (concat l) -> Forall (Forall P) l.
Proof.
  induction l as [|x l IH]; intros H; [constructor|]. cbn [concat] in H. apply Forall_app in H as [H1 H2].
  constructor; auto.
Qed.
Lemma blank_concat l : Forall blank l -> blank (concat l).
Proof. induction 1 as [|x l H _ IH]; [constructor|]. cbn [concat]. apply Forall_app. now split. Qed.

Lemma init_str_Forall (P : N -> Prop) x : Forall P x -> Forall P (init_str x).
Proof.
  unfold init_str. induction 1 as [|c x H Hx IH]; [constructor|]. cbn [removelast]. destruct x; [constructor|now constructor].
Qed.

Lemma blank_strip_nil x : blank x -> strip x = [].
Proof. apply strip_blank. Qed.

Lemma strip_not_blank x : ~ blank x -> ~ blank (strip x).
Proof.
  intros H HB. apply H.
  assert (E : strip x = []).
  { unfold strip, rstrip in *. destruct (lstrip x) as [|c y] eqn:E; [reflexivity|].
    exfalso. assert (Hc : is_space c = false).
    { clear - E. induction x as [|d x IH]; [discriminate|]. cbn [lstrip] in E. destruct (is_space d) eqn:Ed; [auto|]. inversion E; subst. assumption. }
    apply blank_rev in HB. rewrite rev_involutive in HB.
    assert (HL : forall z, blank (lstrip z) -> lstrip z = []).
    { clear. intros z. induction z as [|d z IH]; [reflexivity|]. cbn [lstrip]. destruct (is_space d) eqn:Ed; [assumption|]. intros HB. apply Forall_inv in HB. cbv beta in HB. congruence. }
    apply HL in HB. assert (blank (rev (c :: y))).
    { clear - HB. induction (rev (c :: y)) as [|d z IH]; [constructor|]. cbn [lstrip] in HB. destruct (is_space d) eqn:Ed; [constructor; [assumption|now apply IH]|discriminate]. }
    apply blank_rev in H0. rewrite rev_involutive in H0. apply Forall_inv in H0. cbv beta in H0. congruence. }
  now apply strip_nil_blank.
Qed.

Lemma no_digit_rejected f x : ~ blank x -> nodigit x -> Forall (fun c => lower_char c <> 110%N) x ->
  parse_time_spec f x = Err ValueError.
Proof.
  intros Hb Hd Hn. unfold parse_time_spec.
  assert (HP : ts_parts (ts_split (strip x) [] 0) [] = Err ValueError); [|now rewrite HP].
  pose proof (ts_split_concat (strip x) [] 0) as HC. cbn [rev app] in HC.
  assert (Hd' : nodigit (strip x)) by now apply strip_Forall.
  apply strip_not_blank in Hb. apply strip_Forall in Hn. rewrite <- HC in Hd', Hn, Hb. clear HC.
  apply Forall_concat_inv in Hn, Hd'. revert Hd' Hn Hb. generalize (ts_split (strip x) [] 0) (@nil (N * Q)).
  induction l as [|y l IH]; intros p H1 H2 H3; [exfalso; apply H3; constructor|].
  inversion H1; inversion H2; subst. cbn [ts_parts]. destruct (strip y) as [|c r] eqn:E.
  - apply IH; auto. intros HB. apply H3. cbn [concat]. apply Forall_app. split; [now apply strip_nil_blank|assumption].
  - destruct (last_char y) as [u|] eqn:EL.
    2:{ unfold last_char in EL. destruct (rev y) eqn:Er; [|discriminate].
        apply (f_equal (@rev N)) in Er. rewrite rev_involutive in Er. subst y. discriminate E. }
    destruct (pget u p); [reflexivity|].
    destruct (nodigit_parse (init_str y)) as [_ HE]; [now apply init_str_Forall|]. rewrite HE; [reflexivity|]. now apply init_str_Forall.
Qed.

(** ** The root canvas *)

Lemma at_path_nth root anc n doc : at_path root anc n ->
  nth_error (anc ++ [doc]) (length (anc ++ [doc]) - 2) = match anc with [] => Some doc | _ => Some root end.
Proof.
  intros H. destruct anc as [|p anc]; [reflexivity|].
  rewrite app_length. cbn [length]. replace (S (length anc) + 1 - 2)%nat with (length anc) by lia.
  rewrite nth_error_app1 by (cbn [length]; lia).
  clear doc. remember (p :: anc) as l eqn:E. revert p anc E. induction H as [|anc' q c H IH Hin]; intros p anc E; [discriminate|].
  inversion E; subst. destruct anc as [|p2 anc]; [inversion H; subst; reflexivity|].
  cbn [length]. change (nth_error (p2 :: anc) (length anc) = Some root). eapply IH. reflexivity.
Qed.

Lemma canvas_root_doc root anc n doc : at_path root anc n -> tag_name root = s "canvas" ->
  canvas_root n (anc ++ [doc]) = Some root.
Proof.
  intros H Hc. unfold canvas_root. pose proof (at_path_nth root anc n doc H) as HN.
  destruct anc as [|p anc].
  - inversion H; subst. cbn [app]. now rewrite Hc, pstr_eqb_refl.
  - cbn [app] in *. destruct (anc ++ [doc]) as [|a l] eqn:E; [now apply app_eq_nil in E as [_ E]|].
    rewrite HN. now rewrite Hc, pstr_eqb_refl.
Qed.

Lemma canvas_root_detached top anc n : at_path top anc n ->
  (forall c, In c (tag_kids top) -> tag_name c <> s "canvas") ->
  canvas_root n anc = None.
Proof.
  intros H Hk. unfold canvas_root.
  assert (HG : forall l m, at_path top l m -> match l with
     | [] => True | [_] => In m (tag_kids top)
     | _ => exists c, nth_error l (length l - 2) = Some c /\ In c (tag_kids top) end).
  { clear. induction 1 as [|l p c H IH Hin]; [exact I|].
    destruct l as [|p2 l]; [inversion H; subst; assumption|].
    destruct l as [|p3 l].
    - exists p. split; [reflexivity|assumption].
    - destruct IH as (d & H1 & H2). exists d. split; [|assumption].
      cbn [length] in *. replace (S (S (S (length l))) - 2)%nat with (S (S (S (length l)) - 2))%nat by lia. exact H1. }
  specialize (HG _ _ H). destruct anc as [|p [|p2 anc]]; [reflexivity| |].
  - apply Hk in HG. now apply pstr_eqb_neq in HG as ->.
  - destruct HG as (c & -> & HG). apply Hk in HG. now apply pstr_eqb_neq in HG as ->.
Qed.

Definition chunk_of (x : pstr) : chunk :=
  match strip x with
  | [] => Blanks x
  | _ => match last_char x with Some u => Number (init_str x) u | None => Blanks x end
  end.

Lemma accepted_chunks f x q : parse_time_spec f x = Ok q ->
  exists l, flat_map chunk_text l = strip x /\ Forall chunk_ok l /\ NoDup (flat_map chunk_unit l).
Proof.
  intros H. destruct (accepted_shape f x q H) as (pieces & H1 & H2 & H3). exists (map chunk_of pieces).
  assert (HT : forall y, chunk_text (chunk_of y) = y).
  { intros y. unfold chunk_of. destruct (strip y); [reflexivity|]. destruct (last_char y) eqn:E; [|reflexivity].
    cbn [chunk_text]. symmetry. now apply last_init. }
  split; [|split].
  - rewrite <- H1. clear - HT. induction pieces as [|y l IH]; [reflexivity|]. cbn [map flat_map concat]. now rewrite HT, IH.
  - clear - H2. induction H2 as [|y l H _ IH]; [constructor|]. cbn [map]. constructor; [|assumption].
    unfold chunk_of. destruct (strip y) eqn:E; [cbn; now apply strip_nil_blank|].
    destruct H as [H|(num & q & u & -> & H)]; [apply strip_blank in H; congruence|].
    rewrite last_char_snoc, init_str_snoc. cbn. now exists q.
  - clear - H3. assert (HE : flat_map chunk_unit (map chunk_of pieces) = flat_map final (filter (fun y => match strip y with [] => false | _ => true end) pieces)); [|now rewrite HE].
    clear H3. induction pieces as [|y l IH]; [reflexivity|]. cbn [map flat_map filter]. rewrite IH. unfold chunk_of.
    destruct (strip y); [reflexivity|]. cbn [flat_map]. f_equal. unfold final. destruct (last_char y); reflexivity.
Qed.

Lemma T_accepted_chunks x c t : T_init (TStr x) c = Ok t ->
  exists l, flat_map chunk_text l = strip x /\ Forall chunk_ok l /\ NoDup (flat_map chunk_unit l).
Proof.
  unfold T_init. destruct (ctx_fps c) as [f|]; [|discriminate]. cbn [bind].
  destruct (parse_time_spec f x) eqn:E; [|discriminate]. intros _. eapply accepted_chunks. eassumption.
Qed.

Lemma T_no_digit x c f : ctx_fps c = Ok f -> ~ blank x -> Forall (fun ch => is_digit ch = false) x ->
  Forall (fun ch => ch <> 110%N /\ ch <> 78%N) x -> T_init (TStr x) c = Err ValueError.
Proof.
  intros Hf H1 H2 H3. unfold T_init. rewrite Hf. cbn [bind]. rewrite no_digit_rejected; auto.
  eapply Forall_impl; [|exact H3]. intros ch [A B]. unfold lower_char, is_upper.
  destruct ((65 <=? ch)%N && (ch <=? 90)%N) eqn:E; lia.
Qed.

(** ** Negative frame numbers *)
Lemma T_negative p a le te lb tb n : at_fps (inject_Z p) (Some a) -> 0 < p ->
  aget (s "end-time") a = Some (AStr (write le te)) -> wf_spec le te -> small p le -> 0 <= amount UF le ->
  aget (s "begin-time") a = Some (AStr (write lb tb)) -> wf_spec lb tb -> small p lb -> 0 <= amount UF lb ->
  Z.abs (frames_of p le) <= 2 ^ 51 -> Z.abs (frames_of p lb) <= 2 ^ 51 -> 0 < n <= 2 ^ 51 ->
  T_init (TNum (inject_Z (- n))) (Some a)
  = Ok (mkT (inject_Z (1 + frames_of p le - frames_of p lb - n)) (Some (inject_Z p))).
Proof.
  intros Hf Hp He1 He2 He3 He4 Hb1 Hb2 Hb3 Hb4 Be Bb Bn. unfold T_init.
  rewrite (ctx_fps_at _ _ Hf) by now apply inject_Z_pos. cbn [bind].
  change 0%Q with (inject_Z 0). rewrite Qlt_bool_Z. replace (- n <? 0) with true by lia.
  rewrite (root_time_spec p a _ le te) by auto. cbn [bind].
  rewrite (root_time_spec p a _ lb tb) by auto. cbn [bind]. change 1%Q with (inject_Z 1).
  rewrite fsub_Z by lia. rewrite fadd_Z by lia. rewrite fadd_Z by lia. do 3 f_equal. lia.
Qed.

(** ** Seconds *)
Lemma T_seconds_val t : T_seconds t =
  match fps t with
  | Some f => Ok (rnd64 (frames t / f))
  | None => if Qeq_bool (frames t) 0 then Ok 0%Q else Err ValueError
  end.
Proof. unfold T_seconds, fdiv. destruct (fps t); reflexivity. Qed.

Lemma T_seconds_whole sec p : 0 < p -> Z.abs (sec * p) <= 2 ^ 53 ->
  T_seconds (mkT (inject_Z (sec * p)) (Some (inject_Z p))) = Ok (inject_Z sec).
Proof.
  intros Hp Hs. unfold T_seconds. cbn [fps frames]. unfold fdiv. f_equal. apply rnd64_eqZ.
  - rewrite inject_Z_mult. pose proof (inject_Z_pos p Hp). field. lra.
  - nia.
Qed.

(** ** Equality and hashing *)
Lemma T_hash_partial a b : T_ok a -> T_ok b -> T_eq a (CT b) = Ok true -> (frames a == 0)%Q \/ fps a = fps b ->
  T_hash a = T_hash b.
Proof.
  intros [Ha _] [Hb _] He Hc. unfold T_eq in He.
  assert (HF : (frames a == frames b)%Q).
  { unfold T_compare in He. destruct (fps b), (fps a); try destruct (Qeq_bool _ _) eqn:?; inversion He; subst; now apply Qeq_bool_iff. }
  assert (HL : frames a = frames b) by (now apply dbl_eq).
  unfold T_hash. rewrite HL. destruct Hc as [Hc|Hc].
  - rewrite HL in Hc. apply Qeq_bool_iff in Hc. now rewrite Hc.
  - now rewrite Hc.
Qed.

(** ** Non-positive speeds *)
Lemma T_fps_positive v c t : T_init v c = Ok t -> match fps t with Some f => (0 < f)%Q | None => c = None end.
Proof.
  unfold T_init. destruct c as [a|]; cbn [ctx_fps].
  - destruct (aget (s "fps") a) as [x|]; [|discriminate]. destruct (float_of_aval x) as [f|]; [|discriminate]. cbn [bind].
    destruct (Qle_bool f 0) eqn:E; [discriminate|]. cbn [bind]. apply Qle_bool_false in E.
    match goal with |- context[bind ?M _] => destruct M end; [|discriminate]. cbn [bind]. intros [= <-]. exact E.
  - cbn [bind]. match goal with |- context[bind ?M _] => destruct M end; [|discriminate]. cbn [bind]. intros [= <-]. reflexivity.
Qed.
Lemma T_fps_nonpositive v a x f : aget (s "fps") a = Some x -> float_of_aval x = Ok f -> (f <= 0)%Q ->
  T_init v (Some a) = Err ValueError.
Proof.
  intros H1 H2 H3. unfold T_init. cbn [ctx_fps]. rewrite H1, H2. cbn [bind]. apply Qle_bool_iff in H3. now rewrite H3.
Qed.

(** ** Order *)
Lemma T_order a b : compat a b ->
  (T_lt a (CT b) = Ok true <-> frames a < frames b)%Q
  /\ (T_eq a (CT b) = Ok true <-> frames a == frames b)%Q
  /\ (T_gt a (CT b) = Ok true <-> frames b < frames a)%Q
  /\ (T_le a (CT b) = Ok true <-> frames a <= frames b)%Q
  /\ (T_ge a (CT b) = Ok true <-> frames b <= frames a)%Q
  /\ (T_ne a (CT b) = Ok true <-> ~ frames a == frames b)%Q
  /\ (forall op, In op [T_lt; T_eq; T_gt; T_le; T_ge; T_ne] -> exists r, op a (CT b) = Ok r).
Proof.
  intros H. destruct (six_comparisons a b H) as (lt & eq & gt & le & ge & ne & -> & -> & -> & -> & -> & -> & H1 & H2 & H3 & H4 & H5 & H6).
  assert (HO : forall x : bool, Ok x = Ok true <-> x = true) by (intros x; split; [intros [= ->]; reflexivity|intros ->; reflexivity]).
  rewrite !HO. repeat (split; [assumption|]).
  intros op [<-|[<-|[<-|[<-|[<-|[<-|[]]]]]]]; unfold T_gt, T_le, T_ge, T_ne, T_lt, T_eq; rewrite !compare_compat by assumption; cbn [bind]; try destruct (Qlt_bool _ _); eauto.
Qed.

Lemma T_conflict a b op : In op [T_lt; T_eq; T_gt; T_le; T_ge; T_ne] -> ~ compat a b -> op a (CT b) = Err ValueError.
Proof.
  intros Hin H. destruct Hin as [<-|[<-|[<-|[<-|[<-|[<-|[]]]]]]]; unfold T_gt, T_le, T_ge, T_ne, T_lt, T_eq; rewrite !compare_conflict by assumption; reflexivity.
Qed.

Lemma compat_dec a b : compat a b \/ ~ compat a b.
Proof. unfold compat. destruct (fps a), (fps b); auto. destruct (Qeq_dec q q0); auto. Qed.

Lemma T_conflict_iff a b op : In op [T_lt; T_eq; T_gt; T_le; T_ge; T_ne] ->
  (op a (CT b) = Err ValueError <-> exists f g, fps a = Some f /\ fps b = Some g /\ ~ (f == g)%Q).
Proof.
  intros Hin. split.
  - intros H. destruct (compat_dec a b) as [HC|HC].
    + destruct (T_order a b HC) as (_ & _ & _ & _ & _ & _ & HO). destruct (HO op Hin) as [r HR]. congruence.
    + unfold compat in HC. destruct (fps a) as [f|], (fps b) as [g|]; try tauto. exists f, g. auto.
  - intros (f & g & H1 & H2 & H3). apply T_conflict; auto. unfold compat. now rewrite H1, H2.
Qed.

Lemma T_trichotomy a b : compat a b ->
  ( (T_lt a (CT b) = Ok true  /\ T_eq a (CT b) = Ok false /\ T_gt a (CT b) = Ok false)
    \/ (T_lt a (CT b) = Ok false /\ T_eq a (CT b) = Ok true  /\ T_gt a (CT b) = Ok false)
    \/ (T_lt a (CT b) = Ok false /\ T_eq a (CT b) = Ok false /\ T_gt a (CT b) = Ok true))
  /\ (T_le a (CT b) = Ok true <-> T_lt a (CT b) = Ok true \/ T_eq a (CT b) = Ok true)
  /\ (T_ge a (CT b) = Ok true <-> T_gt a (CT b) = Ok true \/ T_eq a (CT b) = Ok true)
  /\ (T_gt a (CT b) = Ok true <-> T_lt b (CT a) = Ok true).
Proof.
  intros H. assert (H' : compat b a). { unfold compat in *. destruct (fps a), (fps b); auto. now symmetry. }
  destruct (six_comparisons a b H) as (lt & eq & gt & le & ge & ne & -> & -> & -> & -> & -> & _ & H1 & H2 & H3 & H4 & H5 & H6).
  destruct (six_comparisons b a H') as (lt' & _ & _ & _ & _ & _ & -> & _ & _ & _ & _ & _ & H7 & _).
  assert (HO : forall x : bool, Ok x = Ok true <-> x = true) by (intros x; split; [intros [= ->]; reflexivity|intros ->; reflexivity]).
  rewrite !HO. split; [|split; [|split]].
  - destruct lt, eq, gt; try tauto; exfalso;
      repeat match goal with H : (true = true <-> _) |- _ => destruct H as [H _]; specialize (H eq_refl)
             | H : (false = true <-> _) |- _ => destruct H as [_ H] end; try lra.
  - rewrite H4, H1, H2. split; [intros HL; apply Qle_lteq in HL; tauto|intros [HL|HL]; lra].
  - rewrite H5, H3, H2. split; [intros HL; apply Qle_lteq in HL as [HL|HL]; [tauto|right; now symmetry]|intros [HL|HL]; lra].
  - rewrite H3, H7. reflexivity.
Qed.

Lemma T_transitive a b c : compat a b -> compat b c -> compat a c ->
  T_lt a (CT b) = Ok true -> T_lt b (CT c) = Ok true -> T_lt a (CT c) = Ok true.
Proof.
  intros H1 H2 H3. rewrite (proj1 (T_order a b H1)), (proj1 (T_order b c H2)), (proj1 (T_order a c H3)). intros; lra.
Qed.

Lemma T_seconds_spec t :
  (T_seconds t = Err ValueError <-> fps t = None /\ ~ (frames t == 0)%Q)
  /\ (forall e, T_seconds t = Err e -> e = ValueError)
  /\ (fps t = None -> (frames t == 0)%Q -> T_seconds t = Ok 0%Q)
  /\ (forall f, fps t = Some f -> exists r, T_seconds t = Ok r /\ is_dbl r
        /\ forall d, is_dbl d -> (Qabs (r - frames t / f) <= Qabs (d - frames t / f))%Q).
Proof.
  rewrite T_seconds_val. destruct (fps t) as [f|] eqn:E.
  - split; [split; [discriminate|intros [H _]; discriminate]|]. split; [discriminate|]. split; [discriminate|].
    intros g [= <-]. eexists. split; [reflexivity|]. split; [apply rnd64_is_dbl|]. intros d Hd. now apply rnd64_best.
  - destruct (Qeq_bool_dec (frames t) 0) as [[-> H]|[-> H]].
    + split; [split; [discriminate|tauto]|]. split; [discriminate|]. split; [reflexivity|discriminate].
    + split; [tauto|]. split; [now intros e [= <-]|]. split; [tauto|discriminate].
Qed.

Lemma T_any_tag (root doc : node) anc n v : at_path root anc n -> tag_name root = s "canvas" ->
  T_new v (RTag n (anc ++ [doc])) = T_init v (Some (tag_attrs root))
  /\ T_new v (RHasTag n (anc ++ [doc])) = T_init v (Some (tag_attrs root)).
Proof. intros H Hc. unfold T_new, ref_ctx. rewrite (canvas_root_doc root anc n doc H Hc). split; reflexivity. Qed.

Lemma T_detached (top : node) anc n v : at_path top anc n ->
  (forall c, In c (tag_kids top) -> tag_name c <> s "canvas") -> T_new v (RTag n anc) = T_new v RNone.
Proof. intros H Hc. unfold T_new, ref_ctx. now rewrite (canvas_root_detached top anc n H Hc). Qed.
