(** Reading the texts that [repr()] writes. *)
From Coq Require Import Lqa.
From Verif Require Import PexModel PexSpec SerProofs ValProofs ValProofs2 ValSpec PyFmtProofs2.
From Verif Require Import PyFmtProofs.
Local Open Scope Z_scope.

(** ** Numbers *)

Lemma repr_shape q : exists neg b, repr_float q = minus_if neg ++ b /\
  (match b with c :: _ => is_digit c = true | [] => False end) /\ existsb (fun c => negb (is_digit c)) b = true.
Proof.
  assert (HF : forall k m, match fmt_fixed k m with c :: _ => is_digit c = true | [] => False end).
  { intros k m. destruct (fmt_fixed_shape k m) as (ip & fp & -> & Hi & _ & Hne & _). destruct ip as [|c ip]; [contradiction|].
    cbn. inversion Hi; assumption. }
  assert (HA : forall a b : pstr, (match a with c :: _ => is_digit c = true | [] => False end) ->
            match a ++ b with c :: _ => is_digit c = true | [] => False end) by (intros [|c a] b; [contradiction|exact (fun h => h)]).
  unfold repr_float. destruct (Qeq_bool q 0); [exists false, (s "0.0"); repeat split|].
  destruct (repr_digits 16 1 (Qabs q)) as [[n m] x].
  exists (Qlt_bool q 0). eexists. split; [reflexivity|].
  destruct ((-4 <=? x) && (x <? 16)) eqn:E1.
  - destruct (x <? Z.of_nat n - 1) eqn:E2.
    + split; [apply HF|]. destruct (fmt_fixed_shape (Z.to_nat (Z.of_nat n - 1 - x)) m) as (ip & fp & -> & _).
      destruct (Z.to_nat (Z.of_nat n - 1 - x)) eqn:E; [lia|]. rewrite existsb_app'. cbn. apply orb_true_r.
    + split.
      * apply HA. apply (HF O).
      * rewrite existsb_app'. cbn. apply orb_true_r.
  - split; [apply HA, HF|]. rewrite existsb_app'. cbn. apply orb_true_r.
Qed.

Lemma not_all_digits b : existsb (fun c => negb (is_digit c)) b = true -> forallb is_digit b = false.
Proof. induction b as [|c b IH]; cbn; [discriminate|]. destruct (is_digit c); cbn; [exact IH|reflexivity]. Qed.

Lemma sign_digit c b : is_digit c = true -> minus_sign (c :: b) = (false, c :: b).
Proof.
  intros Hd. assert (H1 : c <> 45%N) by (apply is_digit_iff in Hd; lia).
  destruct c as [|c]; [reflexivity|]. repeat (destruct c as [c|c|]; try reflexivity); exfalso; apply H1; reflexivity.
Qed.
Lemma number_sign (neg : bool) b : (match b with c :: _ => is_digit c = true | [] => False end) ->
  minus_sign (minus_if neg ++ b) = (neg, b).
Proof.
  destruct b as [|c b]; [contradiction|]. intros Hd. destruct neg; cbn [minus_if app]; [reflexivity|].
  apply sign_digit. exact Hd.
Qed.

Lemma number_repr q : is_dbl q -> number (repr_float q) = Some (PFlo q).
Proof.
  intros Hq. pose proof (parse_repr q Hq) as HP. pose proof (repr_float_num q) as HN.
  destruct (repr_shape q) as (neg & b & E & Hd & Hx). rewrite E in *.
  unfold number. rewrite (number_sign neg b Hd), (not_all_digits b Hx).
  destruct (parse_unsigned b) as [[m e]|] eqn:EU.
  - apply all_num_app in HN as [_ HN].
    rewrite (parse_float_unsigned neg b m e HN) in HP; [|destruct b; [contradiction|left; exact Hd]|exact EU].
    injection HP as HP. cbv zeta in *. now rewrite HP.
  - exfalso. unfold parse_float in HP. rewrite (strip_num _ HN), (drop_underscores_num _ 0%N HN eq_refl) in HP.
    assert (Hs : split_sign (minus_if neg ++ b) = (neg, b)).
    { destruct b as [|c b]; [contradiction|]. destruct neg; [reflexivity|]. apply (split_sign_digit c b Hd). }
    rewrite Hs in HP. destruct (existsb (pstr_eqb (lower b)) [s "inf"; s "infinity"; s "nan"]); [discriminate|].
    rewrite EU in HP. discriminate.
Qed.

Lemma dec_N_head k : (k <> 0)%N -> match dec_N k with c :: _ => c <> 48%N | [] => False end.
Proof.
  intros Hk. pose proof (dec_N_lower k Hk) as HL. pose proof (dec_N_digits k) as HD. pose proof (dec_N_val k) as HV.
  pose proof (dec_N_nonempty k) as Hne. destruct (dec_N k) as [|c d]; [contradiction|]. intros ->.
  rewrite digits_val_cons in HV. cbn [length] in HL. inversion HD as [|? ? _ Hd]; subst. 
  pose proof (digits_val_bound d Hd) as HB.
  replace (N.of_nat (S (length d)) - 1)%N with (N.of_nat (length d)) in HL by lia. lia.
Qed.

Lemma number_dec z : number (dec_Z z) = Some (PInt z).
Proof.
  assert (HF : forall k, forallb is_digit (dec_N k) = true).
  { intros k. apply forallb_forall. intros c Hc. pose proof (dec_N_digits k) as H. unfold all_digits in H. rewrite Forall_forall in H. auto. }
  assert (HH : forall k, match dec_N k with c :: _ => is_digit c = true | [] => False end).
  { intros k. pose proof (dec_N_nonempty k) as Hne. pose proof (dec_N_digits k) as HD. destruct (dec_N k); [contradiction|]. inversion HD; assumption. }
  assert (HM : forall k (v : pyval), (match dec_N k with [] => None | 48%N :: _ :: _ => None | _ => Some v end) = Some v).
  { intros k v. destruct (N.eq_dec k 0) as [->|Hk]; [reflexivity|]. pose proof (dec_N_head k Hk) as H.
    destruct (dec_N k) as [|c d]; [contradiction|]. destruct c as [|c]; [reflexivity|].
    repeat (destruct c as [c|c|]; try reflexivity). contradiction (H eq_refl). }
  assert (HZ : exists neg k, dec_Z z = minus_if neg ++ dec_N k /\ z = if neg : bool then - Z.of_N k else Z.of_N k).
  { unfold dec_Z. destruct (z <? 0) eqn:E; [exists true, (Z.to_N (- z))|exists false, (Z.to_N z)]; (split; [reflexivity|lia]). }
  destruct HZ as (neg & k & -> & ->). unfold number. rewrite (number_sign neg _ (HH k)), HF, HM, dec_N_val. destruct neg; reflexivity.
Qed.

Lemma numchar_number c : numchar c = true -> number_char c = true.
Proof. unfold numchar, number_char. intros ->. reflexivity. Qed.

(** What may come behind a number. *)
Definition ends_number (r : pstr) : Prop := match r with c :: _ => number_char c = false | [] => True end.

Lemma span_number w r : all_num w -> ends_number r -> span number_char (w ++ r) = (w, r).
Proof.
  intros Hw Hr. induction Hw as [|c w Hc _ IH].
  - cbn. destruct r as [|c r]; [reflexivity|]. cbn in Hr. cbn [span]. now rewrite Hr.
  - cbn [app span]. rewrite (numchar_number c Hc), IH. reflexivity.
Qed.

Lemma read_number f w r v : all_num w -> ends_number r ->
  (match w with c :: _ => is_digit c = true \/ c = 45%N | [] => False end) -> number w = Some v ->
  read (S f) (w ++ r) = Some (v, r).
Proof.
  intros Hw Hr Hh Hv. pose proof (span_number w r Hw Hr) as HS. destruct w as [|c w]; [contradiction|].
  cbn [app] in *. cbn [read].
  assert (HC : ((c =? 39) || (c =? 34) = false /\ (c =? 40) = false /\ (c =? 123) = false /\ is_digit c || (c =? 45) || (c =? 46) = true)%N).
  { destruct Hh as [H| ->]; [|repeat split]. pose proof H as H'. apply is_digit_iff in H'. rewrite H. repeat split; lia. }
  destruct HC as (-> & -> & -> & ->). rewrite HS, Hv. reflexivity.
Qed.

Lemma read_float f q r : is_dbl q -> ends_number r -> read (S f) (repr_float q ++ r) = Some (PFlo q, r).
Proof.
  intros Hq Hr. apply read_number; [apply repr_float_num|exact Hr| |apply number_repr, Hq].
  destruct (repr_shape q) as (neg & b & -> & Hd & _). destruct neg; cbn [minus_if app]; [now right|]. destruct b; [contradiction|now left].
Qed.

Lemma read_int f z r : ends_number r -> read (S f) (dec_Z z ++ r) = Some (PInt z, r).
Proof.
  intros Hr. apply read_number; [apply dec_Z_num|exact Hr| |apply number_dec].
  unfold dec_Z. destruct (z <? 0); [now right|].
  pose proof (dec_N_nonempty (Z.to_N z)) as Hne. pose proof (dec_N_digits (Z.to_N z)) as HD. destruct (dec_N (Z.to_N z)); [contradiction|]. inversion HD; now left.
Qed.

(** ** Strings *)

Lemma hex_aux_acc f n acc : hex_aux f n acc = hex_aux f n [] ++ acc.
Proof.
  revert n acc. induction f as [|f IH]; intros n acc; [reflexivity|]. cbn [hex_aux].
  destruct (n <? 16)%N; [reflexivity|]. rewrite (IH _ (_ :: acc)), (IH _ [_]), <- app_assoc. reflexivity.
Qed.

Lemma hex_val_char d : (d < 16)%N -> hex_val (hex_char d) = Some d.
Proof.
  intros H. unfold hex_char, hex_val, is_digit. destruct (d <? 10)%N eqn:E.
  - replace ((48 <=? 48 + d) && (48 + d <=? 57))%N with true by lia. f_equal. lia.
  - replace ((48 <=? 87 + d) && (87 + d <=? 57))%N with false by lia. replace ((97 <=? 87 + d) && (87 + d <=? 102))%N with true by lia. f_equal. lia.
Qed.

(** A run of hexadecimal digits, and the number it adds to the one read so far. *)
Definition hex_run (x : pstr) (n : N) : Prop := Forall (fun c => exists d, hex_val c = Some d) x /\
  forall acc, fold_left (fun a c => match hex_val c with Some d => 16 * a + d | None => a end)%N x acc = (acc * 16 ^ N.of_nat (length x) + n)%N.

Lemma hex_run_app a n b m : hex_run a n -> hex_run b m -> hex_run (a ++ b) (n * 16 ^ N.of_nat (length b) + m)%N.
Proof.
  intros [Ha1 Ha2] [Hb1 Hb2]. split; [now apply Forall_app|]. intros acc. rewrite fold_left_app, Ha2, Hb2, app_length.
  rewrite Nat2N.inj_add, N.pow_add_r. lia.
Qed.
Lemma hex_run_one d : (d < 16)%N -> hex_run [hex_char d] d.
Proof.
  intros H. split.
  - constructor; [|constructor]. exists d. now apply hex_val_char.
  - intros acc. cbn [fold_left length]. rewrite (hex_val_char d H). change (16 ^ N.of_nat 1)%N with 16%N. lia.
Qed.
Lemma hex_run_zeros k : hex_run (repeat 48%N k) 0.
Proof.
  induction k as [|k IH]; [split; [constructor|intros acc; cbn; lia]|].
  change (repeat 48%N (S k)) with ([hex_char 0] ++ repeat 48%N k).
  pose proof (hex_run_app [hex_char 0] 0 (repeat 48%N k) 0 (hex_run_one 0 ltac:(lia)) IH) as H. exact H.
Qed.

Lemma hex_aux_run f n : (n < 2 ^ N.of_nat f)%N -> (0 < f)%nat -> hex_run (hex_aux f n []) n /\
  (forall k, (0 < k)%nat -> (n < 16 ^ N.of_nat k)%N -> (length (hex_aux f n []) <= k)%nat).
Proof.
  revert n. induction f as [|f IH]; intros n Hn Hf; [lia|]. cbn [hex_aux].
  destruct (n <? 16)%N eqn:E.
  - rewrite (N.mod_small n 16) by lia. split; [apply hex_run_one; lia|]. intros k Hk _. cbn. lia.
  - assert (Hf' : (0 < f)%nat). { destruct f; [|lia]. change (2 ^ N.of_nat 1)%N with 2%N in Hn. lia. }
    assert (Hd : (n / 16 < 2 ^ N.of_nat f)%N).
    { apply N.div_lt_upper_bound; [lia|]. rewrite Nat2N.inj_succ, N.pow_succ_r' in Hn. lia. }
    destruct (IH (n / 16)%N Hd Hf') as [H1 H2]. rewrite hex_aux_acc. split.
    + pose proof (hex_run_app _ _ _ _ H1 (hex_run_one (n mod 16) (N.mod_lt n 16 ltac:(lia)))) as H.
      cbn [length] in H. change (16 ^ N.of_nat 1)%N with 16%N in H.
      replace (n / 16 * 16 + n mod 16)%N with n in H by (pose proof (N.div_mod n 16 ltac:(lia)); lia). exact H.
    + intros k Hk Hb. destruct k as [|[|k]]; [lia|change (16 ^ N.of_nat 1)%N with 16%N in Hb; lia|].
      rewrite app_length. cbn [length].
      assert ((length (hex_aux f (n / 16) []) <= S k)%nat); [|lia].
      apply H2; [lia|]. apply N.div_lt_upper_bound; [lia|]. rewrite (Nat2N.inj_succ (S k)), N.pow_succ_r' in Hb. lia.
Qed.

Lemma hex_pad_run k n : (0 < k)%nat -> (n < 16 ^ N.of_nat k)%N -> hex_run (hex_pad k n) n /\ length (hex_pad k n) = k.
Proof.
  intros Hk Hn. assert (HL : (n < 2 ^ N.of_nat (S (N.to_nat (N.log2 n))))%N).
  { rewrite Nat2N.inj_succ, N2Nat.id. destruct (N.eq_dec n 0) as [->|Hz]; [reflexivity|]. apply N.log2_spec. lia. }
  destruct (hex_aux_run _ n HL ltac:(lia)) as [H1 H2]. unfold hex_pad, hex_N. split.
  - unfold pad0. pose proof (hex_run_app _ _ _ _ (hex_run_zeros (k - length (hex_aux (S (N.to_nat (N.log2 n))) n []))) H1) as H.
    rewrite N.mul_0_l, N.add_0_l in H. exact H.
  - apply pad0_len. now apply H2.
Qed.

(** The digits of an escape sequence *)
Lemma read_digits quote x : forall a rest, Forall (fun c => exists d, hex_val c = Some d) x -> x <> [] ->
  string_rest quote (Digits (length x) a) (x ++ rest)
  = match string_rest quote Plain rest with
    | Some (p, b) => Some (fold_left (fun a c => match hex_val c with Some d => 16 * a + d | None => a end)%N x a :: p, b)
    | None => None
    end.
Proof.
  induction x as [|c x IH]; intros a rest Hx Hne; [contradiction|]. inversion Hx as [|? ? [d Hd] Hx']; subst.
  cbn [length app string_rest fold_left]. rewrite Hd. destruct x as [|c' x]; [reflexivity|].
  cbn [length]. exact (IH (16 * a + d)%N rest Hx' ltac:(discriminate)).
Qed.

Lemma read_hex quote k n rest : (0 < k)%nat -> (n < 16 ^ N.of_nat k)%N ->
  string_rest quote (Digits k 0) (hex_pad k n ++ rest)
  = match string_rest quote Plain rest with Some (p, b) => Some (n :: p, b) | None => None end.
Proof.
  intros Hk Hn. destruct (hex_pad_run k n Hk Hn) as [[H1 H2] H3]. rewrite <- H3 at 1. rewrite read_digits; [|exact H1|intros E; rewrite E in H3; cbn in H3; lia].
  rewrite H2, N.mul_0_l, N.add_0_l. reflexivity.
Qed.

Lemma read_char printable quote c rest : quote = 39%N \/ quote = 34%N -> (c < 1114112)%N ->
  string_rest quote Plain (repr_char printable quote c ++ rest)
  = match string_rest quote Plain rest with Some (p, b) => Some (c :: p, b) | None => None end.
Proof.
  intros Hq Hc. unfold repr_char.
  assert (HB : forall t, string_rest quote Plain (92%N :: t) = string_rest quote Backslash t).
  { intros t. cbn [string_rest]. destruct Hq as [-> | ->]; reflexivity. }
  assert (HX : forall n, (n < 16 ^ N.of_nat 2)%N -> string_rest quote Plain ((s "\x" ++ hex_pad 2 n) ++ rest)
               = match string_rest quote Plain rest with Some (p, b) => Some (n :: p, b) | None => None end).
  { intros n Hn. rewrite <- app_assoc. change (s "\x") with [92%N; 120%N]. cbn [app]. rewrite HB.
    change (string_rest quote Backslash (120%N :: hex_pad 2 n ++ rest)) with (string_rest quote (Digits 2 0) (hex_pad 2 n ++ rest)).
    apply read_hex; [lia|exact Hn]. }
  assert (HK : c <> quote -> c <> 92%N -> c <> 10%N -> c <> 13%N -> c <> 0%N -> string_rest quote Plain ([c] ++ rest)
               = match string_rest quote Plain rest with Some (p, b) => Some (c :: p, b) | None => None end).
  { intros H1 H2 H3 H4 H5. cbn [app string_rest]. rewrite (proj2 (N.eqb_neq _ _) H1), (proj2 (N.eqb_neq _ _) H2), (proj2 (N.eqb_neq _ _) H3),
      (proj2 (N.eqb_neq _ _) H4), (proj2 (N.eqb_neq _ _) H5). reflexivity. }
  change (16 ^ N.of_nat 2)%N with 256%N in HX.
  destruct (c =? quote)%N eqn:E1; [|destruct (c =? 92)%N eqn:E2; [|destruct (c =? 9)%N eqn:E3; [|destruct (c =? 10)%N eqn:E4; [|destruct (c =? 13)%N eqn:E5]]]].
  - apply N.eqb_eq in E1. subst c. cbn [orb app]. rewrite HB. destruct Hq as [-> | ->]; reflexivity.
  - apply N.eqb_eq in E2. subst c. cbn [orb app]. rewrite HB. reflexivity.
  - apply N.eqb_eq in E3. subst c. cbn [orb]. change (s "\t" ++ rest) with (92%N :: 116%N :: rest). rewrite HB. reflexivity.
  - apply N.eqb_eq in E4. subst c. cbn [orb]. change (s "\n" ++ rest) with (92%N :: 110%N :: rest). rewrite HB. reflexivity.
  - apply N.eqb_eq in E5. subst c. cbn [orb]. change (s "\r" ++ rest) with (92%N :: 114%N :: rest). rewrite HB. reflexivity.
  - cbn [orb]. destruct ((c <? 32) || (c =? 127))%N eqn:E6; [apply HX; lia|].
    destruct (c <? 127)%N eqn:E7; [apply HK; lia|]. destruct (printable c); [apply HK; lia|].
    destruct (c <? 256)%N eqn:E8; [apply HX; lia|]. destruct (c <? 65536)%N eqn:E9.
    + rewrite <- app_assoc. change (s "\u") with [92%N; 117%N]. cbn [app]. rewrite HB.
      change (string_rest quote Backslash (117%N :: hex_pad 4 c ++ rest)) with (string_rest quote (Digits 4 0) (hex_pad 4 c ++ rest)).
      apply read_hex; [lia|]. change (16 ^ N.of_nat 4)%N with 65536%N. lia.
    + rewrite <- app_assoc. change (s "\U") with [92%N; 85%N]. cbn [app]. rewrite HB.
      change (string_rest quote Backslash (85%N :: hex_pad 8 c ++ rest)) with (string_rest quote (Digits 8 0) (hex_pad 8 c ++ rest)).
      apply read_hex; [lia|]. change (16 ^ N.of_nat 8)%N with 4294967296%N. lia.
Qed.

Lemma read_chars printable quote x rest : quote = 39%N \/ quote = 34%N -> code_points x ->
  string_rest quote Plain (flat_map (repr_char printable quote) x ++ quote :: rest) = Some (x, rest).
Proof.
  intros Hq Hx. induction Hx as [|c x Hc _ IH]; cbn [flat_map].
  - cbn [app string_rest]. now rewrite N.eqb_refl.
  - rewrite <- app_assoc, (read_char printable quote c _ Hq Hc), IH. reflexivity.
Qed.

Lemma repr_quote_cases x : repr_quote x = 39%N \/ repr_quote x = 34%N.
Proof. unfold repr_quote. destruct (existsb (N.eqb 39) x && negb (existsb (N.eqb 34) x)); auto. Qed.

Lemma read_string printable f x r : code_points x -> read (S f) (repr_str printable x ++ r) = Some (PStr x, r).
Proof.
  intros Hx. unfold repr_str. cbv zeta. pose proof (repr_quote_cases x) as Hq. set (q := repr_quote x) in *. clearbody q.
  cbn [app]. rewrite <- app_assoc. cbn [app read].
  replace ((q =? 39)%N || (q =? 34)%N) with true by lia. rewrite (read_chars printable q x r Hq Hx). reflexivity.
Qed.

(** ** Any bound that suffices gives the same *)

Lemma read_more f :
  (forall x v, read f x = Some v -> read (S f) x = Some v) /\
  (forall x v, read_tuple f x = Some v -> read_tuple (S f) x = Some v) /\
  (forall x v, read_dict f x = Some v -> read_dict (S f) x = Some v).
Proof.
  induction f as [|f (IH1 & IH2 & IH3)]; [split; [|split]; intros x v H; discriminate|]. split; [|split]; intros x v H.
  - remember (S f) as g eqn:Eg. rewrite Eg in H. cbn [read] in H |- *. destruct x as [|c x']; [exact H|].
    destruct ((c =? 39) || (c =? 34))%N; [exact H|]. destruct (c =? 40)%N.
    { destruct (read_tuple f (skip x')) as [[[l cm] b]|] eqn:E; [|discriminate]. subst g. rewrite (IH2 _ _ E). exact H. }
    destruct (c =? 123)%N.
    { destruct (read_dict f (skip x')) as [[l b]|] eqn:E; [|discriminate]. subst g. rewrite (IH3 _ _ E). exact H. }
    exact H.
  - remember (S f) as g eqn:Eg. rewrite Eg in H. cbn [read_tuple] in H |- *.
    assert (HG : (match read f x with
             | None => None
             | Some (v, r) =>
                 match skip r with
                 | 44%N :: r' => match read_tuple f (skip r') with
                                 | Some (l, comma, b) => Some (v :: l, comma, b)
                                 | None => None
                                 end
                 | 41%N :: r' => Some ([v], false, r')
                 | _ => None
                 end
             end) = Some v -> (match read g x with
             | None => None
             | Some (v, r) =>
                 match skip r with
                 | 44%N :: r' => match read_tuple g (skip r') with
                                 | Some (l, comma, b) => Some (v :: l, comma, b)
                                 | None => None
                                 end
                 | 41%N :: r' => Some ([v], false, r')
                 | _ => None
                 end
             end) = Some v).
    { subst g. destruct (read f x) as [[w r]|] eqn:E; [|discriminate]. rewrite (IH1 _ _ E).
      destruct (skip r) as [|c r']; [discriminate|]. destruct c as [|c]; [discriminate|].
      repeat (destruct c as [c|c|]; try discriminate; try exact (fun h => h)).
      destruct (read_tuple f (skip r')) as [[[l cm] b]|] eqn:E2; [|discriminate]. rewrite (IH2 _ _ E2). exact (fun h => h). }
    destruct x as [|c x']; [exact (HG H)|]. destruct c as [|c]; [exact (HG H)|].
    repeat (destruct c as [c|c|]; first [exact (HG H)|exact H|idtac]).
  - remember (S f) as g eqn:Eg. rewrite Eg in H. cbn [read_dict] in H |- *.
    assert (HG : (match read f x with
             | None => None
             | Some (k, r) =>
                 match skip r with
                 | 58%N :: r' =>
                     match read f (skip r') with
                     | None => None
                     | Some (v, r) =>
                         match skip r with
                         | 44%N :: r' => match read_dict f (skip r') with
                                         | Some (l, b) => Some ((k, v) :: l, b)
                                         | None => None
                                         end
                         | 125%N :: r' => Some ([(k, v)], r')
                         | _ => None
                         end
                     end
                 | _ => None
                 end
             end) = Some v -> (match read g x with
             | None => None
             | Some (k, r) =>
                 match skip r with
                 | 58%N :: r' =>
                     match read g (skip r') with
                     | None => None
                     | Some (v, r) =>
                         match skip r with
                         | 44%N :: r' => match read_dict g (skip r') with
                                         | Some (l, b) => Some ((k, v) :: l, b)
                                         | None => None
                                         end
                         | 125%N :: r' => Some ([(k, v)], r')
                         | _ => None
                         end
                     end
                 | _ => None
                 end
             end) = Some v).
    { subst g. destruct (read f x) as [[w r]|] eqn:E; [|discriminate]. rewrite (IH1 _ _ E).
      destruct (skip r) as [|c r']; [discriminate|]. destruct c as [|c]; [discriminate|].
      repeat (destruct c as [c|c|]; try discriminate).
      destruct (read f (skip r')) as [[w' r'']|] eqn:E2; [|discriminate]. rewrite (IH1 _ _ E2). clear r E r' E2.
      destruct (skip r'') as [|c r']; [discriminate|]. destruct c as [|c]; [discriminate|].
      repeat (destruct c as [c|c|]; try discriminate; try exact (fun h => h)).
      destruct (read_dict f (skip r')) as [[l b]|] eqn:E2; [|discriminate]. rewrite (IH3 _ _ E2). exact (fun h => h). }
    destruct x as [|c x']; [exact (HG H)|]. destruct c as [|c]; [exact (HG H)|].
    repeat (destruct c as [c|c|]; first [exact (HG H)|exact H|idtac]).
Qed.

Lemma read_mono f g x v : (f <= g)%nat -> read f x = Some v -> read g x = Some v.
Proof. induction 1 as [|g _ IH]; [exact (fun h => h)|]. intros H. now apply (proj1 (read_more g)), IH. Qed.
Lemma read_dict_mono f g x v : (f <= g)%nat -> read_dict f x = Some v -> read_dict g x = Some v.
Proof. induction 1 as [|g _ IH]; [exact (fun h => h)|]. intros H. now apply (proj2 (proj2 (read_more g))), IH. Qed.

Lemma literal_unique x v w : is_literal x v -> is_literal x w -> v = w.
Proof.
  intros [f Hf] [g Hg]. apply (read_mono f (f + g)) in Hf; [|lia]. apply (read_mono g (f + g)) in Hg; [|lia]. congruence.
Qed.
