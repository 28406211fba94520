(** Recreating gradients and transformations from their expressions. *)
From Coq Require Import Lqa Permutation.
From Verif Require Import PexModel PexSpec SerProofs ValProofs ValProofs2 ValSpec PyRoundProofs PyFmtProofs2 PexProofs PexProofs2.
From Verif Require Import PyFmtProofs PyFloatProofs ValProofs2 ValSpec.
Local Open Scope Z_scope.

Lemma Ok_inj {A} (a b : A) : Ok a = Ok b -> a = b.
Proof. intros H. now injection H. Qed.

(** The text x is a literal for v wherever it stands in a dictionary. *)
Definition entry (f0 : nat) (x : pstr) (v : pyval) : Prop :=
  (exists c t, x = c :: t /\ blank_char c = false /\ c <> 125%N) /\ forall f r, (f0 <= f)%nat -> ends_number r -> read f (x ++ r) = Some (v, r).

Lemma entry_more f0 f1 x v : (f0 <= f1)%nat -> entry f0 x v -> entry f1 x v.
Proof. intros Hf [H1 H2]. split; [exact H1|]. intros f r Hr. apply H2. lia. Qed.

Lemma entry_skip f0 x v r : entry f0 x v -> skip (x ++ r) = x ++ r.
Proof. intros [(c & t & -> & Hb & _) _]. cbn [app skip]. now rewrite Hb. Qed.
Lemma entry_head f0 x v r : entry f0 x v -> match x ++ r with c :: _ => c <> 125%N | [] => True end.
Proof. intros [(c & t & -> & _ & Hb) _]. exact Hb. Qed.

Lemma entry_float q : is_dbl q -> entry 1 (repr_float q) (PFlo q).
Proof.
  intros H. split.
  - destruct (repr_head q) as (c & t & -> & Hc). exists c, t. split; [reflexivity|].
    destruct Hc as [Hc| ->]; [|split; [reflexivity|discriminate]]. apply is_digit_iff in Hc. unfold blank_char. split; lia.
  - intros f r Hf Hr. destruct f as [|f]; [lia|]. now apply read_float.
Qed.
Lemma entry_tuple l : (2 <= length l)%nat -> Forall is_dbl l -> entry (S (S (length l))) (tuple_str l) (PTuple (map PFlo l)).
Proof.
  intros H2 H. split.
  - destruct l as [|q [|q' l]]; cbn [length] in H2; [lia|lia|]. exists 40%N. eexists. split; [reflexivity|]. split; [reflexivity|discriminate].
  - intros f r Hf _. apply read_tuple_str; [exact H2|exact H|lia].
Qed.
Lemma entry_string pr x : code_points x -> entry 1 (repr_str pr x) (PStr x).
Proof.
  intros H. split.
  - unfold repr_str. set (q := repr_quote x). assert (Hq : q = 39%N \/ q = 34%N) by (unfold q, repr_quote; destruct (_ && _); auto).
    exists q. eexists. split; [reflexivity|]. destruct Hq as [-> | ->]; split; [reflexivity|discriminate|reflexivity|discriminate].
  - intros f r Hf _. destruct f as [|f]; [lia|]. now apply read_string.
Qed.

(** ** Items next to each other, as in gradients *)

Definition tight (a : pstr * pstr) : pstr := fst a ++ s ":" ++ snd a.
Definition both (f0 : nat) (a : pstr * pstr) (b : pyval * pyval) : Prop := entry f0 (fst a) (fst b) /\ entry f0 (snd a) (snd b).

Lemma read_tight f0 l d : Forall2 (both f0) l d -> l <> [] -> forall f r, (length l + f0 < f)%nat ->
  read_dict f (join (s ",") (map tight l) ++ 125%N :: r) = Some (d, r).
Proof.
  induction 1 as [|[kx vx] [k v] l d [Hk Hv] Hl IH]; intros Hne f r Hf; [contradiction|]. cbn [fst snd] in *.
  destruct f as [|f]; [lia|]. cbn [length] in Hf.
  assert (STEP : forall rest, ends_number rest ->
    read_dict (S f) (tight (kx, vx) ++ rest) =
      match skip rest with
      | 44%N :: r' => match read_dict f (skip r') with Some (l, b) => Some ((k, v) :: l, b) | None => None end
      | 125%N :: r' => Some ([(k, v)], r')
      | _ => None
      end).
  { intros rest He. unfold tight. cbn [fst snd]. rewrite <- !app_assoc. rewrite read_dict_step by exact (entry_head _ _ _ _ Hk).
    rewrite (proj2 Hk) by (first [lia|reflexivity]). change (s ":" ++ vx ++ rest) with (58%N :: vx ++ rest).
    replace (skip (58%N :: vx ++ rest)) with (58%N :: vx ++ rest) by reflexivity. cbv iota.
    rewrite (entry_skip _ _ _ _ Hv). rewrite (proj2 Hv) by (first [lia|exact He]). reflexivity. }
  destruct l as [|b l].
  - inversion Hl; subst. cbn [map join]. rewrite STEP by reflexivity. reflexivity.
  - change (join (s ",") (map tight ((kx, vx) :: b :: l))) with (tight (kx, vx) ++ [44%N] ++ join (s ",") (map tight (b :: l))).
    rewrite <- app_assoc. rewrite STEP by reflexivity.
    change (([44%N] ++ join (s ",") (map tight (b :: l))) ++ 125%N :: r) with (44%N :: join (s ",") (map tight (b :: l)) ++ 125%N :: r).
    replace (skip (44%N :: join (s ",") (map tight (b :: l)) ++ 125%N :: r)) with (44%N :: join (s ",") (map tight (b :: l)) ++ 125%N :: r) by reflexivity.
    cbv iota. replace (skip (join (s ",") (map tight (b :: l)) ++ 125%N :: r)) with (join (s ",") (map tight (b :: l)) ++ 125%N :: r).
    + rewrite IH by (first [discriminate|lia]). reflexivity.
    + symmetry. destruct b as [kx' vx']. inversion Hl as [|? [k' v'] ? ? [Hk' _] _]; subst. cbn [fst] in Hk'.
      destruct l as [|b l]; unfold tight; cbn [map join fst snd]; rewrite <- !app_assoc; apply (entry_skip _ _ _ _ Hk').
Qed.

(** ** Items on lines, as in transformations *)

Definition lined (p : nat) (a : pstr * pstr) : pstr := repeat 32%N p ++ fst a ++ s ": " ++ snd a ++ [44%N; 10%N].

Lemma skip_blanks p x : skip (repeat 32%N p ++ x) = skip x.
Proof. induction p as [|p IH]; [reflexivity|exact IH]. Qed.

Lemma read_lined f0 (pads : pstr * pstr -> nat) q l d : Forall2 (both f0) l d -> forall f r, (length l + f0 < f)%nat ->
  read_dict f (skip (concat (map (fun a => lined (pads a) a) l) ++ repeat 32%N q ++ 125%N :: r)) = Some (d, r).
Proof.
  induction 1 as [|[kx vx] [k v] l d [Hk Hv] Hl IH]; intros f r Hf; (destruct f as [|f]; [lia|]).
  - cbn [map concat app]. rewrite skip_blanks. reflexivity.
  - cbn [length] in Hf. cbn [map concat fst snd] in *. set (tl := concat (map (fun a => lined (pads a) a) l)) in *. unfold lined. cbn [fst snd].
    set (p := pads (kx, vx)). clearbody p. rewrite <- !app_assoc. rewrite skip_blanks. rewrite (entry_skip _ _ _ _ Hk).
    rewrite read_dict_step by exact (entry_head _ _ _ _ Hk). rewrite (proj2 Hk) by (first [lia|reflexivity]).
    set (rest := tl ++ repeat 32%N q ++ 125%N :: r) in *.
    change (s ": " ++ vx ++ [44%N; 10%N] ++ rest) with (58%N :: 32%N :: vx ++ 44%N :: 10%N :: rest).
    replace (skip (58%N :: 32%N :: vx ++ 44%N :: 10%N :: rest)) with (58%N :: 32%N :: vx ++ 44%N :: 10%N :: rest) by reflexivity. cbv iota.
    change (skip (32%N :: vx ++ 44%N :: 10%N :: rest)) with (skip (vx ++ 44%N :: 10%N :: rest)).
    rewrite (entry_skip _ _ _ _ Hv). rewrite (proj2 Hv) by (first [lia|reflexivity]).
    replace (skip (44%N :: 10%N :: rest)) with (44%N :: 10%N :: rest) by reflexivity. cbv iota.
    change (skip (10%N :: rest)) with (skip rest). unfold rest. rewrite IH by lia. reflexivity.
Qed.

Lemma read_braces f x : read (S f) (123%N :: x) =
  match read_dict f (skip x) with
  | Some (l, b) => match dict_of l with Some v => Some (v, b) | None => None end
  | None => None
  end.
Proof. reflexivity. Qed.

(** ** Gradients *)

Lemma number_items_map {A} (g : A -> Q) (h : A -> pyval) l : number_items (map (fun a => (PFlo (g a), h a)) l) = Some (map (fun a => (g a, h a)) l).
Proof. induction l as [|a l IH]; [reflexivity|]. cbn [map number_items]. now rewrite IH. Qed.

Lemma position_dbl m : is_dbl (position m).
Proof. apply rnd64_is_dbl. Qed.

Lemma recreate_gradient pr n cx d : shows n cx d -> gradient_ok d ->
  exists m, recreates pr VGradient n cx m /\ forall cy, shows m cy (six_each d).
Proof.
  intros (l & Hl & HF) Hok. destruct (gradient_dict_shows (empty_tag VGradient) d d (Permutation_refl _) Hok) as (m & Hm & _ & _ & Hs).
  exists m. split; [|intros cy; apply (Hs cy)].
  set (ls := map (fun a : stop => (repr_float (position (fst a)), tuple_str (snd a))) d).
  set (ds := map (fun a : stop => (PFlo (position (fst a)), colour_arg (snd a))) d).
  exists (EStr (s "{" ++ join (s ",") (map tight ls) ++ s "}")), (PDictF (map (fun a => (position (fst a), colour_arg (snd a))) d)). split; [|split].
  - cbn [expression]. unfold gradient_expr. cbn [get_value] in Hl. destruct (gradient_val n cx) as [l'|] eqn:EG; [|discriminate].
    cbn [bind] in Hl. apply Ok_inj in Hl. injection Hl as ->. cbn [bind].
    replace (mapM _ l) with (Ok (map tight ls)); [reflexivity|]. symmetry. unfold ls. rewrite map_map.
    clear - HF. induction HF as [|[k v] a l d [Hk (t & Ht & Hc)] _ IH]; [reflexivity|]. cbn [fst snd] in *. cbn [mapM map fst snd]. subst k v.
    cbn [flat_expr]. rewrite Hc. cbn [bind expr_text]. rewrite IH. reflexivity.
  - exists (S (S (length d + 6))). cbn [expr_text]. destruct Hok as (Hi & Ho & H2).
    change (s "{" ++ join (s ",") (map tight ls) ++ s "}") with (123%N :: join (s ",") (map tight ls) ++ [125%N]). rewrite read_braces.
    assert (HB : Forall2 (both 6) ls ds).
    { unfold ls, ds. clear - Ho. induction Ho as [|a d (_ & H4 & Hd) _ IH]; constructor; [|exact IH]. split; cbn [fst snd].
      - apply (entry_more 1); [lia|]. apply entry_float, position_dbl.
      - replace 6%nat with (S (S (length (snd a)))) by (rewrite H4; reflexivity). apply entry_tuple; [rewrite H4; lia|exact Hd]. }
    assert (HL : length ls = length d) by (unfold ls; apply map_length).
    replace (skip (join (s ",") (map tight ls) ++ [125%N])) with (join (s ",") (map tight ls) ++ [125%N]).
    + rewrite (read_tight 6 ls ds HB); [|intros E; rewrite E in HL; cbn [length] in HL; lia|lia].
      assert (E : dict_of ds = Some (PDictF (map (fun a => (position (fst a), colour_arg (snd a))) d))).
      { unfold dict_of, ds. rewrite (number_items_map (fun a : stop => position (fst a)) (fun a => colour_arg (snd a)) d).
        rewrite (qdict_distinct _ d); [|clear; induction d; constructor; auto|exact Hi|exact Ho].
        destruct d as [|a d]; [cbn in H2; lia|reflexivity]. }
      rewrite E. reflexivity.
    + symmetry. destruct ls as [|[kx vx] ls']; [cbn [length] in HL; lia|]. inversion HB as [|? [k v] ? ? [Hk _] _]; subst. cbn [fst] in Hk.
      destruct ls' as [|b ls']; unfold tight; cbn [map join fst snd]; rewrite <- !app_assoc; apply (entry_skip _ _ _ _ Hk).
  - unfold new_value. rewrite Hm. reflexivity.
Qed.

(** ** Transformations *)

Lemma in_aset {V} k (v : V) d x : In x (aset k v d) -> x = (k, v) \/ In x d.
Proof.
  induction d as [|[k' v'] d IH]; cbn [aset]; [intros [<-|[]]; auto|]. destruct (pstr_eqb k k') eqn:E.
  - apply pstr_eqb_spec in E as ->. intros [<-|H]; cbn; auto.
  - intros [<-|H]; cbn; auto. destruct (IH H); auto.
Qed.
Lemma in_adict {V} (l : list (pstr * V)) x : In x (adict l) -> In x l.
Proof.
  unfold adict. assert (G : forall d, In x (fold_left (fun d kv => aset (fst kv) (snd kv) d) l d) -> In x d \/ In x l).
  { induction l as [|[k v] l IH]; intros d H; cbn [fold_left] in H; auto. apply IH in H as [H|H]; cbn; auto.
    apply in_aset in H as [->|H]; auto. }
  intros H. apply G in H as [[]|H]; assumption.
Qed.

Lemma part_class n cx d k c t cy : composite_val n cx = Ok d -> In (k, PVal c t cy) d -> from_tag t = Ok c.
Proof.
  unfold composite_val. destruct (mapM (composite_field cx) (child_tags n)) as [l|] eqn:E; [|discriminate]. cbn [bind].
  destruct (same_keys _ _); [|discriminate]. intros H Hi. apply Ok_inj in H. subst d. apply in_adict in Hi.
  apply mapM_ok_Forall2 in E. induction E as [|f y fs ys Hf _ IH]; [destruct Hi|]. destruct Hi as [->|Hi]; [|now apply IH].
  unfold composite_field in Hf. destruct (pstr_eqb _ _); [discriminate|]. destruct (child_tags f) as [|v [|? ?]]; try discriminate.
  destruct (from_tag v) as [c'|] eqn:Ec; [|discriminate]. cbn [bind] in Hf. apply Ok_inj in Hf. injection Hf as _ <- <- _. exact Ec.
Qed.

(** What is written for each of the four. *)
Definition word4 (ox oy a k sx sy : Q) (key : pstr) : pstr * pyval :=
  if pstr_eqb key (s "offset") then (tuple_str [ox; oy], PTuple [PFlo ox; PFlo oy])
  else if pstr_eqb key (s "angle") then (repr_float a, PFlo a)
  else if pstr_eqb key (s "skew_angle") then (repr_float k, PFlo k)
  else (tuple_str [sx; sy], PTuple [PFlo sx; PFlo sy]).

Lemma string_items_map {A} (g : A -> pstr) (h : A -> pyval) l : string_items (map (fun a => (PStr (g a), h a)) l) = Some (map (fun a => (g a, h a)) l).
Proof. induction l as [|a l IH]; [reflexivity|]. cbn [map string_items]. now rewrite IH. Qed.

Lemma recreate_transformation pr n cx d t1 t2 t3 t4 ox oy a k sx sy :
  get_value VTransformation n cx = Ok (PDict d) -> Permutation d (four cx t1 t2 t3 t4) ->
  is_animated t1 = false -> is_animated t4 = false ->
  vector_tuple t1 = Ok [ox; oy] -> get_value VAngle t2 cx = Ok (PFlo a) -> get_value VAngle t3 cx = Ok (PFlo k) -> vector_tuple t4 = Ok [sx; sy] ->
  exists m, recreates pr VTransformation n cx m /\ forall cy,
    exists u1 u2 u3 u4,
    composite_getitem m cy (s "offset") = Ok (PVal VXY u1 cy) /\ vector_tuple u1 = Ok [round_dec 10 ox; round_dec 10 oy] /\
    composite_getitem m cy (s "angle") = Ok (PVal VAngle u2 cy) /\ get_value VAngle u2 cy = Ok (PFlo a) /\
    composite_getitem m cy (s "skew_angle") = Ok (PVal VAngle u3 cy) /\ get_value VAngle u3 cy = Ok (PFlo k) /\
    composite_getitem m cy (s "scale") = Ok (PVal VXY u4 cy) /\ vector_tuple u4 = Ok [round_dec 10 sx; round_dec 10 sy].
Proof.
  intros Hd HP A1 A4 V1 V2 V3 V4.
  pose proof (vector_tuple_dbl _ _ V1) as D1. pose proof (vector_tuple_dbl _ _ V4) as D4.
  pose proof (simple_val_cases VAngle t2 cx _ V2 ltac:(cbn; tauto)) as D2. pose proof (simple_val_cases VAngle t3 cx _ V3 ltac:(cbn; tauto)) as D3. cbv iota in D2, D3.
  cbn [get_value] in Hd. destruct (composite_val n cx) as [d'|] eqn:EC; [|discriminate]. cbn [bind] in Hd. apply Ok_inj in Hd. injection Hd as ->.
  assert (F1 : from_tag t1 = Ok VXY) by (eapply part_class; [exact EC|]; eapply Permutation_in; [apply Permutation_sym, HP|]; left; reflexivity).
  assert (F4 : from_tag t4 = Ok VXY) by (eapply part_class; [exact EC|]; eapply Permutation_in; [apply Permutation_sym, HP|]; right; right; right; left; reflexivity).
  set (W := word4 ox oy a k sx sy).
  set (ld := map (fun kv : pstr * pyval => (fst kv, snd (W (fst kv)))) d).
  assert (PL : Permutation ld (full ox oy a k sx sy)).
  { change (full ox oy a k sx sy) with (map (fun kv : pstr * pyval => (fst kv, snd (W (fst kv)))) (four cx t1 t2 t3 t4)). apply Permutation_map, HP. }
  assert (HM : exists m, set_value VTransformation (empty_tag VTransformation) (PDict ld) = (m, Ok tt)).
  { destruct (full_set (empty_tag VTransformation) ld ox oy a k sx sy cx eq_refl D2 D3 PL) as (m & Hm & _). exists m. exact Hm. }
  destruct HM as (m & Hm). exists m. split.
  2:{ intros cy. destruct (full_set (empty_tag VTransformation) ld ox oy a k sx sy cy eq_refl D2 D3 PL) as (m' & Hm' & HR).
      rewrite Hm in Hm'. injection Hm' as <-. exact (HR m (or_introl eq_refl)). }
  assert (HK : forall kv, In kv d -> In kv (four cx t1 t2 t3 t4)) by (intros kv; apply Permutation_in, HP).
  set (ls := map (fun kv : pstr * pyval => (repr_str pr (fst kv), fst (W (fst kv)))) d).
  set (ds := map (fun kv : pstr * pyval => (PStr (fst kv), snd (W (fst kv)))) d).
  set (pads := fun x : pstr * pstr => (5 + (40 - length (fst x)))%nat).
  exists (EStr ([123%N; 10%N] ++ concat (map (fun x => lined (pads x) x) ls) ++ repeat 32%N 36 ++ s "}")), (PDict ld). split; [|split].
  - cbn [expression]. unfold composite_expr. rewrite EC. cbn [bind].
    replace (mapM _ d) with (Ok (map (fun x => lined (pads x) x) ls)); [reflexivity|]. symmetry. unfold ls. rewrite map_map.
    clear - HK A1 A4 V1 V2 V3 V4 F1 F4. induction d as [|kv d IH]; [reflexivity|]. cbn [mapM map].
    assert (E : (match snd kv with
                 | PVal c m cy => let* e := flat_expr pr c m cy in Ok (repeat 32%N 5 ++ pad40 (repr_str pr (fst kv)) ++ s ": " ++ expr_text e ++ [44%N; 10%N])
                 | _ => Err EUnmodelled
                 end) = Ok (lined (pads (repr_str pr (fst kv), fst (W (fst kv)))) (repr_str pr (fst kv), fst (W (fst kv))))).
    { assert (G : forall key x, repeat 32%N 5 ++ pad40 key ++ s ": " ++ x ++ [44%N; 10%N] = lined (pads (key, x)) (key, x)).
      { intros key x. unfold lined, pads, pad40. cbn [fst snd]. rewrite repeat_app, <- !app_assoc. reflexivity. }
      destruct (HK kv (or_introl eq_refl)) as [<-|[<-|[<-|[<-|[]]]]]; cbn [fst snd].
      - rewrite (xy_text pr t1 cx ox oy F1 A1 V1). cbn [bind expr_text]. rewrite G. reflexivity.
      - cbn [flat_expr]. cbn [get_value] in V2. rewrite V2. cbn [bind py_str expr_text]. rewrite G. reflexivity.
      - cbn [flat_expr]. cbn [get_value] in V3. rewrite V3. cbn [bind py_str expr_text]. rewrite G. reflexivity.
      - rewrite (xy_text pr t4 cx sx sy F4 A4 V4). cbn [bind expr_text]. rewrite G. reflexivity. }
    rewrite E. cbn [bind]. rewrite IH by (intros x Hx; apply HK; right; exact Hx). reflexivity.
  - assert (HB : Forall2 (both 4) ls ds).
    { unfold ls, ds. clear - HK D1 D2 D3 D4. induction d as [|kv d IH]; constructor; [|apply IH; intros x Hx; apply HK; right; exact Hx].
      assert (HC : code_points (fst kv)) by (destruct (HK kv (or_introl eq_refl)) as [<-|[<-|[<-|[<-|[]]]]]; cbn [fst]; repeat constructor).
      split; [cbn [fst]; apply (entry_more 1); [lia|apply entry_string, HC]|]. cbn [snd].
      destruct (HK kv (or_introl eq_refl)) as [<-|[<-|[<-|[<-|[]]]]].
      - apply (entry_tuple [ox; oy]); [cbn; lia|exact D1].
      - apply (entry_more 1); [lia|]. apply (entry_float a D2).
      - apply (entry_more 1); [lia|]. apply (entry_float k D3).
      - apply (entry_tuple [sx; sy]); [cbn; lia|exact D4]. }
    exists (S (S (length d + 4))). cbn [expr_text].
    change ([123%N; 10%N] ++ concat (map (fun x => lined (pads x) x) ls) ++ repeat 32%N 36 ++ s "}")
      with (123%N :: 10%N :: concat (map (fun x => lined (pads x) x) ls) ++ repeat 32%N 36 ++ [125%N]).
    rewrite read_braces.
    change (skip (10%N :: concat (map (fun x => lined (pads x) x) ls) ++ repeat 32%N 36 ++ [125%N]))
      with (skip (concat (map (fun x => lined (pads x) x) ls) ++ repeat 32%N 36 ++ [125%N])).
    rewrite (read_lined 4 pads 36 ls ds HB) by (unfold ls; rewrite map_length; lia).
    unfold dict_of, ds. rewrite (string_items_map fst (fun kv : pstr * pyval => snd (W (fst kv))) d). fold ld. rewrite adict_id; [reflexivity|].
    eapply Permutation_NoDup; [apply Permutation_map, Permutation_sym, PL|]. repeat (constructor; [cbn; intuition discriminate|]). constructor.
  - unfold new_value. rewrite Hm. reflexivity.
Qed.
