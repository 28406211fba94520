(** Property C177: parts of a transformation that are held (HpaModel.v). *)
From Verif Require Import AnimModel LayModel WrSpec TlModel PrmSpec WpvModel WpvProofs PrtModel PrtSpec PrtProofs HpaModel.
From Coq Require Import Lia.
Local Open Scope Z_scope.

(** The part that j holds is the one with the name k, of the transformation as it is now; j was got from it as one of the class c. *)
Definition holds_part (st : pstate) (j : N) (k : pstr) (c : vcls) : Prop := p_held st j = Some (mkHp (length (p_old st)) k c).
(** j is held, and was got before the transformation was last assigned to *)
Definition left_behind (st : pstate) (j : N) : Prop := exists h, p_held st j = Some h /\ (p_gen h < length (p_old st))%nat.
(** The names of the parts *)
Definition four_names : list pstr := [s "offset"; s "angle"; s "skew_angle"; s "scale"].

Lemma tag_of n d k : has_parts n d -> part_tag n k = aget k d.
Proof.
  intros [F N]. unfold part_tag. pose proof (named_one _ _ k F N) as H. destruct (aget k d) as [t|]; [|now rewrite H]. destruct H as (f & -> & ->). reflexivity.
Qed.
Lemma now_gen st : gen_of st (length (p_old st)) = Some (p_now st).
Proof. unfold gen_of. now rewrite Nat.eqb_refl. Qed.
Lemma now_tag st j k c d : holds_part st j k c -> has_parts (p_now st) d -> held_tag st j = aget k d.
Proof. unfold holds_part, held_tag. intros -> H. cbn [p_gen p_key]. rewrite now_gen. now apply tag_of. Qed.

(** C177: getting a part by its name holds that part, whatever else is held; *)
Theorem C177_get : forall st d j k t c, has_parts (p_now st) d -> aget k d = Some t -> from_tag t = Ok c ->
  exists st', pstep st (PGet j k) = (st', Ok tt) /\ p_now st' = p_now st /\ holds_part st' j k c /\ held_tag st' j = Some t /\ forall i, i <> j -> held_tag st' i = held_tag st i.
Proof.
  intros st d j k t c H A C. cbn [pstep]. rewrite (part_read _ _ _ _ H), A, C. cbn [bind]. eexists. split; [reflexivity|]. split; [reflexivity|].
  assert (X : p_hold (p_held st) j (mkHp (length (p_old st)) k c) j = Some (mkHp (length (p_old st)) k c)) by (unfold p_hold; now rewrite N.eqb_refl).
  split; [exact X|]. split.
  - rewrite <- A. apply (now_tag _ j k c d); [exact X|exact H].
  - intros i D. unfold held_tag. cbn [p_held]. unfold p_hold. apply N.eqb_neq in D. now rewrite D.
Qed.
Print Assumptions C177_get.
(** assigning to it changes that part of the transformation, as a value by itself would be, with the same result. All who hold this part see it, and the other parts are as they were. *)
Theorem C177_partial : forall st d j k c t v m r, has_parts (p_now st) d -> holds_part st j k c -> aget k d = Some t -> set_value c t v = (m, r) ->
  exists st' d', pstep st (PSet j v) = (st', r) /\ has_parts (p_now st') d' /\ map fst d' = map fst d /\ aget k d' = Some m /\ (forall k', k' <> k -> aget k' d' = aget k' d) /\
    (forall i c', holds_part st i k c' -> held_tag st' i = Some m) /\ (forall i k' c', k' <> k -> holds_part st i k' c' -> held_tag st' i = held_tag st i) /\
    (forall i, left_behind st i -> held_tag st' i = held_tag st i).
Proof.
  intros st d j k c t v m r H J A S. cbn [pstep]. rewrite (now_tag _ _ _ _ _ J H), A. pose proof J as J0. unfold holds_part in J0. rewrite J0. cbn [p_gen p_key p_cls]. rewrite now_gen, S. unfold put_gen. rewrite Nat.eqb_refl.
  assert (T : is_tag m = true). { replace m with (fst (set_value c t v)) by now rewrite S. apply set_value_tag. destruct H as [F N]. pose proof (named_one _ _ k F N) as X. rewrite A in X. destruct X as (f & _ & X). apply (child_is_tag f). rewrite X. now left. }
  pose proof (with_part_has (p_now st) d k m T H) as P. set (st' := mkP _ _ _). exists st', (put_part d k m). split; [reflexivity|]. split; [exact P|]. split; [apply put_fst|].
  split; [apply put_get_same; congruence|]. split; [intros k' D; now apply put_get_other|].
  split; [|split].
  - intros i c' I. rewrite (now_tag st' i k c' (put_part d k m) I P). apply put_get_same. congruence.
  - intros i k' c' D I. rewrite (now_tag st' i k' c' (put_part d k m) I P), (now_tag st i k' c' d I H). now apply put_get_other.
  - intros i (h & I & L). unfold held_tag. cbn [st' p_held]. rewrite I. unfold gen_of. cbn [p_old st']. destruct (Nat.eqb_spec (p_gen h) (length (p_old st))); [lia|reflexivity].
Qed.
Print Assumptions C177_partial.
Lemma known_name k : match aget k transformation_keys with Some _ => true | None => false end = true <-> In k four_names.
Proof.
  change four_names with (map fst transformation_keys). generalize transformation_keys. intros l. induction l as [|[a c] l IH]; cbn [aget map fst In]; [split; [discriminate|contradiction]|].
  destruct (pstr_eqb k a) eqn:E; [apply pstr_eqb_spec in E; split; auto|]. apply pstr_eqb_neq in E. rewrite IH. split; [auto|]. intros [H|H]; [congruence|exact H].
Qed.
Lemma str_keys_dict l : str_keys (map (fun kv : pstr * pyval => (KS (fst kv), snd kv)) l) = Some l.
Proof. induction l as [|[k v] l IH]; [reflexivity|]. cbn [map str_keys fst snd]. now rewrite IH. Qed.
Lemma dict_clears l : comes_to_clear (PDict l) = true <-> Forall (fun kv => In (fst kv) four_names) l.
Proof. unfold comes_to_clear. cbn [py_items]. rewrite str_keys_dict, forallb_forall, Forall_forall. split; intros H kv I; [apply known_name|apply known_name]; now apply H. Qed.

(** What is no dictionary or has other keys is refused, and all parts are still held; *)
Theorem C177_refused : forall st v, py_items v = None \/ (exists l, v = PDict l /\ exists kv, In kv l /\ ~ In (fst kv) four_names) ->
  exists e, pstep st (PAll v) = (st, Err e).
Proof.
  intros [n o h] v H. cbn [pstep p_now p_old p_held]. destruct H as [H|(l & -> & kv & I & K)].
  - unfold composite_set, comes_to_clear. rewrite H. now eexists.
  - assert (C : comes_to_clear (PDict l) = false). { apply not_true_iff_false. intros C. apply dict_clears in C. rewrite Forall_forall in C. now apply K, C. }
    rewrite C. unfold composite_set. unfold comes_to_clear in C. cbn [py_items] in *. rewrite str_keys_dict in *. rewrite C. now eexists.
Qed.
Print Assumptions C177_refused.
(** but after any other assignment to the transformation, even one that raises, all parts that were held are left behind: they read as before, *)
Theorem C177_refuted : forall st l, Forall (fun kv => In (fst kv) four_names) l -> exists st' r, pstep st (PAll (PDict l)) = (st', r) /\
  composite_set (p_now st) (PDict l) = (p_now st', r) /\
  forall j, (exists k c, holds_part st j k c) \/ left_behind st j -> left_behind st' j /\ held_tag st' j = held_tag st j.
Proof.
  intros st l H. apply dict_clears in H. cbn [pstep]. rewrite H. destruct (composite_set (p_now st) (PDict l)) as [n r]. eexists. exists r. split; [reflexivity|]. split; [reflexivity|].
  intros j J. assert (X : exists h, p_held st j = Some h /\ (p_gen h <= length (p_old st))%nat).
  { destruct J as [(k & c & J)|(h & J & L)]; [eexists; split; [exact J|]; cbn [p_gen]; lia|exists h; split; [exact J|lia]]. }
  destruct X as (h & Hj & L). split.
  - exists h. split; [exact Hj|]. cbn [p_old]. rewrite app_length. cbn [length]. lia.
  - unfold held_tag. cbn [p_held]. rewrite Hj. unfold gen_of. cbn [p_old p_now]. rewrite app_length. cbn [length]. destruct (Nat.eqb_spec (p_gen h) (length (p_old st) + 1)); [lia|].
    destruct (Nat.eqb_spec (p_gen h) (length (p_old st))) as [E|E].
    + rewrite nth_error_app2 by lia. rewrite E, Nat.sub_diag. reflexivity.
    + rewrite nth_error_app1 by lia. reflexivity.
Qed.
Print Assumptions C177_refuted.
(** and nothing that is assigned to them then is ever in the transformation. *)
Theorem C177_lost_refuted : forall l st, Forall (fun a => exists j v, a = PSet j v /\ left_behind st j) l -> p_now (fst (psteps st l)) = p_now st.
Proof.
  induction l as [|a l IH]; intros st H; [reflexivity|]. inversion_clear H as [|? ? (j & v & -> & J) H']. cbn [psteps].
  assert (X : let st1 := fst (pstep st (PSet j v)) in p_now st1 = p_now st /\ p_held st1 = p_held st /\ length (p_old st1) = length (p_old st)).
  { destruct J as (h & J & L). cbv zeta. cbn [pstep]. rewrite J. destruct (held_tag st j) as [t|]; [|auto]. destruct (gen_of st (p_gen h)) as [n|]; [|auto]. destruct (set_value _ _ _) as [m r]. cbn [fst]. unfold put_gen.
    destruct (Nat.eqb_spec (p_gen h) (length (p_old st))); [lia|]. cbn [p_now p_held p_old]. split; [reflexivity|]. split; [reflexivity|]. rewrite app_length. cbn [length]. rewrite firstn_length, skipn_length. lia. }
  destruct (pstep st (PSet j v)) as [st1 r]. cbn [fst] in X. destruct X as (X1 & X2 & X3). specialize (IH st1). destruct (psteps st1 l) as [st2 rs]. cbn [fst] in *. rewrite <- X1. apply IH.
  eapply Forall_impl; [|exact H']. intros b (j' & v' & -> & h' & J' & L'). exists j', v'. split; [reflexivity|]. exists h'. now rewrite X2, X3.
Qed.
Print Assumptions C177_lost_refuted.

(** Those parts are still shared by all who hold them: assigning to one changes it for these, and nothing else. *)
Theorem C177_apart : forall st g n d j k c t v m r, nth_error (p_old st) g = Some n -> has_parts n d -> p_held st j = Some (mkHp g k c) -> aget k d = Some t -> set_value c t v = (m, r) ->
  exists st', pstep st (PSet j v) = (st', r) /\ p_now st' = p_now st /\ (forall i c', p_held st i = Some (mkHp g k c') -> held_tag st' i = Some m) /\
    forall i h, p_held st i = Some h -> p_gen h <> g \/ p_key h <> k -> held_tag st' i = held_tag st i.
Proof.
  intros st g n d j k c t v m r G H J A S. assert (L : (g < length (p_old st))%nat) by (apply nth_error_Some; congruence).
  assert (Gn : gen_of st g = Some n) by (unfold gen_of; destruct (Nat.eqb_spec g (length (p_old st))); [lia|exact G]).
  cbn [pstep]. unfold held_tag at 1. rewrite J. cbn [p_gen p_key p_cls]. rewrite Gn, (tag_of n d k H), A, S. eexists. split; [reflexivity|].
  assert (T : is_tag m = true). { replace m with (fst (set_value c t v)) by now rewrite S. apply set_value_tag. destruct H as [F N]. pose proof (named_one _ _ k F N) as X. rewrite A in X. destruct X as (f & _ & X). apply (child_is_tag f). rewrite X. now left. }
  pose proof (with_part_has n d k m T H) as P. unfold put_gen. destruct (Nat.eqb_spec g (length (p_old st))); [lia|]. split; [reflexivity|].
  set (st' := mkP _ _ _). assert (Ln : length (p_old st') = length (p_old st)) by (cbn [st' p_old]; rewrite app_length; cbn [length]; rewrite firstn_length, skipn_length; lia).
  assert (G1 : gen_of st' g = Some (with_part n k m)).
  { unfold gen_of. rewrite Ln. destruct (Nat.eqb_spec g (length (p_old st))); [lia|]. cbn [st' p_old]. rewrite nth_error_app2 by (rewrite firstn_length; lia). rewrite firstn_length. replace (g - _)%nat with 0%nat by lia. reflexivity. }
  assert (G2 : forall q, q <> g -> gen_of st' q = gen_of st q).
  { intros q D. unfold gen_of. rewrite Ln. destruct (Nat.eqb_spec q (length (p_old st))) as [E|E]; [reflexivity|]. cbn [st' p_old]. destruct (Nat.lt_ge_cases q g) as [Q|Q].
    - rewrite nth_error_app1 by (rewrite firstn_length; lia). rewrite <- (firstn_skipn g (p_old st)) at 2. rewrite nth_error_app1 by (rewrite firstn_length; lia). reflexivity.
    - rewrite <- (firstn_skipn (Datatypes.S g) (p_old st)) at 3. rewrite !nth_error_app2 by (rewrite firstn_length; lia). rewrite !firstn_length. replace (q - Nat.min g (length (p_old st)))%nat with (Datatypes.S (q - Datatypes.S g)) by lia. replace (q - Nat.min (Datatypes.S g) (length (p_old st)))%nat with (q - Datatypes.S g)%nat by lia. reflexivity. }
  split.
  - intros i c' I. unfold held_tag. cbn [p_held st']. rewrite I. cbn [p_gen p_key]. fold st'. rewrite G1, (tag_of _ _ k P). apply put_get_same. congruence.
  - intros i h I D. unfold held_tag. cbn [p_held st']. fold st'. rewrite I. destruct (Nat.eq_dec (p_gen h) g) as [E|E]; [|now rewrite G2]. destruct D as [D|D]; [congruence|]. rewrite E, G1, Gn, (tag_of _ _ _ P), (tag_of _ _ _ H). now apply put_get_other.
Qed.
Print Assumptions C177_apart.

Definition in_order (st : pstate) : Prop := forall j h, p_held st j = Some h -> (p_gen h <= length (p_old st))%nat.
Lemma step_order st a : in_order st -> in_order (fst (pstep st a)).
Proof.
  intros O. destruct a as [j k|j v|v]; cbn [pstep].
  - destruct (composite_getitem _ _ _) as [[]|]; try exact O. intros i h. cbn [fst p_held p_old]. unfold p_hold. destruct (i =? j)%N; [intros [= <-]; cbn [p_gen]; lia|apply O].
  - destruct (p_held st j) as [h|] eqn:J; [|exact O]. destruct (held_tag st j); [|exact O]. destruct (gen_of st (p_gen h)); [|exact O]. destruct (set_value _ _ _) as [m r]. cbn [fst]. unfold put_gen.
    specialize (O j h J) as L. destruct (Nat.eqb_spec (p_gen h) (length (p_old st))); intros i h' I; cbn [p_held p_old] in *; specialize (O i h' I); [exact O|]. rewrite app_length. cbn [length]. rewrite firstn_length, skipn_length. lia.
  - destruct (composite_set _ _) as [n r]. intros i h I. cbn [fst p_held p_old] in *. specialize (O i h I). destruct (comes_to_clear v); [rewrite app_length; cbn [length]; lia|exact O].
Qed.
(** Whatever was done: each object that is held is a part of the transformation as it is now, or left behind. *)
Theorem C177_either : forall n acts j, let st := fst (psteps (mkP n [] (fun _ => None)) acts) in
  p_held st j = None \/ (exists k c, holds_part st j k c) \/ left_behind st j.
Proof.
  intros n acts j. assert (O : forall acts st, in_order st -> in_order (fst (psteps st acts))).
  { clear. induction acts as [|a l IH]; intros st O; [exact O|]. cbn [psteps]. pose proof (step_order st a O) as O1. destruct (pstep st a) as [st1 r]. cbn [fst] in O1. specialize (IH st1 O1). destruct (psteps st1 l). exact IH. }
  cbv zeta. set (st := fst _). assert (X : in_order st) by (apply O; intros i h; discriminate). clearbody st. destruct (p_held st j) as [[g k c]|] eqn:J; [right|now left]. specialize (X j _ J). cbn [p_gen] in X.
  destruct (Nat.eq_dec g (length (p_old st))) as [E|E]; [left; exists k, c; unfold holds_part; congruence|right; exists (mkHp g k c); split; [exact J|cbn [p_gen]; lia]].
Qed.
Print Assumptions C177_either.

(** A transformation made by the library, of which the angle is held and set to 45; then it is assigned to, and then the angle that is held is set to 90. *)
Definition xangle (z : Z) : list (pstr * pyval) := [(s "offset", PTuple [PFlo 1; PFlo 2]); (s "angle", PInt z); (s "skew_angle", PInt 0); (s "scale", PTuple [PFlo 1; PFlo 1])].
Definition x30 : node := Eval vm_compute in match new_value VTransformation (PDict (xangle 30)) with Ok n => n | Err _ => Txt [] end.
Definition x60 : node := Eval vm_compute in match new_value VTransformation (PDict (xangle 60)) with Ok n => n | Err _ => Txt [] end.
Definition xparts : list (pstr * node) := Eval vm_compute in map (fun f => (tag_name f, match child_tags f with t :: _ => t | [] => f end)) (child_tags x30).
Example C177_nonvacuous : let n := x30 in let d := xparts in let n' := x60 in new_value VTransformation (PDict (xangle 30)) = Ok n /\ has_parts n d /\ map fst d = four_names /\ Forall (fun kv => In (fst kv) four_names) (xangle 60) /\
  new_value VTransformation (PDict (xangle 60)) = Ok n' /\
  let st := mkP n [] (fun _ => None) in
  let st1 := fst (psteps st [PGet 1 (s "angle"); PSet 1 (PInt 45)]) in let st2 := fst (psteps st1 [PAll (PDict (xangle 60)); PSet 1 (PInt 90)]) in
  holds_part st1 1 (s "angle") VAngle /\ part_tag (p_now st1) (s "angle") = Some (El (s "angle") [(s "value", AStr (s "45.0"))] []) /\ left_behind st2 1 /\ p_now st2 = n' /\
  held_tag st2 1 = Some (El (s "angle") [(s "value", AStr (s "90.0"))] []).
Proof.
  cbv zeta. split; [vm_compute; reflexivity|]. split.
  { split.
    - change (child_tags x30) with (tag_kids x30). unfold x30, xparts. cbn [tag_kids]. repeat (constructor; [split; reflexivity|]). constructor.
    - unfold xparts. cbn [map fst]. repeat (constructor; [cbn [In]; intros H; decompose [or] H; discriminate || contradiction|]). constructor. }
  split; [reflexivity|]. split; [repeat (constructor; [cbn [xangle fst four_names In]; tauto|]); constructor|]. split; [vm_compute; reflexivity|].
  split; [vm_compute; reflexivity|]. split; [vm_compute; reflexivity|]. split; [eexists; split; [vm_compute; reflexivity|cbn [p_gen]; vm_compute; constructor]|]. split; vm_compute; reflexivity.
Qed.
