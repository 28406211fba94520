(** Facts about saving and loading. *)
From Verif Require Import SerModel PyFmtProofs PyFmtProofs2.
From Coq Require Import Lia ZifyBool ZifyN ZifyNat Permutation.
Local Open Scope N_scope.

Definition visible (x : pstr) : Prop := Forall (fun c => 32 < c) x.
Definition no_ctrl (x : pstr) : Prop := Forall (fun c => 32 <= c) x.

Lemma visible_no_ctrl x : visible x -> no_ctrl x.
Proof. unfold visible, no_ctrl. apply Forall_impl. lia. Qed.

Lemma norm_eol_cons c x : c <> 13 -> norm_eol (c :: x) = c :: norm_eol x.
Proof.
  intros H. cbn [norm_eol]. destruct c as [|p]; [reflexivity|].
  repeat (destruct p as [p|p|]; try reflexivity). now contradict H.
Qed.

Lemma norm_eol_id x : Forall (fun c => c <> 13) x -> norm_eol x = x.
Proof. induction 1 as [|c x H _ IH]; [reflexivity|]. rewrite norm_eol_cons by assumption. now rewrite IH. Qed.

Lemma norm_attr_id x : no_ctrl x -> norm_attr x = x.
Proof.
  intros H. unfold norm_attr. rewrite norm_eol_id by (revert H; apply Forall_impl; lia).
  induction H as [|c x H _ IH]; [reflexivity|]. cbn [map]. rewrite IH. f_equal.
  replace ((c =? 9) || (c =? 10)) with false by lia. reflexivity.
Qed.

Lemma norm_text_id x : Forall (fun c => c <> 13) x -> forallb ascii_space x = false -> norm_text x = x.
Proof. intros H1 H2. unfold norm_text, norm_blank. now rewrite norm_eol_id, H2. Qed.

Lemma visible_text x : visible x -> x <> [] -> norm_text x = x.
Proof.
  intros H Hn. apply norm_text_id; [revert H; apply Forall_impl; lia|].
  destruct H as [|c x H _]; [contradiction|]. cbn [forallb]. unfold ascii_space.
  replace ((c =? 32) || (c =? 10) || (c =? 9) || (c =? 12) || (c =? 13)) with false by lia. reflexivity.
Qed.

Lemma all_num_visible x : all_num x -> visible x.
Proof. apply Forall_impl. intros c H. apply numchar_cases in H. lia. Qed.

Lemma fmt_f_num k q : all_num (fmt_f k q).
Proof.
  unfold fmt_f. apply all_num_app. split; [|apply fmt_fixed_num]. destruct (Qlt_bool q 0); repeat constructor.
Qed.

Lemma fmt_f_nonempty k q : fmt_f k q <> [].
Proof.
  unfold fmt_f. intros H. apply app_eq_nil in H as [_ H].
  pose proof (fmt_fixed_head k (Z.to_N (round_he (Qabs q * pow10 (Z.of_nat k))))) as HH. now rewrite H in HH.
Qed.

Lemma repr_float_num q : all_num (repr_float q).
Proof.
  unfold repr_float. destruct (Qeq_bool q 0); [repeat constructor|].
  apply all_num_app. split; [destruct (Qlt_bool q 0); repeat constructor|].
  destruct (repr_digits 16 1 (Qabs q)) as [[n m] x].
  destruct ((-4 <=? x)%Z && (x <? 16)%Z).
  - destruct (x <? Z.of_nat n - 1)%Z; [apply fmt_fixed_num|]. apply all_num_app. split; [|repeat constructor].
    apply all_digits_num, dec_N_digits.
  - apply all_num_app. split; [apply fmt_fixed_num|apply exp_str_num].
Qed.

Lemma strip_zeros_num x : all_num x -> all_num (strip_zeros x).
Proof.
  intros H. unfold strip_zeros. destruct (existsb (N.eqb 46) x); [|assumption].
  apply all_num_rev in H. 
  assert (D : all_num (drop_zeros (rev x))).
  { induction H as [|c y H Hy IH]; [constructor|]. cbn [drop_zeros]. destruct (c =? 48); [assumption|now constructor]. }
  destruct (drop_zeros (rev x)) as [|c r]; [constructor|]. destruct (c =? 46).
  - apply all_num_rev. now inversion D.
  - now apply all_num_rev.
Qed.

Lemma fmt_g_num p q : all_num (fmt_g p q).
Proof.
  unfold fmt_g. destruct (Qeq_bool q 0); [repeat constructor|].
  apply all_num_app. split; [destruct (Qlt_bool q 0); repeat constructor|].
  destruct (sig_digits p (Qabs q)) as [m x]. destruct ((-4 <=? x)%Z && (x <? Z.of_nat p)%Z).
  - apply strip_zeros_num, fmt_fixed_num.
  - apply all_num_app. split; [apply strip_zeros_num, fmt_fixed_num|apply exp_str_num].
Qed.

(** ** Trees *)

(** A tag holding just a visible string is unchanged by saving and loading. *)
Lemma reload_leaf nm x : visible x -> x <> [] -> reload (El nm [] [Txt x]) = El nm [] [Txt x].
Proof.
  intros H Hn. cbn [reload map merge_texts reload_attrs sort fold_right norm_node].
  destruct x as [|c x]; [contradiction|]. cbn [map norm_node]. now rewrite visible_text.
Qed.

Lemma reload_value nm x : no_ctrl x -> reload (El nm [(s "value", AStr x)] []) = El nm [(s "value", AStr x)] [].
Proof.
  intros H. cbn [reload map merge_texts]. unfold reload_attrs, sort. cbn [fold_right ins map fst snd aval_str].
  now rewrite norm_attr_id.
Qed.

Lemma merge_texts_tags l : Forall (fun n => is_tag n = true) l -> merge_texts l = l.
Proof. induction 1 as [|n l H _ IH]; [reflexivity|]. destruct n; [discriminate|]. cbn [merge_texts]. now rewrite IH. Qed.

Lemma norm_tags l : Forall (fun n => is_tag n = true) l -> map norm_node l = l.
Proof. induction 1 as [|n l H _ IH]; [reflexivity|]. destruct n; [discriminate|]. cbn [map norm_node]. now rewrite IH. Qed.

Lemma reload_is_tag n : is_tag (reload n) = is_tag n.
Proof. destruct n; reflexivity. Qed.

(** A tag with only tags inside. *)
Lemma reload_tags nm a k : Forall (fun n => is_tag n = true) k ->
  reload (El nm a k) = El nm (reload_attrs a) (map reload k).
Proof.
  intros H. cbn [reload].
  assert (H2 : Forall (fun n => is_tag n = true) (map reload k)).
  { apply Forall_map. revert H. apply Forall_impl. intros n. now rewrite reload_is_tag. }
  now rewrite merge_texts_tags, norm_tags.
Qed.

(** ** Sorting *)

Section SortFacts.
  Context {A : Type} (le : A -> A -> bool).
  Lemma ins_perm x l : Permutation (ins le x l) (x :: l).
  Proof.
    induction l as [|y l IH]; [reflexivity|]. cbn [ins]. destruct (le x y); [reflexivity|].
    rewrite IH. apply perm_swap.
  Qed.
  Lemma sort_perm l : Permutation (sort le l) l.
  Proof.
    induction l as [|x l IH]; [reflexivity|]. cbn [sort fold_right]. fold (sort le l).
    rewrite ins_perm. now rewrite IH.
  Qed.
End SortFacts.

Lemma aget_perm {V} (a b : list (pstr * V)) k : NoDup (map fst a) -> Permutation a b -> aget k a = aget k b.
Proof.
  intros Ha Hp. assert (Hb : NoDup (map fst b)) by (eapply Permutation_NoDup; [apply Permutation_map; eassumption|assumption]).
  destruct (aget k a) as [v|] eqn:E.
  - symmetry. apply In_aget; [assumption|]. eapply Permutation_in; [eassumption|]. now apply aget_In.
  - symmetry. apply aget_None. apply aget_None in E. intros H. apply E.
    eapply Permutation_in; [apply Permutation_sym, Permutation_map; eassumption|assumption].
Qed.

Lemma aget_map {V W} (f : V -> W) (a : list (pstr * V)) k :
  aget k (map (fun kv => (fst kv, f (snd kv))) a) = option_map f (aget k a).
Proof. induction a as [|[k' v] a IH]; [reflexivity|]. cbn [map aget fst snd]. destruct (pstr_eqb k k'); [reflexivity|apply IH]. Qed.

(** Attributes keep their values as strings. *)
Lemma aget_reload a k : NoDup (map fst a) ->
  aget k (reload_attrs a) = option_map (fun v => AStr (norm_attr (aval_str v))) (aget k a).
Proof.
  intros H. unfold reload_attrs.
  rewrite (aget_map (fun v => AStr (norm_attr (aval_str v)))). f_equal. symmetry. apply aget_perm; [assumption|].
  apply Permutation_sym, sort_perm.
Qed.
