(** More about the bywords tool: the pauses between the words of a line, what tidying does, and the names of files. *)
From Coq Require Import Lia Lqa Qabs Permutation.
From Verif Require Import DocProofs LaySpec AnimSpec AnimProofs2 AnimProofs3 TlSpec PyFloatProofs.
From Verif Require Import BywModel BywSpec BywProofs BywProofs2 BywProofs3 BywProofs4.
Local Open Scope N_scope.

(** ** Layers with one word each *)

Lemma split_no_blank : forall d acc, forallb (fun c => negb (is_blank c)) d = true -> split_blanks d false acc = [rev acc ++ d].
Proof.
  induction d as [|c d IH]; intros acc H; cbn [split_blanks]; [now rewrite app_nil_r|]. cbn [forallb] in H. apply andb_prop in H as [H1 H2].
  destruct (is_blank c); [discriminate|]. cbn [Bool.eqb]. rewrite IH by assumption. cbn [rev]. now rewrite <- app_assoc.
Qed.
Lemma one_word d : d <> [] -> (forall c, In c d -> ~ blank_char c) -> word_texts false d = [d].
Proof.
  intros H0 H. unfold word_texts, split_words. rewrite split_no_blank.
  - cbn [rev app filter]. destruct (pstr_eqb d []) eqn:E; [apply pstr_eqb_spec in E; contradiction|]. cbn [negb word_ends map]. now rewrite Nat.add_0_l, firstn_all.
  - apply forallb_forall. intros c Hc. specialize (H c Hc). unfold blank_char in H. unfold is_blank. cbn [In] in H. lia.
Qed.
Lemma one_word_each (l : list btext) : (forall t, In t l -> bt_desc t <> [] /\ forall c, In c (bt_desc t) -> ~ blank_char c) ->
  flat_map (text_words false) l = map (fun t => mkWord (bt_desc t) (bt_obj t) (bt_layer t) 0) l.
Proof.
  induction l as [|t l IH]; intros H; [reflexivity|]. cbn [flat_map map]. destruct (H t (or_introl eq_refl)) as [H0 H1]. unfold text_words at 1. rewrite one_word by assumption. cbn [map app].
  f_equal. apply IH. intros t' Ht'. apply H. now right.
Qed.

(** ** When there are no words *)

Lemma letters_zero l : Forall (fun w => wd_text w <> []) l -> (letters l = 0%Z <-> l = []).
Proof.
  split; [|now intros ->]. intros E. destruct l as [|w l]; [reflexivity|]. exfalso. inversion_clear H as [|? ? Hw Hl]. unfold letters in E. cbn [map fold_right] in E.
  assert (0 <= fold_right Z.add 0 (map (fun w => Z.of_nat (length (wd_text w))) l))%Z. { clear. induction l as [|w l IH]; cbn [map fold_right]; lia. }
  destruct (wd_text w); [contradiction|]. cbn [length] in E. lia.
Qed.
Lemma split_nothing : forall d run acc, filter (fun w => negb (pstr_eqb w [])) (split_blanks d run acc) = [] -> d = [].
Proof.
  assert (N0 : forall a (b : list pstr), pstr_eqb a [] = false -> filter (fun w => negb (pstr_eqb w [])) (a :: b) = [] -> False).
  { intros a b E H. cbn [filter] in H. rewrite E in H. discriminate H. }
  assert (R : forall (c : N) acc, pstr_eqb (rev (c :: acc)) [] = false).
  { intros c acc. destruct (pstr_eqb (rev (c :: acc)) []) eqn:E; [|reflexivity]. apply pstr_eqb_spec in E. cbn [rev] in E. now destruct (rev acc). }
  assert (X : forall d run c acc, filter (fun w => negb (pstr_eqb w [])) (split_blanks d run (c :: acc)) = [] -> False).
  { induction d as [|e d IH]; intros run c acc H; cbn [split_blanks] in H.
    - destruct run; exact (N0 _ _ (R c acc) H).
    - destruct (Bool.eqb (is_blank e) run); [exact (IH _ _ _ H)|exact (N0 _ _ (R c acc) H)]. }
  intros [|c d] run acc H; [reflexivity|]. exfalso. cbn [split_blanks] in H. destruct (Bool.eqb (is_blank c) run); [exact (X _ _ _ _ H)|].
  cbn [filter] in H. destruct (pstr_eqb (rev acc) []); cbn [negb] in H; [exact (X _ _ _ _ H)|discriminate H].
Qed.
Lemma no_words letter d : word_texts letter d = [] <-> d = [].
Proof.
  split; [|intros ->; now destruct letter]. unfold word_texts. intros H. apply map_eq_nil in H.
  assert (E : split_words letter d = []) by (destruct (split_words letter d); [reflexivity|discriminate H]). clear H. unfold split_words in E.
  destruct letter; [|exact (split_nothing _ _ _ E)]. destruct d as [|c d]; [reflexivity|]. discriminate E.
Qed.
Lemma shown_nothing letter g : shown letter g = [] <-> forall t, In t (bg_texts g) -> bt_desc t = [].
Proof.
  unfold shown. induction (bg_texts g) as [|t l IH]; cbn [flat_map In]; [easy|]. split.
  - intros H t' [<-|Ht]; apply app_eq_nil in H as [H1 H2]; [|now apply IH]. unfold text_words in H1. apply map_eq_nil in H1. now apply no_words in H1.
  - intros H. rewrite (proj2 IH) by auto. unfold text_words. rewrite (proj2 (no_words letter _)) by auto. reflexivity.
Qed.

(** ** Tidying *)

Definition tidy_letter (c : N) : Prop := 97 <= c <= 122 \/ 48 <= c <= 57 \/ c = 32.
Lemma tidy_letters x : Forall tidy_letter (tidy_string x).
Proof.
  unfold tidy_string. induction x as [|c x IH]; cbn [flat_map]; [constructor|]. apply Forall_app. split; [|exact IH]. unfold tidy_char, is_upper, is_lower, is_digit, tidy_letter.
  destruct (_ && _) eqn:E1; [constructor; [lia|constructor]|]. destruct (_ || _) eqn:E2; [constructor; [lia|constructor]|]. destruct (c =? 304); [constructor; [lia|constructor]|].
  destruct (c =? 8490); constructor; [lia|constructor].
Qed.
Lemma tidy_same x : Forall tidy_letter x -> tidy_string x = x.
Proof.
  unfold tidy_string. induction 1 as [|c x Hc Hx IH]; [reflexivity|]. cbn [flat_map]. rewrite IH. unfold tidy_char, is_upper, is_lower, is_digit, tidy_letter in *.
  destruct (_ && _) eqn:E1; [lia|]. destruct (_ || _) eqn:E2; [reflexivity|lia].
Qed.
Lemma tidy_ascii x : Forall (fun c => c < 128) x ->
  tidy_string x = filter (fun c => (97 <=? c) && (c <=? 122) || (48 <=? c) && (c <=? 57) || (c =? 32)) (lower x).
Proof.
  unfold tidy_string, lower. induction 1 as [|c x Hc Hx IH]; [reflexivity|]. cbn [flat_map map filter]. rewrite IH. unfold tidy_char, lower_char, is_upper, is_lower, is_digit.
  destruct ((65 <=? c) && (c <=? 90)) eqn:E1.
  - replace ((97 <=? c + 32) && (c + 32 <=? 122) || (48 <=? c + 32) && (c + 32 <=? 57) || (c + 32 =? 32)) with true by lia. reflexivity.
  - destruct ((97 <=? c) && (c <=? 122) || (48 <=? c) && (c <=? 57) || (c =? 32)); [reflexivity|]. replace (c =? 304) with false by lia. replace (c =? 8490) with false by lia. reflexivity.
Qed.

(** ** The name of the subtitles *)

Lemma ext_suffix x : exists b, x = b ++ split_ext x.
Proof.
  unfold split_ext. destruct (last_part_spec x [] (fun f => f)) as (dir & A & B & C). cbn [rev app] in A.
  set (p := last_part x []) in *. destruct (span (fun c => negb (c =? 46)) (rev p)) as [q d] eqn:E.
  pose proof (span_spec (fun c => negb (c =? 46)) (rev p)) as (S1 & S2 & S3). rewrite E in S1, S2, S3. cbn [fst snd] in *.
  destruct d as [|c d]; [exists x; now rewrite app_nil_r|]. destruct (forallb (fun c => c =? 46) d) eqn:Ed; [exists x; now rewrite app_nil_r|].
  assert (c = 46) by lia. subst c. assert (P : p = rev d ++ 46 :: rev q) by (rewrite <- (rev_involutive p), S2, rev_app_distr; cbn [rev]; now rewrite <- app_assoc).
  exists (dir ++ rev d). rewrite <- app_assoc, <- P. exact A.
Qed.
Lemma ext_of dir stem e : (dir = [] \/ exists d, dir = d ++ [47]) -> ~ In 47 stem -> (exists c, In c stem /\ c <> 46) -> ~ In 46 e -> ~ In 47 e ->
  split_ext (dir ++ stem ++ 46 :: e) = 46 :: e.
Proof.
  intros Dir Hst (c & Hc & Nc) E1 E2. unfold split_ext.
  assert (L : last_part (dir ++ stem ++ 46 :: e) [] = stem ++ 46 :: e).
  { assert (P : last_part (stem ++ 46 :: e) [] = stem ++ 46 :: e).
    { apply last_part_plain. intros F. apply in_app_or in F as [F|[F|F]]; [auto|discriminate|auto]. }
    destruct Dir as [->|(d & ->)]; [exact P|]. rewrite <- app_assoc. cbn [app]. now rewrite last_part_dir. }
  rewrite L. rewrite rev_app_distr. cbn [rev]. rewrite <- app_assoc. cbn [app]. rewrite span_stop; [|apply Forall_rev; apply Forall_forall; intros z Hz; assert (z <> 46) by (intros ->; auto); lia|reflexivity].
  replace (forallb (fun c0 => c0 =? 46) (rev stem)) with false.
  { now rewrite rev_involutive. }
  symmetry. apply not_true_iff_false. intros F. rewrite forallb_forall in F. specialize (F c). rewrite <- in_rev in F. specialize (F Hc). lia.
Qed.
Lemma no_ext_of dir stem : (dir = [] \/ exists d, dir = d ++ [47]) -> ~ In 47 stem -> ~ In 46 stem -> split_ext (dir ++ stem) = [].
Proof.
  intros Dir Hst Hd. unfold split_ext.
  assert (L : last_part (dir ++ stem) [] = stem).
  { assert (P : last_part stem [] = stem) by now apply last_part_plain. destruct Dir as [->|(d & ->)]; [exact P|]. rewrite <- app_assoc. cbn [app]. now rewrite last_part_dir. }
  rewrite L. destruct (span (fun c => negb (c =? 46)) (rev stem)) as [q d] eqn:E.
  pose proof (span_spec (fun c => negb (c =? 46)) (rev stem)) as (S1 & S2 & S3). rewrite E in S1, S2, S3. cbn [fst snd] in *. destruct d as [|c d]; [reflexivity|].
  exfalso. apply Hd. apply in_rev. rewrite S2. apply in_or_app. right. left. lia.
Qed.
