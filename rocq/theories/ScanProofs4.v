(** Names and texts in template/__main__.py. *)
From Coq Require Import Permutation Lia.
From Coq Require Sorting.Sorted.
From Verif Require Import ScanModel ScanSpec ScanSpec2 ScanProofs ScanProofs3 SerProofs RepProofs5 EtcProofs EtcProofs3 AnimProofs.
Local Open Scope N_scope.

Lemma is_letter_spec c : is_letter c = true <-> letter c.
Proof. unfold is_letter, is_upper, is_lower, letter, big, small. rewrite orb_true_iff, !andb_true_iff, !N.leb_le. tauto. Qed.
Lemma lower_spec c : lowered c (lower_char c).
Proof. unfold lowered, lower_char, is_upper, big. destruct (N.leb_spec 65 c), (N.leb_spec c 90); cbn [andb]; [left|right|right|right]; split; lia. Qed.
Lemma upper_spec c : uppered c (upper_char c).
Proof. unfold uppered, upper_char, is_lower, small. destruct (N.leb_spec 97 c), (N.leb_spec c 122); cbn [andb]; [left|right|right|right]; split; lia. Qed.
Lemma title_length x : forall b, length (title_from b x) = length x.
Proof. induction x as [|c x IH]; intros b; cbn [title_from length]; [reflexivity|]. now rewrite IH. Qed.
Lemma title_from_spec x : forall i a c b, x = a ++ c :: b -> exists a' c' b', title_from i x = a' ++ c' :: b' /\ length a' = length a /\
  (((a = [] /\ i = true \/ exists a0 l, a = a0 ++ [l] /\ letter l) /\ lowered c c') \/ (~ (a = [] /\ i = true \/ exists a0 l, a = a0 ++ [l] /\ letter l) /\ uppered c c')).
Proof.
  induction x as [|d x IH]; intros i a c b E; [destruct a; discriminate|]. destruct a as [|d' a]; injection E as -> E.
  - exists [], (if i then lower_char c else upper_char c), (title_from (is_letter c) x). split; [reflexivity|]. split; [reflexivity|].
    destruct i; [left|right].
    + split; [now left|apply lower_spec].
    + split; [|apply upper_spec]. intros [[_ X]|(a0 & l & X & _)]; [discriminate|destruct a0; discriminate].
  - destruct (IH (is_letter d') a c b E) as (a' & c' & b' & E1 & E2 & E3). cbn [title_from]. exists ((if i then lower_char d' else upper_char d') :: a'), c', b'.
    split; [now rewrite E1|]. split; [cbn [length]; now rewrite E2|].
    assert (X : (a = [] /\ is_letter d' = true \/ exists a0 l, a = a0 ++ [l] /\ letter l) <-> (d' :: a = [] /\ i = true \/ exists a0 l, d' :: a = a0 ++ [l] /\ letter l)).
    { split.
      - intros [[-> Y]|(a0 & l & -> & Y)]; right; [exists [], d'; split; [reflexivity|now apply is_letter_spec]|now exists (d' :: a0), l].
      - intros [[Y _]|(a0 & l & Y & Z)]; [discriminate|]. destruct a0 as [|? a0]; injection Y as -> Y; [left; split; [exact Y|now apply is_letter_spec]|right; now exists a0, l]. }
    rewrite <- X. exact E3.
Qed.
Lemma title_titled x : titled x (title x).
Proof.
  split; [apply title_length|]. intros a c b E. destruct (title_from_spec x false a c b E) as (a' & c' & b' & E1 & E2 & E3).
  exists a', c', b'. split; [exact E1|]. split; [exact E2|]. destruct E3 as [[[[_ X]|X] Y]|[X Y]]; [discriminate|left; now split|right]. split; [|exact Y]. intros Z. apply X. now right.
Qed.
Lemma titled_unique x y z : titled x y -> titled x z -> y = z.
Proof.
  intros [L1 H1] [L2 H2].
  assert (G : forall n, nth_error y n = nth_error z n).
  { intros n. destruct (nth_error x n) as [c|] eqn:E.
    - apply nth_error_split in E as (a & b & E & <-). destruct (H1 a c b E) as (a1 & c1 & b1 & -> & A1 & K1). destruct (H2 a c b E) as (a2 & c2 & b2 & -> & A2 & K2).
      rewrite <- A1 at 1. rewrite <- A2. rewrite !nth_error_app2, !Nat.sub_diag by lia. cbn [nth_error]. f_equal.
      destruct K1 as [[P1 Q1]|[P1 Q1]], K2 as [[P2 Q2]|[P2 Q2]]; try contradiction; [destruct Q1 as [[? ?]|[? ?]], Q2 as [[? ?]|[? ?]]; try contradiction; congruence|].
      destruct Q1 as [[? ?]|[? ?]], Q2 as [[? ?]|[? ?]]; try contradiction; lia.
    - apply nth_error_None in E. rewrite !(proj2 (nth_error_None _ _)); [reflexivity|lia|lia]. }
  clear - G. revert z G. induction y as [|c y IH]; intros [|d z] G; [reflexivity|discriminate (G O)|discriminate (G O)|]. pose proof (G O) as G0. injection G0 as ->. f_equal. apply IH. intros n. exact (G (S n)).
Qed.
Lemma title_iff x y : title x = y <-> titled x y.
Proof. split; [intros <-; apply title_titled|]. intros H. exact (titled_unique _ _ _ (title_titled x) H). Qed.

Lemma inherited_spec c name : is_inherited_param c name = true <-> exists p d q, aget name (k_dict c) = Some p /\ In d (k_supers c) /\ aget name d = Some q /\ f_id q = f_id p.
Proof.
  unfold is_inherited_param. destruct (aget name (k_dict c)) as [p|]; [|split; [discriminate|intros (? & ? & ? & X & _); discriminate]]. rewrite existsb_exists. split.
  - intros (d & I & X). destruct (aget name d) as [q|] eqn:Q; [|discriminate]. apply N.eqb_eq in X. now exists p, d, q.
  - intros (p' & d & q & [= <-] & I & Q & X). exists d. split; [exact I|]. rewrite Q. now apply N.eqb_eq.
Qed.
Lemma names_eqb_spec a : forall b, names_eqb a b = true <-> a = b.
Proof.
  induction a as [|x a IH]; intros [|y b]; cbn [names_eqb]; try (split; congruence). rewrite andb_true_iff, pstr_eqb_spec, IH. split; [intros [-> ->]; reflexivity|intros [= -> ->]; now split].
Qed.
Lemma parts_spec l v : sort pstr_le l = l -> part_names_are l v = true <-> Permutation (parts v) l.
Proof.
  intros S. unfold part_names_are. fold (parts v). rewrite names_eqb_spec. assert (St : forall x, Sorted.StronglySorted (fun a b => pstr_le a b = true) (sort pstr_le x)).
  { intros x. apply sort_strong; [intros a b; apply pstr_le_total|intros a b c; apply pstr_le_trans]. }
  split.
  - intros <-. apply Permutation_sym, sort_perm.
  - intros P. rewrite <- S. apply (sorted_unique pstr_le); [|intros x y _ _; apply pstr_le_anti|apply St|apply St].
    transitivity (parts v); [apply sort_perm|]. transitivity l; [exact P|]. apply Permutation_sym, sort_perm.
Qed.
Lemma transformation_parts v : part_names_are [s "angle"; s "offset"; s "scale"; s "skew_angle"] v = true <-> Permutation (parts v) [s "offset"; s "angle"; s "skew_angle"; s "scale"].
Proof.
  rewrite parts_spec by (vm_compute; reflexivity).
  assert (P : Permutation [s "angle"; s "offset"; s "scale"; s "skew_angle"] [s "offset"; s "angle"; s "skew_angle"; s "scale"]).
  { eapply perm_trans; [apply perm_swap|]. do 2 apply perm_skip. apply perm_swap. }
  split; intros H; [exact (Permutation_trans H P)|exact (Permutation_trans H (Permutation_sym P))].
Qed.
Lemma type_name_class name v : value_class name v (type_name name v).
Proof.
  unfold type_name. destruct (pstr_eqb name (s "blend_method")) eqn:B; [apply is_blend; now apply pstr_eqb_spec|]. apply pstr_eqb_neq in B. cbv zeta.
  destruct (pstr_eqb (title (tag_name v)) (s "Vector") && part_names_are [s "x"; s "y"] v) eqn:X.
  - apply andb_true_iff in X as [X Y]. apply pstr_eqb_spec in X. apply parts_spec in Y; [|vm_compute; reflexivity]. now apply is_xy.
  - assert (X' : ~ (title (tag_name v) = s "Vector" /\ Permutation (parts v) [s "x"; s "y"])).
    { intros [P Q]. apply pstr_eqb_spec in P. apply parts_spec in Q; [|vm_compute; reflexivity]. rewrite P, Q in X. discriminate. }
    destruct (pstr_eqb (title (tag_name v)) (s "Composite") && part_names_are [s "angle"; s "offset"; s "scale"; s "skew_angle"] v) eqn:Z.
    + apply andb_true_iff in Z as [Z Y]. apply pstr_eqb_spec in Z. apply transformation_parts in Y. now apply is_transformation.
    + apply is_titled; [exact B|exact X'|]. intros [P Q]. apply pstr_eqb_spec in P. apply transformation_parts in Q. rewrite P, Q in Z. discriminate.
Qed.
Lemma value_class_unique name v c c' : value_class name v c -> value_class name v c' -> c = c'.
Proof.
  assert (D : forall x : pstr, x = s "Vector" -> x = s "Composite" -> False) by (intros x ->; discriminate).
  destruct 1, 1; try reflexivity; try contradiction; exfalso; eauto.
Qed.

Lemma rest_is pr k name x : rest_of_field pr k name x <-> x = doc_arg pr k name ++ [10] ++ repeat 32 20 ++ s ")".
Proof.
  unfold doc_arg. destruct k as [c|].
  2:{ split; [intros [(c & i & d & X & _)|[_ ->]]; [discriminate|reflexivity]|]. intros ->. right. split; [intros; discriminate|reflexivity]. }
  destruct (aget name (k_dict c)) as [[i [[|ch d]|]]|] eqn:A.
  - split; [|intros ->; right; split; [intros c0 i0 d0 [= <-]; rewrite A; now intros [= _ <-]|reflexivity]]. intros [(c0 & i0 & d0 & [= <-] & X & Y & _)|[_ ->]]; [|reflexivity]. rewrite A in X. injection X as _ <-. contradiction.
  - rewrite <- !app_assoc. split.
    + intros [(c0 & i0 & d0 & [= <-] & X & Y & ->)|[X _]]; [rewrite A in X; now injection X as _ <-|]. specialize (X c i _ eq_refl A). discriminate.
    + intros ->. left. exists c, i, (ch :: d). repeat split; try assumption; try reflexivity. discriminate.
  - split; [|intros ->; right; split; [intros c0 i0 d0 [= <-]; rewrite A; discriminate|reflexivity]]. intros [(c0 & i0 & d0 & [= <-] & X & _)|[_ ->]]; [rewrite A in X; discriminate|reflexivity].
  - split; [|intros ->; right; split; [intros c0 i0 d0 [= <-]; rewrite A; discriminate|reflexivity]]. intros [(c0 & i0 & d0 & [= <-] & X & _)|[_ ->]]; [rewrite A in X; discriminate|reflexivity].
Qed.

Lemma field_text pr k ltype cx p full name v cls (array : bool) h r : aget (s "name") (tag_attrs p) = Some (AStr full) -> makes_field k p name -> (array = true <-> In 91 full) ->
  override ltype name = None -> child_tags p = [v] -> value_class name v cls -> In cls (s "BlendMethod" :: value_names) ->
  first_of_field pr cx v array cls h -> rest_of_field pr k name r -> scan_param pr k ltype cx [] p = Ok [(name, h ++ r)].
Proof.
  intros A M Ar O C K I H R. destruct (makes_name _ _ _ M) as (x & X & En). rewrite A in X. injection X as <-.
  unfold scan_param. unfold str_attr. rewrite A. cbn [bind].
  assert (W : match k with Some c => is_inherited_param c full | None => false end = false).
  { destruct M as (f' & A' & D & _). rewrite A in A'. injection A' as <-. destruct k; [now apply D|reflexivity]. } rewrite W.
  assert (Z : existsb (N.eqb 91) full && negb (has_infix (s "[0]") full) = false).
  { destruct M as (f' & A' & _ & D). rewrite A in A'. injection A' as <-. destruct D as [[D _]|(_ & _ & D)].
    - destruct (existsb (N.eqb 91) full) eqn:Q; [apply bracket_in in Q; contradiction|reflexivity].
    - apply has_infix_spec in D. rewrite D. apply andb_false_r. }
  rewrite Z. cbv zeta. rewrite <- En, O, C. rewrite (value_class_unique _ _ _ _ (type_name_class name v) K).
  assert (Ty : pstr_eqb cls (s "T") = false /\ pstr_eqb cls (s "Waypoint") = false /\ pstr_eqb cls (s "BlendMethod") || existsb (pstr_eqb cls) value_names = true).
  { unfold value_names in I. cbn [In] in I. repeat (destruct I as [<-|I]; [repeat split|]). destruct I. }
  destruct Ty as (T2 & T3 & T4). rewrite T2, T3, T4. apply rest_is in R. rewrite R.
  assert (Ea : existsb (N.eqb 91) full = array). { apply eq_true_iff_eq. rewrite bracket_in. now symmetry. } rewrite Ea.
  unfold right_side, param_expr. destruct H as [c x n e -> F G N1 E|c e B F E|c B F E].
  - rewrite pstr_eqb_refl, F. cbn [bind]. rewrite G. cbn [bind]. rewrite N1. cbn [bind]. rewrite E. cbn [bind aset]. reflexivity.
  - rewrite (proj2 (pstr_eqb_neq _ _) B), F. cbn [bind]. rewrite E. cbn [bind aset]. reflexivity.
  - rewrite (proj2 (pstr_eqb_neq _ _) B), F. cbn [bind]. rewrite E. cbn [bind aset]. reflexivity.
Qed.

Fixpoint desc_within (m : node) {struct m} : forall n, In n (descendants m) <-> is_tag n = true /\ exists k, In k (tag_kids m) /\ within n k.
Proof.
  intros n. destruct m as [x|nm a l]; [split; [intros []|intros (_ & k & [] & _)]|]. cbn [descendants tag_kids].
  induction l as [|c l IH]; [split; [intros []|intros (_ & k & [] & _)]|]. cbn [flat_map]. rewrite in_app_iff, IH. clear IH.
  pose proof (desc_within c n) as D. split.
  - intros [H|(T & k & I & W)]; [|split; [exact T|]; exists k; split; [now right|exact W]]. destruct c as [x|nm' a' l']; [destruct H|].
    destruct H as [<-|H]; [split; [reflexivity|]; exists (El nm' a' l'); split; [now left|constructor]|]. apply D in H as (T & k & I & W). split; [exact T|]. exists (El nm' a' l'). split; [now left|]. now apply within_kid with k.
  - intros (T & k & [<-|I] & W); [|right; split; [exact T|]; now exists k]. left. inversion W as [|? ? ? k' I' W']; subst.
    + destruct c as [x|nm' a' l']; [discriminate|now left].
    + right. apply D. split; [exact T|]. now exists k'.
Qed.
Lemma soup_layers_all root n : In n (soup_layers root) <-> is_tag n = true /\ tag_name n = s "layer" /\ within n root.
Proof.
  unfold soup_layers, find_all. rewrite filter_In, desc_within. unfold has_name. rewrite pstr_eqb_spec. cbn [tag_kids]. split.
  - intros ((T & k & [<-|[]] & W) & E). auto.
  - intros (T & E & W). split; [|exact E]. split; [exact T|]. exists root. split; [now left|exact W].
Qed.
