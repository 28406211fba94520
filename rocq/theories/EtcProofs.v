(** Proofs about searching for patterns, and about scan-synfig-source.py *)
From Coq Require Import Sorted Permutation Lia ZifyBool ZifyN ZifyNat.
From Verif Require Import EtcModel RepSpec EtcSpec PyFmtProofs SerProofs PexProofs RepProofs RepProofs4 RepProofs5.
Local Open Scope N_scope.

(** ** Searching *)
Lemma app_inj_length {A} (a : list A) : forall b c d, a ++ b = c ++ d -> length a = length c -> a = c /\ b = d.
Proof.
  induction a as [|x a IH]; intros b [|y c] d E L; cbn [app length] in *; try discriminate; auto. injection E as -> E. injection L as L. destruct (IH _ _ _ E L) as [-> ->]. auto.
Qed.
Lemma first_place_unique {A} (P : pstr -> A -> Prop) x a b : (forall x a b, P x a -> P x b -> a = b) -> first_place P x a -> first_place P x b -> a = b.
Proof.
  intros U (p & r & -> & Ha & La) (p' & r' & E & Hb & Lb).
  assert (L : length p = length p').
  { destruct (Nat.lt_trichotomy (length p) (length p')) as [L|[L|L]]; [|exact L|].
    - exfalso. exact (Lb p r a eq_refl L Ha).
    - exfalso. exact (La p' r' b E L Hb). }
  apply app_inj_length in E as [_ ->]; [|exact L]. exact (U _ _ _ Ha Hb).
Qed.
Lemma search_spec {A} (m : pstr -> option A) (P : pstr -> A -> Prop) : (forall x a, m x = Some a <-> P x a) ->
  forall x a, search m x = Some a <-> first_place P x a.
Proof.
  intros H. induction x as [|c x IH]; intros a; cbn [search].
  - split.
    + destruct (m []) eqn:E; [|discriminate]. intros [= <-]. exists [], []. split; [reflexivity|]. split; [now apply H|]. intros p' r' b _ L. cbn in L. lia.
    + intros (p & r & E & Hp & _). symmetry in E. apply app_eq_nil in E as [-> ->]. apply H in Hp. now rewrite Hp.
  - destruct (m (c :: x)) as [b|] eqn:E.
    + assert (Fb : first_place P (c :: x) b). { exists [], (c :: x). split; [reflexivity|]. split; [now apply H|]. intros p' r' b' _ L. cbn in L. lia. }
      split; [intros [= <-]; exact Fb|]. intros Fa. f_equal. apply (first_place_unique P (c :: x)); auto. intros y a1 a2 H1 H2. apply H in H1, H2. congruence.
    + rewrite IH. split.
      * intros (p & r & -> & Hp & L). exists (c :: p), r. split; [reflexivity|]. split; [exact Hp|]. intros p' r' b E' L' Hb. destruct p' as [|c' p'].
        { cbn [app] in E'. subst r'. apply H in Hb. congruence. }
        cbn [app] in E'. injection E' as -> E'. apply (L p' r' b E'); [cbn in L'; lia|exact Hb].
      * intros (p & r & E' & Hp & L). destruct p as [|c' p]. { cbn [app] in E'. subst r. apply H in Hp. congruence. }
        cbn [app] in E'. injection E' as <- E'. exists p, r. split; [exact E'|]. split; [exact Hp|]. intros p' r' b E2 L'. apply (L (c :: p')); [cbn [app]; now rewrite E2|cbn; lia].
Qed.
Lemma search_none {A} (m : pstr -> option A) (P : pstr -> A -> Prop) : (forall x a, m x = Some a <-> P x a) ->
  forall x, search m x = None <-> forall a, ~ first_place P x a.
Proof.
  intros H x. split.
  - intros E a Ha. apply (search_spec m P H) in Ha. congruence.
  - intros N. destruct (search m x) as [a|] eqn:E; [|reflexivity]. apply (search_spec m P H) in E. destruct (N a E).
Qed.
Lemma search_map {A B} (f : A -> B) m x : search (fun y => option_map f (m y)) x = option_map f (search m x).
Proof. induction x as [|c x IH]; cbn [search]; destruct (m _); cbn [option_map]; auto. Qed.

(** ** Files *)
Lemma file_lines_spec d name ls : file_lines d name = Ok ls <-> lines_in d name ls.
Proof.
  unfold file_lines, lines_in, file_text, contains. split.
  - destruct (aget name d) as [b|] eqn:E; [|discriminate]. destruct (decode b) as [x|] eqn:Ed; [|discriminate]. apply decode_spec in Ed. intros [= <-].
    exists (norm_eol x). split; [exists x; split; [exists b; auto|reflexivity]|apply lines_of_lines].
  - intros (x & (y & (b & Ea & Eo) & ->) & Hl). rewrite Ea. apply decode_spec in Eo. rewrite Eo. apply lines_spec in Hl. now rewrite Hl.
Qed.

(** ** Enumerators *)
Lemma is_digit_spec c : is_digit c = true <-> In c digit_chars.
Proof.
  unfold is_digit. split.
  - intros H. assert (E2 : exists k, (k < 10)%nat /\ c = 48 + N.of_nat k) by (exists (N.to_nat (c - 48)); lia). destruct E2 as (k & Hk & ->). do 10 (destruct k as [|k]; [vm_compute; tauto|]). lia.
  - intros H. cbn in H. repeat destruct H as [<-|H]; try reflexivity. destruct H.
Qed.
Lemma upper_char_spec c : upper_char c = true <-> In c capitals_etc.
Proof.
  unfold upper_char. split.
  - intros H. assert (E2 : exists k, (k < 31)%nat /\ c = 65 + N.of_nat k) by (exists (N.to_nat (c - 65)); lia). destruct E2 as (k & Hk & ->).
    do 31 (destruct k as [|k]; [first [discriminate H|vm_compute; tauto]|]). lia.
  - intros H. vm_compute in H. repeat destruct H as [<-|H]; try reflexivity. destruct H.
Qed.
Lemma digits_spec x : Forall (fun c => In c digit_chars) x <-> Forall (fun c => is_digit c = true) x.
Proof. split; apply Forall_impl; intros c; apply is_digit_spec. Qed.
Lemma capitals_spec x : Forall (fun c => In c capitals_etc) x <-> Forall (fun c => upper_char c = true) x.
Proof. split; apply Forall_impl; intros c; apply upper_char_spec. Qed.
Lemma begins_digit r : ~ begins (fun c => In c digit_chars) r <-> ~ begins (fun c => is_digit c = true) r.
Proof. destruct r as [|c r]; cbn [begins]; [tauto|]. now rewrite is_digit_spec. Qed.

Definition blend_val (x : pstr) : option (pstr * N) := option_map (fun nd => (fst nd, digits_val (snd nd))) (blend_re x).
Lemma blend_val_spec x a : blend_val x = Some a <-> blend_at x a.
Proof.
  unfold blend_val, blend_re, blend_at, numeral. destruct a as [name k]. cbn [fst snd]. split.
  - destruct (after (s "BLEND_") x) as [r|] eqn:E; [|discriminate]. apply after_spec in E. subst x.
    pose proof (span_splits upper_char r) as (A & B & C). destruct (span upper_char r) as [w r1]. cbn [fst snd] in *. subst r. destruct w as [|c w]; [discriminate|].
    destruct (after (s "=") r1) as [r2|] eqn:E1; [|discriminate]. apply after_spec in E1. subst r1.
    pose proof (span_splits is_digit r2) as (A2 & B2 & C2). destruct (span is_digit r2) as [ds r3]. cbn [fst snd] in *. subst r2. destruct ds as [|d ds]; [discriminate|].
    cbn [option_map fst snd]. intros [= <- <-]. exists (d :: ds), r3. split; [reflexivity|]. split; [discriminate|]. split; [now apply capitals_spec|].
    split; [|now apply begins_digit]. split; [discriminate|]. split; [now apply digits_spec|reflexivity].
  - intros (ds & r & -> & Hn & Hw & (Hd & Hds & Hk) & Hr).
    rewrite (proj2 (after_spec (s "BLEND_") _ (name ++ s "=" ++ ds ++ r)) eq_refl).
    rewrite (span_unique upper_char _ name (s "=" ++ ds ++ r)); [|now apply capitals_spec|cbn; discriminate|reflexivity].
    rewrite (proj2 (after_spec (s "=") _ (ds ++ r)) eq_refl).
    rewrite (span_unique is_digit _ ds r); [|now apply digits_spec|now apply begins_digit|reflexivity]. cbn [fst].
    destruct name as [|c name]; [contradiction|]. destruct ds as [|d ds]; [contradiction|]. cbn [option_map fst snd]. now rewrite <- Hk.
Qed.
Definition counted (l : pstr) : option (pstr * N) :=
  match search blend_val l with
  | Some (name, k) => if pstr_eqb name (s "END") || pstr_eqb name (s "BY_LAYER") then None else Some (name, k)
  | None => None
  end.
Lemma counted_spec l name k : counted l = Some (name, k) <-> counts l name k.
Proof.
  unfold counted, counts. rewrite <- (search_spec _ _ blend_val_spec). destruct (search blend_val l) as [[n j]|]; [|split; [discriminate|intros [? _]; discriminate]].
  destruct (pstr_eqb n (s "END")) eqn:E1; [|destruct (pstr_eqb n (s "BY_LAYER")) eqn:E2]; cbn [orb].
  - apply pstr_eqb_spec in E1. subst n. split; [discriminate|]. intros (H & H1 & _). injection H as <- _. now destruct H1.
  - apply pstr_eqb_spec in E2. subst n. split; [discriminate|]. intros (H & _ & H1). injection H as <- _. now destruct H1.
  - split; [|tauto]. intros H. split; [exact H|]. injection H as <- _. split; intros ->; rewrite pstr_eqb_refl in *; discriminate.
Qed.
Lemma scan_line_counted d l : scan_line d l = match counted l with Some (name, k) => nset k name d | None => d end.
Proof.
  unfold scan_line, counted. unfold blend_val. rewrite search_map. destruct (search blend_re l) as [[n ds]|]; [|reflexivity]. cbn [option_map fst snd].
  destruct (pstr_eqb n (s "END") || pstr_eqb n (s "BY_LAYER")); reflexivity.
Qed.

Lemma in_nset {V} k (v : V) d j w : NoDup (map fst d) -> (In (j, w) (nset k v d) <-> (j = k /\ w = v) \/ (j <> k /\ In (j, w) d)).
Proof.
  induction d as [|[k' v'] d IH]; cbn [nset map fst]; intros Hn.
  - cbn [In]. split; [intros [[= <- <-]|[]]; auto|intros [[-> ->]|[_ []]]; auto].
  - inversion Hn as [|? ? Hx Hn']; subst. destruct (k =? k') eqn:E; cbn [In].
    + apply N.eqb_eq in E. subst k'. split.
      * intros [[= <- <-]|H]; [auto|]. right. split; [|auto]. intros ->. apply Hx. now apply (in_map fst) in H.
      * intros [[-> ->]|[Hj [[= <- <-]|H]]]; auto. now destruct Hj.
    + apply N.eqb_neq in E. rewrite (IH Hn'). split.
      * intros [[= <- <-]|[H|[H1 H2]]]; auto.
      * intros [H|[H1 [H2|H2]]]; auto.
Qed.
Lemma nset_keys {V} k (v : V) d j : In j (map fst (nset k v d)) <-> j = k \/ In j (map fst d).
Proof.
  induction d as [|[k' v'] d IH]; cbn [nset map fst In]; [intuition|]. destruct (k =? k') eqn:E; cbn [map fst In]; [apply N.eqb_eq in E; subst; intuition|]. rewrite IH. intuition.
Qed.
Lemma nset_nodup {V} k (v : V) d : NoDup (map fst d) -> NoDup (map fst (nset k v d)).
Proof.
  induction d as [|[k' v'] d IH]; cbn [nset map fst]; intros Hn; [repeat constructor; intros []|]. inversion Hn as [|? ? Hx Hn']; subst.
  destruct (k =? k') eqn:E; cbn [map fst]; [apply N.eqb_eq in E; subst; now constructor|]. constructor; [|now apply IH]. rewrite nset_keys. apply N.eqb_neq in E. intros [H|H]; [congruence|contradiction].
Qed.

Lemma is_name_snoc ls l k name : is_name (ls ++ [l]) k name <-> counts l name k \/ (is_name ls k name /\ forall n, ~ counts l n k).
Proof.
  unfold is_name. split.
  - intros (a & m & b & E & H & Hb). destruct b as [|z b _] using rev_ind.
    + apply app_inj_tail in E as [_ ->]. auto.
    + rewrite app_comm_cons, app_assoc in E. apply app_inj_tail in E as [-> ->]. apply Forall_app in Hb as [Hb Hz]. inversion Hz; subst. right. split; [|assumption]. exists a, m, b. auto.
  - intros [H|[(a & m & b & -> & H & Hb) Hl]].
    + exists ls, l, []. auto.
    + exists a, m, (b ++ [l]). split; [now rewrite <- app_assoc|]. split; [exact H|]. apply Forall_app. auto.
Qed.
Lemma scan_spec ls : let d := fold_left scan_line ls [] in NoDup (map fst d) /\ forall k name, In (k, name) d <-> is_name ls k name.
Proof.
  induction ls as [|l ls [IH1 IH2]] using rev_ind; cbn zeta.
  - split; [constructor|]. intros k name. split; [intros []|]. intros (a & m & b & E & _). destruct a; discriminate.
  - rewrite fold_left_app. cbn [fold_left]. rewrite scan_line_counted. destruct (counted l) as [[n j]|] eqn:E.
    + split; [now apply nset_nodup|]. intros k name. rewrite (in_nset _ _ _ _ _ IH1), is_name_snoc, IH2, <- counted_spec, E. split.
      * intros [[-> ->]|[H1 H2]]; [auto|]. right. split; [exact H2|]. intros n'. rewrite <- counted_spec, E. congruence.
      * intros [H|[H1 H2]]; [injection H as <- <-; auto|]. right. split; [|exact H1]. intros ->. apply (H2 n). now apply counted_spec.
    + split; [exact IH1|]. intros k name. rewrite is_name_snoc, IH2. split.
      * intros H. right. split; [exact H|]. intros n H'. apply counted_spec in H'. congruence.
      * intros [H|[H _]]; [apply counted_spec in H; congruence|exact H].
Qed.

(** ** The table *)
Section SortStrong.
  Context {A : Type} (le : A -> A -> bool).
  Lemma ins_strong : (forall a b, le a b = false -> le b a = true) -> (forall a b c, le a b = true -> le b c = true -> le a c = true) ->
    forall x l, StronglySorted (fun a b => le a b = true) l -> StronglySorted (fun a b => le a b = true) (ins le x l).
  Proof.
    intros T R x. induction 1 as [|y l H IH Hy]; cbn [ins]; [repeat constructor|]. destruct (le x y) eqn:E.
    - constructor; [now constructor|]. constructor; [exact E|]. revert Hy. apply Forall_impl. intros z. now apply R.
    - constructor; [exact IH|]. apply Forall_forall. intros z Hz. rewrite Forall_forall in Hy. assert (Hz' : z = x \/ In z l).
      { clear -Hz. induction l as [|w l IH]; cbn [ins In] in *; [intuition|]. destruct (le x w); cbn [In] in *; intuition. }
      destruct Hz' as [->|Hz']; auto.
  Qed.
  Lemma sort_strong : (forall a b, le a b = false -> le b a = true) -> (forall a b c, le a b = true -> le b c = true -> le a c = true) ->
    forall l, StronglySorted (fun a b => le a b = true) (sort le l).
  Proof. intros T R. induction l as [|x l IH]; [constructor|]. cbn. now apply ins_strong. Qed.
End SortStrong.

(** Sorted keys, which are all the numbers from [a] on *)
Lemma dense_nth {V} (l : list (N * V)) : forall a, StronglySorted (fun x y => (fst x <=? fst y) = true) l -> NoDup (map fst l) ->
  (forall k, In k (map fst l) <-> a <= k < a + N.of_nat (length l)) -> forall i kv, nth_error l i = Some kv -> fst kv = a + N.of_nat i.
Proof.
  induction l as [|[k v] l IH]; intros a Hs Hn Hk i kv E; [destruct i; discriminate|].
  inversion Hs as [|? ? Hs' Hf]; subst. inversion Hn as [|? ? Hx Hn']; subst. cbn [map fst length] in *. rewrite Forall_forall in Hf.
  assert (Ek : k = a).
  { assert (H1 : a <= k) by (apply Hk; now left). assert (H2 : In a (k :: map fst l)) by (apply Hk; lia). destruct H2 as [H2|H2]; [exact H2|].
    apply in_map_iff in H2 as ([a' v'] & E1 & H2). cbn [fst] in E1. subst a'. specialize (Hf _ H2). cbn [fst] in Hf. lia. }
  subst k. destruct i as [|i]; [injection E as <-; cbn [fst]; lia|]. cbn [nth_error] in E.
  rewrite (IH (a + 1) Hs' Hn') with (i := i) (kv := kv); [lia| |exact E]. intros k. split.
  - intros H. assert (H1 : a <= k < a + N.of_nat (S (length l))) by (apply Hk; now right). assert (H2 : k <> a) by congruence. lia.
  - intros H. assert (H1 : In k (a :: map fst l)) by (apply Hk; lia). destruct H1 as [H1|H1]; [lia|exact H1].
Qed.
Definition all_keys (d : list (N * pstr)) : bool := forallb (fun i => existsb (fun kv => fst kv =? N.of_nat i) d) (seq 0 (length d)).
Lemma all_keys_spec d : NoDup (map fst d) -> (all_keys d = true <-> forall k, In k (map fst d) <-> k < N.of_nat (length d)).
Proof.
  intros Hn. unfold all_keys. rewrite forallb_forall.
  assert (X : forall i, existsb (fun kv => fst kv =? N.of_nat i) d = true <-> In (N.of_nat i) (map fst d)).
  { intros i. rewrite existsb_exists, in_map_iff. split; intros (kv & H1 & H2); exists kv; [apply N.eqb_eq in H2; auto|split; [auto|now apply N.eqb_eq]]. }
  split.
  - intros H k. assert (I : incl (map N.of_nat (seq 0 (length d))) (map fst d)).
    { intros j Hj. apply in_map_iff in Hj as (i & <- & Hi). apply X. now apply H. }
    assert (Nd : NoDup (map N.of_nat (seq 0 (length d)))). { apply FinFun.Injective_map_NoDup; [intros a b; lia|apply seq_NoDup]. }
    split.
    + intros Hk. assert (I2 : incl (map fst d) (map N.of_nat (seq 0 (length d)))). { apply NoDup_length_incl; [exact Nd|rewrite !map_length, seq_length; lia|exact I]. }
      apply I2 in Hk. apply in_map_iff in Hk as (i & <- & Hi). apply in_seq in Hi. lia.
    + intros Hk. apply I. apply in_map_iff. exists (N.to_nat k). split; [lia|]. apply in_seq. lia.
  - intros H i Hi. apply in_seq in Hi. apply X, H. lia.
Qed.
Lemma no_gap_keys d : NoDup (map fst d) -> (forall j k, j < k -> In k (map fst d) -> In j (map fst d)) -> all_keys d = true.
Proof.
  intros Hn Hg. apply all_keys_spec; [exact Hn|].
  assert (B : forall k, In k (map fst d) -> k < N.of_nat (length d)).
  { intros k Hk. assert (I : incl (map N.of_nat (seq 0 (S (N.to_nat k)))) (map fst d)).
    { intros j Hj. apply in_map_iff in Hj as (i & <- & Hi). apply in_seq in Hi. destruct (N.eq_dec (N.of_nat i) k) as [->|Hne]; [exact Hk|]. apply (Hg _ k); [lia|exact Hk]. }
    apply NoDup_incl_length in I; [|apply FinFun.Injective_map_NoDup; [intros a b; lia|apply seq_NoDup]]. rewrite !map_length, seq_length in I. lia. }
  assert (I : incl (map N.of_nat (seq 0 (length d))) (map fst d)).
  { apply NoDup_length_incl; [exact Hn|rewrite !map_length, seq_length; lia|]. intros k Hk. apply in_map_iff. exists (N.to_nat k). split; [lia|]. apply in_seq. specialize (B _ Hk). lia. }
  intros k. split; [apply B|]. intros Hk. apply I. apply in_map_iff. exists (N.to_nat k). split; [lia|]. apply in_seq. lia.
Qed.

Lemma table_names d : NoDup (map fst d) -> all_keys d = true -> exists names, blend_table d = Ok ([10] ++ table_lines 0 names) /\
  forall k name, In (k, name) d <-> nth_error names (N.to_nat k) = Some name.
Proof.
  intros Hn Ha. unfold blend_table. fold (all_keys d). rewrite Ha. exists (map snd (sort (fun a b => fst a <=? fst b) d)). split; [reflexivity|].
  set (l := sort (fun a b => fst a <=? fst b) d).
  assert (P : Permutation l d) by apply sort_perm.
  assert (S : StronglySorted (fun a b => (fst a <=? fst b) = true) l) by (apply sort_strong; intros; lia).
  assert (Nl : NoDup (map fst l)). { eapply Permutation_NoDup; [|exact Hn]. apply Permutation_sym. now apply Permutation_map. }
  pose proof (proj1 (all_keys_spec d Hn) Ha) as Ha'. clear Ha. rename Ha' into Ha.
  assert (K : forall k, In k (map fst l) <-> 0 <= k < 0 + N.of_nat (length l)).
  { intros k. rewrite (Permutation_length P). split; [intros H; apply (Permutation_in _ (Permutation_map fst P)) in H; apply Ha in H; lia|].
    intros H. apply (Permutation_in _ (Permutation_sym (Permutation_map fst P))). apply Ha. lia. }
  pose proof (dense_nth l 0 S Nl K) as D. intros k name. rewrite nth_error_map. split.
  - intros H. apply (Permutation_in _ (Permutation_sym P)) in H. apply In_nth_error in H as (i & Hi). assert (E := D _ _ Hi). cbn [fst] in E. replace (N.to_nat k) with i by lia. now rewrite Hi.
  - destruct (nth_error l (N.to_nat k)) as [[j v]|] eqn:E; [|discriminate]. cbn [option_map snd]. intros [= ->]. assert (E2 := D _ _ E). cbn [fst] in E2.
    apply nth_error_In in E. apply (Permutation_in _ P) in E. replace k with j by lia. exact E.
Qed.
Lemma table_gap d : all_keys d = false -> blend_table d = Err AssertionError.
Proof. intros H. unfold blend_table. fold (all_keys d). now rewrite H. Qed.

(** ** Its lines *)
Lemma dec_N_plain k : plain_numeral k (dec_N k).
Proof.
  split.
  - split; [apply dec_N_nonempty|]. split; [|exact (dec_N_val k)]. apply digits_spec. exact (dec_N_digits k).
  - destruct (N.eq_dec k 0) as [->|Hk]; [left; reflexivity|]. right. pose proof (dec_N_head k Hk) as H. destruct (dec_N k); cbn [begins]; [tauto|congruence].
Qed.
Definition table_line (i : N) (name : pstr) : pstr := name ++ s " = " ++ dec_N i.
Fixpoint table_list (i : N) (l : list pstr) : list pstr := match l with [] => [] | v :: l' => table_line i v :: table_list (i + 1) l' end.
Lemma table_lines_join l : forall i, table_lines i l = join [10] (table_list i l ++ [[]]).
Proof.
  induction l as [|v l IH]; intros i; [reflexivity|]. cbn [table_lines table_list app]. rewrite IH. unfold table_line. destruct (table_list (i + 1) l); cbn [join app]; now rewrite <- !app_assoc.
Qed.
Lemma table_list_nth l : forall i k v, nth_error l k = Some v -> nth_error (table_list i l) k = Some (table_line (i + N.of_nat k) v).
Proof.
  induction l as [|w l IH]; intros i [|k] v E; cbn [nth_error table_list] in *; try discriminate; [injection E as <-; f_equal; f_equal; lia|].
  rewrite (IH (i + 1) k v E). f_equal. f_equal. lia.
Qed.
Lemma table_list_length l : forall i, length (table_list i l) = length l.
Proof. induction l; intros; cbn; auto. Qed.
Definition nice_name (name : pstr) : Prop := name <> [] /\ Forall (fun c => In c capitals_etc) name.
Lemma digit_not_blank c : In c digit_chars -> c <> 10 /\ is_space c = false.
Proof. intros H. cbn in H. repeat destruct H as [<-|H]; try (split; [discriminate|reflexivity]). destruct H. Qed.
Lemma capital_not_blank c : In c capitals_etc -> c <> 10 /\ is_space c = false.
Proof. intros H. vm_compute in H. repeat destruct H as [<-|H]; try (split; [discriminate|reflexivity]). destruct H. Qed.
Lemma table_line_no_lf i name : nice_name name -> ~ In 10 (table_line i name).
Proof.
  intros [_ H] Hi. unfold table_line in Hi. apply in_app_or in Hi as [Hi|Hi]; [rewrite Forall_forall in H; now apply (capital_not_blank 10 (H _ Hi))|].
  apply in_app_or in Hi as [Hi|Hi]; [cbn in Hi; repeat destruct Hi as [Hi|Hi]; try discriminate; destruct Hi|].
  destruct (dec_N_plain i) as [(_ & Hd & _) _]. rewrite Forall_forall in Hd. now apply (digit_not_blank 10 (Hd _ Hi)).
Qed.
Lemma table_line_rstrip n i name : rstrip (repeat 32 n ++ table_line i name) = repeat 32 n ++ table_line i name.
Proof.
  unfold table_line. destruct (dec_N_plain i) as [(Hne & Hd & _) _]. destruct (dec_N i) as [|c ds _] using rev_ind; [contradiction|]. apply Forall_app in Hd as [_ Hd]. inversion Hd as [|? ? Hc _]; subst.
  rewrite !app_assoc. unfold rstrip. rewrite rev_app_distr. cbn [rev app]. cbn [lstrip]. rewrite (proj2 (digit_not_blank c Hc)). cbn [rev]. now rewrite rev_involutive.
Qed.
Lemma table_list_nice names : forall i, Forall nice_name names -> Forall (fun l => ~ In 10 l) (table_list i names).
Proof. induction names as [|v l IH]; intros i H; cbn [table_list]; [constructor|]. inversion H; subst. constructor; [now apply table_line_no_lf|now apply IH]. Qed.
Lemma table_value i names new : Forall nice_name names -> value_in i ([10] ++ table_lines 0 names) new -> table_block i names new.
Proof.
  intros Hn (ls & Hl & ->). assert (E : ls = [[]] ++ table_list 0 names ++ [[]]).
  { apply (value_lines_unique _ _ Hl). split; [discriminate|]. split.
    - constructor; [intros []|]. apply Forall_app. split; [now apply table_list_nice|repeat constructor; intros []].
    - rewrite table_lines_join. cbn [app join]. now destruct (table_list 0 names). }
  subst ls. rewrite !map_app. cbn [map]. exists (map (fun l => rstrip (repeat 32 i ++ l) ++ [10]) (table_list 0 names)).
  assert (E : rstrip (repeat 32 i ++ []) = []). { rewrite app_nil_r. change (repeat 32 i) with ([] ++ repeat 32 i). rewrite rstrip_app; [reflexivity|]. clear. induction i; cbn [repeat]; constructor; auto. }
  split; [now rewrite !E|]. split; [now rewrite map_length, table_list_length|].
  intros k name Hk. exists (dec_N (N.of_nat k)). split; [apply dec_N_plain|]. rewrite nth_error_map, (table_list_nth _ _ _ _ Hk). cbn [option_map]. f_equal. rewrite table_line_rstrip. unfold table_line. now rewrite <- !app_assoc.
Qed.

Lemma counts_nice l name k : counts l name k -> nice_name name.
Proof. intros ((p & r & _ & (ds & r' & _ & H1 & H2 & _) & _) & _). now split. Qed.
Lemma is_name_nice ls k name : is_name ls k name -> nice_name name.
Proof. intros (a & l & b & _ & H & _). exact (counts_nice _ _ _ H). Qed.
Lemma scan_ok d src ls : lines_in d (header_name src) ls -> no_gap ls ->
  exists names, scan_field d src = Ok [(s "BlendMethod", [10] ++ table_lines 0 names)] /\ Forall nice_name names /\
    forall k name, is_name ls k name <-> nth_error names (N.to_nat k) = Some name.
Proof.
  intros Hl Hg. destruct (scan_spec ls) as [Hn Hd]. cbn zeta in Hn, Hd. destruct (table_names (fold_left scan_line ls []) Hn) as (names & Et & Hk).
  - apply no_gap_keys; [exact Hn|]. intros j k L H. apply in_map_iff in H as ([k' name] & E & H). cbn [fst] in E. subst k'. apply Hd in H. destruct (Hg _ _ _ L H) as (name' & H'). apply Hd in H'. now apply (in_map fst) in H'.
  - exists names. unfold scan_field. apply file_lines_spec in Hl. rewrite Hl. cbn [bind]. rewrite Et. cbn [bind]. split; [reflexivity|]. assert (K : forall k name, is_name ls k name <-> nth_error names (N.to_nat k) = Some name) by (intros; now rewrite <- Hd, Hk).
    split; [|exact K]. apply Forall_forall. intros name Hi. apply In_nth_error in Hi as (i & Hi). replace i with (N.to_nat (N.of_nat i)) in Hi by lia. apply K in Hi. exact (is_name_nice _ _ _ Hi).
Qed.
Lemma scan_gap d src ls : lines_in d (header_name src) ls -> ~ no_gap ls -> scan_field d src = Err AssertionError.
Proof.
  intros Hl Hg. destruct (scan_spec ls) as [Hn Hd]. cbn zeta in Hn, Hd. unfold scan_field. apply file_lines_spec in Hl. rewrite Hl. cbn [bind]. rewrite table_gap; [reflexivity|].
  destruct (all_keys (fold_left scan_line ls [])) eqn:E; [|reflexivity]. exfalso. apply Hg. pose proof (proj1 (all_keys_spec _ Hn) E) as K. intros j k name L H. apply Hd in H. apply (in_map fst) in H. cbn [fst] in H. apply K in H.
  assert (Hj : In j (map fst (fold_left scan_line ls []))) by (apply K; lia). apply in_map_iff in Hj as ([j' name'] & Ej & Hj). cbn [fst] in Ej. subst j'. exists name'. now apply Hd.
Qed.
Lemma scan_error d src e : scan_field d src = Err e -> forall isdir names, o_disk (scan_source d src isdir names) = d /\ o_written (scan_source d src isdir names) = [].
Proof. intros H [] names; unfold scan_source; rewrite ?H; auto. Qed.
