(** Proofs about the JSON that get-symbols.py writes, the order of files, and bodies of classes *)
From Coq Require Import ListDec Sorted Permutation Lia ZifyBool ZifyN ZifyNat.
From Verif Require Import DocProofs EtcModel RepSpec EtcSpec SerProofs AnimProofs AnimProofs2 RepProofs RepProofs4 RepProofs5 EtcProofs EtcProofs2.
Local Open Scope N_scope.

(** ** Strings *)
Lemma read_json_char c t : read_string (json_char c ++ t) = put_char c (read_string t).
Proof.
  destruct (N.lt_ge_cases c 32) as [H|H].
  - assert (E : exists k, (k < 32)%nat /\ c = N.of_nat k) by (exists (N.to_nat c); lia). destruct E as (k & Hk & ->). clear H.
    do 32 (destruct k as [|k]; [reflexivity|]). lia.
  - unfold json_char. destruct (N.eqb_spec c 34) as [->|H1]; [reflexivity|]. destruct (N.eqb_spec c 92) as [->|H2]; [reflexivity|].
    destruct (N.eqb_spec c 10); [lia|]. destruct (N.eqb_spec c 13); [lia|]. destruct (N.eqb_spec c 9); [lia|]. destruct (N.eqb_spec c 12); [lia|]. destruct (N.eqb_spec c 8); [lia|].
    destruct (N.ltb_spec c 32); [lia|]. cbn [app read_string]. rewrite (proj2 (N.eqb_neq c 34)) by exact H1. rewrite (proj2 (N.eqb_neq c 92)) by exact H2. now rewrite (proj2 (N.ltb_ge c 32)).
Qed.
Lemma read_json_str x t : read_string (flat_map json_char x ++ 34 :: t) = Some (x, t).
Proof. induction x as [|c x IH]; [reflexivity|]. cbn [flat_map]. rewrite <- app_assoc, read_json_char, IH. reflexivity. Qed.
Lemma skip_none c x : existsb (N.eqb c) [32; 10; 13; 9] = false -> skip_space (c :: x) = c :: x.
Proof. intros H. unfold skip_space. cbn [span]. now rewrite H. Qed.

(** ** Objects *)
Definition symbol_member (kv : pstr * option pstr) : pstr * json := (fst kv, symbol_json (snd kv)).
Definition value_text (o : option pstr) : pstr :=
  match o with
  | None => s "{}"
  | Some x => s "{" ++ [10] ++ repeat 32 8 ++ json_str (s "symbol") ++ s ": " ++ json_str x ++ [10] ++ repeat 32 4 ++ s "}"
  end.
Lemma read_symbol n o t : read_value (S (S (S n))) (32 :: value_text o ++ t) = Some (symbol_json o, t).
Proof.
  destruct o as [x|]; [|reflexivity]. unfold value_text, json_str. rewrite <- !app_assoc.
  change (read_value (S (S (S n))) (32 :: s "{" ++ [10] ++ repeat 32 8 ++ (34 :: flat_map json_char (s "symbol") ++ [34]) ++ s ": " ++ (34 :: flat_map json_char x ++ [34]) ++ [10] ++ repeat 32 4 ++ s "}" ++ t))
    with (match read_members (S (S n)) ([10] ++ repeat 32 8 ++ 34 :: flat_map json_char (s "symbol") ++ 34 :: s ": " ++ (34 :: flat_map json_char x ++ [34]) ++ [10] ++ repeat 32 4 ++ s "}" ++ t) with Some (m, r') => Some (JObj m, r') | None => None end).
  cbn [read_members].
  change (skip_space ([10] ++ repeat 32 8 ++ 34 :: flat_map json_char (s "symbol") ++ 34 :: s ": " ++ (34 :: flat_map json_char x ++ [34]) ++ [10] ++ repeat 32 4 ++ s "}" ++ t))
    with (34 :: flat_map json_char (s "symbol") ++ 34 :: s ": " ++ (34 :: flat_map json_char x ++ [34]) ++ [10] ++ repeat 32 4 ++ s "}" ++ t).
  cbn iota beta. rewrite read_json_str. cbn iota beta.
  change (skip_space (s ": " ++ (34 :: flat_map json_char x ++ [34]) ++ [10] ++ repeat 32 4 ++ s "}" ++ t)) with (58 :: 32 :: (34 :: flat_map json_char x ++ [34]) ++ [10] ++ repeat 32 4 ++ s "}" ++ t).
  cbn iota beta. cbn [read_value].
  change (skip_space (32 :: (34 :: flat_map json_char x ++ [34]) ++ [10] ++ repeat 32 4 ++ s "}" ++ t)) with (34 :: (flat_map json_char x ++ [34]) ++ [10] ++ repeat 32 4 ++ s "}" ++ t).
  cbn iota beta. rewrite <- app_assoc. change ([34] ++ [10] ++ repeat 32 4 ++ s "}" ++ t) with (34 :: [10] ++ repeat 32 4 ++ s "}" ++ t). rewrite read_json_str. reflexivity.
Qed.
Lemma read_entries l : l <> [] -> forall n t, read_members (length l + 4 + n) (join (s ",") (map json_entry l) ++ [10] ++ s "}" ++ t) = Some (map symbol_member l, t).
Proof.
  induction l as [|[k o] l IH]; intros Hne n t; [contradiction|]. clear Hne.
  assert (E : exists u, join (s ",") (map json_entry ((k, o) :: l)) ++ [10] ++ s "}" ++ t = [10] ++ repeat 32 4 ++ 34 :: flat_map json_char k ++ 34 :: 58 :: 32 :: value_text o ++ u /\
    ((l = [] /\ u = [10] ++ s "}" ++ t) \/ (l <> [] /\ u = 44 :: join (s ",") (map json_entry l) ++ [10] ++ s "}" ++ t))).
  { destruct l as [|kv l].
    - exists ([10] ++ s "}" ++ t). split; [|left; auto]. cbn [map join]. unfold json_entry, json_str. cbn [fst snd]. fold (value_text o). rewrite <- !app_assoc. cbn [app]. rewrite <- !app_assoc. reflexivity.
    - exists (44 :: join (s ",") (map json_entry (kv :: l)) ++ [10] ++ s "}" ++ t). split; [|right; split; [discriminate|reflexivity]].
      change (join (s ",") (map json_entry ((k, o) :: kv :: l))) with (json_entry (k, o) ++ s "," ++ join (s ",") (map json_entry (kv :: l))).
      generalize (join (s ",") (map json_entry (kv :: l))). intros z. unfold json_entry, json_str. cbn [fst snd]. fold (value_text o). rewrite <- !app_assoc. cbn [app]. rewrite <- !app_assoc. reflexivity. }
  destruct E as (u & -> & Hu). cbn [length Nat.add read_members].
  change (skip_space ([10] ++ repeat 32 4 ++ 34 :: flat_map json_char k ++ 34 :: 58 :: 32 :: value_text o ++ u)) with (34 :: flat_map json_char k ++ 34 :: 58 :: 32 :: value_text o ++ u).
  cbn iota beta. rewrite read_json_str. cbn iota beta. change (skip_space (58 :: 32 :: value_text o ++ u)) with (58 :: 32 :: value_text o ++ u). cbn iota beta.
  replace (length l + 4 + n)%nat with (S (S (S (length l + 1 + n)))) by lia. rewrite read_symbol. cbn iota beta. destruct Hu as [[-> ->]|[Hl ->]].
  - reflexivity.
  - rewrite skip_none by reflexivity. cbn iota beta. replace (S (S (S (length l + 1 + n)))) with (length l + 4 + n)%nat by lia. rewrite (IH Hl n t). reflexivity.
Qed.
Definition by_name (a b : pstr * option pstr) : bool := pstr_le (fst a) (fst b).
Lemma entry_long kv : (5 <= length (json_entry kv))%nat.
Proof. unfold json_entry. rewrite !app_length. cbn [length repeat]. lia. Qed.
Lemma join_long l : (5 * length l <= length (join (s ",") (map json_entry l)))%nat.
Proof.
  induction l as [|kv l IH]; [cbn; lia|]. cbn [map join]. pose proof (entry_long kv). destruct l as [|kv2 l]; [cbn [map join length]; lia|].
  cbn [map]. rewrite !app_length. cbn [map length] in *. lia.
Qed.
Lemma read_out r : read_json (json_out r) = Some (JObj (map symbol_member (sort by_name r))).
Proof.
  destruct r as [|kv r]; [reflexivity|]. unfold json_out. set (l := sort (fun a b => pstr_le (fst a) (fst b)) (kv :: r)). change (sort by_name (kv :: r)) with l.
  assert (Hl : l <> []). { intros E. pose proof (sort_perm (fun a b : pstr * option pstr => pstr_le (fst a) (fst b)) (kv :: r)) as P. fold l in P. rewrite E in P. apply Permutation_nil in P. discriminate. }
  unfold read_json. set (t := s "{" ++ join (s ",") (map json_entry l) ++ [10] ++ s "}").
  assert (Ln : exists n, S (length t) = S (length l + 4 + n)). { pose proof (join_long l) as J. assert (L1 : (1 <= length l)%nat) by (destruct l; [contradiction|cbn; lia]). exists (length t - length l - 4)%nat. unfold t. rewrite !app_length. cbn [length]. lia. }
  destruct Ln as (n & ->). unfold t. cbn [read_value].
  change (skip_space (s "{" ++ join (s ",") (map json_entry l) ++ [10] ++ s "}")) with (123 :: join (s ",") (map json_entry l) ++ [10] ++ s "}"). cbn iota beta.
  assert (Q : exists z, skip_space (join (s ",") (map json_entry l) ++ [10] ++ s "}") = 34 :: z).
  { destruct l as [|[k o] [|kv2 l']]; [contradiction| |]; cbn [map join]; eexists; reflexivity. }
  destruct Q as (z & ->). cbn iota beta. pose proof (read_entries l Hl n []) as R. rewrite app_nil_r in R. rewrite R. reflexivity.
Qed.

(** ** It can be written. *)
Lemma okc_ascii c : c < 128 -> okc c.
Proof. intros H. unfold okc, utf8_char. destruct (N.ltb_spec c 128); [discriminate|lia]. Qed.
Lemma json_char_okc c : okc c -> Forall okc (json_char c).
Proof.
  intros H. destruct (N.lt_ge_cases c 32) as [L|L].
  - assert (E : exists k, (k < 32)%nat /\ c = N.of_nat k) by (exists (N.to_nat c); lia). destruct E as (k & Hk & ->). clear H L.
    do 32 (destruct k as [|k]; [apply Forall_forall; intros z Hz; apply okc_ascii; cbn in Hz; repeat destruct Hz as [<-|Hz]; try reflexivity; destruct Hz|]). lia.
  - unfold json_char. destruct (N.eqb_spec c 34) as [->|H1]; [repeat constructor; now apply okc_ascii|]. destruct (N.eqb_spec c 92) as [->|H2]; [repeat constructor; now apply okc_ascii|].
    destruct (N.eqb_spec c 10); [lia|]. destruct (N.eqb_spec c 13); [lia|]. destruct (N.eqb_spec c 9); [lia|]. destruct (N.eqb_spec c 12); [lia|]. destruct (N.eqb_spec c 8); [lia|].
    destruct (N.ltb_spec c 32); [lia|]. now repeat constructor.
Qed.
Lemma json_str_okc x : Forall okc x -> Forall okc (json_str x).
Proof.
  intros H. unfold json_str. constructor; [now apply okc_ascii|]. apply Forall_app. split; [|repeat constructor; now apply okc_ascii].
  induction H as [|c x Hc _ IH]; cbn [flat_map]; [constructor|]. apply Forall_app. split; [now apply json_char_okc|exact IH].
Qed.
Ltac ascii := apply Forall_forall; let z := fresh in let H := fresh in intros z H; apply okc_ascii; vm_compute in H; repeat destruct H as [<-|H]; try reflexivity; destruct H.
Definition entry_okc (kv : pstr * option pstr) : Prop := Forall okc (fst kv) /\ match snd kv with Some x => Forall okc x | None => True end.
Lemma json_entry_okc kv : entry_okc kv -> Forall okc (json_entry kv).
Proof.
  intros [H1 H2]. unfold json_entry. apply Forall_app. split; [ascii|]. apply Forall_app. split; [ascii|]. apply Forall_app. split; [now apply json_str_okc|]. apply Forall_app. split; [ascii|].
  destruct (snd kv) as [x|]; [|ascii]. apply Forall_app. split; [ascii|]. apply Forall_app. split; [ascii|]. apply Forall_app. split; [ascii|]. apply Forall_app. split; [ascii|]. apply Forall_app. split; [ascii|].
  apply Forall_app. split; [now apply json_str_okc|]. ascii.
Qed.
Lemma json_out_okc r : Forall entry_okc r -> encodable (json_out r).
Proof.
  intros H. apply encodable_spec. unfold json_out. destruct r as [|kv r]; [ascii|]. apply Forall_app. split; [ascii|]. apply Forall_app. split; [|ascii].
  apply join_Forall; [ascii|]. apply Forall_map. apply Forall_forall. intros e He. apply json_entry_okc. rewrite Forall_forall in H. apply H. apply (Permutation_in _ (sort_perm _ _) He).
Qed.
Lemma lines_in_okc d n ls : lines_in d n ls -> Forall (Forall okc) ls.
Proof.
  intros (x & (y & (b & _ & Eb) & ->) & Hl). apply (lines_Forall _ _ _ Hl). apply norm_eol_Forall; [now apply okc_ascii|]. apply encodable_spec. now exists b.
Qed.
Lemma sets_okc l y : Forall okc l -> sets_symbol l y -> Forall okc y.
Proof.
  intros H (p & r & -> & (i & j & q & r' & -> & _) & _). apply Forall_app in H as [_ H]. do 5 (apply Forall_app in H as [_ H]). apply Forall_app in H as [H _]. exact H.
Qed.
Lemma word_okc c : word c -> Forall okc c.
Proof. apply Forall_impl. intros z Hz. apply okc_ascii. apply word_char_spec in Hz. unfold word_char in Hz. lia. Qed.
Lemma last_sym_okc ls : forall o, Forall (Forall okc) ls -> match o with Some x => Forall okc x | None => True end -> match last_sym o ls with Some x => Forall okc x | None => True end.
Proof.
  induction ls as [|l ls IH]; intros o H Ho; [exact Ho|]. inversion H as [|? ? Hl Hls]; subst. unfold last_sym. cbn [fold_left]. apply IH; [exact Hls|]. unfold upd. destruct (sym l) as [y|] eqn:E; [|exact Ho]. apply sym_spec in E as [E _]. exact (sets_okc _ _ Hl E).
Qed.
Lemma section_okc sec : section_ok sec -> Forall (Forall okc) (snd sec) -> entry_okc (fst sec, last_sym None (snd sec)).
Proof.
  intros (l & m & E & Hl & _) H. split; cbn [fst snd].
  - destruct Hl as (p & r & _ & (r' & _ & _ & Hw & _) & _). now apply word_okc.
  - now apply last_sym_okc.
Qed.
Lemma results_okc secs : Forall section_ok secs -> Forall (Forall okc) (concat (map snd secs)) -> Forall entry_okc (results secs).
Proof.
  induction 1 as [|sec secs Hs _ IH]; cbn [map concat results]; [constructor|]. intros H. apply Forall_app in H as [H1 H2]. constructor; [now apply section_okc|now apply IH].
Qed.
Lemma files_okc d names lss : Forall2 (lines_in d) names lss -> Forall (Forall okc) (concat lss).
Proof. induction 1 as [|n ls names lss H _ IH]; cbn [concat]; [constructor|]. apply Forall_app. split; [exact (lines_in_okc _ _ _ H)|exact IH]. Qed.
Lemma put_ok d names lss pre secs : Forall2 (lines_in d) names lss -> sections (concat lss) pre secs -> NoDup (map fst secs) ->
  exists b, utf8_out (json_out (results secs)) = Some b /\ put_symbols d names = (aset details_name b d, Ok tt).
Proof.
  intros Hl Hs Hn. destruct (json_out_okc (results secs)) as [b Eb].
  { destruct Hs as (E & _ & Hs). apply results_okc; [exact Hs|]. pose proof (files_okc _ _ _ Hl) as F. rewrite E in F. now apply Forall_app in F as [_ F]. }
  exists b. split; [exact Eb|]. unfold put_symbols. rewrite (details_files_concat _ _ _ Hl). destruct (proj1 (details_all _ _ _ Hs) Hn) as (cur & ->). now rewrite Eb.
Qed.
Lemma put_twice d names lss pre secs : Forall2 (lines_in d) names lss -> sections (concat lss) pre secs -> ~ NoDup (map fst secs) -> put_symbols d names = (d, Err AssertionError).
Proof. intros Hl Hs Hn. unfold put_symbols. rewrite (details_files_concat _ _ _ Hl). now rewrite (proj2 (details_all _ _ _ Hs) Hn). Qed.

(** ** The order of files *)
Lemma sorted_unique {A} (le : A -> A -> bool) : forall a b, Permutation a b -> (forall x y, In x a -> In y a -> le x y = true -> le y x = true -> x = y) ->
  StronglySorted (fun x y => le x y = true) a -> StronglySorted (fun x y => le x y = true) b -> a = b.
Proof.
  induction a as [|x a IH]; intros b P Anti Sa Sb; [apply Permutation_nil in P; now subst|]. destruct b as [|y b]; [apply Permutation_sym, Permutation_nil in P; discriminate|].
  inversion Sa as [|? ? Sa' Fa]; subst. inversion Sb as [|? ? Sb' Fb]; subst. rewrite Forall_forall in Fa, Fb.
  assert (E : x = y).
  { assert (Hx : In x (y :: b)) by (apply (Permutation_in _ P); now left). assert (Hy : In y (x :: a)) by (apply (Permutation_in _ (Permutation_sym P)); now left).
    destruct Hx as [Hx|Hx]; [auto|]. destruct Hy as [Hy|Hy]; [auto|]. apply Anti; [now left|now right|now apply Fa|now apply Fb]. }
  subst y. f_equal. apply IH; auto; [now apply Permutation_cons_inv in P|]. intros u v Hu Hv. apply Anti; now right.
Qed.
Lemma pstr_le_anti a : forall b, pstr_le a b = true -> pstr_le b a = true -> a = b.
Proof.
  induction a as [|x a IH]; intros [|y b]; cbn [pstr_le]; try discriminate; auto. intros H1 H2.
  destruct (N.ltb_spec x y), (N.ltb_spec y x); try lia; destruct (N.eqb_spec x y), (N.eqb_spec y x); try lia; try discriminate; subst; f_equal; now apply IH.
Qed.
Lemma by_name_anti (r : symbols) x y : NoDup (map fst r) -> In x r -> In y r -> by_name x y = true -> by_name y x = true -> x = y.
Proof.
  intros Hn Hx Hy H1 H2. assert (E : fst x = fst y) by (apply pstr_le_anti; [exact H1|exact H2]). destruct x as [k v], y as [k' v']. cbn [fst] in E. subst k'.
  clear H1 H2. induction r as [|[k2 v2] r IH]; [destruct Hx|]. cbn [map fst] in Hn. inversion Hn as [|? ? Hk Hn']; subst. destruct Hx as [Hx|Hx], Hy as [Hy|Hy].
  - congruence.
  - injection Hx as -> ->. apply (in_map fst) in Hy. contradiction.
  - injection Hy as -> ->. apply (in_map fst) in Hx. contradiction.
  - now apply IH.
Qed.
Lemma by_name_sorted r : StronglySorted (fun a b => by_name a b = true) (sort by_name r).
Proof. apply sort_strong; unfold by_name; [intros a b; apply pstr_le_total|intros a b c; apply pstr_le_trans]. Qed.
Lemma json_out_perm r r' : NoDup (map fst r) -> Permutation r r' -> json_out r = json_out r'.
Proof.
  intros Hn P. assert (E : sort by_name r = sort by_name r').
  { apply (sorted_unique by_name).
    - transitivity r; [apply sort_perm|]. transitivity r'; [exact P|]. apply Permutation_sym, sort_perm.
    - intros x y Hx Hy. apply (by_name_anti r); auto; (eapply Permutation_in; [apply sort_perm|]); eassumption.
    - apply by_name_sorted.
    - apply by_name_sorted. }
  unfold json_out. unfold by_name in E. rewrite E. destruct r as [|kv r]; [apply Permutation_nil in P; now subst|]. destruct r' as [|kv' r']; [apply Permutation_sym, Permutation_nil in P; discriminate|]. reflexivity.
Qed.
Lemma details_silent m : Forall no_layer m -> silent m -> forall st, details_lines st m = Ok st.
Proof.
  intros H Hs. apply silent_spec in Hs. induction H as [|l m Hl _ IH]; intros [r cur]; [reflexivity|]. inversion Hs as [|? ? Hy Hs']; subst. cbn [details_lines]. apply no_layer_spec in Hl. unfold layer_of in Hl. unfold sym, foreign in Hy. unfold details_line.
  destruct (search layer_class_re l) as [[c b]|]; [destruct (pstr_eqb b (s "Layer")); [discriminate|]; now apply IH|]. unfold symbol_line. rewrite Hy. destruct cur as [c|]; [destruct (aget c r)|]; now apply IH.
Qed.
Lemma details_clean secss : forall lss, Forall2 (fun ls secs => exists pre, sections ls pre secs /\ silent pre) lss secss -> forall r cur, NoDup (map fst r) ->
  let secs := concat secss in
  (NoDup (map fst r ++ map fst secs) -> exists cur', details_lines (r, cur) (concat lss) = Ok (r ++ results secs, cur')) /\
  (~ NoDup (map fst r ++ map fst secs) -> details_lines (r, cur) (concat lss) = Err AssertionError).
Proof.
  induction secss as [|secs secss IH]; intros lss H; inversion H as [|ls ? lss' ? (pre & (El & Hp & Hs) & Hq) H']; subst; intros r cur Hr; cbn zeta; cbn [concat].
  - cbn [map results concat]. rewrite !app_nil_r. split; [intros _; exists cur; reflexivity|contradiction].
  - rewrite <- app_assoc, details_app, (details_silent pre Hp Hq). cbn [bind]. rewrite details_app. destruct (details_secs secs Hs r cur Hr) as [D1 D2].
    destruct (ListDec.NoDup_dec (list_eq_dec N.eq_dec) (map fst r ++ map fst secs)) as [Hn|Hn].
    + destruct (D1 Hn) as (cur1 & ->). cbn [bind]. assert (Hr' : NoDup (map fst (r ++ results secs))) by now rewrite map_app, results_fst.
      destruct (IH lss' H' (r ++ results secs) cur1 Hr') as [I1 I2]. cbn zeta in I1, I2. unfold results in *. rewrite map_app, map_map in I1, I2. cbn [fst] in I1, I2. rewrite <- app_assoc in I1, I2. rewrite !map_app. split; [|exact I2].
      intros Hn2. destruct (I1 Hn2) as (cur' & I). exists cur'. rewrite I. f_equal. f_equal. now rewrite <- app_assoc.
    + rewrite (D2 Hn). cbn [bind]. split; [|reflexivity]. intros Hn2. destruct Hn. rewrite map_app, app_assoc in Hn2. now apply DocProofs.NoDup_app_parts in Hn2 as [Hn2 _].
Qed.
Lemma clean_sections ls : starts_clean ls -> exists pre secs, sections ls pre secs /\ silent pre.
Proof.
  intros H. destruct (sections_exist ls) as (pre & secs & E & Hp & Hs). exists pre, secs. split; [now split|]. apply silent_spec. apply Forall_forall. intros l Hl. apply in_split in Hl as (a & b & ->).
  rewrite <- app_assoc in E. cbn [app] in E. specialize (H a l _ E). apply Forall_app in Hp as [Hp1 Hp2]. inversion Hp2; subst. assert (S1 : silent [l]) by (apply H; apply Forall_app; auto). apply silent_spec in S1. now inversion S1.
Qed.
Lemma clean_all lss : Forall starts_clean lss -> exists secss, Forall2 (fun ls secs => exists pre, sections ls pre secs /\ silent pre) lss secss.
Proof. induction 1 as [|ls lss H _ [secss IH]]; [exists []; constructor|]. destruct (clean_sections ls H) as (pre & secs & H1). exists (secs :: secss). constructor; eauto. Qed.
Lemma Forall2_perm {A B} (R : A -> B -> Prop) a a' : Permutation a a' -> forall b, Forall2 R a b -> exists b', Forall2 R a' b' /\ Permutation b b'.
Proof.
  induction 1 as [|x a a' _ IH|x y a|a a' a'' _ IH1 _ IH2]; intros b H.
  - inversion H; subst. exists []. split; constructor.
  - inversion H as [|? y ? b0 Hy H']; subst. destruct (IH b0 H') as (b' & H1 & H2). exists (y :: b'). split; constructor; auto.
  - inversion H as [|? u ? b0 Hu H']; subst. inversion H' as [|? v ? b1 Hv H'']; subst. exists (v :: u :: b1). split; [repeat constructor; auto|apply perm_swap].
  - destruct (IH1 b H) as (b' & H1 & H2). destruct (IH2 b' H1) as (b'' & H3 & H4). exists b''. split; [exact H3|]. now transitivity b'.
Qed.
Lemma concat_perm {A} (a b : list (list A)) : Permutation a b -> Permutation (concat a) (concat b).
Proof. induction 1; cbn [concat]; auto; [now apply Permutation_app_head|rewrite !app_assoc; apply Permutation_app_tail, Permutation_app_comm|etransitivity; eauto]. Qed.
Lemma put_order d names names' lss : Forall2 (lines_in d) names lss -> Forall starts_clean lss -> Permutation names names' -> put_symbols d names = put_symbols d names'.
Proof.
  intros Hl Hc P. destruct (clean_all lss Hc) as (secss & Hs).
  destruct (Forall2_perm _ _ _ P lss Hl) as (lss' & Hl' & Pl). destruct (Forall2_perm _ _ _ Pl secss Hs) as (secss' & Hs' & Ps).
  destruct (details_clean secss lss Hs [] None (NoDup_nil _)) as [D1 D2]. destruct (details_clean secss' lss' Hs' [] None (NoDup_nil _)) as [D1' D2']. cbn zeta in *. cbn [map app] in *.
  assert (Pr : Permutation (results (concat secss)) (results (concat secss'))) by (unfold results; apply Permutation_map; now apply concat_perm).
  assert (Pn : Permutation (map fst (concat secss)) (map fst (concat secss'))) by (rewrite <- !results_fst; now apply Permutation_map).
  unfold put_symbols. rewrite (details_files_concat _ _ _ Hl), (details_files_concat _ _ _ Hl').
  destruct (ListDec.NoDup_dec (list_eq_dec N.eq_dec) (map fst (concat secss))) as [Hn|Hn].
  - destruct (D1 Hn) as (cur & ->). destruct (D1' (Permutation_NoDup Pn Hn)) as (cur' & ->). rewrite (json_out_perm (results (concat secss)) (results (concat secss'))); [reflexivity|now rewrite results_fst|exact Pr].
  - rewrite (D2 Hn). rewrite D2'; [reflexivity|]. intros Hn'. apply Hn. exact (Permutation_NoDup (Permutation_sym Pn) Hn').
Qed.

(** ** Bodies *)
Lemma silent_app a b : silent (a ++ b) <-> silent a /\ silent b.
Proof. rewrite !silent_spec. apply Forall_app. Qed.
Lemma silent_dec l : silent [l] \/ ~ silent [l].
Proof. rewrite silent_spec. destruct (sym l) eqn:E; [right|left; repeat constructor; exact E]. intros H. inversion H; congruence. Qed.
Lemma tidy_prefix ls q z : tidy ls -> ls = q ++ z -> Forall no_layer q -> silent q.
Proof.
  intros T -> Hq. apply silent_spec, Forall_forall. intros x Hx. apply in_split in Hx as (a & b & ->). rewrite <- app_assoc in T. cbn [app] in T. apply Forall_app in Hq as [Ha Hx]. inversion Hx as [|? ? Hx' _]; subst.
  destruct (silent_dec x) as [S|S]; [apply silent_spec in S; now inversion S|]. exfalso. destruct (T a x (b ++ z) eq_refl S) as [(c & H)|(_ & a' & h & m & c & -> & H & _)]; [exact (Hx' c H)|].
  apply Forall_app in Ha as [_ Ha]. inversion Ha as [|? ? Hh _]; subst. exact (Hh c H).
Qed.
Lemma tidy_files lss : Forall tidy lss -> forall q z, concat lss = q ++ z -> Forall no_layer q -> silent q.
Proof.
  induction 1 as [|ls lss Ht _ IH]; intros q z E Hq; cbn [concat] in E; [symmetry in E; apply app_eq_nil in E as [-> _]; apply silent_spec; constructor|].
  apply app_eq_app in E as (l & [[E1 E2]|[E1 E2]]); subst.
  - now apply (tidy_prefix (q ++ l) q l).
  - apply silent_app. apply Forall_app in Hq as [H1 H2]. split; [apply (tidy_prefix ls ls []); [exact Ht|now rewrite app_nil_r|exact H1]|now apply (IH l z)].
Qed.
Lemma tidy_after ls a body b c q z : tidy ls -> ls = a ++ body ++ b -> body_of ls c body -> (b = [] \/ exists l' b', b = l' :: b' /\ ~ indented_line l') -> b = q ++ z -> Forall no_layer q -> silent q.
Proof.
  intros T El _ Hb -> Hq. apply silent_spec, Forall_forall. intros x Hx. apply in_split in Hx as (b1 & b2 & ->). rewrite <- app_assoc in Hb, El. cbn [app] in Hb, El. apply Forall_app in Hq as [Hb1 Hx]. inversion Hx as [|? ? Hx' _]; subst.
  destruct (silent_dec x) as [S|S]; [apply silent_spec in S; now inversion S|]. exfalso. assert (E : a ++ body ++ b1 ++ x :: b2 ++ z = (a ++ body ++ b1) ++ x :: b2 ++ z) by now rewrite <- !app_assoc.
  destruct (T _ _ _ E S) as [(k & H)|(Hi & a' & h & m & k & Ea & H & Hm)]; [exact (Hx' k H)|].
  destruct Hb as [Hb|(l' & b' & Hb & Hn)]; [destruct b1; discriminate|]. destruct b1 as [|y b1]; cbn [app] in Hb; injection Hb as -> _; [contradiction|].
  rewrite app_assoc in Ea. apply app_eq_app in Ea as (l & [[E1 E2]|[E1 E2]]).
  - destruct l as [|h' l]; cbn [app] in E2.
    + injection E2 as <- <-. inversion Hb1 as [|? ? Hh _]; subst. exact (Hh k H).
    + injection E2 as <- ->. apply Forall_app in Hm as [_ Hm]. inversion Hm; subst. contradiction.
  - rewrite E2 in Hb1. apply Forall_app in Hb1 as [_ Hb1]. inversion Hb1 as [|? ? Hh _]; subst. exact (Hh k H).
Qed.
Lemma body_section L1 ls L2 c body : Forall tidy (L1 ++ ls :: L2) -> flat ls -> body_of ls c body ->
  exists pre secs sec, sections (concat (L1 ++ ls :: L2)) pre secs /\ In (c, sec) secs /\ last_sym None sec = last_sym None body.
Proof.
  intros T Fl Hbo. pose proof Hbo as (a & l & m & b & El & -> & Hl & Hm & Hb).
  apply Forall_app in T as [_ T]. inversion T as [|? ? T1 T2]; subst x l0.
  assert (Nm : Forall no_layer m). { apply Forall_forall. intros y Hy k Hk. rewrite Forall_forall in Hm. apply (Fl y k); [rewrite El; apply in_or_app; right; apply in_or_app; left; now right|exact Hk|now apply Hm]. }
  destruct (sections_exist (concat L1 ++ a)) as (pre & secs1 & E1 & P1 & S1). destruct (sections_exist (b ++ concat L2)) as (q & secs2 & E2 & P2 & S2).
  exists pre, (secs1 ++ (c, (l :: m) ++ q) :: secs2), ((l :: m) ++ q). split.
  { split; [|split].
    - rewrite concat_app. cbn [concat]. rewrite map_app, concat_app. cbn [map concat snd]. rewrite El. rewrite <- !app_assoc. rewrite (app_assoc (concat L1)), E1. rewrite <- !app_assoc. f_equal. f_equal. f_equal. exact E2.
    - exact P1.
    - apply Forall_app. split; [exact S1|]. constructor; [|exact S2]. exists l, (m ++ q). split; [reflexivity|]. split; [exact Hl|]. apply Forall_app. now split. }
  split; [apply in_or_app; right; now left|]. rewrite last_sym_app. apply last_sym_silent.
  symmetry in E2. apply app_eq_app in E2 as (w & [[F1 F2]|[F1 F2]]).
  - subst q. apply silent_app. apply Forall_app in P2 as [P2 P3]. split; [|now apply (tidy_files L2 T2 w _ F2)]. apply (tidy_after ls a (l :: m) b c b []); auto. now rewrite app_nil_r.
  - now apply (tidy_after ls a (l :: m) b c q w).
Qed.
