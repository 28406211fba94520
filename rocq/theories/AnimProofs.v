(** Proofs about saving and loading. *)
From Verif Require Import AnimModel AnimSpec XpSpec XpProofs SerProofs.
From Coq Require Import Lia ZifyN ZifyBool Permutation.
Local Open Scope N_scope.

(** ** Documents as reading leaves them *)

Lemma ascii_space_in c : ascii_space c = true <-> In c [9; 10; 12; 13; 32].
Proof. unfold ascii_space. cbn [In]. lia. Qed.
Lemma white_forallb x : white x <-> forallb ascii_space x = true.
Proof.
  unfold white. rewrite forallb_forall, Forall_forall. split; intros H c Hc; apply ascii_space_in; auto.
Qed.
Lemma norm_blank_settled x : settled_text x -> norm_blank x = x.
Proof.
  intros [_ H]. unfold norm_blank. destruct (forallb ascii_space x) eqn:E; [|reflexivity]. apply white_forallb in E.
  destruct (H E) as [-> | ->]; reflexivity.
Qed.
Lemma settled_norm_blank x : x <> [] -> settled_text (norm_blank x).
Proof.
  intros H. unfold norm_blank. destruct (forallb ascii_space x) eqn:E.
  - destruct (existsb (N.eqb 10) x); split; try discriminate; auto.
  - split; [exact H|]. intros W. apply white_forallb in W. congruence.
Qed.

Lemma merge_apart k : apart k -> Forall (fun n => match n with Txt x => x <> [] | _ => True end) k -> merge_texts k = k.
Proof.
  induction k as [|n k IH]; [reflexivity|]. intros Ha Hn. inversion Hn as [|? ? A B]; subst. cbn [merge_texts]. destruct n as [x|nm a kk].
  - assert (E : merge_texts k = k) by (apply IH; [destruct k as [|[]]; cbn [apart] in *; tauto|exact B]). rewrite E.
    destruct k as [|[y|] k']; [|cbn [apart] in Ha; tauto|]; destruct x; try contradiction; reflexivity.
  - f_equal. apply IH; [exact Ha|exact B].
Qed.

Lemma same_doc_refl n : same_doc n n.
Proof.
  induction n as [x|nm a k IH] using node_ind'; constructor; [reflexivity|]. induction IH; constructor; auto.
Qed.

Lemma attr_strings_read a : settled_values a -> good_attrs a -> Permutation (attr_strings a) (attr_strings (reload_attrs a)).
Proof.
  intros Hs Hg. rewrite reload_attrs_map. unfold attr_strings. rewrite map_map. cbn [fst snd aval_str read_attr].
  assert (E : forall l, Permutation l a -> Forall (fun kv => Forall (fun c => c <> 9 /\ c <> 10) (aval_str (snd kv))) l ->
     map (fun kv : pstr * aval => (fst kv, norm_attr (aval_str (snd kv)))) l = map (fun kv => (fst kv, aval_str (snd kv))) l).
  { intros l Hp Hl. apply map_ext_in. intros [k v] Hi. cbn [fst snd]. f_equal. rewrite Forall_forall in Hl. specialize (Hl _ Hi). cbn [snd] in Hl.
    destruct Hg as [_ Hg]. rewrite Forall_forall in Hg. pose proof (Hg _ (Permutation_in _ Hp Hi)) as [_ Hv]. cbn [snd] in Hv.
    rewrite norm_attr_sp by exact Hv. rewrite <- map_id. apply map_ext_in. intros c Hc. rewrite Forall_forall in Hl. specialize (Hl c Hc).
    unfold sp, space. destruct (c =? 32) eqn:E1; [cbn; now apply N.eqb_eq in E1|]. destruct (c =? 10) eqn:E2; [lia|]. destruct (c =? 9) eqn:E3; [lia|reflexivity]. }
  pose proof (sort_perm (fun a b : pstr * aval => pstr_le (fst a) (fst b)) a) as P. fold (sorted a) in P. rewrite E; [|exact P|].
  - apply Permutation_map. now symmetry.
  - eapply Permutation_Forall; [symmetry; exact P|exact Hs].
Qed.

Lemma settled_nonempty k : Forall settled k -> Forall (fun n => match n with Txt x => x <> [] | _ => True end) k.
Proof. apply Forall_impl. intros [x|]; [|exact (fun _ => I)]. inversion 1 as [? [A _]|]. exact A. Qed.

Lemma apart_reload k : apart k -> apart (map reload k).
Proof.
  induction k as [|n k IH]; [exact (fun H => H)|]. destruct n as [x|nm a kk]; cbn [map reload apart].
  - destruct k as [|[y|] k']; cbn [map reload]; auto.
  - exact IH.
Qed.

Lemma norm_reload n : writable n -> settled n -> norm_node (reload n) = reload n.
Proof.
  destruct n as [x|nm a k]; [|reflexivity]. intros W Sx. inversion Sx; subst. cbn [reload norm_node]. unfold norm_text.
  rewrite norm_eol_id by now apply good_no13. now rewrite norm_blank_settled.
Qed.

Lemma reload_settled_kids k : all_writable k -> Forall settled k -> apart k ->
  map norm_node (merge_texts (map reload k)) = map reload k.
Proof.
  intros W Sk Ha. rewrite merge_apart.
  - rewrite map_map. apply map_ext_in. intros n Hn. unfold all_writable in W. rewrite Forall_forall in W, Sk. apply norm_reload; auto.
  - now apply apart_reload.
  - apply Forall_map. eapply Forall_impl; [|apply settled_nonempty, Sk]. intros [x|]; auto.
Qed.

Lemma reload_same n : writable n -> settled n -> same_doc n (reload n).
Proof.
  induction n as [x|nm a k IH] using node_ind'; intros W Sn; [constructor|]. apply writable_El in W as (Wn & Wa & Wk). inversion Sn as [|? ? ? Sa Sap Sk]; subst.
  cbn [reload]. rewrite reload_settled_kids by assumption. constructor; [now apply attr_strings_read|].
  unfold all_writable in Wk. clear Sap Sn. induction IH as [|n k Hn IH IHk]; cbn [map]; [constructor|]. inversion Wk; inversion Sk; subst. constructor; auto.
Qed.

(** ** Reading gives settled, writable documents *)

Definition first_not_text (k : list node) : Prop := match k with Txt _ :: _ => False | _ => True end.
Lemma apart_cons_el nm a j k : apart k -> apart (El nm a j :: k).
Proof. exact (fun H => H). Qed.
Lemma apart_snoc k n : apart k -> match n with Txt _ => first_not_text (rev k) | _ => True end -> apart (k ++ [n]).
Proof.
  induction k as [|m k IH]; [destruct n; intros; exact I|]. intros H L. cbn [app]. destruct m as [x|nm a j].
  - destruct k as [|[y|nm a j] k'].
    + destruct n; [cbn in L; contradiction|exact I].
    + cbn [apart] in H. contradiction.
    + cbn [app apart] in *. apply IH; [exact H|]. destruct n; [|exact I]. cbn [rev] in L. rewrite <- !app_assoc in L. cbn [rev].
      destruct (rev k'); [exact I|]. cbn [app] in *. exact L.
  - cbn [apart] in *. apply IH; [exact H|]. destruct n; [|exact I]. cbn [rev] in L. destruct (rev k); [exact I|]. exact L.
Qed.
Lemma apart_rev k : apart k -> apart (rev k).
Proof.
  induction k as [|n k IH]; [exact (fun H => H)|]. intros H. cbn [rev]. apply apart_snoc.
  - apply IH. destruct n; [|exact H]. destruct k as [|[]]; cbn [apart] in *; tauto.
  - destruct n as [x|]; [|exact I]. rewrite rev_involutive. destruct k as [|[y|] k']; cbn in *; tauto.
Qed.

Definition doc_ok (n : node) : Prop := writable n /\ settled n.
Definition read_attrs (a : attrs) : Prop := good_attrs a /\ settled_values a.
Definition frame_ok (f : frame) : Prop :=
  good_name (f_name f) /\ read_attrs (f_attrs f) /\ Forall doc_ok (f_kids f) /\ apart (f_kids f).
Definition good_chars (x : pstr) : Prop := Forall (fun c => xml_char c = true /\ name_char c = true) x.
Definition value_chars (x : pstr) : Prop := Forall (fun c => xml_char c = true /\ c <> 9 /\ c <> 10) x.
(** Attributes in reverse *)
Definition attrs_ok (a : attrs) : Prop := read_attrs (rev a).
Definition state_ok (st : pst) : Prop :=
  match st with
  | PDecl _ | PProlog | PErr => True
  | POpen stk => Forall frame_ok stk
  | PName stk nm => Forall frame_ok stk /\ good_name nm
  | PAttrs stk nm a => Forall frame_ok stk /\ good_name nm /\ attrs_ok a
  | PKey stk nm a k => Forall frame_ok stk /\ good_name nm /\ attrs_ok a /\ good_name k
  | PQuote stk nm a k => Forall frame_ok stk /\ good_name nm /\ attrs_ok a /\ good_name k /\ ~ In k (map fst a)
  | PQVal stk nm a k _ v | PQEnt stk nm a k _ v _ =>
      Forall frame_ok stk /\ good_name nm /\ attrs_ok a /\ good_name k /\ ~ In k (map fst a) /\ value_chars v
  | PSlash stk nm a => Forall frame_ok stk /\ good_name nm /\ attrs_ok a
  | PText stk b | PTEnt stk b _ => Forall frame_ok stk /\ match stk with f :: _ => first_not_text (f_kids f) | [] => True end /\ good_text b
  | PClose stk nm => Forall frame_ok stk
  | PDone n => doc_ok n
  end.

Lemma good_name_rev x : good_name x -> good_name (rev x).
Proof. intros [A B]. split; [|now apply Forall_rev]. intros E. apply A. rewrite <- (rev_involutive x), E. reflexivity. Qed.
Lemma good_name_cons c x : xml_char c = true -> name_char c = true -> Forall (fun c => xml_char c = true /\ name_char c = true) x -> good_name (c :: x).
Proof. intros A B C. split; [discriminate|constructor; auto]. Qed.

Lemma flush_ok f b : frame_ok f -> first_not_text (f_kids f) -> good_text b -> frame_ok (flush f b).
Proof.
  intros (A & B & C & D) H G. destruct b as [|c b]; [exact (conj A (conj B (conj C D)))|]. unfold flush.
  assert (X : rev (c :: b) <> []) by (cbn [rev]; now destruct (rev b)).
  split; [exact A|]. split; [exact B|]. cbn [f_kids]. split.
  - constructor; [|exact C]. split; [|constructor; now apply settled_norm_blank].
    cbn [writable]. unfold norm_blank. destruct (forallb ascii_space (rev (c :: b))); [destruct (existsb (N.eqb 10) (rev (c :: b))); repeat constructor|].
    now apply Forall_rev.
  - destruct (f_kids f) as [|[y|] k]; [exact I|contradiction|exact D].
Qed.
Lemma frame_node f : frame_ok f -> doc_ok (El (f_name f) (f_attrs f) (rev (f_kids f))).
Proof.
  intros (A & [B1 B2] & C & D). split.
  - apply writable_El. split; [exact A|]. split; [exact B1|]. unfold all_writable. apply Forall_rev. eapply Forall_impl; [|exact C]. now intros ? [].
  - constructor; [exact B2|now apply apart_rev|]. apply Forall_rev. eapply Forall_impl; [|exact C]. now intros ? [].
Qed.
Lemma close_ok f stk : frame_ok f -> Forall frame_ok stk -> state_ok (close f stk).
Proof.
  intros Hf Hs. unfold close. pose proof (frame_node f Hf) as N. destruct stk as [|g stk]; [exact N|]. inversion Hs as [|? ? (A & B & C & D) E]; subst.
  cbn [state_ok f_kids first_not_text]. split; [|split; [exact I|constructor]]. constructor; [|exact E]. split; [exact A|]. split; [exact B|]. split; [now constructor|exact D].
Qed.
Lemma entity_char e x : entity e = Some x -> xml_char x = true /\ x <> 9 /\ x <> 10.
Proof.
  unfold entity. repeat match goal with |- context [if ?b then _ else _] => destruct b; [intros [= <-]; repeat split; discriminate|] end. discriminate.
Qed.
Lemma read_attrs_nil : read_attrs [].
Proof. split; [split; constructor|constructor]. Qed.
Lemma fst_rev (a : attrs) : map fst (rev a) = rev (map fst a).
Proof. apply map_rev. Qed.

Lemma step_ok st c : state_ok st -> state_ok (pstep st c).
Proof.
  intros H. unfold pstep. destruct (xml_char c) eqn:X; [|exact I]. cbn [negb].
  destruct st as [q| |stk|stk nm|stk nm a|stk nm a k|stk nm a k|stk nm a k q v|stk nm a k q v e|stk nm a|stk b|stk b e|stk nm|n|].
  - destruct ((c =? 62) && q); exact I.
  - destruct (space c); [exact I|]. destruct (c =? 60); [constructor|exact I].
  - cbn [state_ok] in H. destruct (c =? 47); [exact H|]. destruct (name_char c) eqn:E; [|exact I]. split; [exact H|]. now apply good_name_cons.
  - destruct H as [H N]. destruct (name_char c) eqn:E; [split; [exact H|apply good_name_cons; auto; apply N]|]. pose proof (good_name_rev _ N) as N'.
    destruct (space c); [split; [exact H|split; [exact N'|exact read_attrs_nil]]|].
    destruct (c =? 62).
    { split; [|split; [exact I|constructor]]. constructor; [|exact H]. split; [exact N'|]. split; [exact read_attrs_nil|]. split; [constructor|exact I]. }
    destruct (c =? 47); [|exact I]. split; [exact H|split; [exact N'|exact read_attrs_nil]].
  - pose proof H as H0. destruct H as (H & N & A). destruct (space c); [exact H0|]. destruct (c =? 62).
    { split; [|split; [exact I|constructor]]. constructor; [|exact H]. split; [exact N|]. split; [exact A|]. split; [constructor|exact I]. }
    destruct (c =? 47); [exact H0|]. destruct (name_char c) eqn:E; [|exact I]. split; [exact H|]. split; [exact N|]. split; [exact A|]. apply good_name_cons; auto.
  - destruct H as (H & N & A & K). destruct (name_char c) eqn:E; [split; [exact H|split; [exact N|split; [exact A|apply good_name_cons; auto; apply K]]]|].
    destruct (existsb (fun kv => pstr_eqb (fst kv) (rev k)) a) eqn:Ex; [now rewrite andb_false_r|]. destruct (c =? 61); [|exact I]. cbn [andb negb].
    split; [exact H|]. split; [exact N|]. split; [exact A|]. split; [now apply good_name_rev|]. intros Hin. apply in_map_iff in Hin as (kv & E1 & E2).
    apply not_true_iff_false in Ex. apply Ex. apply existsb_exists. exists kv. split; [exact E2|]. now apply pstr_eqb_spec.
  - destruct H as (H & N & A & K & D). destruct ((c =? 34) || (c =? 39)); [|exact I]. repeat (split; [assumption|]). constructor.
  - pose proof H as H0. destruct H as (H & N & A & K & D & V). destruct (c =? q).
    { split; [exact H|]. split; [exact N|]. destruct A as [[A1 A2] A3]. unfold attrs_ok. cbn [rev]. unfold value_chars in V. apply Forall_rev in V. split.
      - split; [rewrite map_app; cbn [map fst]|].
        + rewrite fst_rev in A1 |- *. apply Permutation_NoDup with (l := k :: rev (map fst a)); [|constructor; [now rewrite <- in_rev|exact A1]].
          rewrite Permutation_app_comm. reflexivity.
        + apply Forall_app; split; [exact A2|]. constructor; [|constructor]. split; [exact K|]. cbn [snd aval_str]. eapply Forall_impl; [|exact V]. cbv beta; tauto.
      - apply Forall_app; split; [exact A3|]. constructor; [|constructor]. cbn [snd aval_str]. eapply Forall_impl; [|exact V]. cbv beta; tauto. }
    destruct (c =? 38); [exact H0|]. destruct (c =? 60); [exact I|]. repeat (split; [assumption|]). constructor; [|exact V].
    unfold space. destruct ((c =? 32) || (c =? 10) || (c =? 9)) eqn:E; [repeat split; discriminate|]. split; [exact X|]. lia.
  - pose proof H as H0. destruct H as (H & N & A & K & D & V). destruct (c =? 59); [|exact H0]. destruct (entity (rev e)) as [x|] eqn:E; [|exact I].
    repeat (split; [assumption|]). constructor; [|exact V]. now apply entity_char in E.
  - destruct H as (H & N & A). destruct (c =? 62); [|exact I]. apply close_ok; [|exact H]. split; [exact N|]. split; [exact A|]. split; [constructor|exact I].
  - destruct stk as [|f stk]; [exact I|]. destruct H as (H & T & G). inversion H as [|? ? Hf Hs]; subst. destruct (c =? 60); [|destruct (c =? 38)].
    + constructor; [now apply flush_ok|exact Hs].
    + split; [exact H|]. split; [exact T|exact G].
    + split; [exact H|]. split; [exact T|]. constructor; [exact X|exact G].
  - pose proof H as H0. destruct H as (H & T & G). destruct (c =? 59); [|exact H0]. destruct (entity (rev e)) as [x|] eqn:E; [|exact I].
    split; [exact H|]. split; [exact T|]. constructor; [|exact G]. now apply entity_char in E.
  - cbn [state_ok] in H. destruct stk as [|f stk]; [exact I|]. destruct (name_char c); [exact H|]. inversion H; subst.
    destruct ((c =? 62) && pstr_eqb (rev nm) (f_name f)); [|exact I]. now apply close_ok.
  - destruct (space c); [exact H|exact I].
  - exact I.
Qed.
Lemma run_ok x : forall st, state_ok st -> state_ok (prun st x).
Proof. induction x as [|c x IH]; intros st H; [exact H|]. rewrite prun_cons. apply IH. now apply step_ok. Qed.

Lemma doc_in_ok x n : doc_in x = Some n -> writable n /\ settled n /\ is_tag n = true.
Proof.
  unfold doc_in. destruct (starts_with (s "<?xml") x); [|discriminate].
  assert (Tag : forall y st, (match st with PDone n => is_tag n = true | _ => True end) -> match prun st y with PDone n => is_tag n = true | _ => True end).
  { induction y as [|c y IH]; intros st H; [exact H|]. rewrite prun_cons. apply IH. unfold pstep. destruct (negb (xml_char c)); [exact I|].
    destruct st; repeat match goal with
      | |- context [match ?l with [] => _ | _ :: _ => _ end] => is_var l; destruct l
      | |- context [if ?b then _ else _] => destruct b
      | |- context [match ?o with Some _ => _ | None => _ end] => destruct o
      end; try exact I; try exact H; unfold close; destruct stk; try exact I; reflexivity. }
  specialize (Tag (norm_eol x) (PDecl false) I). pose proof (run_ok (norm_eol x) (PDecl false) I) as Ok_. destruct (prun (PDecl false) (norm_eol x)); try discriminate. intros [= <-]. destruct Ok_. auto.
Qed.

(** ** Reading twice *)

Lemma good_text_norm_attr x : good_text x -> Forall (fun c => c <> 9 /\ c <> 10) (norm_attr x) /\ good_text (norm_attr x).
Proof.
  intros H. rewrite norm_attr_sp by exact H. split; apply Forall_map; (eapply Forall_impl; [|exact H]); cbv beta; intros c Hc; unfold sp, space;
    destruct ((c =? 32) || (c =? 10) || (c =? 9)) eqn:E; try (split; discriminate); try reflexivity; try assumption. lia.
Qed.
Lemma read_attrs_reload a : good_attrs a -> read_attrs (reload_attrs a).
Proof.
  intros H. destruct (good_sorted a H) as [G1 G2]. rewrite reload_attrs_map. split; [split|].
  - rewrite map_map. exact G2.
  - apply Forall_map. eapply Forall_impl; [|exact G1]. intros kv [A B]. split; [exact A|]. cbn [snd read_attr aval_str]. now apply good_text_norm_attr.
  - apply Forall_map. eapply Forall_impl; [|exact G1]. intros kv [A B]. cbn [snd read_attr aval_str]. now apply good_text_norm_attr.
Qed.
Lemma merge_props k : all_writable k -> Forall (fun n => match n with Txt _ => True | _ => settled n end) k ->
  Forall doc_ok (map norm_node (merge_texts k)) /\ apart (map norm_node (merge_texts k)) /\ Forall (fun n => match n with Txt x => good_text x /\ x <> [] | _ => True end) (merge_texts k).
Proof.
  induction k as [|n k IH]; intros W Sk; [repeat split; constructor|]. inversion W as [|? ? W1 W2]; subst. inversion Sk as [|? ? S1 S2]; subst.
  destruct (IH W2 S2) as (A & B & C). cbn [merge_texts]. destruct n as [x|nm a j].
  - assert (T : forall y r, good_text y -> y <> [] -> Forall doc_ok (map norm_node r) -> apart (map norm_node r) -> first_not_text r ->
        Forall (fun n => match n with Txt x => good_text x /\ x <> [] | _ => True end) r ->
        Forall doc_ok (map norm_node (Txt y :: r)) /\ apart (map norm_node (Txt y :: r)) /\ Forall (fun n => match n with Txt x => good_text x /\ x <> [] | _ => True end) (Txt y :: r)).
    { intros y r Gy Ny Hr Ar Fr Cr. split; [|split].
      - constructor; [|exact Hr]. cbn [norm_node]. unfold norm_text. rewrite norm_eol_id by now apply good_no13. split; [|constructor; now apply settled_norm_blank].
        cbn [writable]. unfold norm_blank. destruct (forallb ascii_space y); [destruct (existsb (N.eqb 10) y); repeat constructor|exact Gy].
      - cbn [map]. destruct r as [|[z|] r]; [exact I|contradiction|exact Ar].
      - constructor; auto. }
    destruct (merge_texts k) as [|[y|nm a j] r] eqn:Em.
    + destruct x as [|c x]; [repeat split; constructor|]. apply T; auto; try discriminate; exact I.
    + inversion C as [|? ? C0 C3]; subst. cbv beta iota in C0. destruct C0 as [C1 C2]. apply T; auto.
      * apply Forall_app; split; assumption.
      * destruct x; [exact C2|discriminate].
      * now inversion A.
      * cbn [map] in B. destruct r as [|[] r]; cbn in *; auto; contradiction.
      * cbn [map apart norm_node] in B. destruct r as [|[z|] r]; [exact I|cbn in B; contradiction|exact I].
    + destruct x as [|c x]; [auto|]. apply T; auto; try discriminate; exact I.
  - split; [|split].
    + constructor; [|exact A]. split; [exact W1|exact S1].
    + exact B.
    + constructor; auto.
Qed.
Lemma reload_ok n : writable n -> writable (reload n) /\ match n with Txt _ => True | _ => settled (reload n) end.
Proof.
  induction n as [x|nm a k IH] using node_ind'; intros W; [split; [exact W|exact I]|]. apply writable_El in W as (Wn & Wa & Wk). cbn [reload].
  destruct (read_attrs_reload a Wa) as [R1 R2].
  assert (H : all_writable (map reload k) /\ Forall (fun n => match n with Txt _ => True | _ => settled n end) (map reload k)).
  { unfold all_writable in *. split; apply Forall_map; apply Forall_forall; intros n Hn; rewrite Forall_forall in IH, Wk; specialize (IH n Hn (Wk n Hn)); [apply IH|].
    destruct n; [exact I|apply IH]. }
  destruct H as [H1 H2]. destruct (merge_props _ H1 H2) as (A & B & _). split.
  - apply writable_El. split; [exact Wn|]. split; [exact R1|]. eapply Forall_impl; [|exact A]. now intros ? [].
  - constructor; [exact R2|exact B|]. eapply Forall_impl; [|exact A]. now intros ? [].
Qed.

(** Sorting attributes twice *)
Lemma pstr_le_total a b : pstr_le a b = false -> pstr_le b a = true.
Proof.
  revert b. induction a as [|x a IH]; intros [|y b]; cbn [pstr_le]; try discriminate; auto.
  rewrite (N.eqb_sym y x). destruct (x =? y) eqn:E; [apply IH|]. lia.
Qed.
Fixpoint in_order (l : attrs) : Prop :=
  match l with a :: ((b :: _) as l') => pstr_le (fst a) (fst b) = true /\ in_order l' | _ => True end.
Lemma ins_in_order x l : in_order l -> in_order (ins (fun a b => pstr_le (fst a) (fst b)) x l).
Proof.
  induction l as [|y l IH]; intros H; [exact I|]. cbn [ins]. destruct (pstr_le (fst x) (fst y)) eqn:E; [split; [exact E|exact H]|].
  apply pstr_le_total in E. destruct l as [|z l]; [split; [exact E|exact I]|]. destruct H as [H1 H2]. specialize (IH H2). cbn [ins] in *.
  destruct (pstr_le (fst x) (fst z)); (split; [assumption|exact IH]).
Qed.
Lemma sorted_in_order a : in_order (sorted a).
Proof. unfold sorted, sort. induction a as [|x a IH]; [exact I|]. cbn [fold_right]. now apply ins_in_order. Qed.
Lemma sorted_id a : in_order a -> sorted a = a.
Proof.
  induction a as [|x a IH]; [reflexivity|]. intros H. unfold sorted, sort. cbn [fold_right].
  change (fold_right (ins (fun a b : pstr * aval => pstr_le (fst a) (fst b))) [] a) with (sorted a).
  rewrite IH by (destruct a; [exact I|apply H]). destruct a as [|y a]; [reflexivity|]. cbn [ins]. destruct H as [-> _]. reflexivity.
Qed.
Lemma in_order_map (f : pstr * aval -> pstr * aval) a : (forall x, fst (f x) = fst x) -> in_order a -> in_order (map f a).
Proof.
  intros F. induction a as [|x a IH]; [exact (fun H => H)|]. intros H. destruct a as [|y a]; [exact I|]. destruct H as [H1 H2]. specialize (IH H2). split; [now rewrite !F|exact IH].
Qed.
Lemma reload_attrs_twice a : good_attrs a -> reload_attrs (reload_attrs a) = reload_attrs a.
Proof.
  intros H. rewrite (reload_attrs_map (reload_attrs a)). rewrite sorted_id.
  - destruct (good_sorted a H) as [G _]. rewrite !reload_attrs_map. rewrite map_map. apply map_ext_in. intros kv Hi. unfold read_attr. cbn [fst snd aval_str]. do 2 f_equal.
    rewrite Forall_forall in G. destruct (G kv Hi) as [_ Gv]. destruct (good_text_norm_attr _ Gv) as [A B].
    rewrite norm_attr_sp by exact B. rewrite <- map_id. apply map_ext_in. intros c Hc. rewrite Forall_forall in A. specialize (A c Hc). unfold sp, space.
    destruct (c =? 32) eqn:E1; [cbn; now apply N.eqb_eq in E1|]. destruct (c =? 10) eqn:E2; [lia|]. destruct (c =? 9) eqn:E3; [lia|reflexivity].
  - rewrite reload_attrs_map. apply in_order_map; [reflexivity|apply sorted_in_order].
Qed.
Lemma reload_merge k : Forall (fun n => match n with Txt _ => True | _ => reload n = n end) k ->
  map reload (map norm_node (merge_texts k)) = map norm_node (merge_texts k).
Proof.
  intros H. assert (M : Forall (fun n => match n with Txt _ => True | _ => reload n = n end) (merge_texts k)).
  { induction H as [|n k Hn H IH]; [constructor|]. cbn [merge_texts]. destruct n as [x|]; [|constructor; auto].
    destruct (merge_texts k) as [|[y|] r]; [destruct x; repeat constructor|inversion IH; constructor; auto|destruct x; [exact IH|constructor; auto]]. }
  rewrite <- (map_id (map norm_node (merge_texts k))) at 2. apply map_ext_in. intros n Hn. apply in_map_iff in Hn as (m & <- & Hm). rewrite Forall_forall in M. specialize (M m Hm).
  destruct m; [reflexivity|exact M].
Qed.
Lemma reload_twice n : writable n -> reload (reload n) = reload n.
Proof.
  induction n as [x|nm a k IH] using node_ind'; intros W; [reflexivity|]. pose proof (reload_ok _ W) as [R1 R2]. apply writable_El in W as (Wn & Wa & Wk).
  assert (E : reload (El nm a k) = El nm (reload_attrs a) (map norm_node (merge_texts (map reload k)))) by reflexivity.
  rewrite E in *. set (k' := map norm_node (merge_texts (map reload k))) in *.
  assert (K : map reload k' = k').
  { apply reload_merge. apply Forall_map. unfold all_writable in Wk. rewrite Forall_forall in IH, Wk. apply Forall_forall. intros n Hn. specialize (IH n Hn (Wk n Hn)). destruct n; [exact I|exact IH]. }
  cbn [reload]. rewrite reload_attrs_twice by exact Wa. f_equal. apply writable_El in R1 as (_ & _ & R1). inversion R2 as [|? ? ? S1 S2 S3]; subst.
  rewrite reload_settled_kids by assumption. exact K.
Qed.
