(** Proofs about get-symbols.py *)
From Coq Require Import Sorted Permutation Lia ZifyBool ZifyN ZifyNat.
From Verif Require Import EtcModel RepSpec EtcSpec SerProofs AnimProofs AnimProofs2 RepProofs RepProofs4 RepProofs5 EtcProofs.
Local Open Scope N_scope.

(** ** The two patterns *)
Lemma layer_class_spec x a : layer_class_re x = Some a <-> class_at x a.
Proof.
  unfold layer_class_re, class_at. destruct a as [c base]. cbn [fst snd]. split.
  - destruct (after (s "class ") x) as [r|] eqn:E; [|discriminate]. apply after_spec in E. subst x.
    pose proof (span_splits word_char r) as (A & B & C). destruct (span word_char r) as [w r1]. cbn [fst snd] in *. subst r. destruct w as [|d w]; [discriminate|].
    destruct (after (s "(") r1) as [r2|] eqn:E1; [|discriminate]. apply after_spec in E1. subst r1.
    pose proof (span_splits word_char r2) as (A2 & B2 & C2). destruct (span word_char r2) as [b r3]. cbn [fst snd] in *. subst r2. destruct b as [|e b]; [discriminate|].
    intros [= <- <-]. exists r3. split; [reflexivity|]. split; [discriminate|]. split; [now apply word_spec|]. split; [discriminate|]. split; [now apply word_spec|now apply begins_word].
  - intros (r & -> & Hc & Hw & Hb & Hwb & Hr).
    rewrite (proj2 (after_spec (s "class ") _ (c ++ s "(" ++ base ++ r)) eq_refl).
    rewrite (span_unique word_char _ c (s "(" ++ base ++ r)); [|now apply word_spec|cbn; discriminate|reflexivity].
    rewrite (proj2 (after_spec (s "(") _ (base ++ r)) eq_refl).
    rewrite (span_unique word_char _ base r); [|now apply word_spec|now apply begins_word|reflexivity]. cbn [fst].
    destruct c as [|d c]; [contradiction|]. destruct base as [|e base]; [contradiction|]. reflexivity.
Qed.
Lemma quote_spec c : is_quote c = true <-> In c quotes.
Proof.
  unfold is_quote, quotes. cbn [In]. split; [intros H|intros [<-|[<-|[]]]; reflexivity]. apply orb_prop in H as [H|H]; apply N.eqb_eq in H; subst; auto.
Qed.
Lemma symbol_re_spec x y : symbol_re x = Some y <-> symbol_at x y.
Proof.
  unfold symbol_re, symbol_at. split.
  - destruct (after (s "SYMBOL") x) as [r|] eqn:E; [|discriminate]. apply after_spec in E. subst x.
    pose proof (span_splits (N.eqb 32) r) as (A & B & C). destruct (span (N.eqb 32) r) as [b r1]. cbn [fst snd] in *. subst r. apply all_blanks in A.
    destruct (after (s "=") r1) as [r2|] eqn:E1; [|discriminate]. apply after_spec in E1. subst r1.
    pose proof (span_splits (N.eqb 32) r2) as (A2 & B2 & C2). destruct (span (N.eqb 32) r2) as [b2 r3]. cbn [fst snd] in *. subst r2. apply all_blanks in A2.
    destruct r3 as [|q r3]; [discriminate|]. destruct (is_quote q) eqn:Eq; [|discriminate].
    pose proof (span_splits (fun c => negb (is_quote c)) r3) as (A3 & B3 & C3). destruct (span (fun c => negb (is_quote c)) r3) as [z r4]. cbn [fst snd] in *. subst r3. intros [= <-].
    exists (length b), (length b2), q, r4. rewrite <- A, <- A2. split; [reflexivity|]. split; [now apply quote_spec|]. split.
    + intros c Hc Hq. rewrite Forall_forall in A3. specialize (A3 _ Hc). apply quote_spec in Hq. rewrite Hq in A3. discriminate.
    + destruct r4 as [|c r4]; [auto|]. right. cbn [begins] in *. apply quote_spec. destruct (is_quote c); [reflexivity|]. now destruct C3.
  - intros (i & j & q & r & -> & Hq & Hy & Hr).
    rewrite (proj2 (after_spec (s "SYMBOL") _ (repeat 32 i ++ s "=" ++ repeat 32 j ++ [q] ++ y ++ r)) eq_refl).
    rewrite blanks_span by (cbn; discriminate). cbn [snd].
    rewrite (proj2 (after_spec (s "=") _ (repeat 32 j ++ [q] ++ y ++ r)) eq_refl).
    assert (Hq' : q <> 32) by (intros ->; destruct Hq as [H|[H|[]]]; discriminate).
    rewrite blanks_span by (cbn; congruence). cbn [snd app]. apply quote_spec in Hq. rewrite Hq.
    rewrite (span_unique (fun c => negb (is_quote c)) _ y r); [reflexivity| | |reflexivity].
    + apply Forall_forall. intros c Hc. specialize (Hy c Hc). rewrite <- quote_spec in Hy. now destruct (is_quote c).
    + destruct Hr as [->|Hr]; [cbn; auto|]. destruct r as [|c r]; cbn [begins] in *; [auto|]. apply quote_spec in Hr. now rewrite Hr.
Qed.

(** ** Lines *)
Definition layer_of (l : pstr) : option pstr :=
  match search layer_class_re l with Some (c, b) => if pstr_eqb b (s "Layer") then Some c else None | None => None end.
Definition foreign (l : pstr) : bool :=
  match search layer_class_re l with Some (_, b) => negb (pstr_eqb b (s "Layer")) | None => false end.
Definition sym (l : pstr) : option pstr := if foreign l then None else search symbol_re l.

Lemma begins_class_spec l c b : search layer_class_re l = Some (c, b) <-> begins_class l c b.
Proof. apply (search_spec _ _ layer_class_spec). Qed.
Lemma layer_of_spec l c : layer_of l = Some c <-> begins_layer l c.
Proof.
  unfold layer_of, begins_layer. rewrite <- begins_class_spec. destruct (search layer_class_re l) as [[c' b]|]; [|split; discriminate]. destruct (pstr_eqb b (s "Layer")) eqn:E.
  - apply pstr_eqb_spec in E. subst b. split; intros [= ->]; reflexivity.
  - split; [discriminate|]. intros [= _ ->]. now rewrite pstr_eqb_refl in E.
Qed.
Lemma no_layer_spec l : layer_of l = None <-> no_layer l.
Proof.
  unfold no_layer. split.
  - intros E c H. apply layer_of_spec in H. congruence.
  - intros H. destruct (layer_of l) as [c|] eqn:E; [|reflexivity]. apply layer_of_spec in E. destruct (H c E).
Qed.
Lemma foreign_spec l : foreign l = true <-> exists c base, begins_class l c base /\ base <> s "Layer".
Proof.
  unfold foreign. split.
  - destruct (search layer_class_re l) as [[c b]|] eqn:E; [|discriminate]. intros H. exists c, b. split; [now apply begins_class_spec|]. intros ->. now rewrite pstr_eqb_refl in H.
  - intros (c & b & H & Hb). apply begins_class_spec in H. rewrite H. destruct (pstr_eqb b (s "Layer")) eqn:E; [|reflexivity]. apply pstr_eqb_spec in E. contradiction.
Qed.
Lemma not_foreign l : foreign l = false <-> no_class l \/ exists c, begins_layer l c.
Proof.
  split.
  - unfold foreign. destruct (search layer_class_re l) as [[c b]|] eqn:E.
    + intros H. right. exists c. apply layer_of_spec. unfold layer_of. rewrite E. now destruct (pstr_eqb b (s "Layer")).
    + intros _. left. intros c b H. apply begins_class_spec in H. congruence.
  - intros [H|[c H]].
    + unfold foreign. destruct (search layer_class_re l) as [[c b]|] eqn:E; [|reflexivity]. apply begins_class_spec in E. destruct (H _ _ E).
    + apply layer_of_spec in H. unfold layer_of in H. unfold foreign. destruct (search layer_class_re l) as [[c' b]|]; [|reflexivity]. now destruct (pstr_eqb b (s "Layer")).
Qed.
Lemma sets_spec l y : search symbol_re l = Some y <-> sets_symbol l y.
Proof. apply (search_spec _ _ symbol_re_spec). Qed.
Lemma sym_spec l y : sym l = Some y <-> sets_symbol l y /\ (no_class l \/ exists c, begins_layer l c).
Proof. unfold sym. rewrite <- sets_spec, <- not_foreign. destruct (foreign l); intuition discriminate. Qed.
Lemma sym_none l : sym l = None <-> no_symbol l \/ exists c base, begins_class l c base /\ base <> s "Layer".
Proof.
  unfold sym. rewrite <- foreign_spec. destruct (foreign l) eqn:E; [split; auto|]. split.
  - intros H. left. intros y Hy. apply sets_spec in Hy. congruence.
  - intros [H|H]; [|discriminate]. destruct (search symbol_re l) as [y|] eqn:Es; [|reflexivity]. apply sets_spec in Es. destruct (H y Es).
Qed.

Definition upd (o : option pstr) (l : pstr) : option pstr := match sym l with Some y => Some y | None => o end.
Definition last_sym (o : option pstr) (ls : list pstr) : option pstr := fold_left upd ls o.
Lemma last_sym_spec ls o : last_sym None ls = o <-> last_symbol ls o.
Proof.
  assert (N0 : forall b o, Forall (fun m => sym m = None) b -> last_sym o b = o) by (intros b o'; induction 1 as [|l b H _ IH]; [reflexivity|]; unfold last_sym in *; cbn [fold_left]; unfold upd at 2; now rewrite H).
  assert (E0 : forall b, Forall (fun m => sym m = None) b <-> Forall (fun m => no_symbol m \/ exists c base, begins_class m c base /\ base <> s "Layer") b) by (intros b; split; apply Forall_impl; intros; now apply sym_none).
  assert (D : forall b, Forall (fun m => sym m = None) b \/ exists a l c y, b = a ++ l :: c /\ sym l = Some y /\ Forall (fun m => sym m = None) c).
  { induction b as [|l b [IH|(a & l' & c & y & -> & H1 & H2)]]; [left; constructor| |].
    - destruct (sym l) as [y|] eqn:E; [right; exists [], l, b, y; auto|left; now constructor].
    - right. exists (l :: a), l', c, y. auto. }
  assert (V : forall a l c y, sym l = Some y -> Forall (fun m => sym m = None) c -> last_sym None (a ++ l :: c) = Some y).
  { intros a l c y H1 H2. unfold last_sym. rewrite fold_left_app. cbn [fold_left]. unfold upd at 2. rewrite H1. exact (N0 c (Some y) H2). }
  destruct o as [y|]; cbn [last_symbol].
  - split.
    + intros H. destruct (D ls) as [D1|(a & l & c & y' & -> & D1 & D2)]; [rewrite N0 in H; [discriminate|exact D1]|]. rewrite (V _ _ _ _ D1 D2) in H. injection H as ->.
      apply sym_spec in D1 as [S1 S2]. exists a, l, c. split; [reflexivity|]. split; [exact S1|]. split; [exact S2|now apply E0].
    + intros (a & l & b & -> & S1 & S2 & Hb). apply V; [now apply sym_spec|now apply E0].
  - rewrite <- E0. split; [|intros H; now apply N0]. intros H. destruct (D ls) as [D1|(a & l & c & y' & -> & D1 & D2)]; [exact D1|]. rewrite (V _ _ _ _ D1 D2) in H. discriminate.
Qed.
Lemma silent_spec ls : silent ls <-> Forall (fun l => sym l = None) ls.
Proof. unfold silent. cbn [last_symbol]. split; apply Forall_impl; intros l; apply sym_none. Qed.
Lemma last_sym_silent ls o : silent ls -> last_sym o ls = o.
Proof. rewrite silent_spec. induction 1 as [|l b H _ IH]; [reflexivity|]. unfold last_sym in *. cbn [fold_left]. unfold upd at 2. now rewrite H. Qed.
Lemma last_sym_app o a b : last_sym o (a ++ b) = last_sym (last_sym o a) b.
Proof. apply fold_left_app. Qed.

(** ** Sections *)
Lemma sections_exist ls : exists pre secs, sections ls pre secs.
Proof.
  induction ls as [|l ls (pre & secs & -> & H1 & H2)]; [exists [], []; repeat split; constructor|]. destruct (layer_of l) as [c|] eqn:E.
  - exists [], ((c, l :: pre) :: secs). split; [reflexivity|]. split; [constructor|]. constructor; [|exact H2]. exists l, pre. split; [reflexivity|]. split; [now apply layer_of_spec|exact H1].
  - exists (l :: pre), secs. split; [reflexivity|]. split; [constructor; [now apply no_layer_spec|exact H1]|exact H2].
Qed.
Lemma aget_snoc {V} k (v : V) d j : aget j (d ++ [(k, v)]) = match aget j d with Some x => Some x | None => if pstr_eqb j k then Some v else None end.
Proof. induction d as [|[k' v'] d IH]; cbn [app aget]; [reflexivity|]. destruct (pstr_eqb j k'); auto. Qed.
Lemma aset_fresh {V} k (v : V) d : aget k d = None -> aset k v d = d ++ [(k, v)].
Proof. induction d as [|[k' v'] d IH]; cbn [aget aset app]; [reflexivity|]. destruct (pstr_eqb k k'); [discriminate|]. intros H. now rewrite IH. Qed.
Lemma aset_last {V} k (v w : V) d : aget k d = None -> aset k v (d ++ [(k, w)]) = d ++ [(k, v)].
Proof. induction d as [|[k' v'] d IH]; cbn [aget aset app]; [now rewrite pstr_eqb_refl|]. destruct (pstr_eqb k k'); [discriminate|]. intros H. now rewrite IH. Qed.

Lemma details_app a : forall st b, details_lines st (a ++ b) = bind (details_lines st a) (fun st' => details_lines st' b).
Proof. induction a as [|l a IH]; intros st b; [reflexivity|]. cbn [app details_lines]. destruct (details_line st l); cbn [bind]; auto. Qed.
Lemma details_before pre : Forall no_layer pre -> forall r, details_lines (r, None) pre = Ok (r, None).
Proof.
  induction 1 as [|l pre Hl _ IH]; intros r; [reflexivity|]. cbn [details_lines]. apply no_layer_spec in Hl. unfold layer_of in Hl. unfold details_line. destruct (search layer_class_re l) as [[c b]|].
  - destruct (pstr_eqb b (s "Layer")); [discriminate|]. cbn [negb bind]. apply IH.
  - cbn [symbol_line bind]. apply IH.
Qed.
Lemma symbol_line_last r c o l : aget c r = None -> symbol_line (r ++ [(c, o)]) (Some c) l = r ++ [(c, match search symbol_re l with Some y => Some y | None => o end)].
Proof. intros H. unfold symbol_line. rewrite aget_snoc, H, pstr_eqb_refl. destruct (search symbol_re l); [now apply aset_last|reflexivity]. Qed.
Lemma details_inside m : Forall no_layer m -> forall r c o, aget c r = None -> details_lines (r ++ [(c, o)], Some c) m = Ok (r ++ [(c, last_sym o m)], Some c).
Proof.
  induction 1 as [|l m Hl _ IH]; intros r c o Hr; [reflexivity|]. cbn [details_lines]. apply no_layer_spec in Hl. unfold layer_of in Hl. unfold details_line, last_sym. cbn [fold_left]. unfold upd at 2, sym, foreign. destruct (search layer_class_re l) as [[c' b]|].
  - destruct (pstr_eqb b (s "Layer")); [discriminate|]. cbn [negb bind]. now apply IH.
  - rewrite symbol_line_last by exact Hr. cbn [bind]. now apply IH.
Qed.
Lemma details_section c sec r cur : section_ok (c, sec) ->
  details_lines (r, cur) sec = match aget c r with Some _ => Err AssertionError | None => Ok (r ++ [(c, last_sym None sec)], Some c) end.
Proof.
  intros (l & m & E & Hl & Hm). cbn [fst snd] in *. subst sec. cbn [details_lines]. apply layer_of_spec in Hl. unfold layer_of in Hl. unfold details_line, last_sym. cbn [fold_left]. unfold upd at 2, sym, foreign. destruct (search layer_class_re l) as [[c' b]|]; [|discriminate].
  destruct (pstr_eqb b (s "Layer")); [|discriminate]. injection Hl as ->. cbn [negb]. destruct (aget c r) eqn:E; [reflexivity|]. rewrite aset_fresh by exact E. rewrite symbol_line_last by exact E. cbn [bind]. now apply details_inside.
Qed.
Definition results (secs : list (pstr * list pstr)) : symbols := map (fun sec => (fst sec, last_sym None (snd sec))) secs.
Lemma results_fst secs : map fst (results secs) = map fst secs.
Proof. unfold results. now rewrite map_map. Qed.
Lemma aget_none_in {V} k (d : list (pstr * V)) : aget k d = None <-> ~ In k (map fst d).
Proof.
  induction d as [|[k' v] d IH]; cbn [aget map fst In]; [split; auto|]. destruct (pstr_eqb k k') eqn:E.
  - apply pstr_eqb_spec in E. subst. split; [discriminate|]. intros H. now destruct H; left.
  - rewrite IH. split; [|tauto]. intros H [H1|H1]; [subst; now rewrite pstr_eqb_refl in E|auto].
Qed.
Lemma details_secs secs : Forall section_ok secs -> forall r cur, NoDup (map fst r) ->
  (NoDup (map fst r ++ map fst secs) -> exists cur', details_lines (r, cur) (concat (map snd secs)) = Ok (r ++ results secs, cur')) /\
  (~ NoDup (map fst r ++ map fst secs) -> details_lines (r, cur) (concat (map snd secs)) = Err AssertionError).
Proof.
  induction 1 as [|[c sec] secs Hs _ IH]; intros r cur Hr; cbn [map concat fst snd results].
  - rewrite !app_nil_r. split; [intros _; exists cur; reflexivity|contradiction].
  - rewrite details_app, (details_section _ _ _ _ Hs). destruct (aget c r) as [x|] eqn:E.
    + assert (Hi : In c (map fst r)). { destruct (in_dec (list_eq_dec N.eq_dec) c (map fst r)) as [H|H]; [exact H|]. apply aget_none_in in H. congruence. }
      cbn [bind]. split; [|reflexivity]. intros Hn. apply NoDup_remove_2 in Hn. destruct Hn. apply in_or_app. now left.
    + cbn [bind]. assert (Hr' : NoDup (map fst (r ++ [(c, last_sym None sec)]))).
      { rewrite map_app. cbn [map fst]. apply aget_none_in in E. apply (Permutation_NoDup (Permutation_cons_append _ _)). now constructor. }
      specialize (IH _ (Some c) Hr'). rewrite map_app, <- !app_assoc in IH. cbn [map fst app] in IH. destruct IH as [I1 I2]. split.
      * intros Hn. destruct (I1 Hn) as (cur' & I). exists cur'. rewrite I. reflexivity.
      * exact I2.
Qed.
Lemma details_all ls pre secs : sections ls pre secs ->
  (NoDup (map fst secs) -> exists cur, details_lines ([], None) ls = Ok (results secs, cur)) /\
  (~ NoDup (map fst secs) -> details_lines ([], None) ls = Err AssertionError).
Proof.
  intros (-> & Hp & Hs). rewrite details_app, (details_before pre Hp). cbn [bind]. apply (details_secs secs Hs [] None). constructor.
Qed.
Lemma details_files_concat d names lss : Forall2 (lines_in d) names lss -> forall st, details_files st d names = details_lines st (concat lss).
Proof.
  induction 1 as [|n ls names lss Hl _ IH]; intros st; [reflexivity|]. cbn [details_files concat]. apply file_lines_spec in Hl. rewrite Hl. cbn [bind]. rewrite details_app. destruct (details_lines st ls); cbn [bind]; auto.
Qed.
