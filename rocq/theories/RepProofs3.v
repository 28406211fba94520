(** Proofs about the replacer: which files it refuses, and that all others are made of pieces. *)
From Verif Require Import RepModel RepSpec RepProofs RepProofs2 PyFmtProofs AnimProofs2 SerProofs XpProofs.
From Coq Require Import Lia.
Local Open Scope N_scope.

(** ** Open blocks *)

Definition openb (o : bool) (l : pstr) : bool := match start_re l with Some _ => true | None => if end_re l then false else o end.
Definition opens (pre : list pstr) : bool := fold_left openb pre false.
Lemma opens_snoc pre l : opens (pre ++ [l]) = openb (opens pre) l.
Proof. unfold opens. now rewrite fold_left_app. Qed.
Lemma opens_app pre l : opens (pre ++ l) = fold_left openb l (opens pre).
Proof. unfold opens. apply fold_left_app. Qed.
Lemma open_snoc pre l : open_after (pre ++ [l]) <-> (exists i nm, is_start l i nm) \/ open_after pre /\ ~ is_end l.
Proof.
  split.
  - intros (a & m & b & E & Hm & Hb). destruct (@exists_last _ (m :: b)) as (b' & z & Eb); [discriminate|]. rewrite Eb, app_assoc in E. apply app_inj_tail in E as [E1 E2]. subst z.
    destruct b as [|y b]; [destruct b'; [|destruct b'; discriminate]; injection Eb as ->; now left|].
    destruct b' as [|m' b1]; [destruct b; discriminate|]. injection Eb as <- Eb. rewrite Eb in Hb. apply Forall_app in Hb as [Hb1 Hb2]. right. split; [exists a, m, b1; now repeat split|now inversion Hb2].
  - intros [(i & nm & H)|[(a & m & b & -> & Hm & Hb) He]].
    + exists pre, l, []. repeat split; eauto.
    + exists a, m, (b ++ [l]). split; [now rewrite <- app_assoc|]. split; [exact Hm|]. apply Forall_app. split; [exact Hb|]. constructor; auto.
Qed.
Lemma opens_spec pre : opens pre = true <-> open_after pre.
Proof.
  induction pre as [|l pre IH] using rev_ind.
  - split; [discriminate|]. intros (a & m & b & E & _). destruct a; discriminate E.
  - rewrite opens_snoc, open_snoc. unfold openb. destruct (start_re l) as [[i nm]|] eqn:Es.
    + apply start_re_spec in Es. split; [intros _; left; eauto|reflexivity].
    + pose proof (proj1 (start_none l) Es) as Hn. destruct (end_re l) eqn:Ee.
      * apply end_re_spec in Ee. split; [discriminate|]. intros [(i & nm & H)|[_ H]]; [now destruct (Hn i nm)|contradiction].
      * apply end_none in Ee. rewrite IH. split; [intros H; right; now split|]. intros [(i & nm & H)|[H _]]; [now destruct (Hn i nm)|exact H].
Qed.
Lemma opens_false pre : opens pre = false <-> ~ open_after pre.
Proof. rewrite <- opens_spec. destruct (opens pre); split; congruence. Qed.

(** ** Errors *)

Definition follows (pre : list pstr) (st : rstate) : Prop := (if r_block st then true else false) = opens pre /\ r_class st = latest pre.
Lemma follows_start : follows [] r_start.
Proof. split; reflexivity. Qed.
Lemma step_follows fs pre st l : follows pre st ->
  match r_line fs st l with
  | (st', Ok tt) => follows (pre ++ [l]) st'
  | (_, Err e) => e = ValueError /\ (is_end l /\ ~ open_after pre \/ (exists i, is_start l i []) /\ forall c, ~ class_before pre c)
  end.
Proof.
  intros [F1 F2]. unfold follows. rewrite opens_snoc, latest_snoc, <- F1, <- F2. unfold r_line, openb, upd. destruct (start_re l) as [[i nm]|] eqn:Es.
  - apply start_re_spec in Es. assert (Hc : class_re l = None). { apply class_none. intros c Hc. apply class_not_marker in Hc. apply Hc. left. eauto. } rewrite Hc.
    destruct nm as [|d nm].
    + destruct (r_class st) as [x|] eqn:Ex; [destruct (aget x fs); split; reflexivity|]. split; [reflexivity|]. right. split; [eauto|]. intros c Hb. apply latest_spec in Hb. congruence.
    + destruct (aget (d :: nm) fs); split; reflexivity.
  - destruct (end_re l) eqn:Ee.
    + apply end_re_spec in Ee. destruct (r_block st) as [[x i]|] eqn:Eb; [split; reflexivity|]. split; [reflexivity|]. left. split; [exact Ee|]. now apply opens_false.
    + split; cbn [r_block r_class]; reflexivity.
Qed.
Lemma bad_line fs pre st l : follows pre st -> (is_end l /\ ~ open_after pre \/ (exists i, is_start l i []) /\ forall c, ~ class_before pre c) -> snd (r_line fs st l) = Err ValueError.
Proof.
  intros [F1 F2] [[He Ho]|[(i & Hs) Hc]].
  - apply opens_false in Ho. rewrite Ho in F1. destruct (r_block st) eqn:Eb; [discriminate|]. assert (Hs : start_re l = None) by (apply start_none; intros j nm H; now apply start_not_end in H).
    apply end_re_spec in He. unfold r_line. now rewrite Hs, He, Eb.
  - assert (L : latest pre = None). { destruct (latest pre) as [c|] eqn:E; [|reflexivity]. apply latest_spec in E. now destruct (Hc c). }
    assert (Hc' : class_re l = None). { apply class_none. intros c H. apply class_not_marker in H. apply H. left. eauto. }
    apply start_re_spec in Hs. unfold r_line. rewrite Hs, Hc', F2, L. reflexivity.
Qed.

Lemma run_err fs : forall ls pre st, follows pre st ->
  match snd (r_lines fs st ls) with
  | Ok tt => forall p l q, ls = p ++ l :: q -> ~ (is_end l /\ ~ open_after (pre ++ p) \/ (exists i, is_start l i []) /\ forall c, ~ class_before (pre ++ p) c)
  | Err e => e = ValueError /\ ((exists p l q, ls = p ++ l :: q /\ (is_end l /\ ~ open_after (pre ++ p) \/ (exists i, is_start l i []) /\ forall c, ~ class_before (pre ++ p) c)) \/ open_after (pre ++ ls))
  end /\ (snd (r_lines fs st ls) = Ok tt -> ~ open_after (pre ++ ls)).
Proof.
  induction ls as [|l ls IH]; intros pre st Hf.
  - cbn [r_lines]. destruct Hf as [F1 F2]. rewrite app_nil_r. destruct (r_block st) eqn:Eb; cbn [snd].
    + split; [|discriminate]. split; [reflexivity|]. right. now apply opens_spec.
    + split; [intros p l q E; destruct p; discriminate E|]. intros _. now apply opens_false.
  - cbn [r_lines]. pose proof (step_follows fs pre st l Hf) as Hs. pose proof (bad_line fs pre st l Hf) as Hbad. destruct (r_line fs st l) as [st' [[]|e]]; cbn [snd] in *.
    + specialize (IH (pre ++ [l]) st' Hs). rewrite <- app_assoc in IH. cbn [app] in IH. destruct IH as [IH1 IH2]. split; [|exact IH2]. destruct (snd (r_lines fs st' ls)) as [[]|e].
      * intros [|l0 p] m q E; cbn [app] in E; injection E as -> E.
        -- subst q. rewrite app_nil_r. intros H. apply Hbad in H. discriminate H.
        -- intros H. apply (IH1 p m q E). rewrite <- app_assoc. exact H.
      * destruct IH1 as [-> IH1]. split; [reflexivity|]. destruct IH1 as [(p & m & q & -> & H)|H]; [left|right; exact H]. exists (l :: p), m, q. split; [reflexivity|]. rewrite <- app_assoc in H. exact H.
    + split; [|discriminate]. destruct Hs as [-> Hs]. split; [reflexivity|]. left. exists [], l, ls. split; [reflexivity|]. now rewrite app_nil_r.
Qed.
Lemma run_result fs ls : (exists st, r_lines fs r_start ls = (st, Ok tt) /\ ~ malformed ls) \/ (exists st, r_lines fs r_start ls = (st, Err ValueError) /\ malformed ls).
Proof.
  pose proof (run_err fs ls [] r_start follows_start) as [H1 H2]. destruct (r_lines fs r_start ls) as [st [[]|e]]; cbn [snd app] in *.
  - left. exists st. split; [reflexivity|]. intros [(p & l & q & E & He & Ho)|[(p & l & q & i & E & Hs & Hc)|Ho]].
    + apply (H1 p l q E). left. now split.
    + apply (H1 p l q E). right. split; [eauto|exact Hc].
    + now apply H2.
  - destruct H1 as [-> H1]. right. exists st. split; [reflexivity|]. destruct H1 as [(p & l & q & E & [[He Ho]|[(i & Hs) Hc]])|Ho].
    + left. exists p, l, q. now repeat split.
    + right. left. exists p, l, q, i. now repeat split.
    + right. right. exact Ho.
Qed.

(** ** Any other file is made of pieces *)

Lemma all_pieces fs : forall n ls pre, (length ls <= n)%nat -> opens pre = false ->
  (forall p l q, ls = p ++ l :: q -> ~ (is_end l /\ ~ open_after (pre ++ p) \/ (exists i, is_start l i []) /\ (forall c, ~ class_before (pre ++ p) c) \/ (exists i nm, is_start l i nm) /\ open_after (pre ++ p))) ->
  ~ open_after (pre ++ ls) -> exists ps os, ls = flat_map piece_lines ps /\ Forall piece_ok ps /\ pieces_out fs pre ps os.
Proof.
  induction n as [|n IH]; intros ls pre Hn Ho Hall Hend.
  { destruct ls; [|cbn in Hn; lia]. exists [], []. repeat split; constructor. }
  destruct ls as [|l ls]; [exists [], []; repeat split; constructor|]. cbn [length] in Hn.
  destruct (start_re l) as [[i nm]|] eqn:Es.
  - apply start_re_spec in Es.
    (* the end of the block *)
    assert (Hsplit : exists b c r, ls = b ++ c :: r /\ Forall (fun m => ~ is_marker m) b /\ is_end c).
    { assert (G : forall m b, (forall p l0 q, m = p ++ l0 :: q -> ~ ((exists i nm, is_start l0 i nm) /\ open_after (pre ++ l :: b ++ p))) -> Forall (fun m => ~ is_marker m) b -> ~ open_after (pre ++ l :: b ++ m) ->
        exists b' c r, b ++ m = b' ++ c :: r /\ Forall (fun m => ~ is_marker m) b' /\ is_end c).
      { induction m as [|c m IHm]; intros b Hm Hb Hno.
        - exfalso. apply Hno. rewrite app_nil_r. exists pre, l, b. split; [reflexivity|]. split; [eauto|]. apply Forall_impl with (2 := Hb). intros z Hz He. apply Hz. now right.
        - destruct (end_re c) eqn:Ee; [apply end_re_spec in Ee; exists b, c, m; now repeat split|]. apply end_none in Ee.
          assert (Hc : ~ is_marker c). { intros [Hs|He]; [|contradiction]. apply (Hm [] c m eq_refl). split; [exact Hs|]. rewrite app_nil_r. exists pre, l, b. split; [reflexivity|]. split; [eauto|]. apply Forall_impl with (2 := Hb). intros z Hz He. apply Hz. now right. }
          destruct (IHm (b ++ [c])) as (b' & c' & r & E & Hb' & Hc').
          + intros p l0 q -> H. apply (Hm (c :: p) l0 q eq_refl). rewrite <- app_assoc in H. exact H.
          + apply Forall_app. split; [exact Hb|]. constructor; [exact Hc|constructor].
          + rewrite <- app_assoc. exact Hno.
          + exists b', c', r. rewrite <- app_assoc in E. now repeat split. }
      destruct (G ls []) as (b & c & r & E & Hb & Hc); [|constructor|exact Hend|exists b, c, r; now repeat split].
      intros p l0 q -> H. apply (Hall (l :: p) l0 q eq_refl). right. right. exact H. }
    destruct Hsplit as (b & c & r & -> & Hb & Hc).
    assert (Hname : exists x, block_named pre l x).
    { destruct nm as [|d nm]; [|exists (d :: nm); left; split; [discriminate|eauto]]. destruct (latest pre) as [x|] eqn:El.
      - exists x. right. split; [eauto|]. now apply latest_spec.
      - exfalso. apply (Hall [] l (b ++ c :: r) eq_refl). right. left. split; [eauto|]. rewrite app_nil_r. intros x Hx. apply latest_spec in Hx. congruence. }
    destruct Hname as (x & Hx).
    destruct (IH r (pre ++ piece_lines (Block l b c))) as (ps & os & -> & Hps & Hos).
    + rewrite app_length in Hn. cbn [length] in Hn. lia.
    + cbn [piece_lines]. rewrite (app_comm_cons b [c] l), app_assoc, opens_snoc. unfold openb. assert (Hcs : start_re c = None) by (apply start_none; intros j m Hj; now apply start_not_end in Hj). apply end_re_spec in Hc. now rewrite Hcs, Hc.
    + intros p m q -> H. apply (Hall (l :: b ++ c :: p) m q). { cbn [app]. now rewrite <- app_assoc. }
      assert (E : (pre ++ piece_lines (Block l b c)) ++ p = pre ++ l :: b ++ c :: p) by (cbn [piece_lines]; rewrite <- app_assoc; cbn [app]; now rewrite <- app_assoc). rewrite E in H. exact H.
    + assert (E : (pre ++ piece_lines (Block l b c)) ++ r = pre ++ l :: b ++ c :: r) by (cbn [piece_lines]; rewrite <- app_assoc; cbn [app]; now rewrite <- app_assoc). rewrite E. exact Hend.
    + assert (Hok : piece_ok (Block l b c)) by (split; [eauto|]; now split).
      destruct (aget x fs) as [v|] eqn:Ev.
      * destruct (value_in_ex i v) as (new & Hv). exists (Block l b c :: ps), ((l :: new ++ [repeat 32 i ++ strip c ++ [10]]) ++ os). split; [cbn [flat_map piece_lines app]; now rewrite <- app_assoc|]. split; [now constructor|].
        constructor; [|exact Hos]. now apply (out_replaced fs pre l b c i nm x v).
      * exists (Block l b c :: ps), ((l :: b ++ [repeat 32 i ++ strip c ++ [10]]) ++ os). split; [cbn [flat_map piece_lines app]; now rewrite <- app_assoc|]. split; [now constructor|].
        constructor; [|exact Hos]. now apply (out_kept fs pre l b c i nm x).
  - pose proof (proj1 (start_none l) Es) as Hs. assert (Hm : ~ is_marker l). { intros [(i & nm & H)|He]; [now apply (Hs i nm)|]. apply (Hall [] l ls eq_refl). left. split; [exact He|]. rewrite app_nil_r. now apply opens_false. }
    assert (Hcls : forall m, (exists i, is_start m i []) -> True) by auto.
    destruct (IH ls (pre ++ [l])) as (ps & os & -> & Hps & Hos).
    + lia.
    + rewrite opens_snoc. unfold openb. apply no_marker in Hm as [-> ->]. exact Ho.
    + intros p m q -> H. apply (Hall (l :: p) m q eq_refl). rewrite <- app_assoc in H. exact H.
    + rewrite <- app_assoc. exact Hend.
    + exists (Outside l :: ps), ([l] ++ os). split; [reflexivity|]. split; [now constructor|]. constructor; [constructor|exact Hos].
Qed.
Lemma well_formed_pieces fs ls : ~ malformed ls -> ~ start_in_block ls -> exists ps os, ls = flat_map piece_lines ps /\ Forall piece_ok ps /\ pieces_out fs [] ps os.
Proof.
  intros Hm Hs. apply (all_pieces fs (length ls) ls []); auto.
  - intros p l q E [[He Ho]|[[(i & H) Hc]|[(i & nm & H) Ho]]]; cbn [app] in *.
    + apply Hm. left. exists p, l, q. now repeat split.
    + apply Hm. right. left. exists p, l, q, i. now repeat split.
    + apply Hs. exists p, l, q, i, nm. now repeat split.
  - cbn [app]. intros H. apply Hm. right. now right.
Qed.
