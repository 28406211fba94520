(** Proofs about the replacer: what it makes of a file, and when it refuses one. *)
From Verif Require Import RepModel RepSpec RepProofs PyFmtProofs AnimProofs2 SerProofs XpProofs.
From Coq Require Import Lia ZifyN ZifyBool ZifyNat.
Local Open Scope N_scope.

(** ** The class that a block may be named after *)

Definition upd (cl : option pstr) (l : pstr) : option pstr :=
  let cl := match class_re l with Some c => Some c | None => cl end in
  match start_re l with Some (_, []) => None | _ => cl end.
Definition latest (pre : list pstr) : option pstr := fold_left upd pre None.
Lemma latest_snoc pre l : latest (pre ++ [l]) = upd (latest pre) l.
Proof. unfold latest. now rewrite fold_left_app. Qed.
Lemma latest_spec pre c : latest pre = Some c <-> class_before pre c.
Proof.
  revert c. induction pre as [|l pre IH] using rev_ind; intros c.
  - split; [discriminate|]. intros (a & l & b & E & _). destruct a; discriminate E.
  - rewrite latest_snoc. unfold upd. split.
    + destruct (class_re l) as [c'|] eqn:Ec.
      * apply class_re_spec in Ec. pose proof (class_not_marker l c' Ec) as Hm. apply no_marker in Hm as [-> _]. intros [= <-]. exists pre, l, []. repeat split; auto.
      * destruct (start_re l) as [[i [|d nm]]|] eqn:Es; [discriminate| |].
        -- intros H. apply IH in H as (a & m & b & -> & Hc & Hf). exists a, m, (b ++ [l]). split; [now rewrite <- app_assoc|]. split; [exact Hc|]. apply Forall_app. split; [exact Hf|]. constructor; [|constructor].
           split; [now apply class_none|]. intros j Hj. apply start_re_spec in Hj. congruence.
        -- intros H. apply IH in H as (a & m & b & -> & Hc & Hf). exists a, m, (b ++ [l]). split; [now rewrite <- app_assoc|]. split; [exact Hc|]. apply Forall_app. split; [exact Hf|]. constructor; [|constructor].
           split; [now apply class_none|]. intros j Hj. apply start_re_spec in Hj. congruence.
    + intros (a & m & b & E & Hc & Hf). destruct (@exists_last _ (m :: b)) as (b' & z & Eb); [discriminate|]. rewrite Eb, app_assoc in E. apply app_inj_tail in E as [E1 E2]. subst z.
      destruct b as [|y b]; [destruct b'; [|destruct b'; discriminate]|].
      * injection Eb as ->. pose proof (class_not_marker l c Hc) as Hm. apply no_marker in Hm as [Hs _]. apply class_re_spec in Hc. now rewrite Hc, Hs.
      * assert (El : exists b1, y :: b = b1 ++ [l] /\ b' = m :: b1).
        { destruct b' as [|m' b1]; [destruct b; discriminate|]. injection Eb as -> Eb. exists b1. split; [exact Eb|reflexivity]. }
        destruct El as (b1 & Eb1 & ->). rewrite Eb1 in Hf. apply Forall_app in Hf as [Hf1 Hf2]. inversion Hf2 as [|? ? [Hl1 Hl2] _]; subst.
        apply class_none in Hl1. rewrite Hl1. assert (L : latest (a ++ m :: b1) = Some c) by (apply IH; exists a, m, b1; repeat split; auto). rewrite L.
        destruct (start_re l) as [[i [|d nm]]|] eqn:Es; auto. apply start_re_spec in Es. now destruct (Hl2 i).
Qed.
Lemma start_same l i nm i' nm' : is_start l i nm -> is_start l i' nm' -> i = i' /\ nm = nm'.
Proof. intros A B. apply start_re_spec in A, B. rewrite A in B. now injection B. Qed.
Lemma named_same pre a x y : block_named pre a x -> block_named pre a y -> x = y.
Proof.
  intros [[A (i & B)]|[(i & B) C]] [[A' (i' & B')]|[(i' & B') C']]; destruct (start_same _ _ _ _ _ B B') as [_ E]; auto; try congruence.
  apply latest_spec in C, C'. congruence.
Qed.
Lemma start_line fs st l i nm x : is_start l i nm -> (if nm then r_class st = Some x else x = nm) ->
  r_line fs st l = (match aget x fs with
                    | None => mkR (r_result st ++ l) (match nm with [] => None | _ => r_class st end) (Some (x, i)) (r_changed st) false (x :: r_seen st)
                    | Some v => mkR ((r_result st ++ l) ++ indented i v) (match nm with [] => None | _ => r_class st end) (Some (x, i)) true true (x :: r_seen st)
                    end, Ok tt).
Proof.
  intros Hs Hx. pose proof Hs as Hs'. apply start_re_spec in Hs. unfold r_line. rewrite Hs.
  assert (Hc : class_re l = None). { apply class_none. intros c Hc. apply class_not_marker in Hc. apply Hc. left. eauto. }
  rewrite Hc. destruct nm as [|d nm].
  - rewrite Hx. destruct (aget x fs); reflexivity.
  - subst x. destruct (aget (d :: nm) fs); reflexivity.
Qed.
Lemma upd_start l i nm cl : is_start l i nm -> upd cl l = match nm with [] => None | _ => cl end.
Proof.
  intros Hs. pose proof Hs as Hs'. apply start_re_spec in Hs. unfold upd. rewrite Hs.
  assert (Hc : class_re l = None). { apply class_none. intros c Hc. apply class_not_marker in Hc. apply Hc. left. eauto. }
  rewrite Hc. destruct nm; reflexivity.
Qed.
Lemma upd_other l cl : start_re l = None -> upd cl l = match class_re l with Some c => Some c | None => cl end.
Proof. intros H. unfold upd. now rewrite H. Qed.
Lemma named_start pre a i nm x : is_start a i nm -> block_named pre a x -> if nm then latest pre = Some x else x = nm.
Proof.
  intros Hs [[A (i' & B)]|[(i' & B) C]]; destruct (start_same _ _ _ _ _ Hs B) as [_ ->].
  - destruct x; [contradiction|reflexivity].
  - now apply latest_spec.
Qed.

(** ** Blocks *)

Lemma body_run fs b : Forall (fun l => ~ is_marker l) b -> forall st rest,
  r_lines fs st (b ++ rest) = r_lines fs (mkR (if r_ignore st then r_result st else r_result st ++ concat b) (fold_left upd b (r_class st)) (r_block st) (r_changed st) (r_ignore st) (r_seen st)) rest.
Proof.
  induction 1 as [|l b Hl _ IH]; intros st rest.
  - cbn [app concat fold_left]. rewrite app_nil_r. destruct st as [? ? ? ? [|] ?]; reflexivity.
  - cbn [app r_lines]. apply no_marker in Hl as [H1 H2]. unfold r_line. rewrite H1, H2, IH. cbn [r_result r_class r_block r_changed r_ignore r_seen fold_left concat].
    rewrite (upd_other l _ H1). f_equal. f_equal. destruct (r_ignore st); [reflexivity|]. now rewrite app_assoc.
Qed.
Lemma end_line fs st l x i : is_end l -> r_block st = Some (x, i) ->
  r_line fs st l = (mkR ((if r_ignore st then r_result st ++ [10] else r_result st) ++ blanks_of i ++ strip l ++ [10]) (upd (r_class st) l) None (r_changed st) false (r_seen st), Ok tt).
Proof.
  intros He Hb. assert (Hs : start_re l = None). { apply start_none. intros j nm Hs. now apply start_not_end in Hs. }
  apply end_re_spec in He. unfold r_line. rewrite Hs, He, Hb, (upd_other l _ Hs). reflexivity.
Qed.

Definition settled_state (pre : list pstr) (st : rstate) : Prop := r_block st = None /\ r_ignore st = false /\ r_class st = latest pre.
Definition replaces_after (fs : fields) (pre : list pstr) (ps : list piece) : Prop :=
  exists ps1 a b c ps2 x v, ps = ps1 ++ Block a b c :: ps2 /\ block_named (pre ++ flat_map piece_lines ps1) a x /\ aget x fs = Some v.
Definition has_block (pre : list pstr) (ps : list piece) (x : pstr) : Prop :=
  exists ps1 a b c ps2, ps = ps1 ++ Block a b c :: ps2 /\ block_named (pre ++ flat_map piece_lines ps1) a x.
Lemma latest_app pre l : latest (pre ++ l) = fold_left upd l (latest pre).
Proof. unfold latest. apply fold_left_app. Qed.

Lemma piece_run fs pre p o st rest : piece_out fs pre p o -> piece_ok p -> settled_state pre st ->
  exists st', r_lines fs st (piece_lines p ++ rest) = r_lines fs st' rest /\ settled_state (pre ++ piece_lines p) st' /\ r_result st' = r_result st ++ concat o /\
    (r_changed st' = true <-> r_changed st = true \/ exists a b c x v, p = Block a b c /\ block_named pre a x /\ aget x fs = Some v) /\
    (forall x, In x (r_seen st') <-> In x (r_seen st) \/ exists a b c, p = Block a b c /\ block_named pre a x).
Proof.
  intros Ho Hp (S1 & S2 & S3). destruct Ho as [l|a b c i nm x Hs Hn Ha|a b c i nm x v new Hs Hn Ha Hv].
  - cbn [piece_ok] in Hp. cbn [piece_lines]. pose proof (body_run fs [l] ltac:(constructor; [exact Hp|constructor]) st rest) as E. rewrite E. eexists. split; [reflexivity|]. rewrite S2.
    split; [split; [exact S1|]; split; [reflexivity|]; cbn [r_class]; now rewrite S3, latest_app|]. split; [reflexivity|]. cbn [r_changed r_seen].
    split; [split; [auto|intros [H|(? & ? & ? & ? & ? & H & _)]; [exact H|discriminate H]]|]. intros x. split; [auto|intros [H|(? & ? & ? & H & _)]; [exact H|discriminate H]].
  - destruct Hp as (_ & Hb & Hc). pose proof (named_start pre a i nm x Hs Hn) as Hx. rewrite <- S3 in Hx. cbn [piece_lines app r_lines]. rewrite (start_line fs st a i nm x Hs Hx), Ha. cbv iota beta.
    rewrite <- (app_assoc b [c] rest). rewrite (body_run fs b Hb). cbn [r_result r_class r_block r_changed r_ignore r_seen app r_lines]. rewrite (end_line fs _ c x i Hc) by reflexivity.
    cbn [r_result r_class r_block r_changed r_ignore r_seen]. eexists. split; [reflexivity|].
    split. { split; [reflexivity|]. split; [reflexivity|]. cbn [r_class]. rewrite latest_app. cbn [fold_left]. rewrite fold_left_app. cbn [fold_left]. now rewrite (upd_start a i nm) by auto; rewrite S3. }
    cbn [r_result r_changed r_seen]. split. { cbn [concat]. rewrite concat_app. cbn [concat]. rewrite app_nil_r. unfold blanks_of. now rewrite <- !app_assoc. }
    split.
    + split; [auto|]. intros [H|(a' & b' & c' & x' & v' & E & Hn' & Hv')]; [exact H|]. injection E as <- <- <-. rewrite (named_same _ _ _ _ Hn' Hn) in Hv'. congruence.
    + intros y. split; [intros [<-|H]; [right|now left]; exists a, b, c; now split|]. intros [H|(a' & b' & c' & E & Hn')]; [now right|]. injection E as <- <- <-. left. exact (named_same _ _ _ _ Hn Hn').
  - destruct Hp as (_ & Hb & Hc). pose proof (named_start pre a i nm x Hs Hn) as Hx. rewrite <- S3 in Hx. cbn [piece_lines app r_lines]. rewrite (start_line fs st a i nm x Hs Hx), Ha. cbv iota beta.
    rewrite <- (app_assoc b [c] rest). rewrite (body_run fs b Hb). cbn [r_result r_class r_block r_changed r_ignore r_seen app r_lines]. rewrite (end_line fs _ c x i Hc) by reflexivity.
    cbn [r_result r_class r_block r_changed r_ignore r_seen]. eexists. split; [reflexivity|].
    split. { split; [reflexivity|]. split; [reflexivity|]. cbn [r_class]. rewrite latest_app. cbn [fold_left]. rewrite fold_left_app. cbn [fold_left]. now rewrite (upd_start a i nm) by auto; rewrite S3. }
    cbn [r_result r_changed r_seen]. split. { cbn [concat]. rewrite concat_app. cbn [concat]. rewrite app_nil_r. rewrite <- (indented_value i v new Hv). unfold blanks_of. now rewrite <- !app_assoc. }
    split.
    + split; [|auto]. intros _. right. exists a, b, c, x, v. repeat split; auto.
    + intros y. split; [intros [<-|H]; [right|now left]; exists a, b, c; now split|]. intros [H|(a' & b' & c' & E & Hn')]; [now right|]. injection E as <- <- <-. left. exact (named_same _ _ _ _ Hn Hn').
Qed.

Lemma pieces_run fs : forall ps pre os, pieces_out fs pre ps os -> Forall piece_ok ps -> forall st, settled_state pre st ->
  exists st', r_lines fs st (flat_map piece_lines ps) = (st', Ok tt) /\ r_result st' = r_result st ++ concat os /\
    (r_changed st' = true <-> r_changed st = true \/ replaces_after fs pre ps) /\
    (forall x, In x (r_seen st') <-> In x (r_seen st) \/ has_block pre ps x).
Proof.
  induction 1 as [pre|pre p ps o os Hp Hps IH]; intros Hok st Hst.
  - exists st. cbn [flat_map r_lines concat]. destruct Hst as (-> & _ & _). rewrite app_nil_r. split; [reflexivity|]. split; [reflexivity|].
    split; [split; [auto|]; intros [H|(ps1 & ? & ? & ? & ? & ? & ? & E & _)]; [exact H|destruct ps1; discriminate E]|].
    intros x. split; [auto|]. intros [H|(ps1 & ? & ? & ? & ? & E & _)]; [exact H|destruct ps1; discriminate E].
  - inversion Hok as [|? ? Hok1 Hok2]; subst. cbn [flat_map].
    destruct (piece_run fs pre p o st (flat_map piece_lines ps) Hp Hok1 Hst) as (st1 & E1 & S1 & R1 & C1 & N1). rewrite E1.
    destruct (IH Hok2 st1 S1) as (st2 & E2 & R2 & C2 & N2). exists st2. split; [exact E2|]. split; [rewrite R2, R1, concat_app; now rewrite app_assoc|]. split.
    + rewrite C2, C1. split.
      * intros [[H|(a & b & c & x & v & -> & Hn & Hv)]|(ps1 & a & b & c & ps2 & x & v & -> & Hn & Hv)]; [now left| |]; right.
        -- exists [], a, b, c, ps, x, v. cbn [flat_map app]. rewrite app_nil_r. now repeat split.
        -- exists (p :: ps1), a, b, c, ps2, x, v. cbn [flat_map app]. rewrite app_assoc. now repeat split.
      * intros [H|(ps1 & a & b & c & ps2 & x & v & E & Hn & Hv)]; [auto|]. destruct ps1 as [|p1 ps1]; cbn [app] in E; injection E as -> ->.
        -- left. right. exists a, b, c, x, v. cbn [flat_map] in Hn. rewrite app_nil_r in Hn. now repeat split.
        -- right. exists ps1, a, b, c, ps2, x, v. cbn [flat_map] in Hn. rewrite app_assoc in Hn. now repeat split.
    + intros x. rewrite N2, N1. split.
      * intros [[H|(a & b & c & -> & Hn)]|(ps1 & a & b & c & ps2 & -> & Hn)]; [now left| |]; right.
        -- exists [], a, b, c, ps. cbn [flat_map app]. rewrite app_nil_r. now repeat split.
        -- exists (p :: ps1), a, b, c, ps2. cbn [flat_map app]. rewrite app_assoc. now repeat split.
      * intros [H|(ps1 & a & b & c & ps2 & E & Hn)]; [auto|]. destruct ps1 as [|p1 ps1]; cbn [app] in E; injection E as -> ->.
        -- left. right. exists a, b, c. cbn [flat_map] in Hn. rewrite app_nil_r in Hn. now repeat split.
        -- right. exists ps1, a, b, c, ps2. cbn [flat_map] in Hn. rewrite app_assoc in Hn. now repeat split.
Qed.
