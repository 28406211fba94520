(** Proofs about the replacer: many files, and running it twice. *)
From Coq Require Import Lia Permutation Sorted.
From Verif Require Import PyFmtProofs AnimProofs2 SerProofs XpProofs TimeProofs2 TlProofs4 RepModel RepSpec RepProofs RepProofs2 RepProofs3 RepProofs4.
Local Open Scope N_scope.

(** ** Many files *)

Definition apart (names : list pstr) : Prop := forall n m, In n names -> In m names -> n <> temp_name m.
Lemma py_apart names : (forall n, In n names -> exists r, n = r ++ s ".py") -> apart names.
Proof.
  intros H n m Hn Hm E. destruct (H n Hn) as (r & ->). unfold temp_name in E. apply (f_equal (@rev N)) in E. rewrite !rev_app_distr in E. discriminate E.
Qed.
Lemma apart_cons n names : apart (n :: names) -> apart names /\ forall m, In m names -> m <> temp_name n /\ n <> temp_name m.
Proof. intros H. split; [intros a b Ha Hb; apply H; now right|]. intros m Hm. split; apply H; auto; [now right|now left|now left|now right]. Qed.
Lemma same_trans d1 d2 d3 n : same_file d1 d2 n -> same_file d2 d3 n -> same_file d1 d3 n.
Proof. unfold same_file. congruence. Qed.
Lemma same_sym d1 d2 n : same_file d1 d2 n -> same_file d2 d1 n.
Proof. unfold same_file. congruence. Qed.

Lemma all_states fs : forall names d d', NoDup names -> apart names -> In d' (handle_all_states fs d names) ->
  (forall n, In n names -> same_file d d' n \/ same_file (o_disk (handle fs d n)) d' n) /\
  (forall n, ~ In n names -> (forall m, In m names -> n <> temp_name m) -> same_file d d' n).
Proof.
  induction names as [|n names IH]; intros d d' Hnd Hap H.
  { cbn [handle_all_states] in H. destruct H as [<-|[]]. split; [intros n []|intros n _ _; reflexivity]. }
  inversion Hnd as [|? ? Hni Hnd']; subst. destruct (apart_cons n names Hap) as [Hap' Hx]. cbn [handle_all_states] in H. apply in_app_iff in H as [H|H].
  - apply handle_states_spec in H as [H O]. split.
    + intros m [<-|Hm]; [exact H|]. left. apply O; [intros ->; contradiction|]. now apply Hx.
    + intros m Hm Ht. apply O; [intros ->; apply Hm; now left|]. apply Ht. now left.
  - destruct (o_res (handle fs d n)); [|destruct H]. destruct (IH _ d' Hnd' Hap' H) as [I1 I2]. pose proof (handle_others fs d n) as O. split.
    + intros m [<-|Hm].
      * right. apply I2; [exact Hni|]. intros m Hm. now apply Hx.
      * assert (S : same_file d (o_disk (handle fs d n)) m). { apply O; [intros ->; contradiction|]. now apply Hx. }
        destruct (I1 m Hm) as [E|E]; [left; now apply same_trans with (1 := S)|]. right. apply same_trans with (2 := E). now apply handle_local.
    + intros m Hm Ht. apply same_trans with (o_disk (handle fs d n)); [apply O; [intros ->; apply Hm; now left|apply Ht; now left]|]. apply I2; [intros H'; apply Hm; now right|]. intros k Hk. apply Ht. now right.
Qed.

Lemma all_result fs : fs <> [] -> forall names d, NoDup names -> apart names ->
  let o := handle_all fs d names in
  (o_res o = Ok tt /\ Forall (fun n => o_res (handle fs d n) = Ok tt /\ same_file (o_disk (handle fs d n)) (o_disk o) n) names /\
   o_written o = flat_map (fun n => o_written (handle fs d n)) names /\ forall x, In x (o_seen o) <-> exists n, In n names /\ In x (o_seen (handle fs d n))) \/
  (exists a n b e, names = a ++ n :: b /\ Forall (fun n => o_res (handle fs d n) = Ok tt /\ same_file (o_disk (handle fs d n)) (o_disk o) n) a /\
   o_res (handle fs d n) = Err e /\ o_res o = Err e /\ Forall (same_file d (o_disk o)) (n :: b) /\ o_written o = flat_map (fun n => o_written (handle fs d n)) a).
Proof.
  intros Hf. induction names as [|n names IH]; intros d Hnd Hap; cbv zeta.
  { left. destruct fs; [contradiction|]. cbn [handle_all]. repeat split; [constructor|intros []|intros (? & [] & _)]. }
  inversion Hnd as [|? ? Hni Hnd']; subst. destruct (apart_cons n names Hap) as [Hap' Hx].
  assert (E : handle_all fs d (n :: names) = match o_res (handle fs d n) with Err e => handle fs d n | Ok _ => let o' := handle_all fs (o_disk (handle fs d n)) names in mkO (o_disk o') (o_seen o' ++ o_seen (handle fs d n)) (o_written (handle fs d n) ++ o_written o') (o_res o') end)
    by (destruct fs; [contradiction|reflexivity]).
  rewrite E. clear E. pose proof (handle_others fs d n) as O. destruct (o_res (handle fs d n)) as [[]|e] eqn:Er.
  - specialize (IH (o_disk (handle fs d n)) Hnd' Hap'). cbv zeta in IH. set (d1 := o_disk (handle fs d n)) in *.
    assert (L : forall m, In m names -> same_file d d1 m) by (intros m Hm; apply O; [intros ->; contradiction|now apply Hx]).
    assert (KA : forall l d2, incl l names -> Forall (fun m => o_res (handle fs d1 m) = Ok tt /\ same_file (o_disk (handle fs d1 m)) d2 m) l -> Forall (fun m => o_res (handle fs d m) = Ok tt /\ same_file (o_disk (handle fs d m)) d2 m) l).
    { intros l d2 Hl H. rewrite Forall_forall in *. intros m Hm. destruct (H m Hm) as [H1 H2]. destruct (handle_local fs d d1 m (L m (Hl m Hm))) as (S1 & -> & _). split; [exact H1|]. now apply same_trans with (1 := S1). }
    assert (KW : forall l, incl l names -> flat_map (fun m => o_written (handle fs d1 m)) l = flat_map (fun m => o_written (handle fs d m)) l).
    { intros l Hl. induction l as [|m l IHl]; [reflexivity|]. cbn [flat_map]. rewrite IHl by (intros z Hz; apply Hl; now right). f_equal. symmetry. apply handle_local. apply L, Hl. now left. }
    assert (Hfin : same_file d1 (o_disk (handle_all fs d1 names)) n).
    { assert (G : forall l d2, ~ In n l -> (forall m, In m l -> n <> temp_name m) -> same_file d2 (o_disk (handle_all fs d2 l)) n).
      { induction l as [|m l IHl]; intros d2 H1 H2; [destruct fs; reflexivity|]. destruct fs as [|f fs]; [contradiction|]. cbn [handle_all]. cbv zeta.
        assert (S : same_file d2 (o_disk (handle (f :: fs) d2 m)) n) by (apply handle_others; [intros ->; apply H1; now left|apply H2; now left]).
        destruct (o_res (handle (f :: fs) d2 m)); [|exact S]. cbn [o_disk]. apply same_trans with (1 := S). apply IHl; [intros H; apply H1; now right|intros k Hk; apply H2; now right]. }
      apply G; [exact Hni|]. intros m Hm. now apply Hx. }
    destruct IH as [(I1 & I2 & I3 & I4)|(a & m & b & e & En & I2 & I3 & I4 & I5 & I6)].
    + left. cbn [o_res o_disk o_written o_seen]. split; [exact I1|]. split; [constructor; [now split|apply KA; [apply incl_refl|exact I2]]|]. split; [cbn [flat_map]; now rewrite I3, KW by apply incl_refl|].
      intros x. rewrite in_app_iff, I4. split.
      * intros [(m & Hm & H)|H]; [|exists n; split; [now left|exact H]]. exists m. split; [now right|]. destruct (handle_local fs d d1 m (L m Hm)) as (_ & _ & -> & _). exact H.
      * intros (m & [<-|Hm] & H); [now right|]. left. exists m. split; [exact Hm|]. destruct (handle_local fs d d1 m (L m Hm)) as (_ & _ & <- & _). exact H.
    + right. exists (n :: a), m, b, e. cbn [o_res o_disk o_written o_seen]. subst names. assert (La : incl a (a ++ m :: b)) by (intros z Hz; apply in_app_iff; now left).
      split; [reflexivity|]. split; [constructor; [now split|now apply KA]|]. split; [rewrite <- I3; apply handle_local, L; apply in_app_iff; right; now left|]. split; [exact I4|].
      split; [|cbn [flat_map]; now rewrite I6, KW]. rewrite Forall_forall in *. intros z Hz. apply same_trans with (2 := I5 z Hz). apply L. apply in_app_iff. now right.
  - right. exists [], n, names, e. split; [reflexivity|]. split; [constructor|]. split; [exact Er|]. split; [exact Er|]. destruct (handle_error fs d n e Er) as [H1 H2]. split; [|exact H2].
    constructor; [exact H1|]. apply Forall_forall. intros m Hm. apply O; [intros ->; contradiction|now apply Hx].
Qed.

(** ** Names that were not seen *)

Lemma unseen_In fs seen x : In x (unseen fs seen) <-> In x (map fst fs) /\ ~ In x seen.
Proof.
  unfold unseen. rewrite filter_In. assert (P : In x (ValModel.sort pstr_le (map fst fs)) <-> In x (map fst fs)). { pose proof (sort_perm pstr_le (map fst fs)) as Hp. split; apply Permutation_in; [now apply Permutation_sym|exact Hp]. }
  rewrite P. split; intros [H1 H2]; (split; [exact H1|]).
  - intros H. apply Bool.negb_true_iff in H2. assert (X : existsb (pstr_eqb x) seen = true) by (apply existsb_exists; exists x; split; [exact H|apply pstr_eqb_refl]). congruence.
  - apply Bool.negb_true_iff. destruct (existsb (pstr_eqb x) seen) eqn:E; [|reflexivity]. apply existsb_exists in E as (y & Hy & Ey). apply pstr_eqb_spec in Ey. subst y. contradiction.
Qed.

(** ** Twice *)

Lemma marker_iff l : is_marker l <-> exists k m r, (m = s "### {{{" \/ m = s "### }}}") /\ l = repeat 32 k ++ m ++ r.
Proof.
  split.
  - intros [(i & nm & j & r & -> & _)|(i & r & ->)]; [exists i, (s "### {{{"), (repeat 32 j ++ nm ++ r); auto|exists i, (s "### }}}"), r; auto].
  - intros (k & m & r & [->| ->] & ->); [|right; now exists k, r]. left.
    destruct (start_re (repeat 32 k ++ s "### {{{" ++ r)) as [[i nm]|] eqn:E; [apply start_re_spec in E; eauto|]. exfalso. unfold start_re in E. rewrite blanks_span in E by (cbn; discriminate).
    assert (X : after (s "### {{{") (s "### {{{" ++ r) = Some r) by now apply after_spec. rewrite X in E. discriminate E.
Qed.
Lemma class_iff l : (exists c, is_class l c) <-> exists d r, word_char d = true /\ l = s "class " ++ d :: r.
Proof.
  split.
  - intros (c & r & -> & Hc & Hw & _). destruct c as [|d c]; [contradiction|]. exists d, (c ++ r). split; [|reflexivity]. apply word_spec in Hw. now inversion Hw.
  - intros (d & r & Hd & ->). destruct (class_re (s "class " ++ d :: r)) as [c|] eqn:E; [exists c; now apply class_re_spec|]. exfalso. unfold class_re in E.
    assert (X : after (s "class ") (s "class " ++ d :: r) = Some (d :: r)) by now apply after_spec. rewrite X in E. cbn [span] in E. rewrite Hd in E. destruct (span word_char r) eqn:Es. cbn [fst] in E. discriminate E.
Qed.
Lemma lstrip_suffix x : exists sp, x = sp ++ lstrip x /\ Forall (fun c => is_space c = true) sp.
Proof. induction x as [|c x [sp [E H]]]; [exists []; split; [reflexivity|constructor]|]. cbn [lstrip]. destruct (is_space c) eqn:Ec; [exists (c :: sp); split; [cbn [app]; now f_equal|now constructor]|exists []; split; [reflexivity|constructor]]. Qed.
Lemma rstrip_prefix x : exists sp, x = rstrip x ++ sp /\ Forall (fun c => is_space c = true) sp.
Proof.
  destruct (lstrip_suffix (rev x)) as (sp & E & H). exists (rev sp). split; [|now apply Forall_rev]. unfold rstrip. rewrite <- rev_app_distr. rewrite <- E. now rewrite rev_involutive.
Qed.
Lemma rstrip_app x sp : Forall (fun c => is_space c = true) sp -> rstrip (x ++ sp) = rstrip x.
Proof.
  intros H. unfold rstrip. f_equal. rewrite rev_app_distr. apply Forall_rev in H. induction H as [|c l Hc _ IH]; [reflexivity|]. cbn [app lstrip]. now rewrite Hc.
Qed.
Lemma lstrip_app sp x : Forall (fun c => is_space c = true) sp -> lstrip (sp ++ x) = lstrip x.
Proof. induction 1 as [|c l Hc _ IH]; [reflexivity|]. cbn [app lstrip]. now rewrite Hc. Qed.
Lemma lstrip_head_ok x : match lstrip x with c :: _ => is_space c = false | [] => True end.
Proof. induction x as [|c x IH]; [exact I|]. cbn [lstrip]. destruct (is_space c) eqn:E; [exact IH|exact E]. Qed.
Lemma lstrip_fix x : match x with c :: _ => is_space c = false | [] => True end -> lstrip x = x.
Proof. destruct x as [|c x]; [reflexivity|]. intros H. cbn [lstrip]. now rewrite H. Qed.
Lemma lstrip_rstrip x : lstrip (rstrip (lstrip x)) = rstrip (lstrip x).
Proof.
  apply lstrip_fix. pose proof (lstrip_head_ok x) as H. destruct (rstrip_prefix (lstrip x)) as (sp & E & Hs). destruct (rstrip (lstrip x)) as [|c y]; [exact I|]. rewrite E in H. exact H.
Qed.
Lemma rstrip_idem x : rstrip (rstrip x) = rstrip x.
Proof. unfold rstrip. rewrite rev_involutive. f_equal. apply lstrip_fix, lstrip_head_ok. Qed.
Lemma strip_again i c : strip (repeat 32 i ++ strip c ++ [10]) = strip c.
Proof.
  unfold strip. rewrite lstrip_app by now apply repeat_Forall. destruct (rstrip (lstrip c)) as [|d y] eqn:E; [reflexivity|].
  assert (F : lstrip (d :: y) = d :: y) by (rewrite <- E; apply lstrip_rstrip). rewrite lstrip_fix.
  - rewrite rstrip_app by (constructor; [reflexivity|constructor]). rewrite <- E. apply rstrip_idem.
  - pose proof (lstrip_head_ok (d :: y)) as H. rewrite F in H. exact H.
Qed.
Lemma end_again i c : is_end c -> is_end (repeat 32 i ++ strip c ++ [10]).
Proof.
  intros (k & r & ->). destruct (rstrip_prefix (s "### }}}" ++ r)) as (sp & E & Hs). unfold strip. rewrite lstrip_app by now apply repeat_Forall. rewrite lstrip_fix by reflexivity.
  assert (X : exists r', rstrip (s "### }}}" ++ r) = s "### }}}" ++ r').
  { destruct (rstrip_prefix r) as (sp' & Er & Hs'). exists (rstrip r). rewrite Er at 1. rewrite (app_assoc (s "### }}}") (rstrip r) sp'), rstrip_app by exact Hs'. unfold rstrip at 1. rewrite rev_app_distr.
    destruct (rev (rstrip r)) as [|c y] eqn:Ey.
    - assert (rstrip r = []) as -> by (rewrite <- (rev_involutive (rstrip r)), Ey; reflexivity). reflexivity.
    - rewrite lstrip_fix; [rewrite <- Ey, <- rev_app_distr; apply rev_involutive|]. cbn [app]. pose proof (lstrip_head_ok (rev r)) as H. unfold rstrip in Ey. rewrite rev_involutive in Ey. now rewrite Ey in H. }
  destruct X as (r' & ->). exists i, (r' ++ [10]). now rewrite <- app_assoc.
Qed.

Lemma strip_shape y P z r : rstrip y ++ [10] = P ++ z :: r -> z <> 10 -> exists r', y = P ++ z :: r'.
Proof.
  intros E Hz. destruct (rstrip_prefix y) as (sp & Ey & _). destruct (@exists_last _ (z :: r)) as (r0 & w & Er); [discriminate|]. rewrite Er, app_assoc in E. apply app_inj_tail in E as [E1 E2]. subst w.
  destruct r0 as [|z0 r0]; [cbn [app] in Er; injection Er as -> ->; contradiction|]. cbn [app] in Er. injection Er as <- ->. exists (r0 ++ sp). rewrite Ey, E1, <- app_assoc. reflexivity.
Qed.
Lemma indent_shape i : forall k l m z r, z <> 32 -> repeat 32 i ++ l = repeat 32 k ++ (z :: m) ++ r -> exists k', l = repeat 32 k' ++ (z :: m) ++ r.
Proof.
  induction i as [|i IH]; intros k l m z r Hz E; [exists k; exact E|]. destruct k as [|k]; cbn [repeat app] in E; [injection E as E _; congruence|]. injection E as E. now apply (IH k).
Qed.
Lemma quiet_in i l : quiet l -> quiet (rstrip (repeat 32 i ++ l) ++ [10]).
Proof.
  intros [H1 H2]. split.
  - intros H. apply H1. apply marker_iff in H as (k & m & r & Hm & E). apply marker_iff.
    assert (X : exists m0 z, m = m0 ++ [z] /\ z <> 10) by (destruct Hm as [->| ->]; [exists (s "### {{"), 123|exists (s "### }}"), 125]; (split; [reflexivity|discriminate])).
    destruct X as (m0 & z & Em & Hz). assert (E' : rstrip (repeat 32 i ++ l) ++ [10] = (repeat 32 k ++ m0) ++ z :: r) by (rewrite E, Em, <- !app_assoc; reflexivity).
    destruct (strip_shape _ _ z r E' Hz) as (r' & Ey). assert (Ey' : repeat 32 i ++ l = repeat 32 k ++ m ++ r') by (rewrite Ey, Em, <- !app_assoc; reflexivity).
    assert (Xm : exists m1, m = 35 :: m1) by (destruct Hm as [->| ->]; eexists; reflexivity). destruct Xm as (m1 & Em1). rewrite Em1 in Ey'.
    destruct (indent_shape i k l m1 35 r' ltac:(discriminate) Ey') as (k' & El). exists k', m, r'. split; [exact Hm|]. now rewrite Em1.
  - intros c Hc. assert (X : exists c, is_class l c); [|destruct X as (c' & Hc'); now apply (H2 c')]. apply class_iff. destruct (proj1 (class_iff _) (ex_intro _ c Hc)) as (d & r & Hd & E).
    destruct (strip_shape _ _ d r E) as (r' & Ey); [intros ->; discriminate Hd|]. destruct i as [|i]; [exists d, r'; split; [exact Hd|exact Ey]|cbn [repeat app] in Ey; discriminate Ey].
Qed.

(** *** Lines of the output *)

Lemma full_app A x B : Forall full_line A -> lines_of x B -> lines_of (concat A ++ x) (A ++ B).
Proof. induction 1 as [|l A Hl _ IH]; intros H; [exact H|]. cbn [concat app]. rewrite <- app_assoc. constructor; [exact Hl|now apply IH]. Qed.
Lemma lines_tail x A B : lines_of x (A ++ B) -> lines_of (concat B) B.
Proof.
  revert x. induction A as [|a A IH]; intros x H; cbn [app] in H; [pose proof (lines_concat x B H) as E; now subst x|].
  inversion H as [|y Hy Hy' E1 E2|l y ls Hl Hys E1 E2]; subst.
  - destruct A; [|discriminate]. destruct B; [constructor|discriminate].
  - now apply (IH y).
Qed.
Lemma line_strip c : (full_line c \/ ~ In 10 c) -> ~ In 10 (strip c).
Proof.
  intros H X. assert (E : exists y, strip c = strip y /\ ~ In 10 y).
  { destruct H as [(y & -> & Hy)|H]; [exists y|exists c; now split]. split; [|exact Hy]. unfold strip. destruct (Forall_dec (fun c => is_space c = true) (fun c => Bool.bool_dec (is_space c) true) y) as [Hs|Hs].
    - rewrite lstrip_app by exact Hs. assert (lstrip y = []) as -> by (clear -Hs; induction Hs as [|c l Hc _ IH]; [reflexivity|cbn [lstrip]; now rewrite Hc]). reflexivity.
    - assert (G : lstrip (y ++ [10]) = lstrip y ++ [10]). { clear -Hs. induction y as [|c y IH]; [exfalso; apply Hs; constructor|]. cbn [app lstrip]. destruct (is_space c) eqn:Ec; [|reflexivity]. apply IH. intros H. apply Hs. now constructor. }
      rewrite G. apply rstrip_app. constructor; [reflexivity|constructor]. }
  destruct E as (y & E & Hy). rewrite E in X. assert (F : Forall (fun c => c <> 10) (strip y)) by (apply strip_Forall, Forall_forall; intros z Hz ->; contradiction). rewrite Forall_forall in F. now apply (F 10).
Qed.
Lemma no10_app x y : ~ In 10 x -> ~ In 10 y -> ~ In 10 (x ++ y).
Proof. intros H1 H2 H. apply in_app_iff in H as [H|H]; contradiction. Qed.
Lemma no10_blanks i : ~ In 10 (repeat 32 i).
Proof. intros H. apply repeat_spec in H. discriminate H. Qed.
Lemma out_lines fs : forall ps pre os x, pieces_out fs pre ps os -> lines_of x (flat_map piece_lines ps) -> lines_of (concat os) os.
Proof.
  induction ps as [|p ps IH]; intros pre os x H Hl; inversion H as [|? ? ? o os' Hp Hps]; subst; [constructor|]. cbn [flat_map] in Hl.
  pose proof (lines_tail x _ _ Hl) as Ht. specialize (IH _ _ _ Hps Ht). rewrite concat_app. destruct Hp as [l|a b c i nm y Hs Hn Ha|a b c i nm y v new Hs Hn Ha Hv].
  - destruct ps as [|p ps].
    + inversion Hps; subst. cbn [concat app]. rewrite !app_nil_r. cbn [flat_map piece_lines app] in Hl. apply (lines_tail x [] [l]) in Hl. cbn [concat] in Hl. now rewrite app_nil_r in Hl.
    + apply full_app; [|exact IH]. apply (lines_cut x [l] (flat_map piece_lines (p :: ps))); [exact Hl|]. destruct p; discriminate.
  - assert (Hab : Forall full_line (a :: b)). { cbn [piece_lines] in Hl. apply (lines_cut x (a :: b) (c :: flat_map piece_lines ps)); [|discriminate]. cbn [app] in *. now rewrite <- app_assoc in Hl. }
    assert (Hc : full_line c \/ ~ In 10 c). { cbn [piece_lines] in Hl. rewrite <- app_comm_cons, <- app_assoc in Hl. apply (lines_tail x (a :: b) ([c] ++ flat_map piece_lines ps)) in Hl. cbn [app] in Hl. clear -Hl. remember (concat (c :: flat_map piece_lines ps)) as u. inversion Hl as [|y' Hy Hy' E1 E2|l y' ls Hl' Hys E1 E2]; [right; exact Hy'|left; exact Hl']. }
    apply full_app; [|exact IH]. inversion Hab as [|? ? Ha' Hb']; subst. constructor; [exact Ha'|]. apply Forall_app. split; [exact Hb'|]. constructor; [|constructor]. exists (repeat 32 i ++ strip c). split; [now rewrite <- app_assoc|]. apply no10_app; [apply no10_blanks|now apply line_strip].
  - assert (Hab : Forall full_line (a :: b)). { cbn [piece_lines] in Hl. apply (lines_cut x (a :: b) (c :: flat_map piece_lines ps)); [|discriminate]. cbn [app] in *. now rewrite <- app_assoc in Hl. }
    assert (Hc : full_line c \/ ~ In 10 c). { cbn [piece_lines] in Hl. rewrite <- app_comm_cons, <- app_assoc in Hl. apply (lines_tail x (a :: b) ([c] ++ flat_map piece_lines ps)) in Hl. cbn [app] in Hl. clear -Hl. remember (concat (c :: flat_map piece_lines ps)) as u. inversion Hl as [|y' Hy Hy' E1 E2|l y' ls Hl' Hys E1 E2]; [right; exact Hy'|left; exact Hl']. }
    apply full_app; [|exact IH]. inversion Hab as [|? ? Ha' Hb']; subst. constructor; [exact Ha'|]. apply Forall_app. split.
    + destruct Hv as (ls & (_ & Hls & _) & ->). apply Forall_map. apply Forall_impl with (2 := Hls). intros l Hl'. exists (rstrip (repeat 32 i ++ l)). split; [reflexivity|]. intros X.
      assert (F : Forall (fun c => c <> 10) (rstrip (repeat 32 i ++ l))) by (apply rstrip_Forall, Forall_forall; intros z Hz ->; revert Hz; apply no10_app; [apply no10_blanks|exact Hl']). rewrite Forall_forall in F. now apply (F 10).
    + constructor; [|constructor]. exists (repeat 32 i ++ strip c). split; [now rewrite <- app_assoc|]. apply no10_app; [apply no10_blanks|now apply line_strip].
Qed.

(** *** The output is made of pieces that become themselves. *)

Lemma latest_quiet pre b : Forall (fun l => start_re l = None /\ class_re l = None) b -> latest (pre ++ b) = latest pre.
Proof. intros H. rewrite latest_app. revert H. generalize (latest pre). induction 1 as [|l b [H1 H2] _ IH] using Forall_ind; [reflexivity|]. cbn [fold_left]. rewrite upd_other by exact H1. now rewrite H2. Qed.
Lemma quiet_none l : quiet l -> start_re l = None /\ class_re l = None.
Proof. intros [H1 H2]. split; [now apply no_marker in H1|now apply class_none]. Qed.
Lemma named_by pre pre' a x : latest pre = latest pre' -> block_named pre a x -> block_named pre' a x.
Proof. intros E H. apply named_latest. apply named_latest in H as (i & nm & H1 & H2). exists i, nm. split; [exact H1|]. now rewrite <- E. Qed.
Lemma end_quiet l : is_end l -> start_re l = None /\ class_re l = None.
Proof.
  intros H. split; [apply start_none; intros i nm H'; now apply start_not_end in H'|]. apply class_none. intros c Hc. apply class_not_marker in Hc. apply Hc. now right.
Qed.
Lemma out_again fs : field_quiet fs -> forall ps pre os, pieces_out fs pre ps os -> Forall piece_ok ps -> (forall a b c, In (Block a b c) ps -> Forall (fun l => forall x, ~ is_class l x) b) ->
  forall pre', latest pre' = latest pre -> exists ps', os = flat_map piece_lines ps' /\ Forall piece_ok ps' /\ pieces_out fs pre' ps' os.
Proof.
  intros Hq. induction 1 as [pre|pre p ps o os Hp Hps IH]; intros Hok Hb pre' Hpre; [exists []; repeat split; constructor|]. inversion Hok as [|? ? Hok1 Hok2]; subst.
  assert (G : exists p', o = piece_lines p' /\ piece_ok p' /\ piece_out fs pre' p' o /\ latest (pre' ++ o) = latest (pre ++ piece_lines p)).
  { destruct Hp as [l|a b c i nm x Hs Hn Ha|a b c i nm x v new Hs Hn Ha Hv].
    - exists (Outside l). cbn [piece_lines]. split; [reflexivity|]. split; [exact Hok1|]. split; [constructor|]. now rewrite !latest_app, Hpre.
    - destruct Hok1 as (O1 & O2 & O3). pose proof (end_again i c O3) as Hc'. exists (Block a b (repeat 32 i ++ strip c ++ [10])). cbn [piece_lines]. split; [reflexivity|]. split; [split; [exact O1|]; now split|]. split.
      + rewrite <- (strip_again i c) at 2. apply (out_kept fs pre' a b _ i nm x); auto. now apply named_by with (pre := pre).
      + revert Hc'; generalize (repeat 32 i ++ strip c ++ [10]); intros c' Hc'. rewrite (app_comm_cons b [c'] a), (app_comm_cons b [c] a), !app_assoc. rewrite (latest_quiet _ [c']) by (constructor; [now apply end_quiet|constructor]). rewrite (latest_quiet _ [c]) by (constructor; [now apply end_quiet|constructor]). now rewrite !latest_app, Hpre.
    - destruct Hok1 as (O1 & O2 & O3). pose proof (end_again i c O3) as Hc'. exists (Block a new (repeat 32 i ++ strip c ++ [10])). cbn [piece_lines].
      assert (Hnew : Forall quiet new). { destruct Hv as (ls & Hls & ->). apply Forall_map. apply Forall_impl with (2 := Hq x v ls Ha Hls). intros l. apply quiet_in. }
      split; [reflexivity|]. split; [split; [exact O1|]; split; [|exact Hc']; apply Forall_impl with (2 := Hnew); now intros l []|]. split.
      + rewrite <- (strip_again i c) at 2. apply (out_replaced fs pre' a new _ i nm x v); auto. now apply named_by with (pre := pre).
      + revert Hc'; generalize (repeat 32 i ++ strip c ++ [10]); intros c' Hc'. rewrite (app_comm_cons new [c'] a), (app_comm_cons b [c] a), !app_assoc. rewrite (latest_quiet _ [c']) by (constructor; [now apply end_quiet|constructor]). rewrite (latest_quiet _ [c]) by (constructor; [now apply end_quiet|constructor]).
        change (a :: new) with ([a] ++ new). change (a :: b) with ([a] ++ b). rewrite !app_assoc. rewrite (latest_quiet _ new) by (apply Forall_impl with (2 := Hnew); intros l; apply quiet_none). rewrite (latest_quiet _ b); [now rewrite !latest_app, Hpre|].
        specialize (Hb a b c (or_introl eq_refl)). rewrite Forall_forall in *. intros l Hl. apply quiet_none. split; [now apply O2|now apply Hb]. }
  destruct G as (p' & -> & Hp' & Ho' & Hlat). destruct (IH Hok2 (fun a b c H => Hb a b c (or_intror H)) (pre' ++ piece_lines p') Hlat) as (ps' & -> & Hok' & Hout').
  exists (p' :: ps'). split; [reflexivity|]. split; [now constructor|]. cbn [flat_map]. now constructor.
Qed.
Lemma twice fs d name x ps out : fs <> [] -> fields_encodable fs -> (forall k v, aget k fs = Some v -> ~ In 13 v) -> field_quiet fs -> file_text d name x -> lines_of x (flat_map piece_lines ps) -> Forall piece_ok ps -> pieces_out fs [] ps out ->
  (forall a b c, In (Block a b c) ps -> Forall (fun l => forall y, ~ is_class l y) b) ->
  let d1 := o_disk (handle fs d name) in let o2 := handle fs d1 name in o_res o2 = Ok tt /\ forall n, same_file d1 (o_disk o2) n.
Proof.
  intros Hf Hfe H13 Hq Ht Hl Hok Ho Hb. cbv zeta. pose proof (handle_pieces fs d name x ps out Hf Hfe Ht Hl Hok Ho) as (R1 & _ & [(R2 & R3 & R4 & R5)|(R2 & R3 & R4)]).
  - set (d1 := o_disk (handle fs d name)) in *. destruct (out_again fs Hq ps [] out Ho Hok Hb [] eq_refl) as (ps' & E' & Hok' & Ho').
    pose proof (out_lines fs ps [] out x Ho Hl) as Hlo.
    assert (Hno : Forall (fun c => c <> 13) (concat out)). { apply Forall_concat. apply (outs_Forall (fun c => c <> 13) fs) with (ps := ps) (pre := []); try discriminate; auto.
      - intros k v Hv. apply Forall_forall. intros z Hz ->. now apply (H13 k v).
      - apply lines_Forall with (x := x); [exact Hl|]. apply (file_encodable d name x Ht). }
    assert (Ht' : file_text d1 name (concat out)) by (exists (concat out); split; [exact R4|symmetry; now apply norm_eol_id]).
    assert (Hl' : lines_of (concat out) (flat_map piece_lines ps')) by now rewrite <- E'.
    pose proof (handle_pieces fs d1 name (concat out) ps' out Hf Hfe Ht' Hl' Hok' Ho') as (Q1 & _ & Q). split; [exact Q1|]. destruct Q as [(_ & _ & Q4 & Q5)|(_ & _ & Q4)]; [|intros n; unfold same_file; now rewrite Q4].
    intros n. unfold same_file. destruct (pstr_eqb n name) eqn:En.
    + apply pstr_eqb_spec in En. subst n. destruct R4 as (b1 & A1 & B1). destruct Q4 as (b2 & A2 & B2). congruence.
    + destruct (pstr_eqb n (temp_name name)) eqn:Et; [apply pstr_eqb_spec in Et; subst n; congruence|]. apply handle_others; intros ->; rewrite pstr_eqb_refl in *; discriminate.
  - rewrite !R4. split; [exact R1|intros n; reflexivity].
Qed.
Lemma pieces_ex fs : forall ps pre, Forall piece_ok ps -> (forall p l q i, flat_map piece_lines ps = p ++ l :: q -> is_start l i [] -> ~ forall c, ~ class_before (pre ++ p) c) -> exists out, pieces_out fs pre ps out.
Proof.
  induction ps as [|p ps IH]; intros pre Hok Hn; [exists []; constructor|]. inversion Hok as [|? ? Hp Hps]; subst.
  destruct (IH (pre ++ piece_lines p) Hps) as (os & Hos).
  { intros p0 l q i E Hs. rewrite <- app_assoc. apply (Hn (piece_lines p ++ p0) l q i); [|exact Hs]. cbn [flat_map]. rewrite E. now rewrite app_assoc. }
  destruct p as [l|a b c]; [exists ([l] ++ os); constructor; [constructor|exact Hos]|]. destruct Hp as ((i & nm & Hs) & _).
  assert (Hname : exists x, block_named pre a x).
  { destruct nm as [|d nm]; [|exists (d :: nm); left; split; [discriminate|eauto]]. destruct (latest pre) as [x|] eqn:El.
    - exists x. right. split; [eauto|]. now apply latest_spec.
    - exfalso. apply (Hn [] a (b ++ [c] ++ flat_map piece_lines ps) i); [cbn [flat_map piece_lines app]; now rewrite <- app_assoc|exact Hs|]. rewrite app_nil_r. intros x Hx. apply latest_spec in Hx. congruence. }
  destruct Hname as (x & Hx). destruct (aget x fs) as [v|] eqn:Ev.
  - destruct (value_in_ex i v) as (new & Hv). eexists. constructor; [|exact Hos]. now apply (out_replaced fs pre a b c i nm x v new).
  - eexists. constructor; [|exact Hos]. now apply (out_kept fs pre a b c i nm x).
Qed.
Lemma handle_seen fs d name x ls : fs <> [] -> file_text d name x -> lines_of x ls -> o_res (handle fs d name) = Ok tt -> forall k, In k (o_seen (handle fs d name)) <-> block_in ls k.
Proof.
  intros Hf Ht Hl. rewrite (handle_run fs d name x Hf Ht). apply lines_spec in Hl. rewrite Hl. destruct (r_lines fs r_start ls) as [st [[]|e]] eqn:E; [|discriminate].
  destruct (run_whole fs ls st E) as [W _]. destruct (r_changed st); [|intros _; exact W]. unfold write_to. destruct (utf8_out (r_result st)); [intros _; exact W|discriminate].
Qed.

Lemma pstr_le_spec a : forall b, pstr_le a b = true <-> not_after a b.
Proof.
  induction a as [|x a IH]; intros b; [split; [intros _; left; now exists b|reflexivity]|]. destruct b as [|y b].
  { split; [discriminate|]. intros [(r & H)|(p & c & d & u & v & H1 & H2 & _)]; [discriminate H|destruct p; discriminate H2]. }
  cbn [pstr_le]. destruct (N.eqb x y) eqn:E2.
  - assert (x = y) by lia. subst y. rewrite IH. split.
    + intros [(r & ->)|(p & c & d & u & v & -> & -> & H)]; [left; now exists r|]. right. exists (x :: p), c, d, u, v. now repeat split.
    + intros [(r & H)|(p & c & d & u & v & H1 & H2 & H)]; [injection H as ->; left; now exists r|]. destruct p as [|z p]; cbn [app] in H1, H2; injection H1 as H1 H1'; injection H2 as H2 H2'; [lia|]. right. exists p, c, d, u, v. now repeat split.
  - split; [intros E1; right; exists [], x, y, a, b; repeat split; lia|]. intros [(r & H)|(p & c & d & u & v & H1 & H2 & H)]; [injection H as H _; lia|]. destruct p as [|z p]; cbn [app] in H1, H2; injection H1 as H1 H1'; injection H2 as H2 H2'; lia.
Qed.
Lemma pstr_le_trans a : forall b c, pstr_le a b = true -> pstr_le b c = true -> pstr_le a c = true.
Proof.
  induction a as [|x a IH]; intros [|y b] [|z c]; cbn [pstr_le]; auto; try discriminate. destruct (N.eqb x y) eqn:E1, (N.eqb y z) eqn:E2, (N.eqb x z) eqn:E3; intros H1 H2; try lia. now apply (IH b).
Qed.
Lemma ins_sorted x l : StronglySorted (fun a b => pstr_le a b = true) l -> StronglySorted (fun a b => pstr_le a b = true) (ins pstr_le x l).
Proof.
  induction 1 as [|y l Hl IH Hy]; [repeat constructor|]. cbn [ins]. destruct (pstr_le x y) eqn:E.
  - constructor; [now constructor|]. constructor; [exact E|]. apply Forall_impl with (2 := Hy). intros z. now apply pstr_le_trans.
  - constructor; [exact IH|]. apply AnimProofs.pstr_le_total in E. clear -E Hy. induction l as [|z l IH]; cbn [ins]; [repeat constructor; exact E|]. inversion Hy as [|? ? H1 H2]; subst. destruct (pstr_le x z); constructor; auto.
Qed.
Lemma unseen_sorted fs seen : StronglySorted not_after (unseen fs seen).
Proof.
  assert (S : StronglySorted (fun a b => pstr_le a b = true) (ValModel.sort pstr_le (map fst fs))). { induction (map fst fs) as [|x l IH]; [constructor|]. apply (ins_sorted x _ IH). }
  unfold unseen. generalize (fun k => negb (existsb (pstr_eqb k) seen)). intros f. induction S as [|y l Hl IH Hy]; [constructor|]. cbn [filter]. destruct (f y); [|exact IH]. constructor; [exact IH|].
  apply Forall_forall. intros z Hz. apply filter_In in Hz as [Hz _]. apply pstr_le_spec. rewrite Forall_forall in Hy. now apply Hy.
Qed.
