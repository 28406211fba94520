(** What adjust does to the document. *)
From Coq Require Import Lqa Qabs ZifyBool ZifyN ZifyNat Permutation.
From Verif Require Import DocProofs LaySpec LayProofs LayProofs6 AnimSpec TlSpec PyFloatProofs.
From Verif Require Import BywModel BywSpec BywProofs BywProofs3 BywProofs4 BywProofs5 BywProofs6.
Local Open Scope N_scope.

Section Texts.
  Context (A : attrs) (f : Q) (us : list N) (val : N -> N) (Hf : ctx_fps (Some A) = Ok (Some f)) (Hf0 : (0 <= f)%Q).

  Lemma texts_ext F st st' : (forall u, In u us -> st u = st' u) -> texts A us val F st -> texts A us val F st'.
  Proof. intros E [W C T P]. split; auto. intros u Hu. rewrite <- E by exact Hu. now apply T. Qed.

  Definition same_but (V : list N) (F F' : forest) : Prop := map (hollow V) F' = map (hollow V) F.
  Lemma same_but_trans V F F' F'' : same_but V F F' -> same_but V F' F'' -> same_but V F F''.
  Proof. unfold same_but. congruence. Qed.

  Definition mem (u : N) (l : list N) : bool := existsb (N.eqb u) l.
  Lemma mem_In u l : mem u l = true <-> In u l.
  Proof. unfold mem. rewrite existsb_exists. split; [intros (x & Hx & E); apply N.eqb_eq in E; congruence|]. intros H. exists u. split; [exact H|apply N.eqb_refl]. Qed.

  (** ** Making the texts static *)

  Lemma text_unanimate_is F st u m V : texts A us val F st -> In u us -> still (Some A) f (st u) m -> In (val u) V ->
    exists F', text_unanimate F u = (F', Ok tt) /\ texts A us val F' (upd st u m) /\ same_but V F F'.
  Proof.
    intros T Hu S Hv. destruct (still_is _ _ _ _ S) as (H1 & H2 & H3 & H4 & H5 & H6 & H7).
    destruct (text_value_at F u (val u) (st u) VString (tx_at _ _ _ _ _ T u Hu) H1) as (x & E & Ex & Em).
    unfold text_unanimate. rewrite E, Em. destruct (is_animated (st u)) eqn:Ea.
    - rewrite Ex, (canvas_ctx A F (map val us) (val u)), H7; [|apply T|apply T|now apply in_map].
      eexists. split; [reflexivity|]. split; [now apply write_texts|now apply hollow_write].
    - injection H7 as <-. exists F. split; [reflexivity|]. split; [|reflexivity]. apply (texts_ext F st); [|exact T].
      intros w _. unfold upd. destruct (N.eqb_spec w u) as [->|]; reflexivity.
  Qed.
  Lemma still_upd st u calm : (forall w, In w us -> still (Some A) f (st w) (calm w)) -> In u us -> forall w, In w us -> still (Some A) f (upd st u (calm u) w) (calm w).
  Proof.
    intros H Hu w Hw. unfold upd. destruct (N.eqb_spec w u) as [->|]; [|now apply H].
    destruct (still_is _ _ _ _ (H u Hu)) as (_ & _ & H3 & H4 & H5 & _). now apply still_static.
  Qed.
  Definition calmed (calm : N -> node) (l : list N) (st : N -> node) : N -> node := fun u => if mem u l then calm u else st u.
  Lemma unanimate_all_is calm V l : forall F st, texts A us val F st -> (forall w, In w us -> still (Some A) f (st w) (calm w)) ->
    incl (map bt_layer l) us -> incl (map val (map bt_layer l)) V ->
    exists F', unanimate_all F l = (F', Ok tt) /\ texts A us val F' (calmed calm (map bt_layer l) st) /\ same_but V F F'.
  Proof.
    induction l as [|t l IH]; intros F st T S Hi Hv.
    - exists F. split; [reflexivity|]. split; [exact T|reflexivity].
    - cbn [map] in *. assert (Hu : In (bt_layer t) us) by (apply Hi; now left).
      destruct (text_unanimate_is F st (bt_layer t) (calm (bt_layer t)) V T Hu (S _ Hu) ltac:(apply Hv; now left)) as (F1 & E1 & T1 & B1).
      destruct (IH F1 _ T1 (still_upd st _ calm S Hu)) as (F2 & E2 & T2 & B2).
      { intros w Hw. apply Hi. now right. } { intros w Hw. apply Hv. now right. }
      exists F2. cbn [unanimate_all]. rewrite E1. cbn [andthen]. split; [exact E2|]. split; [|now apply (same_but_trans V F F1)].
      apply (texts_ext F2) with (2 := T2). intros w _. unfold calmed, upd, mem. cbn [existsb]. destruct (existsb (N.eqb w) (map bt_layer l)); [now rewrite Bool.orb_true_r|].
      rewrite Bool.orb_false_r. destruct (N.eqb_spec w (bt_layer t)) as [->|]; reflexivity.
  Qed.

  Lemma try_groups_run letter gs line calm V F st : texts A us val F st -> (forall w, In w us -> still (Some A) f (st w) (calm w)) ->
    (forall g, group_for gs (snd line) = Some g -> letters (shown letter g) <> 0%Z) ->
    incl (matched gs [line]) us -> incl (map val (matched gs [line])) V ->
    exists F', try_groups letter F gs line = (F', Ok (line_words letter gs line)) /\ texts A us val F' (calmed calm (matched gs [line]) st) /\ same_but V F F'.
  Proof.
    intros T S L Hi Hv. destruct line as [[a b] x]. unfold matched in *. cbn [flat_map snd] in *. rewrite app_nil_r in *. rewrite try_groups_is. unfold line_words.
    destruct (group_for gs x) as [g|].
    - destruct (unanimate_all_is calm V (bg_texts g) F st T S Hi Hv) as (F1 & E1 & T1 & B1). exists F1. rewrite E1.
      specialize (L g eq_refl). unfold shown in L |- *. unfold timed. destruct (letters (flat_map _ (bg_texts g)) =? 0)%Z eqn:El; [lia|]. cbn [bind]. auto.
    - exists F. split; [reflexivity|]. split; [exact T|reflexivity].
  Qed.

  Lemma run_lines_run letter gs calm V lines : forall F st d no, texts A us val F st -> (forall w, In w us -> still (Some A) f (st w) (calm w)) ->
    (forall line g, In line lines -> group_for gs (snd line) = Some g -> letters (shown letter g) <> 0%Z) ->
    incl (matched gs lines) us -> incl (map val (matched gs lines)) V ->
    exists F' d' no', run_lines letter F gs lines d no = (F', Ok (d', no')) /\ texts A us val F' (calmed calm (matched gs lines) st) /\ same_but V F F'.
  Proof.
    induction lines as [|line lines IH]; intros F st d no T S L Hi Hv.
    - exists F, d, no. split; [reflexivity|]. split; [exact T|reflexivity].
    - assert (E0 : matched gs (line :: lines) = matched gs [line] ++ matched gs lines) by (unfold matched; cbn [flat_map]; now rewrite app_nil_r).
      rewrite E0 in *. rewrite map_app in Hv. apply incl_app_inv in Hi as [Hi1 Hi2]. apply incl_app_inv in Hv as [Hv1 Hv2].
      destruct (try_groups_run letter gs line calm V F st T S) as (F1 & E1 & T1 & B1); auto.
      { intros g Hg. apply (L line); auto. now left. }
      assert (S1 : forall w, In w us -> still (Some A) f (calmed calm (matched gs [line]) st w) (calm w)).
      { intros w Hw. unfold calmed. destruct (mem w _); [|now apply S]. destruct (still_is _ _ _ _ (S w Hw)) as (_ & _ & H3 & H4 & H5 & _). now apply still_static. }
      assert (X : forall w, In w us -> calmed calm (matched gs lines) (calmed calm (matched gs [line]) st) w = calmed calm (matched gs [line] ++ matched gs lines) st w).
      { intros w _. unfold calmed, mem. rewrite existsb_app. destruct (existsb (N.eqb w) (matched gs lines)); [now rewrite Bool.orb_true_r|]. now rewrite Bool.orb_false_r. }
      cbn [run_lines]. rewrite E1. destruct (line_words letter gs line) as [|w ws].
      + destruct (IH F1 _ d (no ++ [snd line]) T1 S1) as (F2 & d' & no' & E2 & T2 & B2); auto. { intros; apply (L line0); auto. now right. }
        exists F2, d', no'. split; [exact E2|]. split; [now apply (texts_ext F2) with (2 := T2)|now apply (same_but_trans V F F1)].
      + destruct (IH F1 _ (put_words (w :: ws) d) no T1 S1) as (F2 & d' & no' & E2 & T2 & B2); auto. { intros; apply (L line0); auto. now right. }
        exists F2, d', no'. split; [exact E2|]. split; [now apply (texts_ext F2) with (2 := T2)|now apply (same_but_trans V F F1)].
  Qed.

  (** ** Waypoints *)

  Lemma set_constant_is F st u x q text w0 V : texts A us val F st -> In u us -> In (val u) V -> T_init (TStr (x ++ s "s")) (Some A) = Ok (mkT q (Some f)) ->
    tl_add VString (st u) (Some A) true [shows f q text] true = (w0, Ok tt) -> is_tag w0 = true ->
    exists F', set_constant_waypoint F (val u) VString x text = (F', Ok tt) /\ texts A us val F' (upd st u w0) /\ same_but V F F'.
  Proof.
    intros T Hu Hv Hx Ha Hw. destruct (text_at_desc F u (val u) (st u) (tx_wf _ _ _ _ _ T) (tx_at _ _ _ _ _ T u Hu)) as (n & y & _ & Hy & Em & _).
    unfold set_constant_waypoint. rewrite Hy, Em. rewrite (canvas_ctx A F (map val us) (val u)); [|apply T|apply T|now apply in_map].
    rewrite (constant_waypoint_is _ _ _ _ _ Hx), Ha. eexists. split; [reflexivity|]. split; [now apply write_texts|now apply hollow_write].
  Qed.

  (** The times of these texts are these. *)
  Definition timed_as (l : list (pstr * pstr)) (ps : list (Q * pstr)) : Prop :=
    Forall2 (fun xt p => T_init (TStr (fst xt ++ s "s")) (Some A) = Ok (mkT (fst p) (Some f)) /\ snd xt = snd p /\ (0 <= fst p)%Q) l ps.
  Lemma shows_at q x : at_ (shows f q x) = q. Proof. reflexivity. Qed.
  Lemma set_waypoints_next V u : forall l ps F st wl, texts A us val F st -> In u us -> In (val u) V -> st u = animated_string wl -> good_wps f wl -> timed_as l ps ->
    exists F', set_waypoints_of F (val u) VString l = (F', Ok tt) /\ texts A us val F' (upd st u (animated_string (put_all (map (const_of f) ps) wl))) /\ same_but V F F'.
  Proof.
    intros l ps F st wl T Hu Hv E G X. revert F st wl T E G. induction X as [|[x text] [q text'] l ps (X1 & X2 & X3) X IH]; intros F st wl T E G.
    - exists F. split; [reflexivity|]. split; [|reflexivity]. apply (texts_ext F st); [|exact T]. intros w _. unfold upd. destruct (N.eqb_spec w u) as [->|]; auto.
    - cbn [fst snd] in *. subst text'.
      destruct (set_constant_is F st u x q text (animated_string (put_wp (shows f q text) wl)) V T Hu Hv X1) as (F1 & E1 & T1 & B1); [|reflexivity|].
      { rewrite E. apply (add_next _ f); auto using shows_fits. }
      destruct (IH F1 _ (put_wp (shows f q text) wl) T1) as (F2 & E2 & T2 & B2).
      { unfold upd. now rewrite N.eqb_refl. } { apply good_put; auto using shows_fits. }
      exists F2. cbn [set_waypoints_of]. rewrite E1. cbn [andthen]. split; [exact E2|]. split; [|now apply (same_but_trans V F F1)].
      apply (texts_ext F2) with (2 := T2). intros w _. unfold upd. destruct (w =? u); reflexivity.
  Qed.
  Lemma set_waypoints_first V u p ps xt l F st : texts A us val F st -> In u us -> In (val u) V -> is_animated (st u) = false -> is_tag (st u) = true -> tag_name (st u) = s "string" ->
    timed_as (xt :: l) (p :: ps) ->
    exists F', set_waypoints_of F (val u) VString (xt :: l) = (F', Ok tt) /\ texts A us val F' (upd st u (animated_string (put_all (map (const_of f) (p :: ps)) []))) /\ same_but V F F'.
  Proof.
    intros T Hu Hv S1 S2 S3 X. inversion X as [|? ? ? ? (X1 & X2 & X3) X']; subst. destruct xt as [x text], p as [q text']. cbn [fst snd] in *. subst text'.
    destruct (set_constant_is F st u x q text (animated_string [shows f q text]) V T Hu Hv X1) as (F1 & E1 & T1 & B1); [|reflexivity|].
    { apply (add_first _ f); auto using shows_fits. }
    assert (G : good_wps f [shows f q text]).
    { apply (good_put f []); [split; [exact I|split; constructor]|apply shows_fits|reflexivity|exact X3]. }
    destruct (set_waypoints_next V u l ps F1 _ [shows f q text] T1 Hu Hv) as (F2 & E2 & T2 & B2); auto. { unfold upd. now rewrite N.eqb_refl. }
    exists F2. cbn [set_waypoints_of]. rewrite E1. cbn [andthen]. split; [exact E2|]. split; [|now apply (same_but_trans V F F1)].
    apply (texts_ext F2) with (2 := T2). intros w _. unfold upd. destruct (w =? u); reflexivity.
  Qed.

  Lemma plain_pow t : plain_time t -> (t == 0 \/ pow10 (-4) <= t < pow10 15)%Q.
  Proof. intros [H|[H1 H2]]; [now left|right]. change (pow10 (-4)) with (1 # 10000)%Q. change (pow10 15) with (1000000000000000)%Q. auto. Qed.
  Definition fine (w : word) : Prop := is_dbl (wd_time w) /\ plain_time (wd_time w).
  Lemma plain_nonneg t : plain_time t -> (0 <= t)%Q.
  Proof. intros [H|[H _]]; lra. Qed.

  Lemma adjust_one_is V words F st o u : texts A us val F st -> In u us -> In (val u) V -> is_animated (st u) = false -> is_tag (st u) = true -> tag_name (st u) = s "string" ->
    Forall fine words ->
    exists F', adjust_one words F (o, u) = (F', Ok tt) /\
      texts A us val F' (upd st u (animated_string (showing f (filter (fun w => obj_eqb (wd_obj w) o) words)))) /\ same_but V F F'.
  Proof.
    intros T Hu Hv S1 S2 S3 X. unfold adjust_one. cbn [fst snd].
    assert (Ft : from_tag (st u) = Ok VString) by (unfold from_tag; rewrite S1, S3; reflexivity).
    destruct (text_value_at F u (val u) (st u) VString (tx_at _ _ _ _ _ T u Hu) Ft) as (x & E & Ex & _). rewrite E, Ex.
    set (ws := filter _ words). assert (X' : Forall fine ws).
    { apply Forall_forall. intros w Hw. apply filter_In in Hw as [Hw _]. rewrite Forall_forall in X. now apply X. }
    destruct (set_waypoints_first V u (0%Q, []) (map (fun w => (rnd64 (wd_time w * f), wd_text w)) ws) (s "0", []) (map (fun w => (repr_float (wd_time w), wd_text w)) ws) F st T Hu Hv S1 S2 S3) as (F2 & E2 & T2 & B2).
    - constructor; [split; [exact (zero_time f (Some A) Hf)|split; [reflexivity|apply Qle_refl]]|].
      clear -X' Hf Hf0. induction X' as [|w ws [W1 W2] _ IH]; [constructor|]. cbn [map]. constructor; [|exact IH]. cbn [fst snd]. split; [|split; [reflexivity|]].
      + apply repr_time; auto using plain_pow.
      + apply rnd64_nonneg, Qmult_le_0_compat; auto using plain_nonneg.
    - exists F2. split; [exact E2|]. split; [|exact B2]. unfold showing. cbn [map] in T2. rewrite map_map in T2. exact T2.
  Qed.

  Lemma adjust_all_is V words objs : forall F st, texts A us val F st -> incl (map snd objs) us -> incl (map val (map snd objs)) V ->
    NoDup (map snd objs) -> (forall u, In u (map snd objs) -> is_animated (st u) = false /\ is_tag (st u) = true /\ tag_name (st u) = s "string") -> Forall fine words ->
    exists F' st', adjust_all words F objs = (F', Ok tt) /\ texts A us val F' st' /\ same_but V F F' /\
      (forall o u, In (o, u) objs -> st' u = animated_string (showing f (filter (fun w => obj_eqb (wd_obj w) o) words))) /\
      (forall u, ~ In u (map snd objs) -> st' u = st u).
  Proof.
    induction objs as [|[o u] objs IH]; intros F st T Hi Hv Hn S X.
    - exists F, st. split; [reflexivity|]. split; [exact T|]. split; [reflexivity|]. split; [intros ? ? []|reflexivity].
    - cbn [map snd] in *. destruct (S u ltac:(now left)) as (S1 & S2 & S3). inversion Hn as [|? ? Hnu Hn']; subst.
      destruct (adjust_one_is V words F st o u T ltac:(apply Hi; now left) ltac:(apply Hv; now left) S1 S2 S3 X) as (F1 & E1 & T1 & B1).
      destruct (IH F1 _ T1) as (F2 & st2 & E2 & T2 & B2 & G1 & G2); auto.
      { intros w Hw. apply Hi. now right. } { intros w Hw. apply Hv. now right. }
      { intros w Hw. unfold upd. destruct (N.eqb_spec w u) as [->|]; [contradiction|]. apply S. now right. }
      exists F2, st2. cbn [adjust_all]. rewrite E1. cbn [andthen]. split; [exact E2|]. split; [exact T2|]. split; [now apply (same_but_trans V F F1)|]. split.
      + intros o' u' [[= <- <-]|H]; [|now apply G1]. rewrite G2 by exact Hnu. unfold upd. now rewrite N.eqb_refl.
      + intros w Hw. rewrite G2 by (intros C; apply Hw; now right). unfold upd. destruct (N.eqb_spec w u) as [->|]; [exfalso; apply Hw; now left|reflexivity].
  Qed.
End Texts.
