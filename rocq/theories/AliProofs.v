From Verif Require Import AnimModel LayModel WrSpec TlModel AliModel AliSpec.
From Coq Require Import Lia.
Local Open Scope N_scope.

Lemma put_same h q t : put_tag h q t q = t.
Proof. unfold put_tag. now rewrite N.eqb_refl. Qed.
Lemma put_other h q t z : z <> q -> put_tag h q t z = h z.
Proof. intros H. unfold put_tag. now rewrite (proj2 (N.eqb_neq z q) H). Qed.
Lemma hold_same h i x : hold h i x i = Some x.
Proof. unfold hold. now rewrite N.eqb_refl. Qed.
Lemma hold_other h i x z : z <> i -> hold h i x z = h z.
Proof. intros H. unfold hold. now rewrite (proj2 (N.eqb_neq z i) H). Qed.

Lemma still_animated n cx par : goes_still n cx par = true -> is_animated n = true.
Proof. unfold goes_still. destruct par, (is_animated n); auto. Qed.
Lemma tdel_last t d : tdel t d = Ok [] -> exists x, d = [x].
Proof.
  destruct d as [|[k v] d]; [discriminate|]. cbn [tdel]. destruct (tmatch t k) as [[]|]; cbn [bind]; try discriminate; [intros E; injection E as ->; now exists (k, v)|].
  destruct (tdel t d); discriminate.
Qed.
Lemma goes_on_keeps n cx par e : ~ ends n cx e -> takes_new_tag n cx par e = false.
Proof.
  intros H. destruct (takes_new_tag n cx par e) eqn:T; [|reflexivity]. exfalso. apply H. unfold ends.
  destruct e as [| |[]| |k| | |[[|w l]| |]]; try discriminate T; cbn [takes_new_tag] in T.
  - split; [exact (still_animated _ _ _ T)|auto].
  - assert (X : exists k', k' = k) by eauto. destruct X as [k' X].
    assert (D : exists t d, waypoints n cx = Ok d /\ tdel t d = Ok [] /\ goes_still n cx par = true).
    { destruct k; try discriminate T; (destruct (ensure_fps cx _) as [t1|]; [|discriminate T]; cbn [bind] in T; destruct (waypoints n cx) as [d|]; [|discriminate T]; cbn [bind] in T;
      destruct (tdel t1 d) as [[|]|] eqn:E; try discriminate T; exists t1, d; auto). }
    destruct D as (t1 & d & W & D & G). split; [exact (still_animated _ _ _ G)|]. right. right. destruct (tdel_last _ _ D) as [[t0 w] ->].
    exists k, w. split; [reflexivity|]. unfold tl_values. now rewrite W.
  - split; [exact (still_animated _ _ _ T)|auto].
Qed.
(** Without a parent no tag is replaced. *)
Lemma loose_keeps n cx e : takes_new_tag n cx false e = false.
Proof. destruct e as [| |[]| | | | |[[|w l]| |]]; try reflexivity. cbn. destruct k; try reflexivity;
  match goal with |- match ?x with _ => _ end = _ => destruct x as [[|]|]; reflexivity end. Qed.

Lemma step_live cx S i c e : held S i = Some (c, here S) ->
  exists S', do_use cx S i e = (S', snd (vapply c (stored S) cx true e)) /\ held S' i = Some (c, here S') /\ stored S' = fst (vapply c (stored S) cx true e).
Proof.
  intros H. unfold do_use. rewrite H, N.eqb_refl. fold (stored S). destruct (vapply c (stored S) cx true e) as [m r]. cbn [fst snd].
  destruct (takes_new_tag _ _ _ _); eexists; (split; [reflexivity|]); cbn [held here]; (split; [|unfold stored; cbn [tags here]; apply put_same]).
  - apply hold_same.
  - exact H.
Qed.

Lemma step_on cx S i c e S' r : held S i = Some (c, here S) -> ~ ends (stored S) cx e -> do_use cx S i e = (S', r) -> held S' = held S /\ here S' = here S /\ next S' = next S.
Proof.
  intros H G. unfold do_use. rewrite H, N.eqb_refl. fold (stored S). destruct (vapply _ _ _ _ _) as [m x]. rewrite goes_on_keeps by exact G. intros E. injection E as <- _. auto.
Qed.

Lemma step_loose cx S i c q e S' r : held S i = Some (c, q) -> q <> here S -> do_use cx S i e = (S', r) ->
  held S' = held S /\ here S' = here S /\ next S' = next S /\ stored S' = stored S.
Proof.
  intros H L. unfold do_use. rewrite H, (proj2 (N.eqb_neq q (here S)) L). destruct (vapply _ _ _ _ _) as [m x]. rewrite loose_keeps.
  intros E. injection E as <- _. cbn [held here next]. repeat (split; [reflexivity|]). unfold stored. cbn [tags here]. apply put_other. congruence.
Qed.

Lemma numbered_step cx S x S' r : numbered S -> do_one cx S x = (S', r) -> numbered S'.
Proof.
  intros [A B]. destruct x as [i e|i|v|i]; cbn [do_one].
  - unfold do_use. destruct (held S i) as [[c q]|] eqn:H; [|intros E; injection E as <- _; split; auto].
    destruct (vapply _ _ _ _ _) as [m y]. destruct (takes_new_tag _ _ _ _); intros E; injection E as <- _; split; cbn [here next held]; try lia; auto.
    intros j c' q'. destruct (N.eq_dec j i) as [->|D].
    + rewrite hold_same. intros E. injection E as _ <-. lia.
    + rewrite hold_other by exact D. intros E. apply B in E. lia.
  - unfold do_get. destruct (from_tag _) as [c|]; intros E; injection E as <- _; [|split; auto]. split; cbn [here next held]; [exact A|].
    intros j c' q'. destruct (N.eq_dec j i) as [->|D]; [rewrite hold_same; intros E; injection E as _ <-; exact A|rewrite hold_other by exact D; apply B].
  - unfold do_item. destruct (from_tag _) as [c|]; [|intros E; injection E as <- _; split; auto].
    destruct (new_value c v) as [t|]; intros E; injection E as <- _; [|split; auto]. split; cbn [here next held]; [lia|]. intros j c' q' E. apply B in E. lia.
  - unfold do_put. destruct (held S i) as [[c q]|] eqn:H; [|intros E; injection E as <- _; split; auto].
    destruct (from_tag _) as [c'|]; [|intros E; injection E as <- _; split; auto].
    destruct (inst c' c); intros E; injection E as <- _; [|split; auto]. split; cbn [here next held]; [eapply B, H|exact B].
Qed.
Lemma numbered_uses cx l : forall S S' rs, numbered S -> uses cx S l = (S', rs) -> numbered S'.
Proof.
  induction l as [|x l IH]; intros S S' rs H; cbn [uses]; [intros E; now injection E as <- _|].
  destruct (do_one cx S x) as [S1 r] eqn:E1. destruct (uses cx S1 l) as [S2 rs'] eqn:E2. intros E. injection E as <- _.
  eapply IH; [eapply numbered_step; [exact H|exact E1]|exact E2].
Qed.

(** What ends an animation leaves the value of the first waypoint, in a new tag. *)
Lemma ended c n cx e m : ends n cx e -> vapply c n cx true e = (m, Ok tt) ->
  takes_new_tag n cx true e = true /\ exists w ws, tl_values n cx = Ok (w :: ws) /\ m = w_val w.
Proof.
  intros [A H].
  assert (U : unanimate n cx true = (m, Ok tt) -> goes_still n cx true = true /\ exists w ws, tl_values n cx = Ok (w :: ws) /\ m = w_val w).
  { unfold unanimate, goes_still. rewrite A. cbn [negb andb]. destruct (tl_values n cx) as [[|w ws]|]; try discriminate. intros E. injection E as <-. split; [reflexivity|]. now exists w, ws. }
  destruct H as [->|[->|(k & w & -> & V)]]; [exact U|exact U|]. cbn [vapply]. unfold tl_delitem.
  assert (W : exists t0, waypoints n cx = Ok [(t0, w)]).
  { unfold tl_values in V. destruct (waypoints n cx) as [d|]; [|discriminate]. cbn [bind] in V. destruct d as [|[t0 w0] [|]]; try discriminate V. injection V as ->. now exists t0. }
  destruct W as [t0 W].
  assert (D : forall t, match (let* d := waypoints n cx in tdel t d) with Err x => (n, Err x) | Ok d => set_waypoints n cx true (map snd d) end = (m, Ok tt) ->
    (let* d := waypoints n cx in tdel t d) = Ok [] /\ unanimate n cx true = (m, Ok tt)).
  { intros t. rewrite W. cbn [bind tdel]. destruct (tmatch t t0) as [[]|]; cbn [bind]; try discriminate. intros E. split; [reflexivity|exact E]. }
  destruct k; cbn [takes_new_tag];
    match goal with
    | |- context [let* _ := waypoints n cx in Err KeyError] => rewrite W; discriminate
    | |- context [ensure_fps cx ?k] => destruct (ensure_fps cx k) as [t1|]; [|discriminate]; intros E; apply D in E; destruct E as [E1 E2]; cbn [bind]; rewrite E1; apply U, E2
    end.
Qed.
