(** Properties: Value objects for one parameter. *)
From Verif Require Import AnimModel LayModel WrSpec TlModel AliModel AliSpec AliProofs.
From Verif Require CtlProofs.
From Coq Require Import Lia.
Local Open Scope N_scope.

(** ** C168: several objects for a parameter *)

(** Whatever is done through one object, animations ended and begun again included, and whatever other objects there are: it stays the
    document's, which has what the same acts make of a single tag, with the same results. *)
Theorem C168_one_object : forall cx l S i c S' rs, held S i = Some (c, here S) -> uses cx S (map (UEdit i) l) = (S', rs) ->
  views S' i /\ shown S' i = Some (stored S') /\ (stored S', rs) = alone c cx (stored S) l.
Proof.
  intros cx l. induction l as [|e l IH]; intros S i c S' rs H; cbn [map uses alone].
  - intros E. injection E as <- <-. split; [now exists c|]. split; [|reflexivity]. unfold shown, stored. now rewrite H.
  - cbn [do_one]. destruct (step_live cx S i c e H) as (S1 & -> & H1 & E1). destruct (vapply c (stored S) cx true e) as [t1 r]. cbn [fst snd] in *.
    destruct (uses cx S1 (map (UEdit i) l)) as [S2 rs2] eqn:E2. intros E. injection E as <- <-. destruct (IH S1 i c S2 rs2 H1 E2) as (A & B & C).
    split; [exact A|]. split; [exact B|]. rewrite E1 in C. now rewrite <- C.
Qed.
Print Assumptions C168_one_object.

(** Several objects of a class, used in any order: while none of the acts ends an animation, all of them show what is in the document, and that is
    what a single object would have made. *)
Theorem C168_several_partial : forall cx c l S S' rs, (forall i e, In (i, e) l -> held S i = Some (c, here S)) -> goes_on c cx (stored S) (map snd l) ->
  uses cx S (map (fun x => UEdit (fst x) (snd x)) l) = (S', rs) ->
  (stored S', rs) = alone c cx (stored S) (map snd l) /\ (forall i, views S i -> views S' i /\ shown S' i = Some (stored S')).
Proof.
  intros cx c l. induction l as [|[i e] l IH]; intros S S' rs H G; cbn [map uses alone fst snd].
  - intros E. injection E as <- <-. split; [reflexivity|]. intros i V. split; [exact V|]. destruct V as [c' V]. unfold shown, stored. now rewrite V.
  - cbn [do_one]. assert (Hi := H i e (or_introl eq_refl)). cbn [map snd goes_on] in G. destruct G as [Ge G]. destruct (step_live cx S i c e Hi) as (S1 & D & H1 & E1).
    destruct (step_on cx S i c e _ _ Hi Ge D) as (A1 & A2 & A3). rewrite D. destruct (vapply c (stored S) cx true e) as [t1 r]. cbn [fst snd] in *.
    destruct (uses cx S1 (map (fun x => UEdit (fst x) (snd x)) l)) as [S2 rs2] eqn:E2. intros E. injection E as <- <-.
    destruct (IH S1 S2 rs2) as [B1 B2]; [| |exact E2|].
    + intros j f J. rewrite A1, A2. apply (H j f). now right.
    + rewrite E1. exact G.
    + split; [rewrite E1 in B1; now rewrite <- B1|]. intros j [c' V]. apply B2. exists c'. now rewrite A1, A2.
Qed.
Print Assumptions C168_several_partial.

(** But when an object's animation is ended, every other object for the parameter is left with a tag that is out of the document: it shows an
    animation without waypoints, while the document has the value of the first one. *)
Theorem C168_left_behind_refuted : forall cx S i j c c' e S', numbered S -> held S i = Some (c, here S) -> held S j = Some (c', here S) -> j <> i ->
  ends (stored S) cx e -> do_use cx S i e = (S', Ok tt) ->
  (exists w ws, tl_values (stored S) cx = Ok (w :: ws) /\ stored S' = w_val w) /\ views S' i /\ ~ views S' j /\
  exists n, shown S' j = Some n /\ is_animated n = true /\ (forall cy, tl_values n cy = Ok []).
Proof.
  intros cx S i j c c' e S' [N1 N2] Hi Hj D En. assert (A := proj1 En). unfold do_use. rewrite Hi, N.eqb_refl. fold (stored S).
  destruct (vapply c (stored S) cx true e) as [m x] eqn:E.
  assert (T : x = Ok tt -> takes_new_tag (stored S) cx true e = true /\ exists w ws, tl_values (stored S) cx = Ok (w :: ws) /\ m = w_val w)
    by (intros ->; eapply ended; [exact En|exact E]).
  destruct (takes_new_tag _ _ _ _).
  - intros E2. injection E2 as <- ->. destruct (T eq_refl) as [_ (w & ws & W1 & W2)]. unfold stored at 2. cbn [tags here]. rewrite put_same.
    split; [now exists w, ws|]. split; [exists c; cbn [held here]; apply hold_same|]. split.
    + intros [c2 V]. cbn [held here] in V. rewrite hold_other, Hj in V by exact D. injection V as _ V. lia.
    + exists (with_kids (stored S) []). unfold shown. cbn [held tags]. rewrite hold_other, Hj by exact D. cbn [option_map snd].
      split; [rewrite put_other by lia; now rewrite put_same|]. split; [now apply (CtlProofs.cleared _ cx)|]. intros cy. now apply CtlProofs.cleared.
  - intros E2. injection E2 as _ ->. destruct (T eq_refl) as [F _]. discriminate F.
Qed.
Print Assumptions C168_left_behind_refuted.

(** Whatever is then done through objects that were left behind, the document never changes, whether exceptions are raised or not. *)
Theorem C168_never_arrives_refuted : forall cx l S S' rs, (forall i e, In (i, e) l -> ~ views S i) -> uses cx S (map (fun x => UEdit (fst x) (snd x)) l) = (S', rs) ->
  stored S' = stored S /\ forall i, (views S' i <-> views S i) /\ (views S i -> shown S' i = Some (stored S)).
Proof.
  intros cx l. induction l as [|[i e] l IH]; intros S S' rs H; cbn [map uses fst snd].
  - intros E. injection E as <- _. split; [reflexivity|]. intros i. split; [tauto|]. intros [c V]. unfold shown, stored. now rewrite V.
  - cbn [do_one]. destruct (do_use cx S i e) as [S1 r] eqn:D. destruct (uses cx S1 _) as [S2 rs2] eqn:E2. intros E. injection E as <- _.
    assert (K : held S1 = held S /\ here S1 = here S /\ stored S1 = stored S).
    { destruct (held S i) as [[c q]|] eqn:Hi.
      - destruct (step_loose cx S i c q e S1 r Hi) as (A & B & _ & C); auto. intros ->. apply (H i e (or_introl eq_refl)). now exists c.
      - unfold do_use in D. rewrite Hi in D. injection D as <- _. auto. }
    destruct K as (K1 & K2 & K3). assert (V : forall j, views S1 j <-> views S j) by (intros j; unfold views; now rewrite K1, K2).
    destruct (IH S1 S2 rs2) as [B1 B2]; [|exact E2|].
    + intros j f J. rewrite V. apply (H j f). now right.
    + split; [congruence|]. intros j. destruct (B2 j) as [C1 C2]. rewrite K3, V in *. tauto.
Qed.
Print Assumptions C168_never_arrives_refuted.

(** Such an object goes on for itself, as a value which is in no document. *)
Theorem C168_apart : forall cx l S i c q S' rs, held S i = Some (c, q) -> q <> here S -> uses cx S (map (UEdit i) l) = (S', rs) ->
  (forall t, shown S' i = Some t -> (t, rs) = apart c (tags S q) l) /\ held S' i = Some (c, q).
Proof.
  intros cx l. induction l as [|e l IH]; intros S i c q S' rs H D; cbn [map uses apart].
  - intros E. injection E as <- <-. split; [|exact H]. intros t. unfold shown. rewrite H. cbn [option_map snd]. intros E. now injection E as <-.
  - cbn [do_one]. unfold do_use. rewrite H, (proj2 (N.eqb_neq q (here S)) D), loose_keeps. destruct (vapply c (tags S q) None false e) as [t1 r].
    destruct (uses cx _ (map (UEdit i) l)) as [S2 rs2] eqn:E2. intros E. injection E as <- <-. apply (IH _ i c q) in E2; [|exact H|exact D].
    destruct E2 as [A B]. split; [|exact B]. intros t Ht. specialize (A t Ht). cbn [tags] in A. rewrite put_same in A. now rewrite <- A.
Qed.
Print Assumptions C168_apart.

(** Ending the animation of what was left behind is an IndexError. *)
Theorem C168_left_behind_stays : forall c n cx par, is_animated n = true -> vapply c (with_kids n []) cx par (VAnimated false) = (with_kids n [], Err IndexError).
Proof.
  intros c n cx par A. cbn [vapply]. unfold set_is_animated, unanimate. destruct (CtlProofs.cleared n cx A) as [-> ->]. reflexivity.
Qed.
Print Assumptions C168_left_behind_stays.

(** Getting it again from the layer mends it, and changes nothing else. *)
Theorem C168_again : forall S j c, from_tag (stored S) = Ok c -> exists S', do_get S j = (S', Ok tt) /\ views S' j /\ class_at S' j = Some c /\
  shown S' j = Some (stored S) /\ stored S' = stored S /\ (forall i, i <> j -> shown S' i = shown S i /\ (views S' i <-> views S i)).
Proof.
  intros S j c H. unfold do_get. fold (stored S). rewrite H. eexists. split; [reflexivity|]. unfold views, shown, class_at. cbn [held here tags].
  rewrite hold_same. split; [now exists c|]. split; [reflexivity|]. split; [reflexivity|]. split; [reflexivity|].
  intros i D. rewrite hold_other by exact D. tauto.
Qed.
Print Assumptions C168_again.

(** Assigning to the item [layer['k']] leaves all of them behind, each with the value from before. *)
Theorem C168_items_refuted : forall S v c t, numbered S -> from_tag (stored S) = Ok c -> new_value c v = Ok t -> exists S', do_item S v = (S', Ok tt) /\ stored S' = t /\
  forall i, ~ views S' i /\ shown S' i = shown S i.
Proof.
  intros S v c t [N1 N2] H T. unfold do_item. fold (stored S). rewrite H, T. eexists. split; [reflexivity|]. unfold stored at 1. cbn [tags here].
  split; [apply put_same|]. intros i. unfold views, shown. cbn [held here tags]. split.
  - intros [c' V]. apply N2 in V. lia.
  - destruct (held S i) as [[c' q]|] eqn:E; [|reflexivity]. cbn [option_map snd]. apply N2 in E. now rewrite put_other by lia.
Qed.
Print Assumptions C168_items_refuted.
(** Assigning an object to it puts what the object shows into the document. *)
Theorem C168_put : forall S i c c' q, held S i = Some (c', q) -> from_tag (stored S) = Ok c -> inst c c' = true -> exists S', do_put S i = (S', Ok tt) /\
  views S' i /\ Some (stored S') = shown S i /\ (forall j, shown S' j = shown S j) /\ (q <> here S -> forall j, views S j -> ~ views S' j).
Proof.
  intros S i c c' q H F I. unfold do_put. fold (stored S). rewrite H, F, I. eexists. split; [reflexivity|]. unfold views, shown, stored. cbn [held here tags].
  rewrite H. split; [now exists c'|]. split; [reflexivity|]. split; [reflexivity|]. intros D j [c1 V] [c2 W]. congruence.
Qed.
Print Assumptions C168_put.

(** The opacity of a layer, as two objects; the first is animated, then its animation is ended. *)
Definition xtag : node := El (s "real") [(s "value", AStr (s "0.5"))] [].
Definition xcx : ctx := Some [(s "fps", AStr (s "24.000"))].
Definition xobjs : objs := mkObjs (fun _ => xtag) (fun i => if i <? 2 then Some (VReal, 0) else None) 0 1.
Definition xuses : list use := [UEdit 0 (VAnimated true); UEdit 1 (VTlSet (KeyNum 24) (AVal (PFlo (3#4))))].
Definition xon : objs := fst (uses xcx xobjs xuses).
Definition xoff : objs := fst (do_use xcx xon 0 (VAnimated false)).
Example C168_nonvacuous : numbered xobjs /\ held xobjs 0 = Some (VReal, here xobjs) /\ held xobjs 1 = Some (VReal, here xobjs) /\
  goes_on VReal xcx (stored xobjs) [VAnimated true; VTlSet (KeyNum 24) (AVal (PFlo (3#4)))] /\ snd (uses xcx xobjs xuses) = [Ok tt; Ok tt] /\
  numbered xon /\ held xon 0 = Some (VReal, here xon) /\ held xon 1 = Some (VReal, here xon) /\ shown xon 0 = shown xon 1 /\ length (child_tags (stored xon)) = 2%nat /\
  ends (stored xon) xcx (VAnimated false) /\ snd (do_use xcx xon 0 (VAnimated false)) = Ok tt /\ get_value VReal (stored xoff) xcx = Ok (PFlo (1#2)) /\
  (let x := do_use xcx xoff 1 (VSet (PFlo (1#4))) in snd x = Ok tt /\ stored (fst x) = stored xoff) /\
  (let x := do_use xcx xoff 1 (VTlSet (KeyNum 0) (AVal (PFlo (1#4)))) in snd x = Ok tt /\ stored (fst x) = stored xoff) /\
  from_tag (stored xoff) = Ok VReal /\ (exists t, new_value VReal (PFlo (1#4)) = Ok t) /\ inst VReal VReal = true /\ held xoff 1 = Some (VReal, 0) /\ 0 <> here xoff.
Proof.
  assert (Hn : numbered xobjs). { split; [reflexivity|]. intros i c q. unfold xobjs. cbn [held next]. destruct (i <? 2); [|discriminate]. intros E. injection E as _ <-. reflexivity. }
  split; [exact Hn|]. split; [reflexivity|]. split; [reflexivity|]. 
  split. { split; [intros [A _]; vm_compute in A; discriminate A|]. split; [|exact I]. intros [_ [E|[E|(k & w & E & _)]]]; discriminate E. } split; [vm_compute; reflexivity|].
  split. { unfold xon. destruct (uses xcx xobjs xuses) as [S1 rs] eqn:E. eapply numbered_uses; [exact Hn|exact E]. }
  split; [vm_compute; reflexivity|]. split; [vm_compute; reflexivity|]. split; [vm_compute; reflexivity|]. split; [vm_compute; reflexivity|]. 
  split; [split; [vm_compute; reflexivity|now left]|]. split; [vm_compute; reflexivity|]. split; [vm_compute; reflexivity|].
  split. { split; vm_compute; reflexivity. }
  split. { split; vm_compute; reflexivity. }
  split; [vm_compute; reflexivity|]. split; [eexists; vm_compute; reflexivity|]. split; [reflexivity|]. split; [vm_compute; reflexivity|]. vm_compute. discriminate.
Qed.
