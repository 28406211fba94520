(** C151: moves of layers and assignments to parameters, in any order. *)
From Coq Require Import Lia.
From Verif Require Import AnimModel LayModel DocProofs LaySpec LayProofs LayProps LoopModel MovSpec MovProofs MovProofs2 MovProps VarSpec VarProofs MixSpec MixProofs.
Local Open Scope N_scope.

(** Any sequence of moves and assignments, in any order: each returns or raises what it does for plain lists and variables, and so do the lists of
    children and the parameters at the end. A move changes no parameter's value, and an assignment no list of children. Which of the parameters a
    name means may depend on the moves before, see below. *)
Theorem C151_mixed : forall l l' F h st, usual F -> reflects F (h, st) -> means F st l l' ->
  snd (doc_steps F l) = snd (list_steps (h, st) l') /\ usual (fst (doc_steps F l)) /\ reflects (fst (doc_steps F l)) (fst (list_steps (h, st) l')).
Proof. intros l l' F h st. apply steps_mixed. Qed.
Print Assumptions C151_mixed.
(** For layers that have no layers in them, it never does: the steps are those that are meant at the start.
    What is missing: assignments to parameters of groups. *)
Theorem C151_single_partial : forall l F h st, usual F -> reflects F (h, st) -> moves_fit F l -> (forall a, In (SAssign a) l -> to_single F st a) ->
  let l' := map (lstep_of F) l in
  snd (doc_steps F l) = snd (list_steps (h, st) l') /\ usual (fst (doc_steps F l)) /\ reflects (fst (doc_steps F l)) (fst (list_steps (h, st) l')).
Proof. exact steps_start. Qed.
Print Assumptions C151_single_partial.
(** Through any moves, such a layer is the same, with everything in it. *)
Theorem C151_same : forall u F m n, usual F -> fits F m -> fget u F = Some n -> is_layer n = true ->
  (forall x, In x (idesc n) -> is_layer x = false /\ named (s "canvas") x = false) -> fget u (do_move F m) = Some n.
Proof. intros u F m n U Hf H1 H2 H3. exact (proj1 (alone_moves u n F m U Hf (conj H1 (conj H2 H3)))). Qed.
Print Assumptions C151_same.
(** Every document has its lists and variables. *)
Theorem C151_all : forall F, usual F -> exists h, reflects F (h, flat_variables F).
Proof.
  intros F U. destruct (shows_ex F U) as (h & S). exists h. split; cbn [fst snd]; [exact S| |].
  - intros q c t H. apply (variables_agree F). unfold flat_variables in H. destruct (variables F q) as [[c' t']|]; [|discriminate]. destruct (flat_value t'); congruence.
  - intros q c t H. unfold flat_variables in H. destruct (variables F q) as [[c' t']|]; [|discriminate]. destruct (flat_value t') eqn:E; congruence.
Qed.
Print Assumptions C151_all.

(** Not so for groups. In a new group the param time_dilation comes after the canvas. When another group is appended, it is the first to be found,
    so that [group['time_dilation']] and [group.time_dilation] are now those of the other. *)
Definition zgroup (u : N) (x : pstr) : inode :=
  xlayer u (s "group") [xparam (u + 1) (s "canvas") (IE (u + 2) (s "canvas") [] []); xparam (u + 3) (s "time_dilation") (xreal (u + 4) x)].
Definition zforest : forest := [IE 0 (s "[document]") [] [IE 1 (s "canvas") [] [zgroup 10 (s "1.0"); zgroup 20 (s "2.0")]]].
Theorem C151_group_refuted : exists F g l n n' w w', usual F /\ fits F (MAppend KGroup g l) /\ snd (try_move F (MAppend KGroup g l)) = Ok tt /\
  fget g F = Some n /\ layer_getitem n (s "time_dilation") = Ok (w, VReal) /\ param_get F n (s "time_dilation") = Ok (w, VReal) /\
  let F' := do_move F (MAppend KGroup g l) in
  fget g F' = Some n' /\ layer_getitem n' (s "time_dilation") = Ok (w', VReal) /\ param_get F' n' (s "time_dilation") = Ok (w', VReal) /\
  forget w = El (s "real") [(s "value", AStr (s "1.0"))] [] /\ forget w' = El (s "real") [(s "value", AStr (s "2.0"))] [].
Proof.
  exists zforest, 10, 20. eexists. eexists. eexists. eexists. split; [eapply usual_checked; [unfold wf; vm_compute; repeat constructor; cbn; lia|vm_compute; reflexivity|vm_compute; reflexivity|vm_compute; reflexivity]|].
  split; [apply fits_checked; vm_compute; reflexivity|]. repeat (split; [vm_compute; reflexivity|]). vm_compute. reflexivity.
Qed.
Print Assumptions C151_group_refuted.

(** The layers of [yforest] (MovProps.v): circles 2, 40 and 70 have a radius. *)
Definition ysteps : list step :=
  [SAssign (assign ByField 40 (s "radius") (PFlo (7 # 2))); SMove (MAppend KGroup 30 70); SMove (MInsert KAnim 1 0 40); SAssign (assign ByItem 40 (s "radius") (PStr (s "wide")));
   SAssign (assign ByItem 70 (s "radius") (PInt 4)); SMove (MAppend KGroup 30 70); SMove (MAppend KAnim 1 30); SAssign (assign ByItem 70 (s "radius") (PInt 5))].
Fixpoint moves_fit_check (F : forest) (l : list step) : bool :=
  match l with [] => true | SMove m :: l' => fits_check F m && moves_fit_check (do_move F m) l' | SAssign a :: l' => moves_fit_check (fst (do_assign F a)) l' end.
Lemma moves_fit_checked l : forall F, moves_fit_check F l = true -> moves_fit F l.
Proof. induction l as [|[m|a] l IH]; intros F H; [exact I| |]; cbn [moves_fit_check moves_fit] in *; [apply andb_prop in H as [H1 H2]; split; [now apply fits_checked|now apply IH]|now apply IH]. Qed.
Definition single_check (F : forest) (u : N) : bool :=
  match fget u F with Some n => is_layer n && forallb (fun x => negb (bulky x)) (idesc n) | None => false end.
Lemma single_checked F u : single_check F u = true -> single F u.
Proof.
  unfold single_check. destruct (fget u F) as [n|] eqn:E; [|discriminate]. intros H. apply andb_prop in H as [H1 H2]. exists n. split; [exact E|]. split; [exact H1|]. rewrite forallb_forall in H2. intros x Hx. specialize (H2 x Hx). apply negb_true_iff in H2. unfold bulky in H2. now apply orb_false_iff in H2.
Qed.
Example C151_nonvacuous : usual yforest /\ reflects yforest (yshelf, flat_variables yforest) /\ moves_fit yforest ysteps /\ (forall a, In (SAssign a) ysteps -> to_single yforest (flat_variables yforest) a) /\
  snd (doc_steps yforest ysteps) = [Ok tt; Ok tt; Ok tt; Err ValueError; Ok tt; Err ValueError; Ok tt; Ok tt] /\
  (let hs := fst (list_steps (yshelf, flat_variables yforest) (map (lstep_of yforest) ysteps)) in
   map (fst hs) [1; 10; 30; 50] = [[40; 10; 2; 30]; [20]; [50; 70]; [60]] /\
   snd hs 41 = Some (VReal, El (s "real") [(s "value", AStr (s "3.5000000000"))] []) /\ snd hs 71 = Some (VReal, El (s "real") [(s "value", AStr (s "5.0000000000"))] []) /\
   snd hs 3 = Some (VReal, El (s "real") [(s "value", AStr (s "1.0"))] [])).
Proof.
  split; [exact yforest_usual|]. split.
  { split; cbn [fst snd]; [exact yforest_shows| |].
    - intros q c t H. apply (variables_agree yforest). unfold flat_variables in H. destruct (variables yforest q) as [[c' t']|]; [|discriminate]. destruct (flat_value t'); congruence.
    - intros q c t H. unfold flat_variables in H. destruct (variables yforest q) as [[c' t']|]; [|discriminate]. destruct (flat_value t') eqn:E; congruence. }
  split; [apply moves_fit_checked; vm_compute; reflexivity|]. split.
  - intros a Ha. unfold ysteps in Ha. cbn [In] in Ha. repeat (destruct Ha as [Ha|Ha]; [first [discriminate|injection Ha as <-; split; [apply single_checked; vm_compute; reflexivity|eexists; split; [vm_compute; reflexivity|vm_compute; discriminate]]]|]). destruct Ha.
  - split; [vm_compute; reflexivity|]. repeat split; vm_compute; reflexivity.
Qed.
