(** Groups behave like lists: C148 and C149. *)
From Verif Require Import AnimModel LayModel DocProofs LaySpec LayProofs LayProps LoopModel MovSpec MovProofs MovProofs2.
From Coq Require Import Lia.
Local Open Scope N_scope.

(** ** C148 The children of all groups, after any history of moves *)

(** Any sequence of [append] and [insert] calls, on any groups of a document, does to the lists of children what the
    same calls do to plain lists of numbers (MovSpec.v), and each call returns, or raises, what it does there. *)
Theorem C148_lists : forall ms F h, usual F -> shows F h -> all_fit F ms ->
  usual (fst (doc_moves F ms)) /\ shows (fst (doc_moves F ms)) (fst (list_moves h ms)) /\
  snd (doc_moves F ms) = snd (list_moves h ms).
Proof. exact moves_right. Qed.
Print Assumptions C148_lists.
(** A document is as [usual] asks when it has been loaded: the root is a canvas, all the types are known and groups have their canvases. *)
Theorem C148_loaded : forall n, is_tag n = true -> tag_name n = s "canvas" ->
  (forall x, In x (fdesc (doc_forest n)) -> is_layer x = true ->
     known x /\ forall k, layer_class x = Ok k -> kind_of k = KGroup -> exists c, own_canvas x c) -> usual (doc_forest n).
Proof. exact loaded_usual. Qed.
Print Assumptions C148_loaded.
(** [for l in list(a.children): b.append(l)] empties a, and its children come after those of b, in the same order. *)
Theorem C148_all_moved : forall F a kda na b kdb nb cha chb, usual F -> holder F a kda na -> holder F b kdb nb -> a <> b ->
  children kda na = Ok cha -> children kdb nb = Ok chb -> (forall t, In t cha -> ~ In b (uids t)) ->
  let R := doc_moves F (map (MAppend kdb b) (ids cha)) in
  snd R = map (fun _ => Ok tt) cha /\ usual (fst R) /\
  (exists na', holder (fst R) a kda na' /\ children kda na' = Ok []) /\
  (exists nb' ch, holder (fst R) b kdb nb' /\ children kdb nb' = Ok ch /\ ids ch = ids chb ++ ids cha).
Proof. exact all_moved. Qed.
Print Assumptions C148_all_moved.

(** An animation with the layers of [xforest] (LayProps.v), and a layer that is nowhere *)
Definition yforest : forest :=
  [IE 0 (s "[document]") [] [IE 1 (s "canvas") [] [IT nl; xcircle 2 (s "1.0"); IT nl; xgroup10; xcircle 70 (s "3.0"); IT nl]]; xcircle 100 (s "5.0")].
Definition own_check (n : inode) : bool :=
  match ikids n with p :: _ => is_param (s "canvas") p && match ikids p with c :: _ => named (s "canvas") c | [] => false end | [] => false end.
Lemma own_checked n : own_check n = true -> exists c, own_canvas n c.
Proof.
  unfold own_check. destruct (ikids n) as [|p k2] eqn:E1; [discriminate|]. intros H. apply andb_prop in H as [Hp H]. destruct (ikids p) as [|c j2] eqn:E2; [discriminate|].
  exists c, [], p, k2, [], j2. repeat split; auto; intros x [].
Qed.
Definition usual_check (n : inode) : bool :=
  negb (is_layer n) || (negb (existsb (N.eqb 1) (uids n)) && match layer_class n with Ok k => match kind_of k with KGroup => own_check n | _ => true end | Err _ => false end).
Lemma usual_checked F r : wf F -> fget 1 F = Some r -> named (s "canvas") r = true -> forallb usual_check (fdesc F) = true -> usual F.
Proof.
  intros W Hr Hc H. rewrite forallb_forall in H. split; [exact W|eauto| | |].
  - intros z n Hz Hl Hi. apply fget_In in Hz as (Hz & _). specialize (H n Hz). unfold usual_check in H. rewrite Hl in H. cbn [negb orb] in H. apply andb_prop in H as [H _].
    apply negb_true_iff in H. assert (X : existsb (N.eqb 1) (uids n) = true) by (apply existsb_exists; exists 1; split; [exact Hi|reflexivity]). congruence.
  - intros z n Hz Hl. apply fget_In in Hz as (Hz & _). specialize (H n Hz). unfold usual_check in H. rewrite Hl in H. cbn [negb orb] in H. apply andb_prop in H as [_ H]. unfold known. destruct (layer_class n); [eauto|discriminate].
  - intros z n k Hz Hl Hk Hd. apply fget_In in Hz as (Hz & _). specialize (H n Hz). unfold usual_check in H. rewrite Hl, Hk, Hd in H. cbn [negb orb] in H. apply andb_prop in H as [_ H]. now apply own_checked.
Qed.
Lemma yforest_usual : usual yforest.
Proof. eapply usual_checked; [unfold wf; vm_compute; repeat constructor; cbn; lia|vm_compute; reflexivity|vm_compute; reflexivity|vm_compute; reflexivity]. Qed.

Definition yshelf (x : N) : list N :=
  if x =? 1 then [70; 10; 2] else if x =? 10 then [30; 20] else if x =? 30 then [50; 40] else if x =? 50 then [60] else [].
Lemma yforest_shows : shows yforest yshelf.
Proof.
  intros x kd n [Hg Hk]. pose proof (fget_In _ _ _ Hg) as (Hd & Hu & _).
  assert (E : forallb (fun n => match (if iuid n =? 1 then Ok KAnim else if is_layer n then let* k := layer_class n in Ok (kind_of k) else Ok KPlain) with
      | Ok KPlain => true | Ok kd => match children kd n with Ok ch => if list_eq_dec N.eq_dec (ids ch) (yshelf (iuid n)) then true else false | Err _ => false end | Err _ => false end) (fdesc yforest) = true) by (vm_compute; reflexivity).
  rewrite forallb_forall in E. specialize (E n Hd). rewrite Hu in E.
  destruct Hk as [[-> ->]|(-> & Hl & k & Hk & Hkd)].
  - change (1 =? 1) with true in E. cbn [bind] in E. destruct (children KAnim n) as [ch|]; [|discriminate]. exists ch. split; [reflexivity|]. destruct (list_eq_dec N.eq_dec (ids ch) (yshelf 1)); [assumption|discriminate].
  - assert (X : x <> 1).
    { intros ->. destruct (us_root _ yforest_usual) as (r & Hr & Hc). assert (r = n) by congruence. subst r. unfold named in Hc. unfold is_layer, named in Hl. destruct n as [|u nm a kk]; [discriminate|].
      cbn [itag iname andb] in *. apply pstr_eqb_spec in Hc. subst nm. discriminate. }
    apply N.eqb_neq in X. rewrite X, Hl, Hk in E. cbn [bind] in E. rewrite Hkd in E. destruct (children KGroup n) as [ch|]; [|discriminate]. exists ch. split; [reflexivity|]. destruct (list_eq_dec N.eq_dec (ids ch) (yshelf x)); [assumption|discriminate].
Qed.
Definition ymoves : list move := [MAppend KGroup 30 70; MInsert KAnim 1 0 40; MInsert KGroup 10 (-1) 100; MAppend KGroup 30 70; MInsert KGroup 50 1 20; MInsert KGroup 50 0 60; MAppend KAnim 1 30].
Definition fits_check (F : forest) (m : move) : bool :=
  match m with
  | MAppend kd g l | MInsert kd g _ l =>
      match fget g F, fget l F with
      | Some n, Some t =>
          match kd with
          | KAnim => g =? 1
          | KGroup => is_layer n && match layer_class n with Ok c => match kind_of c with KGroup => true | _ => false end | Err _ => false end
          | KPlain => false
          end && is_layer t && negb (existsb (N.eqb g) (uids t))
      | _, _ => false
      end
  end.
Lemma fits_checked F m : fits_check F m = true -> fits F m.
Proof.
  assert (G : forall kd g l, fits_check F (MAppend kd g l) = true -> fits F (MAppend kd g l)); [|destruct m as [kd g l|kd g i l]; [apply G|exact (G kd g l)]].
  intros kd g l. cbn [fits_check fits]. destruct (fget g F) as [n|] eqn:Eg; [|discriminate]. destruct (fget l F) as [t|] eqn:El; [|discriminate]. intros H. apply andb_prop in H as [H H3]. apply andb_prop in H as [H1 H2]. split.
  - exists n. split; [exact Eg|]. destruct kd; [left; apply N.eqb_eq in H1; auto| |discriminate]. right. apply andb_prop in H1 as [H0 H1]. split; [reflexivity|]. split; [exact H0|]. destruct (layer_class n) as [c|]; [|discriminate]. exists c. split; [reflexivity|]. now destruct (kind_of c).
  - exists t. split; [reflexivity|]. split; [exact H2|]. intros Hi. apply negb_true_iff in H3. assert (X : existsb (N.eqb g) (uids t) = true) by (apply existsb_exists; exists g; split; [exact Hi|apply N.eqb_refl]). congruence.
Qed.
Fixpoint all_fit_check (F : forest) (ms : list move) : bool :=
  match ms with [] => true | m :: ms' => fits_check F m && all_fit_check (do_move F m) ms' end.
Lemma all_fit_checked ms : forall F, all_fit_check F ms = true -> all_fit F ms.
Proof. induction ms as [|m ms IH]; intros F H; [exact I|]. cbn [all_fit_check] in H. apply andb_prop in H as [H1 H2]. split; [now apply fits_checked|now apply IH]. Qed.
Example C148_nonvacuous : usual yforest /\ shows yforest yshelf /\ all_fit yforest ymoves /\
  snd (list_moves yshelf ymoves) = [Ok tt; Ok tt; Ok tt; Err ValueError; Err IndexError; Err ValueError; Ok tt] /\
  map (fst (list_moves yshelf ymoves)) [1; 10; 30; 50] = [[40; 10; 2; 30]; [100; 20]; [50; 70]; [60]].
Proof.
  split; [exact yforest_usual|]. split; [exact yforest_shows|]. split; [apply all_fit_checked; vm_compute; reflexivity|]. split; vm_compute; reflexivity.
Qed.
(** A document from a file, and all the layers of its group 30 moved to the animation *)
Definition ynode : node := El (s "canvas") [] [El (s "layer") [(s "type", AStr (s "group"))] [El (s "param") [(s "name", AStr (s "canvas"))] [El (s "canvas") [] [El (s "layer") [(s "type", AStr (s "circle"))] []]]]].
Example C148_loaded_nonvacuous : is_tag ynode = true /\ tag_name ynode = s "canvas" /\ length (filter is_layer (fdesc (doc_forest ynode))) = 2%nat /\
  forall x, In x (fdesc (doc_forest ynode)) -> is_layer x = true -> known x /\ forall k, layer_class x = Ok k -> kind_of k = KGroup -> exists c, own_canvas x c.
Proof.
  split; [reflexivity|]. split; [reflexivity|]. split; [vm_compute; reflexivity|]. assert (H : forallb usual_check (fdesc (doc_forest ynode)) = true) by (vm_compute; reflexivity). rewrite forallb_forall in H.
  intros n Hz Hl. specialize (H n Hz). unfold usual_check in H. rewrite Hl in H. cbn [negb orb] in H. apply andb_prop in H as [_ H]. split.
  - unfold known. destruct (layer_class n); [eauto|discriminate].
  - intros k Hk Hd. rewrite Hk, Hd in H. now apply own_checked.
Qed.
Example C148_all_moved_nonvacuous : exists na nb cha chb, holder yforest 30 KGroup na /\ holder yforest 1 KAnim nb /\ children KGroup na = Ok cha /\ children KAnim nb = Ok chb /\
  ids cha = [50; 40] /\ ids chb = [70; 10; 2] /\ forall t, In t cha -> ~ In 1 (uids t).
Proof.
  eexists. eexists. eexists. eexists. split; [split; [vm_compute; reflexivity|right; split; [reflexivity|split; [vm_compute; reflexivity|eexists; split; vm_compute; reflexivity]]]|].
  split; [split; [vm_compute; reflexivity|left; split; reflexivity]|]. split; [vm_compute; reflexivity|]. split; [vm_compute; reflexivity|]. split; [vm_compute; reflexivity|]. split; [vm_compute; reflexivity|].
  intros t [<-|[<-|[]]]; vm_compute; intuition discriminate.
Qed.

(** ** C149 Loops over the children of a group *)

(** [children] is a generator, that looks at the canvas again at each step (LoopModel.v). Still, the body runs once for each child that there
    was at the start, in order, as long as it only moves the layer it was given, to other groups. An exception ends the loop.
    What is missing: bodies that move layers within the group, see below. *)
Theorem C149_loop_partial : forall F a kda na ch body, usual F -> holder F a kda na -> children kda na = Ok ch ->
  (forall l m, In l (ids ch) -> In m (body l) -> moved_layer m = l /\ target m <> a) -> run_fits F (flat_map body (ids ch)) ->
  for_children F kda a body = run F (flat_map body (ids ch)).
Proof. exact loop_is. Qed.
Print Assumptions C149_loop_partial.
(** [for l in a.children: b.append(l)] moves all of them, in order. *)
Theorem C149_all_moved : forall F a kda na b kdb nb cha chb, usual F -> holder F a kda na -> holder F b kdb nb -> a <> b ->
  children kda na = Ok cha -> children kdb nb = Ok chb -> (forall t, In t cha -> ~ In b (uids t)) ->
  exists F', for_children F kda a (fun l => [MAppend kdb b l]) = (F', Ok tt) /\ usual F' /\
  (exists na', holder F' a kda na' /\ children kda na' = Ok []) /\
  (exists nb' ch, holder F' b kdb nb' /\ children kdb nb' = Ok ch /\ ids ch = ids chb ++ ids cha).
Proof. exact loop_moves. Qed.
Print Assumptions C149_all_moved.
(** Appending each child to the group itself should end where it began, and does with [list(g.children)]. The loop over [g.children] misses
    one layer, comes to another twice, and raises an exception. *)
Theorem C149_same_group_refuted : exists F g n ch F', usual F /\ holder F g KAnim n /\ children KAnim n = Ok ch /\
  run F (map (MAppend KAnim g) (ids ch)) = (F', Ok tt) /\ (exists n', fget g F' = Some n' /\ children KAnim n' = Ok ch) /\
  exists F2 n2 ch2, for_children F KAnim g (fun l => [MAppend KAnim g l]) = (F2, Err ValueError) /\ fget g F2 = Some n2 /\ children KAnim n2 = Ok ch2 /\
    ids ch = [70; 10; 2] /\ ids ch2 = [10; 70; 2].
Proof.
  exists yforest, 1. eexists. eexists. eexists. split; [exact yforest_usual|]. split; [split; [vm_compute; reflexivity|left; split; reflexivity]|]. split; [vm_compute; reflexivity|]. split; [vm_compute; reflexivity|].
  split; [eexists; split; vm_compute; reflexivity|]. eexists. eexists. eexists. repeat (split; [vm_compute; reflexivity|]). vm_compute. reflexivity.
Qed.
Print Assumptions C149_same_group_refuted.
(** Layers of the group 30 go to the group 10, those that aren't groups to the bottom of the animation. *)
Definition ybody (l : N) : list move := if l =? 40 then [MInsert KAnim 1 (-1) l; MInsert KGroup 10 0 l] else [MAppend KAnim 1 l].
Fixpoint run_fits_check (F : forest) (ms : list move) : bool :=
  match ms with [] => true | m :: ms' => fits_check F m && run_fits_check (do_move F m) ms' end.
Lemma run_fits_checked ms : forall F, run_fits_check F ms = true -> run_fits F ms.
Proof. induction ms as [|m ms IH]; intros F H; [exact I|]. cbn [run_fits_check] in H. apply andb_prop in H as [H1 H2]. split; [now apply fits_checked|intros _; now apply IH]. Qed.
Example C149_nonvacuous : exists n ch F', usual yforest /\ holder yforest 30 KGroup n /\ children KGroup n = Ok ch /\ ids ch = [50; 40] /\
  (forall l m, In l (ids ch) -> In m (ybody l) -> moved_layer m = l /\ target m <> 30) /\ run_fits yforest (flat_map ybody (ids ch)) /\
  for_children yforest KGroup 30 ybody = (F', Ok tt) /\ F' <> yforest.
Proof.
  eexists. eexists. eexists. split; [exact yforest_usual|]. split; [split; [vm_compute; reflexivity|right; split; [reflexivity|split; [vm_compute; reflexivity|eexists; split; vm_compute; reflexivity]]]|].
  split; [vm_compute; reflexivity|]. split; [vm_compute; reflexivity|]. split.
  - intros l m Hl. cbn in Hl. destruct Hl as [<-|[<-|[]]]; cbn; intros Hm; intuition (subst; cbn; auto; discriminate).
  - split; [apply run_fits_checked; vm_compute; reflexivity|]. split; [vm_compute; reflexivity|]. vm_compute. discriminate.
Qed.
(** A body may move any layers anywhere. When the first round leaves nothing in the group, the loop ends then, without an exception. *)
Theorem C149_emptied : forall F a kda na x ch body F1 na1, usual F -> holder F a kda na -> children kda na = Ok (x :: ch) -> run_fits F (body (iuid x)) ->
  run F (body (iuid x)) = (F1, Ok tt) -> holder F1 a kda na1 -> children kda na1 = Ok [] -> for_children F kda a body = (F1, Ok tt).
Proof. exact loop_emptied. Qed.
Print Assumptions C149_emptied.
Example C149_emptied_nonvacuous : exists n x ch F' n', let body := fun _ => [MAppend KAnim 1 40; MInsert KGroup 10 0 50] in
  usual yforest /\ holder yforest 30 KGroup n /\ children KGroup n = Ok (x :: ch) /\ ids (x :: ch) = [50; 40] /\ run_fits yforest (body (iuid x)) /\
  run yforest (body (iuid x)) = (F', Ok tt) /\ holder F' 30 KGroup n' /\ children KGroup n' = Ok [].
Proof.
  eexists. eexists. eexists. eexists. eexists. split; [exact yforest_usual|]. split; [split; [vm_compute; reflexivity|right; split; [reflexivity|split; [vm_compute; reflexivity|eexists; split; vm_compute; reflexivity]]]|].
  split; [vm_compute; reflexivity|]. split; [vm_compute; reflexivity|]. split; [apply run_fits_checked; vm_compute; reflexivity|]. split; [vm_compute; reflexivity|].
  split; [split; [vm_compute; reflexivity|right; split; [reflexivity|split; [vm_compute; reflexivity|eexists; split; vm_compute; reflexivity]]]|vm_compute; reflexivity].
Qed.
(** For a layer that isn't a group the body never runs. *)
Theorem C149_plain : forall F l n body, fget l F = Some n -> children KPlain n = Ok [] /\ for_children F KPlain l body = (F, Ok tt).
Proof. intros F l n body H. split; [reflexivity|]. unfold for_children. now rewrite H. Qed.
Print Assumptions C149_plain.
