(** Property C172: comparing layers (IdnModel.v). *)
From Verif Require Import DocModel LayModel LaySpec DocProofs LayProofs LayProofs7 ClsTable ClsProofs IdnModel IdnSpec IdnProofs.
From Coq Require Import Arith Lia.
Local Open Scope nat_scope.

(** An object goes on standing for its layer, wherever that is moved. *)
Theorem C172_kept : forall S l S' rs o u, isteps S l = (S', rs) -> stands_for S o u -> stands_for S' o u.
Proof.
  intros S l S' rs o u E [kd H]. destruct (steps_objs l S) as (new & X & _). rewrite E in X. cbn [fst] in X. exists kd. rewrite X, nth_error_app1; [exact H|]. apply nth_error_Some. congruence.
Qed.
Print Assumptions C172_kept.

(** But no two objects that a program is given are ever equal, though they may stand for one layer: all its results, of all its calls, are
    different from each other, and from the objects that it had before. *)
Theorem C172_never_equal_refuted : forall S l S' rs, isteps S l = (S', rs) ->
  NoDup (all_given rs) /\ forall o, In o (all_given rs) -> forall a u, stands_for S a u -> py_same a o = false.
Proof.
  intros S l S' rs E. destruct (steps_objs l S) as (new & _ & R). rewrite E in R. cbn [snd] in R. rewrite R. split; [apply seq_NoDup|].
  intros o I a u [kd H]. apply in_seq in I. assert (a < length (i_objs S)) by (apply nth_error_Some; congruence). apply Nat.eqb_neq. lia.
Qed.
Print Assumptions C172_never_equal_refuted.

(** So a layer is never found among the children of its group, nor of any other. *)
Theorem C172_in_refuted : forall S g a u ids S', stands_for S a u -> istep S (IChildren g) = (S', Ok ids) -> py_in a ids = false.
Proof.
  intros S g a u ids S' [kd H] E. destruct (step_objs S (IChildren g)) as (new & _ & R). rewrite E in R. cbn [snd] in R. subst ids. unfold py_in.
  assert (L : a < length (i_objs S)) by (apply nth_error_Some; congruence). destruct (existsb _ _) eqn:X; [|reflexivity]. apply existsb_exists in X as (o & I & Q). apply in_seq in I. apply Nat.eqb_eq in Q. lia.
Qed.
Print Assumptions C172_in_refuted.

(** What does tell whether a layer is there is to compare the tags with [is]: *)
Theorem C172_tags : forall D g kd ug n l a u, nth_error (i_objs D) g = Some (kd, ug) -> fget ug (i_doc D) = Some n -> children kd n = Ok l -> stands_for D a u ->
  exists D' ids, istep D (IChildren g) = (D', Ok ids) /\ i_doc D' = i_doc D /\
  Forall2 (stands_for D') ids (map iuid l) /\ (existsb (same_tag D' a) ids = true <-> In u (map iuid l)).
Proof.
  intros D g kd ug n l a u G F C A. pose proof (fun D' rs E => C172_kept D [IChildren g] D' rs a u E A) as K. cbn [isteps] in K.
  assert (E : istep D (IChildren g) = got D (Ok l)) by (cbn [istep]; now rewrite G, F, C). rewrite E in *. cbn [got new_objs] in *.
  specialize (K _ _ eq_refl). set (os := i_objs D ++ map (fun x => (kind_at x, iuid x)) l) in *. set (D' := mkI (i_doc D) os) in *. eexists. eexists. split; [reflexivity|]. split; [reflexivity|].
  assert (P : Forall2 (stands_for D') (seq (length (i_objs D)) (length l)) (map iuid l)).
  { assert (Q : forall k b, (forall j x, nth_error k j = Some x -> stands_for D' (b + j) (iuid x)) -> Forall2 (stands_for D') (seq b (length k)) (map iuid k)).
    { induction k as [|y k IH]; intros b H; cbn [length seq map]; constructor; [replace b with (b + 0) by lia; now apply (H 0)|]. apply IH. intros j x X. replace (S b + j) with (b + S j) by lia. now apply (H (S j)). }
    apply Q. intros j x X. exists (kind_at x). cbn [i_objs D']. unfold os. rewrite nth_error_app2 by lia. replace (length (i_objs D) + j - length (i_objs D)) with j by lia. now rewrite nth_error_map, X. }
  split; [exact P|]. clear - K P. destruct K as [ka A]. split.
  - intros X. apply existsb_exists in X as (o & I & T). unfold same_tag in T. rewrite A in T. revert I. induction P as [|o' v os' vs [kv V] P IH]; [intros []|]. intros [->|I]; [|right; now apply IH].
    rewrite V in T. apply N.eqb_eq in T. now left.
  - intros I. apply existsb_exists. induction P as [|o' v os' vs [kv V] P IH]; [destruct I|]. destruct I as [->|I].
    + exists o'. split; [now left|]. unfold same_tag. rewrite A, V. apply N.eqb_refl.
    + destruct (IH I) as (o & I' & T). exists o. split; [now right|exact T].
Qed.
Print Assumptions C172_tags.

(** So it is after a move: a layer that was appended is the last of the children, and was told from the others by its tag. *)
Theorem C172_moved : forall D g o kd ug u n c t ch, nth_error (i_objs D) g = Some (kd, ug) -> stands_for D o u ->
  wf (i_doc D) -> fget ug (i_doc D) = Some n -> holds_children kd n c -> children kd n = Ok ch ->
  fget u (i_doc D) = Some t -> is_layer t = true -> known t -> ~ In ug (uids t) -> (forall a, LaySpec.ids ch <> a ++ [u]) ->
  exists D' ids last, isteps D [IAppend g o; IChildren g] = (D', [Ok []; Ok (ids ++ [last])]) /\ stands_for D' last u /\
  same_tag D' o last = true /\ existsb (same_tag D' o) ids = false /\ py_same o last = false.
Proof.
  intros D g o kd ug u n c t ch G [ko O] W F C H Fu L K A N. destruct (append_move _ kd ug u n c t ch W F C H Fu L K A N) as (F' & n' & ch' & E & W' & Fg & H' & I & _).
  set (D1 := mkI F' (i_objs D)).
  assert (E1 : istep D (IAppend g o) = (D1, Ok [])) by (cbn [istep]; rewrite G, O, E; reflexivity).
  destruct (C172_tags D1 g kd ug n' ch' o u G Fg H' (ex_intro _ ko O)) as (D' & ids & E2 & _ & P & _).
  cbn [isteps]. rewrite E1, E2. change (map iuid ch') with (LaySpec.ids ch') in P. rewrite I in P. apply Forall2_app_inv_r in P as (i1 & i2 & P1 & P2 & ->).
  inversion P2 as [|x ? ? ? X P3]; subst. inversion P3; subst. exists D', i1, x. split; [reflexivity|]. split; [exact X|].
  destruct (C172_kept D1 [IChildren g] D' [Ok (i1 ++ [x])] o u) as [k' O']; [cbn [isteps]; now rewrite E2|now exists ko|]. destruct X as [kx X].
  split; [unfold same_tag; rewrite O', X; apply N.eqb_refl|]. split.
  - destruct (existsb _ i1) eqn:Q; [|reflexivity]. apply existsb_exists in Q as (y & Iy & T). unfold same_tag in T. rewrite O' in T. exfalso.
    assert (B : forall v, In v (LaySpec.without u (LaySpec.ids ch)) -> v <> u).
    { intros v V ->. unfold LaySpec.without in V. apply filter_In in V as [_ V]. rewrite N.eqb_refl in V. discriminate V. }
    clear - B P1 Iy T. induction P1 as [|y' v i1 vs [ky Y] P IH]; [destruct Iy|]. destruct Iy as [->|Iy].
    + rewrite Y in T. apply N.eqb_eq in T. apply (B v); [now left|congruence].
    + apply IH; auto. intros w Hw. apply B. now right.
  - apply (C172_never_equal_refuted D1 [IChildren g] D' [Ok (i1 ++ [x])]) with (u := u); [cbn [isteps]; now rewrite E2| |now exists ko].
    unfold all_given. cbn [map concat]. rewrite app_nil_r. apply in_or_app. right. now left.
Qed.
Print Assumptions C172_moved.

(** And a layer that was inserted at an index is among the children just before the one that was there, and the others are in the order they were in. *)
Theorem C172_inserted : forall D g o kd ug u n c t ch i b, nth_error (i_objs D) g = Some (kd, ug) -> stands_for D o u -> kd <> KPlain ->
  wf (i_doc D) -> fget ug (i_doc D) = Some n -> holds_children kd n c -> children kd n = Ok ch ->
  fget u (i_doc D) = Some t -> is_layer t = true -> known t -> ~ In ug (uids t) -> py_index ch i = Ok b -> u <> iuid b ->
  exists D' before x y after, isteps D [IInsert g i o; IChildren g] = (D', [Ok []; Ok (before ++ x :: y :: after)]) /\
  stands_for D' x u /\ same_tag D' o x = true /\ stands_for D' y (iuid b) /\
  exists A B, LaySpec.without u (LaySpec.ids ch) = A ++ iuid b :: B /\ Forall2 (stands_for D') before A /\ Forall2 (stands_for D') after B.
Proof.
  intros D g o kd ug u n c t ch i b G [ko O] Kd W F C H Fu L K A I Nb.
  destruct (insert_move (i_doc D) kd ug u n t ch i b W F Kd H Fu L K A (ex_intro _ c C) I Nb) as (F' & n' & ch' & A' & B' & E & W' & Fg & H' & I1 & I2 & _).
  set (D1 := mkI F' (i_objs D)).
  assert (E1 : istep D (IInsert g i o) = (D1, Ok [])) by (cbn [istep]; rewrite G, O, E; reflexivity).
  destruct (C172_tags D1 g kd ug n' ch' o u G Fg H' (ex_intro _ ko O)) as (D' & ids & E2 & _ & P & _).
  cbn [isteps]. rewrite E1, E2. change (map iuid ch') with (LaySpec.ids ch') in P. rewrite I2 in P. apply Forall2_app_inv_r in P as (i1 & i2 & P1 & P2 & ->).
  inversion P2 as [|x ? ? ? X P3]; subst. inversion P3 as [|y ? l2 ? Y P4]; subst. exists D', i1, x, y, l2. split; [reflexivity|]. split; [exact X|].
  destruct (C172_kept D1 [IChildren g] D' [Ok (i1 ++ x :: y :: l2)] o u) as [k' O']; [cbn [isteps]; now rewrite E2|now exists ko|].
  split; [destruct X as [kx X]; unfold same_tag; rewrite O', X; apply N.eqb_refl|]. split; [exact Y|]. exists A', B'. auto.
Qed.
Print Assumptions C172_inserted.

(** While the tags themselves, compared with [==], which bs4 answers by what is in them, can be alike for different layers: any two new layers of one
    class are. *)
Theorem C172_alike_refuted : forall F F1 F2 u v c, wf F -> new_layer F c = (F1, Ok u) -> new_layer F1 c = (F2, Ok v) ->
  u <> v /\ exists n m, fget u F2 = Some n /\ fget v F2 = Some m /\ forget n = forget m.
Proof.
  intros F F1 F2 u v c W E1 E2. assert (T : exists t, new_tag c = Ok t) by (unfold new_layer in E1; destruct (new_tag c) as [t|]; [now exists t|discriminate]). destruct T as [t T].
  destruct (new_layer_is F c t W T) as (n & N1 & N2 & N3 & N4 & N5 & _). rewrite N1 in E1. injection E1 as <- <-.
  destruct (new_layer_is (F ++ [n]) c t N4 T) as (m & M1 & M2 & M3 & M4 & M5 & M6). rewrite M1 in E2. injection E2 as <- <-.
  assert (D : In n (fdesc ((F ++ [n]) ++ [m]))) by (rewrite !fdesc_app, !in_app_iff; left; right; rewrite fdesc_one by exact N3; now left).
  split.
  - intros Q. apply (M6 (iuid m)); [destruct m; solve [discriminate M3|cbn [uids iuid]; now left]|]. rewrite <- Q. unfold fuids. rewrite flat_map_app, in_app_iff. right. cbn [flat_map]. rewrite app_nil_r. destruct n; solve [discriminate N3|cbn [uids iuid]; now left].
  - exists n, m. split; [now apply fget_desc|]. split; [exact M5|]. congruence.
Qed.
Print Assumptions C172_alike_refuted.

(** An animation with two circles, of which one is got twice and then moved *)
Definition xdoc : forest :=
  [fst (label 1 (El (s "canvas") [] [El (s "layer") [(s "type", AStr (s "circle"))] []; Txt [10%N]; El (s "layer") [(s "type", AStr (s "circle"))] []]))].
Definition xprog : list iact := [IChildren 0; IChildren 0; IItem 0 0; IAppend 0 1; IItem 0 1; IParent 1].
Example C172_nonvacuous : let x := isteps (opened xdoc 1%N) xprog in
  snd x = [Ok [1; 2]; Ok [3; 4]; Ok [5]; Ok []; Ok [6]; Ok []] /\
  map (same_tag (fst x) 1) [1; 2; 3; 4; 5; 6] = [true; false; true; false; true; true] /\
  map (fun o => match nth_error (i_objs (fst x)) o with Some (_, u) => u | None => 0%N end) [0; 1; 2] = [1; 3; 2]%N /\
  (exists n l, fget 1%N xdoc = Some n /\ children KAnim n = Ok l /\ length l = 2).
Proof.
  cbv zeta. split; [vm_compute; reflexivity|]. split; [vm_compute; reflexivity|]. split; [vm_compute; reflexivity|].
  eexists. eexists. split; [reflexivity|]. split; [vm_compute; reflexivity|reflexivity].
Qed.
Example C172_alike_nonvacuous : exists F1 F2 u v, wf [] /\ new_layer [] cls_Circle = (F1, Ok u) /\ new_layer F1 cls_Circle = (F2, Ok v).
Proof.
  destruct (new_layer [] cls_Circle) as [F1 [u|e]] eqn:E1; [|vm_compute in E1; discriminate]. destruct (new_layer F1 cls_Circle) as [F2 [v|e]] eqn:E2.
  - exists F1, F2, u, v. split; [constructor|]. split; [reflexivity|exact E2].
  - exfalso. unfold new_layer in E1, E2. destruct (new_tag cls_Circle); [|discriminate E1]. discriminate E2.
Qed.
Example C172_moved_nonvacuous : exists n c t ch, let D := fst (isteps (opened xdoc 1%N) [IChildren 0]) in
  nth_error (i_objs D) 0 = Some (KAnim, 1%N) /\ stands_for D 1 3%N /\ wf (i_doc D) /\ fget 1%N (i_doc D) = Some n /\ holds_children KAnim n c /\ children KAnim n = Ok ch /\
  fget 3%N (i_doc D) = Some t /\ is_layer t = true /\ known t /\ ~ In 1%N (uids t) /\ (forall a, LaySpec.ids ch <> a ++ [3%N]).
Proof.
  eexists. eexists. eexists. eexists. cbv zeta. split; [reflexivity|]. split; [eexists; vm_compute; reflexivity|].
  split. { vm_compute. repeat (apply NoDup_cons; [cbn [In]; intros X; decompose [or] X; easy|]). apply NoDup_nil. }
  split; [vm_compute; reflexivity|]. split; [vm_compute; reflexivity|]. split; [vm_compute; reflexivity|]. split; [vm_compute; reflexivity|]. split; [vm_compute; reflexivity|].
  split; [eexists; vm_compute; reflexivity|]. split; [vm_compute; intros X; decompose [or] X; easy|].
  intros a. vm_compute. destruct a as [|x [|y [|z a]]]; discriminate.
Qed.
(** With the hypotheses of [C172_moved], the first circle is inserted before the second. *)
Example C172_inserted_nonvacuous : exists n ch b, let D := fst (isteps (opened xdoc 1%N) [IChildren 0]) in
  fget 1%N (i_doc D) = Some n /\ children KAnim n = Ok ch /\ py_index ch (-1) = Ok b /\ 3%N <> iuid b /\
  snd (isteps D [IInsert 0 (-1) 1; IChildren 0]) = [Ok []; Ok [3; 4]].
Proof.
  eexists. eexists. eexists. cbv zeta. split; [vm_compute; reflexivity|]. split; [vm_compute; reflexivity|]. split; [vm_compute; reflexivity|].
  split; [vm_compute; discriminate|vm_compute; reflexivity].
Qed.
