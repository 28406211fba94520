(** C130: vectors and dictionaries; C142: where the layers of a file take their times from. *)
From Verif Require Import ViewModel ViewSpec ViewProofs ViewProofs2 ViewProps ScanModel ScanSpec ScanProofs ScanProps.
From Coq Require Import Lia.
Local Open Scope Z_scope.

(** C130: a vector is never equal to a dictionary by names, not even to its own value, and never to a text. *)
Theorem C130_dictionaries : forall a x y, plain_xy a x y -> (forall l, vec_eq a (PDict l) = Ok false) /\ (forall t, vec_eq a (PStr t) = Ok false) /\
  (forall cx w, get_value VXY a cx = Ok w -> vec_eq a w = Ok false).
Proof.
  intros a x y P. destruct (plain_reads _ _ _ P) as (R & _). pose proof (reads_length _ _ R) as L. cbn [length] in L.
  assert (D : forall l, vec_eq a (PDict l) = Ok false).
  { intros l. unfold vec_eq. cbn [py_len py_iter]. rewrite <- L. destruct l as [|[k v] [|[k' v'] [|]]]; try reflexivity.
    - cbn [length map fst Z.of_nat Z.eqb Pos.eqb negb]. unfold reads in R. rewrite R. reflexivity.
    - replace (Z.of_nat _ =? _) with false by (symmetry; apply Z.eqb_neq; cbn [length]; lia). reflexivity. }
  split; [exact D|]. split.
  - intros t. unfold vec_eq. cbn [py_len py_iter]. rewrite <- L. destruct t as [|c [|c' [|c'' t]]]; try reflexivity.
    + unfold reads in R. rewrite R. reflexivity.
    + replace (Z.of_nat _ =? _) with false by (symmetry; apply Z.eqb_neq; cbn [length]; lia). reflexivity.
  - intros cx w [= <-]. apply D.
Qed.
Print Assumptions C130_dictionaries.
(** But it is equal to every dictionary that has its coordinates as keys. *)
Theorem C130_keys_refuted : forall a x y v w, plain_xy a x y -> vec_eq a (PDictF [(x, v); (y, w)]) = Ok true.
Proof.
  intros a x y v w P. destruct (plain_reads _ _ _ P) as (R & _). pose proof (reads_length _ _ R) as L. cbn [length] in L. unfold vec_eq. cbn [py_len py_iter length map fst]. rewrite <- L. cbn [Z.of_nat Z.eqb Pos.eqb negb].
  unfold reads in R. rewrite R. cbn [bind both combine mapM fst snd float_eq]. rewrite !(proj2 (Qeq_bool_iff _ _) (Qeq_refl _)). reflexivity.
Qed.
Print Assumptions C130_keys_refuted.
(** A vector is equal to a gradient whose colours are at these two positions, in this order; *)
Theorem C130_gradients_refuted : forall a x y g cx d, plain_xy a x y -> get_value VGradient g cx = Ok (PDictF d) ->
  exists r, vec_eq a (PVal VGradient g cx) = Ok r /\ (r = true <-> Forall2 Qeq [x; y] (map fst d)).
Proof.
  intros a x y g cx d P G. destruct (plain_reads _ _ _ P) as (R & _). pose proof (reads_length _ _ R) as L. cbn [length] in L. cbn [get_value] in G. destruct (gradient_val g cx) as [d'|] eqn:E; [|discriminate]. cbn [bind] in G. assert (d' = d) by congruence. subst d'.
  unfold vec_eq. cbn [py_len value_len py_iter]. unfold gradient_iter, gradient_keys. rewrite E. cbn [bind]. rewrite <- L.
  destruct (Z.eqb_spec (Z.of_nat (length d)) (Z.of_nat 2)) as [N|N]; cbn [negb].
  - apply Nat2Z.inj in N. unfold reads in R. rewrite R. cbn [bind]. rewrite both_floats. eexists. split; [reflexivity|]. apply all_equal. rewrite map_length, N. reflexivity.
  - exists false. split; [reflexivity|]. split; [discriminate|]. intros F. exfalso. apply N. apply Forall2_len in F. rewrite map_length in F. now rewrite <- F.
Qed.
Print Assumptions C130_gradients_refuted.
(** and comparing it with a transformation that has just two parts is a KeyError; with any other, it's False. *)
Theorem C130_transformations_refuted : forall a x y t cx, plain_xy a x y ->
  (length (child_tags t) = 2%nat -> vec_eq a (PVal VTransformation t cx) = Err KeyError) /\ (length (child_tags t) <> 2%nat -> vec_eq a (PVal VTransformation t cx) = Ok false).
Proof.
  intros a x y t cx P. destruct (plain_reads _ _ _ P) as (R & _). pose proof (reads_length _ _ R) as L. cbn [length] in L. unfold vec_eq. cbn [py_len value_len py_iter]. rewrite <- L. split; intros N.
  - rewrite N. unfold reads in R. rewrite R. reflexivity.
  - destruct (Z.eqb_spec (Z.of_nat (length (child_tags t))) (Z.of_nat 2)) as [E|E]; [apply Nat2Z.inj in E; contradiction|reflexivity].
Qed.
Print Assumptions C130_transformations_refuted.
Example C130_others_nonvacuous : plain_xy xv12 1 2 /\
  (exists g d, new_value VGradient (PDictF [(1%Q, PStr (s "#ff0000")); (2%Q, PStr (s "#00ff00"))]) = Ok g /\ get_value VGradient g None = Ok (PDictF d) /\ vec_eq xv12 (PVal VGradient g None) = Ok true) /\
  exists t, new_value VTransformation (PDict [(s "angle", PInt 1); (s "skew_angle", PInt 2)]) = Ok t /\ length (child_tags t) = 2%nat.
Proof.
  split; [now repeat split|]. split.
  - do 2 eexists. split; [vm_compute; reflexivity|]. split; [vm_compute; reflexivity|]. vm_compute. reflexivity.
  - eexists. split; [vm_compute; reflexivity|]. reflexivity.
Qed.
Example C130_dictionaries_nonvacuous : plain_xy xv12 1 2 /\ get_value VXY xv12 None = Ok (PDict [(s "x", PStr (s "1")); (s "y", PStr (s "2"))]).
Proof. split; [now repeat split|]. vm_compute. reflexivity. Qed.

(** C142: the times in the block of a layer are counted at the frame rate of the canvas of the file. *)
Theorem C142_canvas : forall pr ex a k fs ty n, scan_soup pr ex (El (s "canvas") a k) = Ok fs -> first_of_type (soup_layers (El (s "canvas") a k)) ty n -> only_type (soup_layers (El (s "canvas") a k)) ty ->
  exists b, aget (title ty) fs = Some b /\ layer_block pr ex (Some a) n = Ok b.
Proof. intros pr ex a k fs ty n H. destruct (C142_blocks _ _ _ _ H) as (_ & _ & X). exact (X ty n). Qed.
Print Assumptions C142_canvas.
