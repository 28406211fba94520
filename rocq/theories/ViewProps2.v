(** More about comparing vectors and transformations: with tuples, lists, dictionaries and other objects. *)
From Coq Require Import Lia Permutation.
From Verif Require Import TlModel ViewModel ViewSpec ViewProofs ViewProofs2 ViewProps.
Local Open Scope Z_scope.

(** ** C130 *)

(** A vector that has x and then y is equal to a tuple, or list, of two numbers if and only if they are x and y, whether they are floats or ints. *)
Theorem C130_tuples_partial : forall a x y u v z w, plain_xy a x y -> number_is u z -> number_is v w ->
  exists r, vec_eq a (PTuple [u; v]) = Ok r /\ vec_eq a (PList [u; v]) = Ok r /\ (r = true <-> (x == z /\ y == w)%Q).
Proof.
  intros a x y u v z w P U V. destruct (plain_reads _ _ _ P) as (R & _). destruct (vec_eq_numbers a [x; y] [u; v] [z; w] R) as (r & E & E' & H); [constructor; [exact U|constructor; [exact V|constructor]]|].
  exists r. split; [exact E|]. split; [exact E'|]. now rewrite H, two_equal.
Qed.
Print Assumptions C130_tuples_partial.
(** It isn't equal to tuples and lists of other lengths, to numbers, to None, to booleans, or to times. *)
Theorem C130_others : forall a x y, plain_xy a x y ->
  (forall l, length l <> 2%nat -> vec_eq a (PTuple l) = Ok false /\ vec_eq a (PList l) = Ok false) /\
  (forall q, vec_eq a (PFlo q) = Ok false) /\ (forall z, vec_eq a (PInt z) = Ok false) /\ (forall b, vec_eq a (PBool b) = Ok false) /\ (forall t, vec_eq a (PT t) = Ok false) /\ vec_eq a PNone = Ok false.
Proof.
  intros a x y P. destruct (plain_reads _ _ _ P) as (R & _). apply reads_length in R. split; [|repeat split]. intros l L. unfold vec_eq. cbn [py_len]. rewrite <- R. cbn [length].
  destruct (Z.eqb_spec (Z.of_nat (length l)) (Z.of_nat 2)); [lia|]. auto.
Qed.
Print Assumptions C130_others.
Example C130_tuples_nonvacuous : plain_xy xv12 1 2 /\ number_is (PInt 1) 1 /\ number_is (PFlo 2) 2 /\ vec_eq xv12 (PTuple [PInt 1; PFlo 2]) = Ok true.
Proof. split; [apply C130_nonvacuous|]. split; [right; left; now exists 1|]. split; [now left|vm_compute; reflexivity]. Qed.

(** ** C132 *)

(** A transformation is equal to a dictionary of two pairs of numbers and two floats if and only if they are its parts. *)
Theorem C132_dictionaries : forall n cx o1 o2 a w s1 s2 u1 u2 v1 v2 p1 p2 b x t1 t2, trans_reads n cx o1 o2 a w s1 s2 ->
  number_is u1 p1 -> number_is u2 p2 -> number_is v1 t1 -> number_is v2 t2 ->
  exists r, trans_eq n cx (PDict [(s "offset", PTuple [u1; u2]); (s "angle", PFlo b); (s "skew_angle", PFlo x); (s "scale", PTuple [v1; v2])]) = Ok r /\
    (r = true <-> ((o1 == p1 /\ o2 == p2) /\ a == b /\ w == x /\ (s1 == t1 /\ s2 == t2))%Q).
Proof.
  intros n cx o1 o2 a w s1 s2 u1 u2 v1 v2 p1 p2 b x t1 t2 T U1 U2 V1 V2. apply (trans_eq_other n cx _ o1 o2 a w s1 s2); [exact T|discriminate|reflexivity| | | |]; intros m P.
  - exists (PTuple [u1; u2]). destruct (vector_pair m cx _ _ _ _ _ _ P U1 U2) as (r & H). exists r. auto.
  - exists (PFlo b). destruct (angle_float m cx _ b P) as (r & H). exists r. auto.
  - exists (PFlo x). destruct (angle_float m cx _ x P) as (r & H). exists r. auto.
  - exists (PTuple [v1; v2]). destruct (vector_pair m cx _ _ _ _ _ _ P V1 V2) as (r & H). exists r. auto.
Qed.
Print Assumptions C132_dictionaries.
(** It isn't equal to dictionaries of other lengths, or to objects that aren't dictionaries. *)
Theorem C132_others : forall n cx o1 o2 a w s1 s2, trans_reads n cx o1 o2 a w s1 s2 ->
  (forall d, length d <> 4%nat -> trans_eq n cx (PDict d) = Ok false) /\ (forall l, trans_eq n cx (PTuple l) = Ok false) /\ (forall l, trans_eq n cx (PList l) = Ok false) /\
  (forall q, trans_eq n cx (PFlo q) = Ok false) /\ (forall z, trans_eq n cx (PInt z) = Ok false) /\ (forall x, trans_eq n cx (PStr x) = Ok false) /\ trans_eq n cx PNone = Ok false.
Proof.
  intros n cx o1 o2 a w s1 s2 [K _ _ _ _]. apply Permutation_length in K. unfold composite_keys in K. rewrite !map_length in K. split; [|repeat split]. intros d L. unfold trans_eq. cbn [py_items py_len bind]. rewrite K. cbn [length transformation_keys].
  destruct (Z.eqb_spec (Z.of_nat (length d)) (Z.of_nat 4)); [lia|]. reflexivity.
Qed.
Print Assumptions C132_others.
Example C132_dictionaries_nonvacuous : trans_reads (xtrans xv12 xv12) None 1 2 (1 # 2) 0 1 2 /\
  trans_eq (xtrans xv12 xv12) None (PDict [(s "offset", PTuple [PInt 1; PInt 2]); (s "angle", PFlo (1 # 2)); (s "skew_angle", PFlo 0); (s "scale", PTuple [PFlo 1; PInt 2])]) = Ok true.
Proof. split; [exact xtrans_reads|vm_compute; reflexivity]. Qed.
