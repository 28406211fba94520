(** The theorems about values as containers: comparison, truth, and what their keys, values, items and iterators say. *)
From Coq Require Import Lia Permutation.
From Verif Require Import PyFmtProofs TlModel ValProofs ValProofs2 WrProofs ViewModel ViewSpec ViewProofs.
Local Open Scope Z_scope.

(** ** Examples to use *)
Definition xnum (k : string) (x : string) : node := El (s k) [] [Txt (s x)].
Definition xv12 : node := El (s "vector") [] [xnum "x" "1"; xnum "y" "2"].
Definition xv21 : node := El (s "vector") [] [xnum "y" "2"; xnum "x" "1"].       (* the same point *)
Definition xv_swapped : node := El (s "vector") [] [xnum "y" "1"; xnum "x" "2"]. (* another *)
Definition xangle (x : string) : node := El (s "angle") [(s "value", AStr (s x))] [].
Definition xpart (k : string) (n : node) : node := El (s k) [] [n].
Definition xtrans (o sc : node) : node :=
  El (s "composite") [(s "type", AStr (s "transformation"))] [xpart "offset" o; xpart "angle" (xangle "0.5"); xpart "skew_angle" (xangle "0"); xpart "scale" sc].
Definition xstop (p : string) (r : string) : node := El (s "color") [(s "pos", AStr (s p))] [xnum "r" r; xnum "g" "0"; xnum "b" "0.5"; xnum "a" "1"].
Definition xgrad : node := El (s "gradient") [] [xstop "0" "0"; xstop "0.5" "1"; xstop "1" "0.25"].
(** The same in another order, and with a position written otherwise *)
Definition xgrad2 : node := El (s "gradient") [] [xstop "1.0" "0.25"; xstop "0" "0"; xstop "0.5" "1"].

(** ** C130 comparing vectors *)

(** Vectors are compared by the numbers they have, in the order in which these are in the file. *)
Theorem C130_numbers : forall a b la lb cx, reads a la -> reads b lb ->
  exists r, vec_eq a (PVal VXY b cx) = Ok r /\ (r = true <-> Forall2 Qeq la lb).
Proof. exact vec_eq_reads. Qed.
Print Assumptions C130_numbers.
(** So they are equal if and only if their coordinates are, if x comes before y in both. What is missing: other orders, see below. *)
Theorem C130_partial : forall a b x y z w cx, plain_xy a x y -> plain_xy b z w ->
  (exists r, vec_eq a (PVal VXY b cx) = Ok r /\ (r = true <-> x == z /\ y == w)%Q) /\
  (exists r, vec_eq a (PTuple [PFlo z; PFlo w]) = Ok r /\ (r = true <-> x == z /\ y == w)%Q).
Proof.
  intros a b x y z w cx A B. apply plain_reads in A as (A & _). apply plain_reads in B as (B & _). split.
  - destruct (vec_eq_reads a b _ _ cx A B) as (r & E & H). exists r. split; [exact E|]. now rewrite H, two_equal.
  - destruct (vec_eq_tuple a _ [z; w] A) as (r & E & H). exists r. split; [exact E|]. now rewrite H, two_equal.
Qed.
Print Assumptions C130_partial.
(** Vectors made by the library are like that. *)
Theorem C130_made : forall x y, exists n, new_value VXY (PTuple [PFlo x; PFlo y]) = Ok n /\ plain_xy n (round_dec 10 x) (round_dec 10 y).
Proof.
  intros x y. exists (El (s "vector") [] (xy_tags x y)). split; [apply xy_value|]. unfold xy_tags. split; [reflexivity|]. split; [reflexivity|].
  split; [change (bind (bind (float_opt (Some (fmt_f 10 x))) (fun q => Ok (Some q))) (fun o => match o with None => Err KeyError | Some q => Ok q end) = Ok (round_dec 10 x))
         |change (bind (bind (float_opt (Some (fmt_f 10 y))) (fun q => Ok (Some q))) (fun o => match o with None => Err KeyError | Some q => Ok q end) = Ok (round_dec 10 y))];
    unfold float_opt; rewrite parse_fmt_f; reflexivity.
Qed.
Print Assumptions C130_made.
(** Being equal is an equivalence on the vectors that can be read. *)
Theorem C130_equivalence : forall a b c la lb lc cx, reads a la -> reads b lb -> reads c lc ->
  vec_eq a (PVal VXY a cx) = Ok true /\ (vec_eq a (PVal VXY b cx) = Ok true -> vec_eq b (PVal VXY a cx) = Ok true) /\
  (vec_eq a (PVal VXY b cx) = Ok true -> vec_eq b (PVal VXY c cx) = Ok true -> vec_eq a (PVal VXY c cx) = Ok true).
Proof.
  intros a b c la lb lc cx A B C. split; [|split].
  - destruct (vec_eq_reads a a _ _ cx A A) as (r & -> & H). f_equal. apply H. clear. induction la; constructor; auto. reflexivity.
  - destruct (vec_eq_reads a b _ _ cx A B) as (r & -> & H). intros [= ->]. destruct (vec_eq_reads b a _ _ cx B A) as (r & -> & H'). f_equal. apply H'. assert (X : Forall2 Qeq la lb) by now apply H. clear - X. induction X; constructor; auto. now symmetry.
  - destruct (vec_eq_reads a b _ _ cx A B) as (r & -> & H). intros [= ->]. destruct (vec_eq_reads b c _ _ cx B C) as (r & -> & H'). intros [= ->]. destruct (vec_eq_reads a c _ _ cx A C) as (r & -> & H2). f_equal. apply H2.
    assert (X : Forall2 Qeq la lb) by now apply H. assert (Y : Forall2 Qeq lb lc) by now apply H'. clear - X Y. revert lc Y. induction X; intros lc Y; inversion_clear Y; constructor; auto. etransitivity; eauto.
Qed.
Print Assumptions C130_equivalence.
(** The same point, written with y first, isn't equal; and different points may be. *)
Theorem C130_refuted : exists a b c, from_tag a = Ok VXY /\ from_tag b = Ok VXY /\ from_tag c = Ok VXY /\
  (forall k, vector_getitem a k = vector_getitem b k) /\ vec_eq a (PVal VXY b None) = Ok false /\
  vector_getitem a (s "x") = Ok 1%Q /\ vector_getitem c (s "x") = Ok 2%Q /\ vec_eq a (PVal VXY c None) = Ok true.
Proof.
  exists xv12, xv21, xv_swapped. split; [vm_compute; reflexivity|]. split; [vm_compute; reflexivity|]. split; [vm_compute; reflexivity|]. split; [|repeat split; vm_compute; reflexivity].
  intros k. unfold vector_getitem, vector_get, xv12, xv21, xnum, has_name. cbn [child_tags tag_kids is_tag filter tag_name]. destruct (pstr_eqb (s "x") k) eqn:E1; destruct (pstr_eqb (s "y") k) eqn:E2; try reflexivity.
  apply pstr_eqb_spec in E1. subst k. discriminate.
Qed.
Print Assumptions C130_refuted.
Example C130_nonvacuous : plain_xy xv12 1 2 /\ reads xv12 [1; 2]%Q /\ reads xv21 [2; 1]%Q.
Proof. repeat split; vm_compute; reflexivity. Qed.

(** ** C131 comparing gradients *)

(** Gradients are equal if and only if they show the same colours at the same positions, whatever the order in the file. *)
Theorem C131_gradients : forall a b cx cy da db, grad_reads a cx da -> grad_reads b cy db ->
  exists r, grad_eq a cx (PVal VGradient b cy) = Ok r /\ (r = true <-> forall q x, shows da q x <-> shows db q x).
Proof. exact grad_eq_reads. Qed.
Print Assumptions C131_gradients.
Theorem C131_equivalence : forall a b c ca cb cc da db dc, grad_reads a ca da -> grad_reads b cb db -> grad_reads c cc dc ->
  grad_eq a ca (PVal VGradient a ca) = Ok true /\ (grad_eq a ca (PVal VGradient b cb) = Ok true -> grad_eq b cb (PVal VGradient a ca) = Ok true) /\
  (grad_eq a ca (PVal VGradient b cb) = Ok true -> grad_eq b cb (PVal VGradient c cc) = Ok true -> grad_eq a ca (PVal VGradient c cc) = Ok true).
Proof.
  intros a b c ca cb cc da db dc A B C. split; [|split].
  - destruct (grad_eq_reads a a ca ca _ _ A A) as (r & -> & H). f_equal. apply H. tauto.
  - destruct (grad_eq_reads a b ca cb _ _ A B) as (r & -> & H). intros [= ->]. destruct (grad_eq_reads b a cb ca _ _ B A) as (r & -> & H'). f_equal. apply H'. intros q x. symmetry. now apply H.
  - destruct (grad_eq_reads a b ca cb _ _ A B) as (r & -> & H). intros [= ->]. destruct (grad_eq_reads b c cb cc _ _ B C) as (r & -> & H'). intros [= ->]. destruct (grad_eq_reads a c ca cc _ _ A C) as (r & -> & H2). f_equal. apply H2.
    intros q x. rewrite (proj1 H eq_refl q x). now apply H'.
Qed.
Print Assumptions C131_equivalence.
Lemma xgrad_reads : exists d, grad_reads xgrad None d /\ length d = 3%nat.
Proof.
  exists (match gradient_val xgrad None with Ok d => d | Err _ => [] end). split; [split; [vm_compute; reflexivity|]|vm_compute; reflexivity].
  assert (E : gradient_val xgrad None = Ok [(0%Q, PVal VColor (xstop "0" "0") None); ((1 # 2)%Q, PVal VColor (xstop "0.5" "1") None); (1%Q, PVal VColor (xstop "1" "0.25") None)]) by (vm_compute; reflexivity).
  rewrite E. intros q v [H|[H|[H|[]]]]; injection H as <- <-; eexists _, None, _; (split; [reflexivity|vm_compute; reflexivity]).
Qed.
Example C131_nonvacuous : (exists d, grad_reads xgrad None d /\ length d = 3%nat) /\ xgrad <> xgrad2 /\ grad_eq xgrad None (PVal VGradient xgrad2 None) = Ok true.
Proof. split; [exact xgrad_reads|]. split; [discriminate|vm_compute; reflexivity]. Qed.

(** ** C132 comparing transformations *)

(** Transformations are equal if and only if their offsets, angles, skew angles and scales are. What is missing: vectors in them with y
    before x, as in C130, and parts which aren't there, or animated. *)
Theorem C132_partial : forall n m cx cy o1 o2 a w s1 s2 p1 p2 b x t1 t2, trans_reads n cx o1 o2 a w s1 s2 -> trans_reads m cy p1 p2 b x t1 t2 ->
  exists r, trans_eq n cx (PVal VTransformation m cy) = Ok r /\
    (r = true <-> (o1 == p1 /\ o2 == p2) /\ a == b /\ w == x /\ (s1 == t1 /\ s2 == t2))%Q.
Proof. exact trans_eq_reads. Qed.
Print Assumptions C132_partial.
(** Comparing a transformation with another dictionary of four items raises an exception, and y before x matters here too. *)
Theorem C132_refuted : exists n m d, from_tag n = Ok VTransformation /\ from_tag m = Ok VTransformation /\
  trans_eq n None (PDict d) = Err KeyError /\
  (forall k, composite_getitem n None k = composite_getitem m None k \/ k = s "offset") /\ trans_eq n None (PVal VTransformation m None) = Ok false /\
  composite_getitem n None (s "offset") = Ok (PVal VXY xv12 None) /\ composite_getitem m None (s "offset") = Ok (PVal VXY xv21 None).
Proof.
  exists (xtrans xv12 xv12), (xtrans xv21 xv12), [(s "a", PInt 1); (s "b", PInt 2); (s "c", PInt 3); (s "d", PInt 4)].
  split; [vm_compute; reflexivity|]. split; [vm_compute; reflexivity|]. split; [vm_compute; reflexivity|]. split; [|repeat split; vm_compute; reflexivity].
  intros k. destruct (pstr_eqb k (s "offset")) eqn:E; [right; now apply pstr_eqb_spec|left]. apply pstr_eqb_neq in E. unfold composite_getitem, composite_get, xtrans, xpart, has_name. cbn [child_tags tag_kids is_tag filter tag_name].
  replace (pstr_eqb (s "offset") k) with false by (symmetry; apply pstr_eqb_neq; congruence). reflexivity.
Qed.
Print Assumptions C132_refuted.
Lemma xtrans_reads : trans_reads (xtrans xv12 xv12) None 1 2 (1 # 2) 0 1 2.
Proof.
  constructor.
  - apply Permutation_refl.
  - exists xv12. split; [vm_compute; reflexivity|]. repeat split; vm_compute; reflexivity.
  - exists (xangle "0.5"). split; vm_compute; reflexivity.
  - exists (xangle "0"). split; vm_compute; reflexivity.
  - exists xv12. split; [vm_compute; reflexivity|]. repeat split; vm_compute; reflexivity.
Qed.
Example C132_nonvacuous : from_tag (xtrans xv12 xv12) = Ok VTransformation /\ trans_reads (xtrans xv12 xv12) None 1 2 (1 # 2) 0 1 2.
Proof. split; [vm_compute; reflexivity|exact xtrans_reads]. Qed.

(** ** C133 the truth of values *)

Definition counts_waypoints (c : vcls) : bool := match c with VBool | VXY | VTransformation | VGradient => false | _ => true end.
(** Real(5) and String('x') are false. *)
Theorem C133_refuted : exists n m, new_value VReal (PFlo 5) = Ok n /\ value_truth VReal n None = Ok false /\ new_value VString (PStr (s "x")) = Ok m /\ value_truth VString m None = Ok false.
Proof. exists (El (s "real") [(s "value", AStr (s "5.0000000000"))] []), (El (s "string") [] [Txt (s "x")]). repeat split; vm_compute; reflexivity. Qed.
Print Assumptions C133_refuted.
(** A Bool that isn't animated is true if and only if it is. Every other value made of one part is false if it isn't animated, and otherwise true if
    it has waypoints. Values made of several parts are true if they have parts; a gradient is never false. *)
Theorem C133_partial : forall c n cx b, value_truth c n cx = Ok b ->
  (c = VBool -> simple_val VBool n cx = Ok (PBool b)) /\
  (counts_waypoints c = true -> (b = true <-> is_animated n = true /\ child_tags n <> [])) /\
  (c = VXY \/ c = VTransformation -> (b = true <-> child_tags n <> [])) /\
  (c = VGradient -> b = true).
Proof.
  intros c n cx b H. split; [|split; [|split]].
  - intros ->. unfold value_truth in H. apply bind_ok in H as (v & E & H). rewrite E. destruct v; try discriminate. now injection H as ->.
  - intros K. assert (E : exists d, waypoints n cx = Ok d /\ b = negb (Z.of_nat (length d) =? 0)).
    { destruct c; try discriminate; cbn [value_truth value_len] in H; apply bind_ok in H as (z & E & H); injection H as <-; unfold tl_len in E; apply bind_ok in E as (d & E & H); injection H as <-; exists d; auto. }
    destruct E as (d & E & ->). rewrite nonzero. apply (waypoints_some n cx d E).
  - intros [->| ->]; cbn [value_truth value_len bind] in H; injection H as <-; rewrite nonzero; unfold vector_dict.
    + apply adict_some.
    + reflexivity.
  - intros ->. cbn [value_truth value_len] in H. apply bind_ok in H as (z & E & H). injection H as <-. apply bind_ok in E as (d & E & H). injection H as <-. apply nonzero. exact (gradient_some n cx d E).
Qed.
Print Assumptions C133_partial.
(** And every Bool has a truth if it can be read. *)
Theorem C133_bool : forall n cx b, simple_val VBool n cx = Ok (PBool b) -> value_truth VBool n cx = Ok b.
Proof. intros n cx b H. unfold value_truth. now rewrite H. Qed.
Print Assumptions C133_bool.
Definition xanim : node :=
  El (s "animated") [(s "type", AStr (s "real"))]
     [El (s "waypoint") [(s "time", AStr (s "1s")); (s "before", AStr (s "clamped")); (s "after", AStr (s "clamped"))] [El (s "real") [(s "value", AStr (s "0"))] []]].
Example C133_nonvacuous :
  value_truth VReal xanim (Some [(s "fps", AStr (s "24"))]) = Ok true /\ value_truth VReal (El (s "real") [(s "value", AStr (s "7"))] []) None = Ok false /\
  value_truth VBool (El (s "bool") [(s "value", AStr (s "true"))] []) None = Ok true /\ value_truth VXY xv12 None = Ok true /\ value_truth VGradient xgrad None = Ok true.
Proof. repeat split; vm_compute; reflexivity. Qed.

(** ** C134 the views of a value *)

(** The keys, values, items, length, iterator and subscripts of a gradient say the same. *)
Theorem C134_gradient : forall n cx l, gradient_items n cx = Ok l ->
  gradient_keys n cx = Ok (map fst l) /\ gradient_values n cx = Ok (map snd l) /\ gradient_iter n cx = Ok (map fst l) /\
  value_len VGradient n cx = Ok (Z.of_nat (length l)) /\
  (forall k v, In (k, v) l -> gradient_getitem n cx k = Ok v) /\
  (forall k v, gradient_getitem n cx k = Ok v -> exists k', In (k', v) l /\ (k' == k)%Q) /\
  (forall i j k k', nth_error (map fst l) i = Some k -> nth_error (map fst l) j = Some k' -> (k == k')%Q -> i = j).
Proof.
  unfold gradient_items, gradient_keys, gradient_values, gradient_iter, gradient_keys, gradient_getitem. intros n cx l H. cbn [value_len]. rewrite H. cbn [bind].
  assert (D := gradient_distinct _ _ _ H). repeat (split; [reflexivity|]). split; [|split].
  - intros k v I. now rewrite (qget_here _ _ _ D I).
  - intros k v G. destruct (qget k l) as [w|] eqn:E; [|discriminate]. injection G as ->. now apply qget_In.
  - intros i j k k' A B E. red in D. apply (proj1 (NoDup_nth_error _) D).
    + rewrite map_length. apply nth_error_Some. now rewrite A.
    + rewrite (map_nth_error Qred _ _ A), (map_nth_error Qred _ _ B). f_equal. now apply Qred_complete.
Qed.
Print Assumptions C134_gradient.

(** Those of a vector that has x and then y do. What is missing: vectors written in another order, see below. *)
Theorem C134_vector_partial : forall n x y, plain_xy n x y ->
  vector_keys n = [s "x"; s "y"] /\ vector_values n = Ok (Some [x; y]) /\ vector_items n = Ok [(s "x", x); (s "y", y)] /\ vector_tuple n = Ok [x; y] /\
  vector_iter n = Ok [x; y] /\ value_len VXY n None = Ok 2 /\ vector_getitem n (s "x") = Ok x /\ vector_getitem n (s "y") = Ok y /\
  vector_getitem_int n 0 = Ok x /\ vector_getitem_int n 1 = Ok y /\ vector_getitem_int n (-1) = Ok y.
Proof.
  intros n x y P. destruct (plain_reads _ _ _ P) as (R & K & U & I). destruct P as (A & _ & X & Y).
  assert (V : vector_values n = Ok (Some [x; y])) by (unfold vector_values; rewrite A, I; reflexivity).
  split; [exact K|]. split; [exact V|]. split; [exact I|]. split; [exact U|]. split; [exact R|].
  split. { cbn [value_len]. rewrite <- (reads_length _ _ R). reflexivity. }
  split; [exact X|]. split; [exact Y|].
  split; [unfold vector_getitem_int; rewrite K; exact X|]. split; unfold vector_getitem_int; rewrite K; exact Y.
Qed.
Print Assumptions C134_vector_partial.
(** With y first, iterating over the vector doesn't give v[0] first, and the keys don't fit the values. With x written twice, v['x'] isn't what the items say. *)
Theorem C134_refuted : exists n m, from_tag n = Ok VXY /\ from_tag m = Ok VXY /\
  vector_iter n = Ok [2; 1]%Q /\ vector_getitem_int n 0 = Ok 1%Q /\ vector_keys n = [s "x"; s "y"] /\ vector_items n = Ok [(s "y", 2%Q); (s "x", 1%Q)] /\
  vector_getitem m (s "x") = Ok 1%Q /\ vector_items m = Ok [(s "x", 3%Q); (s "y", 4%Q)].
Proof. exists xv21, (El (s "vector") [] [xnum "x" "1"; xnum "y" "2"; xnum "x" "3"; xnum "y" "4"]). repeat split; vm_compute; reflexivity. Qed.
Print Assumptions C134_refuted.

(** Those of a transformation do if no part is there twice. *)
Theorem C134_transformation_partial : forall n cx l, composite_items n cx = Ok l -> NoDup (composite_keys n) ->
  composite_keys n = map fst l /\ composite_values n cx = Ok (map snd l) /\ value_len VTransformation n cx = Ok (Z.of_nat (length l)) /\
  (forall k v, In (k, v) l <-> composite_getitem n cx k = Ok v) /\ (forall k v, composite_getitem n cx k = Ok v <-> composite_attr n cx k = Ok v) /\
  (forall k, In k (map fst l) <-> In k [s "offset"; s "angle"; s "skew_angle"; s "scale"]).
Proof. exact trans_views. Qed.
Print Assumptions C134_transformation_partial.
Theorem C134_transformation_refuted : exists n l, from_tag n = Ok VTransformation /\ composite_items n None = Ok l /\
  value_len VTransformation n None = Ok 5 /\ length l = 4%nat /\ length (composite_keys n) = 5%nat /\ composite_getitem n None (s "scale") = Err ValueError.
Proof.
  exists (El (s "composite") [(s "type", AStr (s "transformation"))] [xpart "offset" xv12; xpart "angle" (xangle "0.5"); xpart "skew_angle" (xangle "0"); xpart "scale" xv12; xpart "scale" xv12]).
  eexists. split; [vm_compute; reflexivity|]. split; [vm_compute; reflexivity|]. repeat split; vm_compute; reflexivity.
Qed.
Print Assumptions C134_transformation_refuted.
Example C134_nonvacuous : (exists l, gradient_items xgrad None = Ok l /\ length l = 3%nat) /\ plain_xy xv12 1 2 /\
  (exists l, composite_items (xtrans xv12 xv12) None = Ok l) /\ NoDup (composite_keys (xtrans xv12 xv12)).
Proof.
  split. { destruct xgrad_reads as (d & (E & _) & L). exists d. auto. }
  split; [repeat split; vm_compute; reflexivity|].
  split. { eexists. vm_compute. reflexivity. }
  assert (E : composite_keys (xtrans xv12 xv12) = map fst transformation_keys) by (vm_compute; reflexivity). rewrite E. exact trans_keys_distinct.
Qed.
