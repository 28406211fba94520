(** Property C171: assigning to attributes of vectors and transformations, and copying value objects (OatModel.v). *)
From Verif Require Import PyBase ValModel ValSpec TlModel ViewModel OatModel OatSpec OatProofs.
From Coq Require Import Lia.
Local Open Scope N_scope.

(** An attribute that was not assigned to is the part of the value with that name, and a name that isn't there is an AttributeError. *)
Theorem C171_read : forall depth c n cx k, part_name k -> (2 <= depth)%nat ->
  get_attribute depth (obj_for c) n cx k = Some (has_part c n cx k).
Proof. intros depth c n cx k P D. rewrite (look_at depth (obj_for c) n cx k P eq_refl D). reflexivity. Qed.
Print Assumptions C171_read.

(** But assigning to it is no error and changes nothing in the document, whatever the value, the name and what is assigned; the object itself then
    shows what was assigned, and no other object does. *)
Theorem C171_assignment_refuted : forall depth c n cx k v, part_name k -> (2 <= depth)%nat ->
  exists o, set_attribute (obj_for c) n k v = ((o, n), Ok tt) /\
  get_attribute depth o n cx k = Some (Ok v) /\
  get_attribute depth (obj_for c) n cx k = Some (has_part c n cx k).
Proof.
  intros depth c n cx k v P D. eexists. split; [apply (own_set (obj_for c) n k v P)|]. split; [|now apply C171_read].
  rewrite look_at; [|exact P|reflexivity|exact D]. cbn [o_own obj_for]. now rewrite aget_aset, (proj2 (pstr_eqb_spec k k) eq_refl).
Qed.
Print Assumptions C171_assignment_refuted.

(** So it is for all programs, with any number of objects for the value, between any other changes of it: the document is what the other changes make
    of it; and each object shows what was last assigned to its own attribute, for good, whatever becomes of the document. *)
Theorem C171_histories_partial : forall c l n st rs, only_parts l -> osteps (n, fun _ => obj_for c) l = (st, rs) ->
  fst st = document n l /\ Forall (eq (Ok tt)) rs /\
  forall i k cx depth, part_name k -> (2 <= depth)%nat ->
    get_attribute depth (snd st i) (fst st) cx k = Some (match last_given i k None l with Some v => Ok v | None => has_part c (document n l) cx k end).
Proof.
  intros c l. assert (G : forall l n os st rs, only_parts l -> (forall i, o_cls (os i) = c /\ o_tag (os i) = true) -> osteps (n, os) l = (st, rs) ->
    fst st = document n l /\ Forall (eq (Ok tt)) rs /\ forall i, o_cls (snd st i) = c /\ o_tag (snd st i) = true /\ forall k, aget k (o_own (snd st i)) = last_given i k (aget k (o_own (os i))) l).
  { clear l. induction l as [|a l IH]; intros n os st rs O H.
    - cbn [osteps]. intros E. injection E as <- <-. cbn [fst snd document last_given]. split; [reflexivity|]. split; [constructor|]. intros i. destruct (H i). auto.
    - inversion O as [|? ? Oa Ol]; subst. cbn [osteps document last_given]. destruct a as [i k v|m]; cbn [ostep fst snd].
      + rewrite (own_set (os i) n k v Oa). set (os' := fun j => if j =? i then _ else os j). destruct (osteps (n, os') l) as [st2 rs2] eqn:E2. intros E. injection E as <- <-.
        destruct (IH n os' st2 rs2 Ol) as (I1 & I2 & I3); [|exact E2|].
        { intros j. unfold os'. destruct (j =? i); [cbn [o_cls o_tag]|]; apply H. }
        split; [exact I1|]. split; [constructor; [reflexivity|exact I2]|]. intros j. destruct (I3 j) as (J1 & J2 & J3). split; [exact J1|]. split; [exact J2|].
        intros k'. rewrite J3. f_equal. unfold os'. rewrite (N.eqb_sym i j). destruct (j =? i) eqn:E; cbn [andb]; [|reflexivity]. cbn [o_own]. apply N.eqb_eq in E. subst j.
        rewrite aget_aset. replace (pstr_eqb k' k) with (pstr_eqb k k'); [reflexivity|]. apply Bool.eq_iff_eq_true. rewrite !pstr_eqb_spec. split; congruence.
      + destruct (osteps (m, os) l) as [st2 rs2] eqn:E2. intros E. injection E as <- <-. destruct (IH m os st2 rs2 Ol H E2) as (I1 & I2 & I3). split; [exact I1|]. split; [constructor; [reflexivity|exact I2]|exact I3]. }
  intros n st rs O E. destruct (G l n (fun _ => obj_for c) st rs O) as (I1 & I2 & I3); [intros i; split; reflexivity|exact E|]. split; [exact I1|]. split; [exact I2|].
  intros i k cx depth P D. destruct (I3 i) as (J1 & J2 & J3). rewrite (look_at depth _ _ cx k P J2 D), J3, J1, I1. reflexivity.
Qed.
Print Assumptions C171_histories_partial.

(** [copy.copy()] of a transformation ends in a RecursionError, however deep the stack may be. *)
Theorem C171_copy_refuted : forall depth o n cx, o_cls o = VTransformation -> copy_object depth o n cx = None.
Proof.
  intros depth o n cx C. unfold copy_object. rewrite C. destruct depth as [|d]; [reflexivity|]. cbn [get_attribute o_tag o_own o_cls aget]. rewrite Bool.andb_false_r. now rewrite endless.
Qed.
Print Assumptions C171_copy_refuted.
(** Of any other value it gives an object for the same tag. *)
Theorem C171_copy : forall depth o n cx, o_cls o <> VTransformation -> (1 <= depth)%nat -> copy_object depth o n cx = Some (Ok o).
Proof.
  intros depth o n cx C D. unfold copy_object. destruct depth as [|d]; [lia|]. cbn [get_attribute o_tag o_own o_cls aget]. rewrite Bool.andb_false_r.
  destruct (o_cls o) eqn:E; try reflexivity. now elim C.
Qed.
Print Assumptions C171_copy.

(** A transformation; [a.angle = 45], [b.angle = 50], the document is changed, [a.angle = 60]; and a vector *)
Definition xtrans : node := match new_value VTransformation (PDict [(s "offset", PTuple [PFlo 1; PFlo 2]); (s "angle", PFlo 30)]) with Ok n => n | Err _ => Txt [] end.
Definition xtrans2 : node := match new_value VTransformation (PDict [(s "angle", PFlo 70)]) with Ok n => n | Err _ => Txt [] end.
Definition xvec : node := match new_value VXY (PTuple [PFlo 1; PFlo 2]) with Ok n => n | Err _ => Txt [] end.
Definition xacts : list oact := [OSet 1 (s "angle") (PInt 45); OSet 2 (s "angle") (PInt 50); ODoc xtrans2; OSet 1 (s "angle") (PInt 60)].
Example C171_nonvacuous : only_parts xacts /\ part_name (s "angle") /\ part_name (s "x") /\ document xtrans xacts = xtrans2 /\
  let st := fst (osteps (xtrans, fun _ => obj_for VTransformation) xacts) in
  fst st = xtrans2 /\ get_attribute 9 (snd st 1) (fst st) None (s "angle") = Some (Ok (PInt 60)) /\ get_attribute 9 (snd st 2) (fst st) None (s "angle") = Some (Ok (PInt 50)) /\
  match get_attribute 9 (snd st 3) (fst st) None (s "angle") with Some (Ok (PVal VAngle t _)) => get_value VAngle t None = Ok (PFlo 70) | _ => False end /\
  get_attribute 9 (snd st 3) (fst st) None (s "size") = Some (Err AttributeError) /\
  get_attribute 9 (obj_for VXY) xvec None (s "y") = Some (Ok (PFlo 2)).
Proof.
  split; [repeat constructor|]. split; [reflexivity|]. split; [reflexivity|]. split; [reflexivity|]. cbv zeta.
  split; [vm_compute; reflexivity|]. split; [vm_compute; reflexivity|]. split; [vm_compute; reflexivity|]. split; [vm_compute; reflexivity|]. split; vm_compute; reflexivity.
Qed.
