(** Proofs about attributes of value objects *)
From Verif Require Import ValModel TlModel ViewModel OatModel OatSpec.
From Coq Require Import Lia.
Local Open Scope N_scope.

Lemma part_not_tag k : part_name k -> pstr_eqb k (s "_tag") = false /\ starts_with (s "_") k = false /\ pstr_eqb k (s "value") = false /\ pstr_eqb k (s "tag") = false.
Proof.
  unfold part_name, in_class. intros H. apply Bool.orb_false_iff in H as [H C]. apply Bool.orb_false_iff in H as [U _]. split; [|split; [exact U|]].
  - destruct (pstr_eqb k (s "_tag")) eqn:E; [|reflexivity]. apply pstr_eqb_spec in E. subst k. discriminate U.
  - unfold class_names in C. cbn [existsb] in C. repeat (apply Bool.orb_false_iff in C as [? C]). auto.
Qed.

Lemma look_at depth o n cx k : part_name k -> o_tag o = true -> (2 <= depth)%nat ->
  get_attribute depth o n cx k = Some (match aget k (o_own o) with Some v => Ok v | None => has_part (o_cls o) n cx k end).
Proof.
  intros P T D. destruct (part_not_tag k P) as (P1 & P2 & _ & _). destruct depth as [|[|d]]; [lia|lia|]. remember (S d) as d1 eqn:E1. cbn [get_attribute]. rewrite P1. cbn [andb].
  destruct (aget k (o_own o)) as [v|]; [reflexivity|].
  assert (G : get_attribute d1 o n cx (s "_tag") = Some (Ok POther)).
  { subst d1. cbn [get_attribute]. rewrite T, (proj2 (pstr_eqb_spec _ _) eq_refl). reflexivity. }
  rewrite G. unfold has_part. destruct (o_cls o); try reflexivity.
  - rewrite P2. unfold vector_attr. destruct k as [|c k].
    + destruct (find_first _ _); reflexivity.
    + change (((95 =? c) && true)%bool = false) in P2. rewrite Bool.andb_true_r in P2. apply N.eqb_neq in P2.
      assert (X : forall (A : Type) (a b : A), match c :: k with 95 :: _ => a | _ => b end = b).
      { intros A a b. destruct c as [|p]; [reflexivity|]. do 7 (destruct p as [p|p|]; try reflexivity). all: congruence. }
      rewrite X. destruct (find_first _ _); reflexivity.
Qed.

Lemma own_set o n k v : part_name k -> set_attribute o n k v = ((mkObj (o_cls o) (o_tag o) (aset k v (o_own o)), n), Ok tt).
Proof. intros P. unfold set_attribute. destruct (part_not_tag k P) as (_ & _ & -> & ->). unfold part_name in P. now rewrite P. Qed.

Lemma endless depth n cx : get_attribute depth (mkObj VTransformation false []) n cx (s "_tag") = None.
Proof. induction depth as [|d IH]; [reflexivity|]. cbn [get_attribute o_tag o_own o_cls aget]. rewrite Bool.andb_false_r. now rewrite IH. Qed.
