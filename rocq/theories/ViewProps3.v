(** More about the views of values. *)
From Verif Require AnimProofs6.
From Verif Require Import ValModel ViewModel ViewProps.

(** C134: a transformation says in the usual way that it has no such part: KeyError for t['k'], AttributeError for t.k. *)
Theorem C134_missing : forall n cx k, (forall f, In f (child_tags n) -> tag_name f <> k) ->
  composite_get n cx k = Ok None /\ composite_getitem n cx k = Err KeyError /\ composite_attr n cx k = Err AttributeError.
Proof.
  intros n cx k H. assert (E : composite_get n cx k = Ok None).
  { unfold composite_get. replace (filter (has_name k) (child_tags n)) with (@nil node); [reflexivity|]. symmetry.
    induction (child_tags n) as [|f l IH]; [reflexivity|]. cbn [filter]. unfold has_name at 1.
    destruct (pstr_eqb (tag_name f) k) eqn:Q; [apply pstr_eqb_spec in Q; exfalso; apply (H f); [now left|exact Q]|]. apply IH. intros g G. apply H. now right. }
  unfold composite_getitem, composite_attr. rewrite E. repeat split.
Qed.
Print Assumptions C134_missing.
Example C134_missing_nonvacuous : forall f, In f (child_tags (xtrans xv12 xv12)) -> tag_name f <> s "length".
Proof. assert (C : forallb (fun f => negb (pstr_eqb (tag_name f) (s "length"))) (child_tags (xtrans xv12 xv12)) = true) by (vm_compute; reflexivity).
  intros f I E. rewrite forallb_forall in C. apply C in I. rewrite E in I. discriminate I. Qed.

(** So does a vector: no default is None, v['k'] is a KeyError, and v.k an AttributeError. *)
Theorem C134_vector_missing : forall n k, (forall f, In f (descendants n) -> tag_name f <> k) ->
  vector_get n k = Ok None /\ vector_getitem n k = Err KeyError /\ vector_attr n k = Err AttributeError.
Proof.
  intros n k H. assert (E : vector_get n k = Ok None).
  { unfold vector_get. replace (filter (has_name k) (child_tags n)) with (@nil node); [reflexivity|]. symmetry.
    assert (G : forall f, In f (child_tags n) -> tag_name f <> k) by (intros f I; apply H; destruct n as [y|nm a kk]; [contradiction|]; rewrite AnimProofs6.desc_tags_of; apply in_flat_map; exists f; split; [exact I|now left]).
    induction (child_tags n) as [|f l IH]; [reflexivity|]. cbn [filter]. unfold has_name at 1.
    destruct (pstr_eqb (tag_name f) k) eqn:Q; [apply pstr_eqb_spec in Q; exfalso; apply (G f); [now left|exact Q]|]. apply IH. intros g I. apply G. now right. }
  split; [exact E|]. unfold vector_getitem. rewrite E. split; [reflexivity|]. unfold vector_attr.
  assert (F : find_first (has_name k) n = None).
  { unfold find_first, find_all. induction (descendants n) as [|f l IH]; [reflexivity|]. cbn [filter]. unfold has_name at 1.
    destruct (pstr_eqb (tag_name f) k) eqn:Q; [apply pstr_eqb_spec in Q; exfalso; apply (H f); [now left|exact Q]|]. apply IH. intros g I. apply H. now right. }
  rewrite F. destruct k as [|c k']; [reflexivity|]. repeat match goal with |- context [match ?x with _ => _ end] => destruct x end; reflexivity.
Qed.
Print Assumptions C134_vector_missing.
Example C134_vector_missing_nonvacuous : forall f, In f (descendants xv12) -> tag_name f <> s "z".
Proof. assert (C : forallb (fun f => negb (pstr_eqb (tag_name f) (s "z"))) (descendants xv12) = true) by (vm_compute; reflexivity).
  intros f I E. rewrite forallb_forall in C. apply C in I. rewrite E in I. discriminate I. Qed.
