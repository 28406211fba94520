(** The groups, and the words of a line on the timeline. *)
From Coq Require Import Lqa ZifyBool ZifyN ZifyNat Permutation Sorting.Sorted.
From Verif Require Import DocProofs LaySpec LayProofs LayProofs5 LayProofs6 AnimSpec TlSpec TlProofs PyFloatProofs SerProofs.
From Verif Require Import BywModel BywSpec BywProofs BywProofs2 BywProofs3 BywProofs4 BywProofs5 BywProofs6 BywProofs7 BywProofs8 BywProofs9 BywProofs10 BywProofs11.
Local Open Scope N_scope.

(** ** The groups *)

Lemma text_class : exists c, from_name layer_registry (s "text") = Ok c /\ own_type c = false.
Proof. eexists. split; vm_compute; reflexivity. Qed.
Lemma group_class : exists c, from_name layer_registry (s "group") = Ok c /\ own_type c = false.
Proof. eexists. split; vm_compute; reflexivity. Qed.
Lemma typed_of x n : (exists c, from_name layer_registry x = Ok c /\ own_type c = false) -> typed x n = layer_of_type x n.
Proof.
  intros (c & Hc & Ho). unfold typed, layer_of_type, layer_class. destruct (is_layer n); [|reflexivity]. cbn [andb]. destruct (aget (s "type") (iattrs n)) as [[y| | |]|]; try reflexivity.
  destruct (pstr_eqb y x) eqn:E; [|apply Bool.andb_false_r]. apply pstr_eqb_spec in E. subst y. now rewrite Hc, Ho.
Qed.
Lemma make_texts_are k l : forall i r, make_texts k i l = Ok r -> Forall2 is_text l r.
Proof.
  induction l as [|n l IH]; intros i r H; cbn [make_texts] in H; [injection H as <-; constructor|]. unfold make_text, attr_get in H.
  destruct (aget (s "desc") (iattrs n)) as [v|] eqn:Ed; [|discriminate]. cbn [attr_conv bind] in H.
  destruct (make_texts k (S i) l) as [r'|] eqn:E; [|discriminate]. injection H as <-. constructor; [|now apply (IH (S i))]. split; [reflexivity|]. unfold desc_of. now rewrite Ed.
Qed.
Lemma make_groups_are st F l : Forall plainly l -> forall k r, make_groups st F k l = Ok r ->
  Forall2 is_group (filter (fun n => match desc_of n with Some d => starts_with (s "bywords") (lower d) | None => false end) l) r.
Proof.
  induction 1 as [|n l [P1 P2] _ IH]; intros k r H; cbn [make_groups] in H; [injection H as <-; constructor|]. unfold attr_get in H. cbn [filter]. unfold desc_of at 1.
  destruct (aget (s "desc") (iattrs n)) as [v|] eqn:Ed; cbn [attr_conv bind] in H; [|now apply (IH k)].
  destruct (starts_with (s "bywords") (lower (aval_str v))); [|now apply (IH k)]. unfold make_group in H. rewrite find_type in H by assumption. cbn [bind] in H.
  destruct (make_texts k 0 (rev (filter (typed (normalise (s "text"))) (idesc n)))) as [ts|] eqn:Et; [|discriminate]. cbn [bind] in H.
  destruct (make_groups st F (S k) l) as [r'|] eqn:E; [|discriminate]. injection H as <-. constructor; [|now apply (IH (S k))]. split; [unfold desc_of; now rewrite Ed|].
  cbn [bg_texts]. apply make_texts_are in Et. change (normalise (s "text")) with (s "text") in Et.
  rewrite (filter_ext (layer_of_type (s "text")) (typed (s "text"))); [exact Et|]. intros a. symmetry. apply typed_of, text_class.
Qed.
Lemma sort_groups_sorted l : Sorted (fun a b => pstr_le (bg_desc a) (bg_desc b) = true) (sort_groups l).
Proof.
  unfold sort_groups. induction l as [|g l IH]; [constructor|]. cbn [sort fold_right].
  change (fold_right (ins (fun a b => pstr_le (bg_desc a) (bg_desc b))) [] l) with (sort (fun a b => pstr_le (bg_desc a) (bg_desc b)) l).
  induction IH as [|a m Hm IHm Hd]; [repeat constructor|]. cbn [ins]. destruct (pstr_le (bg_desc g) (bg_desc a)) eqn:E; [constructor; [now constructor|now constructor]|].
  constructor; [exact IHm|]. apply AnimProofs.pstr_le_total in E. destruct m as [|b m]; [now constructor|]. cbn [ins]. inversion Hd; subst. destruct (pstr_le (bg_desc g) (bg_desc b)); now constructor.
Qed.
Lemma groups_found st F root gs : plainly root -> bywords_groups st F root = Ok gs ->
  exists gs0, Permutation gs gs0 /\ Forall2 is_group (filter bywords_layer (idesc root)) gs0 /\ Sorted (fun a b => pstr_le (bg_desc a) (bg_desc b) = true) gs.
Proof.
  intros P H. pose proof P as [P1 P2]. unfold bywords_groups in H. rewrite find_groups, find_type in H by assumption. cbn [bind] in H.
  destruct (make_groups st F 0 (filter (typed (normalise (s "group"))) (idesc root))) as [gs0|] eqn:E; [|discriminate]. injection H as <-. exists gs0.
  split; [apply (sort_perm _)|]. split; [|apply sort_groups_sorted].
  apply make_groups_are in E.
  - change (normalise (s "group")) with (s "group") in E. 
    assert (X : filter bywords_layer (idesc root) = filter (fun n => match desc_of n with Some d => starts_with (s "bywords") (lower d) | None => false end) (filter (typed (s "group")) (idesc root))); [|rewrite X; exact E].
    clear E P1 P2. induction (idesc root) as [|n l IH]; [reflexivity|]. cbn [filter]. rewrite (typed_of _ n group_class). unfold bywords_layer at 1. destruct (layer_of_type (s "group") n); cbn [andb filter]; [|exact IH].
    destruct (desc_of n) as [d|]; [|exact IH]. destruct (starts_with _ _); [now rewrite IH|exact IH].
  - apply Forall_forall. intros n Hn. apply filter_In in Hn as [Hn _]. now apply (plainly_in root).
Qed.

(** ** One line *)

Lemma same_group gs g g' t t' : NoDup (map bt_layer (all_texts gs)) -> In g gs -> In g' gs -> In t (bg_texts g) -> In t' (bg_texts g') -> bt_layer t = bt_layer t' -> g = g'.
Proof.
  unfold all_texts. induction gs as [|h gs IH]; intros N Hg Hg' Ht Ht' E; [contradiction|]. cbn [flat_map] in N. rewrite map_app in N. apply NoDup_app_parts in N as (N1 & N2 & N3).
  assert (K : forall g t, In g gs -> In t (bg_texts g) -> In (bt_layer t) (map bt_layer (flat_map bg_texts gs))) by (intros x y Hx Hy; apply in_map, in_flat_map; eauto).
  destruct Hg as [->|Hg], Hg' as [->|Hg'].
  - reflexivity.
  - exfalso. apply (N3 (bt_layer t)); [now apply in_map|]. rewrite E. now apply (K g').
  - exfalso. apply (N3 (bt_layer t')); [now apply in_map|]. rewrite <- E. now apply (K g).
  - auto.
Qed.
(** The words of a layer, if one line only has the text of its group *)
Lemma only_line letter gs l1 line l2 g t : NoDup (map bt_layer (all_texts gs)) -> group_for gs (snd line) = Some g -> In t (bg_texts g) ->
  (forall line', In line' (l1 ++ l2) -> group_for gs (snd line') <> Some g) ->
  filter (fun w => wd_layer w =? bt_layer t) (flat_map (line_words letter gs) (l1 ++ line :: l2)) = filter (fun w => wd_layer w =? bt_layer t) (line_words letter gs line).
Proof.
  intros N G Ht H.
  assert (X : forall l, (forall line', In line' l -> group_for gs (snd line') <> Some g) -> filter (fun w => wd_layer w =? bt_layer t) (flat_map (line_words letter gs) l) = []).
  { intros l Hl. apply filter_none. intros w Hw. apply in_flat_map in Hw as (line' & Hl' & Hw). pose proof (line_words_of letter gs line') as O. rewrite Forall_forall in O.
    destruct (O w Hw) as (_ & g' & Hg' & t' & Ht' & _ & Et). apply N.eqb_neq. intros E. apply (Hl line' Hl'). rewrite Hg'. f_equal. symmetry.
    apply (same_group gs g g' t t' N); auto; [now apply (group_for_In gs (snd line))|now apply (group_for_In gs (snd line'))|congruence]. }
  rewrite flat_map_app. cbn [flat_map]. rewrite !filter_app, (X l1), (X l2); [now rewrite app_nil_r| |]; intros l' Hl'; apply H, in_or_app; auto.
Qed.
Lemma Forall2_In_r {A B} (R : A -> B -> Prop) l l' x : Forall2 R l l' -> In x l -> exists y, In y l' /\ R x y.
Proof. induction 1 as [|a b l l' Hab _ IH]; intros Hy; [contradiction|]. destruct Hy as [<-|Hy]; [exists b; split; [now left|exact Hab]|]. destruct (IH Hy) as (y & Hx & HR). exists y. split; [now right|exact HR]. Qed.

Lemma make_texts_ok k l : (forall m, In m l -> desc_of m <> None) -> forall i, exists r, make_texts k i l = Ok r.
Proof.
  induction l as [|n l IH]; intros H i; [now eexists|]. cbn [make_texts]. unfold make_text, attr_get. pose proof (H n (or_introl eq_refl)) as D. unfold desc_of in D.
  destruct (aget (s "desc") (iattrs n)) as [v|]; [|contradiction]. cbn [attr_conv bind]. destruct (IH (fun m Hm => H m (or_intror Hm)) (S i)) as (r & ->). now eexists.
Qed.
Lemma make_groups_ok st F l : Forall plainly l ->
  (forall n m, In n l -> (exists d, desc_of n = Some d /\ starts_with (s "bywords") (lower d) = true) -> In m (idesc n) -> layer_of_type (s "text") m = true -> desc_of m <> None) ->
  forall k, exists r, make_groups st F k l = Ok r.
Proof.
  induction 1 as [|n l [P1 P2] _ IH]; intros H k; [now eexists|]. cbn [make_groups]. unfold attr_get.
  assert (IH' : forall k, exists r, make_groups st F k l = Ok r) by (apply IH; intros n' m Hn'; apply (H n' m); now right). clear IH.
  destruct (aget (s "desc") (iattrs n)) as [v|] eqn:Ed; cbn [attr_conv bind]; [|apply IH'].
  destruct (starts_with (s "bywords") (lower (aval_str v))) eqn:Es; [|apply IH']. unfold make_group. rewrite find_type by assumption. cbn [bind].
  change (normalise (s "text")) with (s "text"). destruct (make_texts_ok k (rev (filter (typed (s "text")) (idesc n)))) with (i := 0%nat) as (ts & ->).
  - intros m Hm. apply in_rev, filter_In in Hm as [Hm Ht]. rewrite (typed_of _ _ text_class) in Ht. apply (H n m); auto; [now left|]. exists (aval_str v). unfold desc_of. rewrite Ed. auto.
  - cbn [bind]. destruct (IH' (S k)) as (r & ->). now eexists.
Qed.
Lemma groups_can_be_found st F root : plainly root ->
  (forall n m, In n (idesc root) -> bywords_layer n = true -> In m (idesc n) -> layer_of_type (s "text") m = true -> desc_of m <> None) ->
  exists gs, bywords_groups st F root = Ok gs.
Proof.
  intros P H. pose proof P as [P1 P2]. unfold bywords_groups. rewrite find_groups, find_type by assumption. cbn [bind].
  destruct (make_groups_ok st F (filter (typed (normalise (s "group"))) (idesc root))) with (k := 0%nat) as (gs & ->); [| |now eexists].
  - apply Forall_forall. intros n Hn. apply filter_In in Hn as [Hn _]. now apply (plainly_in root).
  - change (normalise (s "group")) with (s "group"). intros n m Hn (d & Ed & Es) Hm Ht. apply filter_In in Hn as [Hn Hg]. apply (H n m); auto. unfold bywords_layer.
    rewrite (typed_of _ _ group_class) in Hg. now rewrite Hg, Ed, Es.
Qed.
Lemma no_type_check l : forallb (fun z => negb (is_param (s "type_") z)) l = true -> forall z, In z l -> is_param (s "type_") z = false.
Proof. intros H z Hz. rewrite forallb_forall in H. specialize (H z Hz). now destruct (is_param (s "type_") z). Qed.
