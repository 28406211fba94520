(** Exactly what find_all finds, given a class (C85). *)
From Verif Require Import LayModel LaySpec DocProofs LayProofs LayProofs7 LayProps ClsTable ClsProofs ClsProps RegistryProofs RegistrySpec.
From Coq Require Import Lia ZifyN ZifyBool.

Local Open Scope N_scope.

(** A type without capitals and underscores *)
Definition plain_type (t : pstr) : Prop := Forall (fun c => c <> 95 /\ ~ (65 <= c <= 90)) t.
Lemma plain_normalise t : plain_type t <-> normalise t = t.
Proof.
  assert (L : forall x, (length (normalise x) <= length x)%nat).
  { induction x as [|c x IH]; [constructor|]. rewrite normalise_cons. destruct (c =? 95); cbn [length]; lia. }
  unfold plain_type. induction t as [|c t IH]; [split; [reflexivity|constructor]|]. rewrite normalise_cons. split.
  - inversion 1 as [|? ? [A B] C]; subst. apply N.eqb_neq in A. rewrite A. apply IH in C. rewrite C. f_equal. unfold lower_char, is_upper. destruct ((65 <=? c) && (c <=? 90)) eqn:E; lia.
  - destruct (N.eqb_spec c 95) as [->|Hc].
    + intros E. pose proof (L t) as H. rewrite E in H. cbn [length] in H. lia.
    + intros [= E1 E2]. constructor; [|now apply IH]. split; [exact Hc|]. unfold lower_char, is_upper in E1. destruct ((65 <=? c) && (c <=? 90)) eqn:E; lia.
Qed.
Lemma plain_again x : plain_type (normalise x).
Proof.
  induction x as [|c x IH]; [constructor|]. rewrite normalise_cons. destruct (N.eqb_spec c 95); [exact IH|]. constructor; [|exact IH].
  unfold lower_char, is_upper. destruct ((65 <=? c) && (c <=? 90)) eqn:E; lia.
Qed.

(** The layers that are found are those below of that class whose type is written without capitals and underscores in the document, and none if
    the class has a parameter called type_. *)
Theorem C85_exact_partial : forall st F n c, In c layer_classes -> all_known (idesc n) ->
  (forall z, In z (idesc n) -> is_param (s "type_") z = false) ->
  exists l, layer_find_all st F n [PaCls c] true [] None = Ok l /\
    forall y, In y l <-> In y (idesc n) /\ is_layer y = true /\ layer_class y = Ok c /\ own_type c = false /\ exists t, type_is y t /\ plain_type t.
Proof.
  intros st F n c Hc HK Hp. rewrite find_class_name. destruct (find_type_exact st F n (c_name c) HK Hp) as (l & El & Hl).
  exists l. split; [exact El|]. intros y. rewrite Hl. clear Hl El. split.
  - intros (A & B & C & c' & D & G). split; [exact A|]. split; [exact B|].
    assert (X : layer_class y = Ok c) by (unfold layer_class; unfold type_is in C; rewrite C; exact (proj1 (Forall_forall _ _) classes_by_name c Hc)).
    split; [exact X|]. rewrite X in D. injection D as <-. split; [exact G|]. exists (normalise (c_name c)). split; [exact C|apply plain_again].
  - intros (A & B & C & D & t & H1 & H2). split; [exact A|]. split; [exact B|]. split; [|eauto].
    unfold type_is in *. unfold layer_class in C. rewrite H1 in *. do 2 f_equal. apply plain_normalise in H2. rewrite <- H2. now apply class_name_type.
Qed.
Print Assumptions C85_exact_partial.

(** So no layer at all is found by a class with a parameter called type_, or by Layer itself; and of two layers of one class only the one whose
    type is written so. *)
Theorem C85_missed_refuted : forall st F n c, In c layer_classes -> all_known (idesc n) -> (forall z, In z (idesc n) -> is_param (s "type_") z = false) ->
  exists l, layer_find_all st F n [PaCls c] true [] None = Ok l /\ (own_type c = true -> l = []) /\
  forall y t, In y (idesc n) -> is_layer y = true -> layer_class y = Ok c -> type_is y t -> In 95 t \/ (exists a, In a t /\ 65 <= a <= 90) -> ~ In y l.
Proof.
  intros st F n c Hc HK Hp. destruct (C85_exact_partial st F n c Hc HK Hp) as (l & E & H). exists l. split; [exact E|]. split.
  - intros O. destruct l as [|y l]; [reflexivity|]. destruct (proj1 (H y) (or_introl eq_refl)) as (_ & _ & _ & X & _). congruence.
  - intros y t A B C D X I. apply H in I as (_ & _ & _ & _ & t' & T & P). unfold type_is in *. rewrite D in T. injection T as <-.
    unfold plain_type in P. rewrite Forall_forall in P. destruct X as [X|(a & X & R)]; destruct (P _ X) as [P1 P2]; [now apply P1|now apply P2].
Qed.
Print Assumptions C85_missed_refuted.

(** Two layers of one class, one of which is found; and a class with such a parameter *)
Example C85_exact_nonvacuous : let n := IE 1 (s "canvas") [] [xlayer 5 (s "solid_color") []; xlayer 6 (s "solidcolor") []] in
  In cls_Solid_Color layer_classes /\ all_known (idesc n) /\ (forall z, In z (idesc n) -> is_param (s "type_") z = false) /\
  layer_find_all cls_Layer [n] n [PaCls cls_Solid_Color] true [] None = Ok [xlayer 6 (s "solidcolor") []] /\
  map layer_class (idesc n) = [Ok cls_Solid_Color; Ok cls_Solid_Color] /\ existsb own_type layer_classes = true.
Proof.
  cbv zeta. split; [unfold layer_classes; cbn [In]; tauto|]. split.
  { repeat constructor; intros _; eexists; vm_compute; reflexivity. }
  split; [intros z [<-|[<-|[]]]; reflexivity|]. split; [vm_compute; reflexivity|]. split; vm_compute; reflexivity.
Qed.
