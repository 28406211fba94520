(** What find_all finds, said with the attributes in the file: more of C48 and C83. *)
From Verif Require Import LayModel LaySpec LayProofs LayProofs7 ClsProofs ClsProps LayProps.

Lemma filterM_all {A} (f : A -> res bool) (p : A -> bool) l : (forall x, In x l -> f x = Ok (p x)) -> filterM f l = Ok (filter p l).
Proof.
  induction l as [|x l IH]; intros H; [reflexivity|]. cbn [filterM filter]. rewrite (H x (or_introl eq_refl)). cbn [bind]. rewrite IH by (intros; apply H; now right). cbn [bind]. now destruct (p x).
Qed.
Lemma as_layers l : (forall x, In x l -> known x) -> mapM as_layer l = Ok l.
Proof. induction l as [|x l IH]; intros H; [reflexivity|]. cbn [mapM]. destruct (H x (or_introl eq_refl)) as (k & Hk). unfold as_layer at 1. rewrite Hk. cbn [bind]. rewrite IH by (intros; apply H; now right). reflexivity. Qed.
Lemma find_exact st F n k w p : all_known (idesc n) -> k <> s "type" ->
  (forall y c, In y (idesc n) -> is_layer y = true -> layer_class y = Ok c -> any_match st F y c [(k, w)] = Ok (p y)) ->
  layer_find_all st F n [] true [(k, w)] None = Ok (filter (fun y => is_layer y && p y) (idesc n)).
Proof.
  intros HK Hk H. unfold layer_find_all, criterion_of, with_positional. cbn [bind snd mapM]. unfold target. cbn [fst snd].
  replace (pstr_eqb k (s "type")) with false by (symmetry; now apply pstr_eqb_neq). cbn [bind fst].
  rewrite (filterM_all _ (fun y => is_layer y && p y)).
  - cbn [bind]. apply as_layers. intros x Hx. apply filter_In in Hx as [Hx Hp]. apply andb_prop in Hp as [Hp _]. unfold all_known in HK. rewrite Forall_forall in HK. now apply HK.
  - intros y Hy. unfold matches. destruct (is_layer y) eqn:El; [|reflexivity]. unfold all_known in HK. rewrite Forall_forall in HK. destruct (HK y Hy El) as (c & Hc). rewrite Hc. cbn [bind andb]. now apply H.
Qed.

(** ** C48, by the description *)

(** The layer has a description, and it is x. *)
Definition has_desc (x : pstr) (y : inode) : bool := match aget (s "desc") (iattrs y) with Some v => pstr_eqb (aval_str v) x | None => false end.
Definition has_no_desc (y : inode) : bool := match aget (s "desc") (iattrs y) with Some _ => false | None => true end.
(** [find_all(desc=x)] finds all the layers whose desc is x, in the order of the document, and no others; [find_all(desc=None)] those that don't have one. *)
Theorem C48_by_desc : forall st F n, all_known (idesc n) ->
  (forall x, layer_find_all st F n [] true [(s "desc", WVal (PStr x))] None = Ok (filter (fun y => is_layer y && has_desc x y) (idesc n))) /\
  layer_find_all st F n [] true [(s "desc", WVal PNone)] None = Ok (filter (fun y => is_layer y && has_no_desc y) (idesc n)).
Proof.
  intros st F n HK. split; [intros x|]; (apply find_exact; [exact HK|discriminate|]); intros y c Hy Hl Hc; destruct (C93_attribute_fields st F y c Hc) as (_ & _ & _ & _ & E);
    cbn [any_match]; unfold read_for_match; rewrite E; cbn [bind]; unfold has_desc, has_no_desc; destruct (aget (s "desc") (iattrs y)) as [v|]; cbn [bind]; try reflexivity.
  - unfold field_eq. cbn [bind]. now destruct (pstr_eqb (aval_str v) x).
Qed.
Print Assumptions C48_by_desc.

(** ** C48, by whether layers are active *)

Definition says_true (v : aval) : bool := pstr_eqb (lower (aval_str v)) (s "true").
Definition is_active (y : inode) : bool := match aget (s "active") (iattrs y) with Some v => says_true v | None => true end.
Definition is_excluded (y : inode) : bool := match aget (s "exclude_from_rendering") (iattrs y) with Some v => says_true v | None => false end.
Theorem C48_by_truth : forall st F n b, all_known (idesc n) ->
  layer_find_all st F n [] true [(s "active", WVal (PBool b))] None = Ok (filter (fun y => is_layer y && Bool.eqb (is_active y) b) (idesc n)) /\
  layer_find_all st F n [] true [(s "exclude_from_rendering", WVal (PBool b))] None = Ok (filter (fun y => is_layer y && Bool.eqb (is_excluded y) b) (idesc n)).
Proof.
  intros st F n b HK. split; (apply find_exact; [exact HK|discriminate|]); intros y c Hy Hl Hc; destruct (C93_attribute_fields st F y c Hc) as (E1 & E2 & E3 & E4 & _);
    cbn [any_match]; unfold read_for_match, is_active, is_excluded.
  - destruct (aget (s "active") (iattrs y)) as [v|].
    + assert (E : field_get st F y c (s "active") = Ok (PBool (says_true v))) by (apply (E1 v eq_refl); unfold says_true; apply pstr_eqb_spec). rewrite E. cbn [bind]. destruct (says_true v), b; reflexivity.
    + rewrite (E2 eq_refl). cbn [bind]. now destruct b.
  - destruct (aget (s "exclude_from_rendering") (iattrs y)) as [v|].
    + assert (E : field_get st F y c (s "exclude_from_rendering") = Ok (PBool (says_true v))) by (apply (E3 v eq_refl); unfold says_true; apply pstr_eqb_spec). rewrite E. cbn [bind]. destruct (says_true v), b; reflexivity.
    + rewrite (E4 eq_refl). cbn [bind]. now destruct b.
Qed.
Print Assumptions C48_by_truth.

(** ** C48, with attrs *)

(** [find_all(attrs={k: v, ...})] is [find_all(k=v, ...)], as long as no key is [attrs]. A key that is there twice, or is [attrs], is an error. *)
Theorem C48_attrs : forall st F n rec kw,
  (~ In (s "attrs") (map fst kw) -> NoDup (map fst kw) -> layer_find_all st F n [] rec [] (Some kw) = layer_find_all st F n [] rec kw None) /\
  (In (s "attrs") (map fst kw) \/ ~ NoDup (map fst kw) -> layer_find_all st F n [] rec [] (Some kw) = Err AttributeError).
Proof.
  intros st F n rec kw.
  assert (K : forall k l, has_key (V := want) k l = true <-> In k (map fst l)).
  { intros k l. unfold has_key. rewrite existsb_exists, in_map_iff. split; [intros (z & A & B); apply pstr_eqb_spec in B; exists z; auto|intros (z & A & B); exists z; split; [exact B|apply pstr_eqb_spec; auto]]. }
  assert (A : forall l acc, ~ In (s "attrs") (map fst l) -> NoDup (map fst (acc ++ l)) -> with_attrs acc l = Ok (acc ++ l)).
  { induction l as [|[k w] l IH]; intros acc H1 H2; cbn [with_attrs]; [now rewrite app_nil_r|].
    cbn [map fst In] in H1. assert (E1 : pstr_eqb k (s "attrs") = false) by (apply pstr_eqb_neq; intros ->; apply H1; now left).
    assert (E2 : has_key k acc = false).
    { destruct (has_key k acc) eqn:E; [|reflexivity]. apply K in E. rewrite map_app in H2. cbn [map fst] in H2. apply NoDup_remove_2 in H2. destruct H2. apply in_or_app. now left. }
    rewrite E1, E2. cbn [orb]. rewrite IH; [now rewrite <- app_assoc|intros Hi; apply H1; now right|now rewrite <- app_assoc]. }
  assert (B : forall l acc, NoDup (map fst acc) -> In (s "attrs") (map fst l) \/ ~ NoDup (map fst (acc ++ l)) -> with_attrs acc l = Err AttributeError).
  { induction l as [|[k w] l IH]; intros acc HN H; cbn [with_attrs].
    - rewrite app_nil_r in H. destruct H as [[]|H]; contradiction.
    - destruct (has_key k acc) eqn:E2; [reflexivity|]. destruct (pstr_eqb k (s "attrs")) eqn:E1; [reflexivity|]. cbn [orb]. apply IH.
      + rewrite map_app. cbn [map fst]. assert (N1 : ~ In k (map fst acc)) by (intros Hi; apply K in Hi; congruence).
        clear - HN N1. induction (map fst acc) as [|z r IHr]; cbn; [constructor; [easy|constructor]|]. apply NoDup_cons_iff in HN as [H1 H2]. constructor.
        * intros Hi. apply in_app_or in Hi as [Hi|[<-|[]]]; [contradiction|]. apply N1. now left.
        * apply IHr; [exact H2|]. intros Hi. apply N1. now right.
      + rewrite <- app_assoc. cbn [map fst In] in H. destruct H as [[->|H]|H]; [|now left|now right]. rewrite (proj2 (pstr_eqb_spec _ _) eq_refl) in E1. discriminate. }
  split.
  - intros H1 H2. unfold layer_find_all, criterion_of. cbn [with_positional bind snd]. rewrite (A kw []); auto.
  - intros H. unfold layer_find_all, criterion_of. cbn [with_positional bind snd]. rewrite (B kw []); auto. constructor.
Qed.
Print Assumptions C48_attrs.
Definition fdoc : inode :=
  IE 1 (s "canvas") [] [xlayer 2 (s "text") []; IE 3 (s "layer") [(s "type", AStr (s "circle")); (s "desc", AStr (s "moon")); (s "active", AStr (s "FALSE"))] [];
    IE 4 (s "layer") [(s "type", AStr (s "circle")); (s "desc", AStr []); (s "active", AStr (s "True"))] []].
Example C48_by_nonvacuous : all_known (idesc fdoc) /\
  map ids [filter (fun y => is_layer y && has_desc (s "moon") y) (idesc fdoc); filter (fun y => is_layer y && has_no_desc y) (idesc fdoc);
           filter (fun y => is_layer y && Bool.eqb (is_active y) false) (idesc fdoc); filter (fun y => is_layer y && has_desc [] y) (idesc fdoc)] = [[3%N]; [2%N]; [3%N]; [4%N]] /\
  ~ In (s "attrs") (map fst [(s "desc", WVal (PStr (s "moon")))]) /\ NoDup (map fst [(s "desc", WVal (PStr (s "moon")))]).
Proof.
  split; [|split; [vm_compute; reflexivity|split; [intros [H|[]]; discriminate|constructor; [intros []|constructor]]]].
  apply Forall_forall. intros x Hx Hl. vm_compute in Hx. destruct Hx as [<-|[<-|[<-|[]]]]; eexists; vm_compute; reflexivity.
Qed.

(** ** C42 and C43, for layers that aren't groups *)

(** A layer that isn't a group has no [insert], and [append] is not implemented. Nothing changes. *)
Theorem C42_plain : forall F g l i, group_insert F KPlain g i l = (F, Err AttributeError) /\ group_append F KPlain g l = (F, Err NotImplementedError).
Proof. now split. Qed.
Print Assumptions C42_plain.
