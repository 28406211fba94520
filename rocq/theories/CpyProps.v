(** C71: assigning a value of the same class, for the classes that ValProps.v doesn't have, and assigning a value to itself. *)
From Coq Require Import Lia Permutation.
From Verif Require Import ValModel SerModel ValSpec ValProofs ValProofs2 ViewModel CpyModel.
From Verif Require ViewSpec ViewProofs ViewProps.
Local Open Scope Z_scope.

(** ** Strings *)

Theorem C71_strings : forall prior m cy cx, is_animated m = false -> exists n,
  set_value VString prior (PVal VString m cy) = (n, Ok tt) /\ get_value VString n cx = get_value VString m cy.
Proof. intros prior m cy cx A. cbn [set_value]. unfold string_set. cbn [py_str]. rewrite A. eexists. split; [reflexivity|]. reflexivity. Qed.
Print Assumptions C71_strings.
(** If it is animated, the text becomes "(animated)". *)
Theorem C71_strings_refuted : forall prior m cy cx, is_animated m = true -> exists n,
  set_value VString prior (PVal VString m cy) = (n, Ok tt) /\ get_value VString n cx = Ok (PStr (s "(animated)")).
Proof. intros prior m cy cx A. cbn [set_value]. unfold string_set. cbn [py_str]. rewrite A. eexists. split; [reflexivity|]. reflexivity. Qed.
Print Assumptions C71_strings_refuted.
Example C71_strings_nonvacuous : is_animated (El (s "string") [] [Txt (s "Hello")]) = false /\ get_value VString (El (s "string") [] [Txt (s "Hello")]) None = Ok (PStr (s "Hello")) /\
  is_animated (El (s "animated") [(s "type", AStr (s "string"))] []) = true.
Proof. repeat split; vm_compute; reflexivity. Qed.

(** ** Times *)

Theorem C71_times_refuted : forall prior m cy t, get_value VTime m cy = Ok (PT t) -> set_value VTime prior (PVal VTime m cy) = (prior, Err ValueError).
Proof. intros prior m cy t H. cbn [get_value] in H. cbn [set_value]. unfold simple_set, simple_str. cbn [eq_empty_tuple is_none]. rewrite H. reflexivity. Qed.
Print Assumptions C71_times_refuted.
Example C71_times_nonvacuous : get_value VTime (El (s "time") [(s "value", AStr (s "1f"))] []) None = Ok (PT (mkT 1 None)).
Proof. vm_compute. reflexivity. Qed.

(** ** Vectors *)

(** A new vector made from a vector, or one without coordinates to which one is assigned, is that vector, to ten decimals. (One that has coordinates keeps
    showing these as items: C24_items_are_stale_refuted.) *)
Theorem C71_vectors_partial : forall prior m cy x y, child_tags prior = [] -> ViewSpec.plain_xy m x y -> exists n u v,
  set_value VXY prior (PVal VXY m cy) = (n, Ok tt) /\ from_tag n = Ok VXY /\ rounded_to 10 x u /\ rounded_to 10 y v /\
  vector_tuple n = Ok [u; v] /\ vector_getitem n (s "x") = Ok u /\ vector_getitem n (s "y") = Ok v /\ vector_attr n (s "x") = Ok u /\ vector_attr n (s "y") = Ok v.
Proof.
  intros prior m cy x y Hk P. destruct (ViewProps.C134_vector_partial m x y P) as (_ & _ & I & _).
  destruct (vector_prop prior x y Hk) as (n & u & v & E & H1 & H2 & H3 & H4 & H5 & H6 & H7 & H8 & _). exists n, u, v. split; [|tauto]. rewrite <- E.
  cbn [set_value]. unfold vector_set. cbn [vector_members py_items]. rewrite I. reflexivity.
Qed.
Print Assumptions C71_vectors_partial.
Example C71_vectors_nonvacuous : child_tags (empty_tag VXY) = [] /\ ViewSpec.plain_xy ViewProps.xv12 1 2.
Proof. split; [reflexivity|]. apply ViewProps.C134_nonvacuous. Qed.

(** ** Gradients *)

(** A gradient as it is stored here (positions in millionths, colours with six decimals) *)
Theorem C71_gradients : forall prior m cx d, shows m cx d -> gradient_ok d -> six_stops d -> exists n,
  set_value VGradient prior (PVal VGradient m cx) = (n, Ok tt) /\ shows n cx d /\ shows (reload n) cx d.
Proof.
  intros prior m cx d (l & Hg & HF) Hok Hs. assert (Hm : Forall2 makes l d) by (eapply shows_makes; [exact Hg|exact HF|apply Hok|exact Hs]).
  destruct (gradient_set_dict_shows prior l d d Hm (Permutation_refl d) Hok) as (n & E & _ & _ & S). exists n. split; [|apply S].
  cbn [set_value gradient_set]. cbn [get_value] in Hg. destruct (gradient_val m cx) as [l'|]; [|discriminate]. cbn [bind] in Hg. injection Hg as ->. exact E.
Qed.
Print Assumptions C71_gradients.
Example C71_gradients_nonvacuous : exists n, shows n None [(0, [0; 0; 0; 1]%Q); (1000000, [1; 1; 1; 1]%Q)] /\ gradient_ok [(0, [0; 0; 0; 1]%Q); (1000000, [1; 1; 1; 1]%Q)] /\ six_stops [(0, [0; 0; 0; 1]%Q); (1000000, [1; 1; 1; 1]%Q)].
Proof.
  assert (G : gradient_ok [(0, [0; 0; 0; 1]%Q); (1000000, [1; 1; 1; 1]%Q)]) by (split; [repeat constructor|split; [repeat constructor; cbn; lia|cbn; lia]]).
  destruct (gradient_dict_shows (empty_tag VGradient) _ _ (Permutation_refl _) G) as (n & _ & _ & _ & S). destruct (S None) as [S1 _]. exists n. split; [exact S1|]. split; [exact G|]. repeat constructor.
Qed.

(** ** Transformations *)

(** Whatever is in it, a transformation isn't copied: the TypeError of its angles (C71_numbers_refuted) comes when the tag has been cleared, so that the
    angle it had is lost. *)
Definition parts_ok (d : list (pstr * pyval)) : Prop := forall k v, In (k, v) d ->
  if existsb (pstr_eqb k) [s "angle"; s "skew_angle"] then exists t cy, v = PVal VAngle t cy else exists t cy x y, v = PVal VXY t cy /\ ViewSpec.plain_xy t x y.
Lemma no_angle_appended l : forall acc, parts_ok l -> (forall k v, In (k, v) l -> aget k transformation_keys <> None) -> In (s "angle") (map fst l) -> (forall f, In f acc -> tag_name f <> s "angle") ->
  exists k, composite_append acc l = (k, Err TypeError) /\ forall f, In f k -> tag_name f <> s "angle".
Proof.
  induction l as [|[k v] l IH]; intros acc P K I A; [contradiction|]. cbn [composite_append]. pose proof (P k v (or_introl eq_refl)) as Pk. pose proof (K k v (or_introl eq_refl)) as Kk.
  assert (E : In (k, aget k transformation_keys) [(s "offset", Some VXY); (s "angle", Some VAngle); (s "skew_angle", Some VAngle); (s "scale", Some VXY)]).
  { unfold transformation_keys in *. cbn [aget] in *. repeat match goal with |- context [pstr_eqb k ?x] => destruct (pstr_eqb k x) eqn:?; [match goal with H : pstr_eqb k _ = true |- _ => apply pstr_eqb_spec in H; subst k end; cbn; auto|] end. contradiction Kk; reflexivity. }
  assert (Ang : forall t cy, new_flat VAngle (PVal VAngle t cy) = Err TypeError) by reflexivity.
  assert (Vec : forall t cy x y, ViewSpec.plain_xy t x y -> exists n, new_flat VXY (PVal VXY t cy) = Ok n).
  { intros t cy x y Pl. destruct (C71_vectors_partial (empty_tag VXY) t cy x y eq_refl Pl) as (n & _ & _ & H & _). exists n. unfold new_flat. cbn [set_value] in H. rewrite H. reflexivity. }
  assert (Go : forall n, k <> s "angle" -> In (s "angle") (map fst l) -> exists k0, composite_append (acc ++ [El k [] [n; Txt [10%N]]]) l = (k0, Err TypeError) /\ (forall f, In f k0 -> tag_name f <> s "angle")).
  { intros n Hne Hin. apply IH; [intros k' v' H; apply P; now right|intros k' v' H; apply (K k' v'); now right|exact Hin|]. intros f Hf. apply in_app_iff in Hf as [Hf|[<-|[]]]; [now apply A|exact Hne]. }
  destruct (aget k transformation_keys) as [c|]; [|now contradiction Kk]. clear Kk. cbn [In] in E. destruct E as [E|[E|[E|[E|[]]]]]; injection E as <- <-.
  - destruct Pk as (t & cy & x & y & -> & Pl). destruct (Vec t cy x y Pl) as [n ->]. apply Go; [discriminate|]. destruct I as [I|I]; [discriminate I|exact I].
  - destruct Pk as (t & cy & ->). rewrite Ang. eauto.
  - destruct Pk as (t & cy & ->). rewrite Ang. eauto.
  - destruct Pk as (t & cy & x & y & -> & Pl). destruct (Vec t cy x y Pl) as [n ->]. apply Go; [discriminate|]. destruct I as [I|I]; [discriminate I|exact I].
Qed.
Theorem C71_transformations_refuted : forall prior m cy cx d, composite_val m cy = Ok d -> parts_ok d -> exists n,
  set_value VTransformation prior (PVal VTransformation m cy) = (n, Err TypeError) /\ composite_getitem n cx (s "angle") = Err KeyError.
Proof.
  intros prior m cy cx d H P. assert (Ks : forall k, In k (map fst d) <-> In k (map fst transformation_keys)).
  { unfold composite_val in H. destruct (mapM (composite_field cy) (child_tags m)) as [l|]; [|discriminate]. cbn [bind] in H. destruct (same_keys _ _) eqn:E; [|discriminate]. injection H as <-. now apply ViewProofs.same_keys_in. }
  assert (Kn : forall k, In k (map fst d) -> aget k transformation_keys <> None).
  { intros k Hk. apply Ks in Hk. cbn [map fst In] in Hk. destruct Hk as [<-|[<-|[<-|[<-|[]]]]]; vm_compute; discriminate. }
  destruct (no_angle_appended d [] P) as (k & E & Hk); [intros k v Hi; apply Kn; apply in_map_iff; now exists (k, v)|apply Ks; cbn; auto|intros f []|].
  exists (El (tag_name prior) (tag_attrs prior) k). split.
  - cbn [set_value]. unfold composite_set. cbn [py_items]. rewrite H. cbn [bind].
    assert (Es : str_keys (map (fun kv : pstr * pyval => (KS (fst kv), snd kv)) d) = Some d) by (clear; induction d as [|[a b] d IH]; [reflexivity|]; cbn [map str_keys fst snd]; now rewrite IH). rewrite Es.
    replace (forallb _ d) with true; [now rewrite E|]. symmetry. apply forallb_forall. intros [a b] Hi. cbn [fst]. pose proof (Kn a ltac:(apply in_map_iff; now exists (a, b))) as Hn. destruct (aget a transformation_keys); [reflexivity|contradiction].
  - unfold composite_getitem, composite_get. replace (filter _ _) with (@nil node); [reflexivity|]. symmetry. unfold child_tags. cbn [tag_kids]. clear - Hk. induction k as [|f k IH]; [reflexivity|]. cbn [filter].
    assert (IH' := IH (fun g G => Hk g (or_intror G))). destruct (is_tag f); [|exact IH']. cbn [filter]. unfold has_name at 1. destruct (pstr_eqb (tag_name f) (s "angle")) eqn:Q; [|exact IH']. apply pstr_eqb_spec in Q. now contradiction (Hk f (or_introl eq_refl)).
Qed.
Print Assumptions C71_transformations_refuted.
Example C71_transformations_nonvacuous : exists d, composite_val (ViewProps.xtrans ViewProps.xv12 ViewProps.xv12) None = Ok d /\ parts_ok d.
Proof.
  eexists. split; [vm_compute; reflexivity|]. intros k v H. cbn [In] in H. destruct H as [H|[H|[H|[H|[]]]]]; injection H as <- <-; cbn; eauto; do 4 eexists; (split; [reflexivity|apply ViewProps.C134_nonvacuous]).
Qed.

(** [t.value = t] empties the transformation, and raises an AssertionError, for every transformation that can be read. *)
Theorem C71_itself_refuted : forall n cx v, get_value VTransformation n cx = Ok v -> exists m, set_same VTransformation n cx = (m, Err AssertionError) /\ tag_kids m = [].
Proof.
  intros n cx v H. cbn [get_value] in H. cbn [set_same]. unfold composite_set_same. destruct (composite_val n cx) as [d|]; [|discriminate]. eexists. split; reflexivity.
Qed.
Print Assumptions C71_itself_refuted.
(** Texts, truth values, colours and gradients as they are stored stay the same when they are assigned to themselves. *)
Theorem C71_itself_partial : forall n cx,
  (forall x, is_animated n = false -> get_value VString n cx = Ok x -> exists m, set_same VString n cx = (m, Ok tt) /\ get_value VString m cx = Ok x) /\
  (forall b, get_value VBool n cx = Ok (PBool b) -> exists m, set_same VBool n cx = (m, Ok tt) /\ get_value VBool m cx = Ok (PBool b)) /\
  (forall l, color_tuple n = Ok l -> exists m, set_same VColor n cx = (m, Ok tt) /\ color_tuple m = Ok (six_decimals l)) /\
  (forall d, shows n cx d -> gradient_ok d -> six_stops d -> exists m, set_same VGradient n cx = (m, Ok tt) /\ shows m cx d).
Proof.
  intros n cx. cbn [set_same]. split; [|split; [|split]].
  - intros x A H. destruct (C71_strings n n cx cx A) as (m & E & G). exists m. split; [exact E|]. now rewrite G.
  - intros b H. pose proof (bool_copy n n cx b H) as (m & E & G). exists m. split; [exact E|]. apply G.
  - intros l H. destruct (color_copy n n cx l H) as (m & E & G & _). eauto.
  - intros d H1 H2 H3. destruct (C71_gradients n n cx d H1 H2 H3) as (m & E & G & _). eauto.
Qed.
Print Assumptions C71_itself_partial.
Example C71_itself_nonvacuous : (exists v, get_value VTransformation (ViewProps.xtrans ViewProps.xv12 ViewProps.xv12) None = Ok v) /\ color_tuple (color_node [] [0; 1; 0; 1]%Q) = Ok [0; 1; 0; 1]%Q.
Proof. split; [eexists; vm_compute; reflexivity|vm_compute; reflexivity]. Qed.
