(** Layers with a parameter called type_, among which layers are looked for by class (C85). *)
From Verif Require Import LayModel LaySpec DocProofs LayProofs LayProofs5 LayProofs7 LayProps ClsTable ClsProofs ClsProps RegistryProofs RegistrySpec FtyProps.
Local Open Scope N_scope.

(** The parameter type_ of the layer [y] is a number; or it is animated. *)
Definition number_type (F : forest) (y : inode) : Prop := exists w z, param_get F y (s "type_") = Ok (w, VInteger) /\
  is_animated (forget w) = false /\ get_value VInteger (forget w) (ctx_of F (iuid w)) = Ok (PInt z).
Definition animated_type (F : forest) (y : inode) : Prop := exists w, param_get F y (s "type_") = Ok (w, VInteger) /\
  is_animated (forget w) = true /\ aget (s "value") (iattrs w) = None.
Definition no_type (y : inode) : Prop := forall z, In z (idesc y) -> is_param (s "type_") z = false.
Definition good_types (F : forest) (l : list inode) : Prop := forall y c, In y l -> is_layer y = true -> layer_class y = Ok c -> own_type c = true -> no_type y \/ number_type F y.

Lemma own_fields : Forall (fun c => match aget (s "type_") (all_fields c) with Some (FParam VInteger _) | None => True | _ => False end) layer_classes.
Proof. vm_compute. repeat constructor. Qed.
Lemma own_field c : In c layer_classes -> own_type c = true -> exists d, aget (s "type_") (all_fields c) = Some (FParam VInteger d).
Proof.
  intros H O. unfold own_type in O. rewrite has_key_aget in O. pose proof own_fields as P. rewrite Forall_forall in P. specialize (P c H).
  destruct (aget (s "type_") (all_fields c)) as [[[]| |]|]; try contradiction; try discriminate. eauto.
Qed.
Lemma int_or_not x : (exists z, parse_int x = Ok z) \/ parse_int x = Err ValueError.
Proof. unfold parse_int. destruct (drop_underscores _ _) as [y|]; [|now right]. destruct (split_sign y) as [b r]. destruct r; [now right|]. destruct (forallb _ _); [left; eauto|now right]. Qed.
Lemma match_number st F y c x w z : layer_class y = Ok c -> own_type c = true -> param_get F y (s "type_") = Ok (w, VInteger) ->
  is_animated (forget w) = false -> get_value VInteger (forget w) (ctx_of F (iuid w)) = Ok (PInt z) ->
  any_match st F y c [(s "type_", WVal (PStr x))] = Ok (match parse_int x with Ok a => Z.eqb z a | Err _ => false end).
Proof.
  intros Hc O P A G. destruct (own_field c (layer_class_in y c Hc) O) as (d & E).
  cbn [any_match]. unfold read_for_match, field_get. rewrite E. unfold param_field. rewrite P. cbn [bind snd]. change (inst VInteger VInteger) with true. cbv iota. unfold as_value. cbn [bind fst snd].
  unfold py_str. rewrite A. cbn [get_value] in G. rewrite G. cbn [bind field_eq value_eq]. unfold simple_eq. rewrite G. cbn [is_instance py_int].
  destruct (int_or_not x) as [[a ->]| ->]; cbn [conv_or_keep bind]; [destruct (Z.eqb z a)|]; reflexivity.
Qed.
Lemma match_animated st F y c x : layer_class y = Ok c -> own_type c = true -> animated_type F y -> any_match st F y c [(s "type_", WVal (PStr x))] = Err ValueError.
Proof.
  intros Hc O (w & P & A & G). destruct (own_field c (layer_class_in y c Hc) O) as (d & E).
  cbn [any_match]. unfold read_for_match, field_get. rewrite E. unfold param_field. rewrite P. cbn [bind snd]. change (inst VInteger VInteger) with true. cbv iota. unfold as_value. cbn [bind fst snd].
  unfold py_str. rewrite A. cbn [bind field_eq value_eq]. unfold simple_eq, simple_val. destruct w as [|wu wn wa wk]; [vm_compute in A; discriminate A|]. cbn [forget tag_attrs iattrs] in *. rewrite G. cbn [is_instance py_int]. destruct (int_or_not x) as [[a ->]| ->]; reflexivity.
Qed.
Lemma match_any st F y x : parse_int x = Err ValueError -> (is_layer y = true -> known y) -> good_types F [y] -> matches st F (CAny [(s "type_", WVal (PStr x))]) y = Ok (typed x y).
Proof.
  intros Hx K T. unfold matches, typed. destruct (is_layer y) eqn:El; auto. destruct (K eq_refl) as (c & Hc). rewrite Hc. cbn [bind andb].
  destruct (own_type c) eqn:Eo; cbn [negb andb]; [|now apply match_type].
  destruct (T y c (or_introl eq_refl) El Hc Eo) as [H|(w & z & H1 & H2 & H3)]; [|rewrite (match_number st F y c x w z) by assumption; now rewrite Hx].
  destruct (own_field c (layer_class_in y c Hc) Eo) as (d & E). exact (match_own_type st F y c d _ Hc E x H).
Qed.
Lemma match_some st F y x : (is_layer y = true -> known y) -> good_types F [y] -> exists b, matches st F (CAny [(s "type_", WVal (PStr x))]) y = Ok b.
Proof.
  intros K T. unfold matches. destruct (is_layer y) eqn:El; [|eauto]. destruct (K eq_refl) as (c & Hc). rewrite Hc. cbn [bind].
  destruct (own_type c) eqn:Eo; [|eexists; now apply match_type].
  destruct (T y c (or_introl eq_refl) El Hc Eo) as [H|(w & z & H1 & H2 & H3)]; [|eexists; now apply (match_number st F y c x w z)].
  destruct (own_field c (layer_class_in y c Hc) Eo) as (d & E). eexists. exact (match_own_type st F y c d _ Hc E x H).
Qed.
Lemma names_not_numbers : Forall (fun c => parse_int (normalise (c_name c)) = Err ValueError) layer_classes.
Proof. unfold layer_classes. repeat (apply Forall_cons; [vm_compute; reflexivity|]). apply Forall_nil. Qed.

(** In every document in which such parameters are numbers, as they are in new layers, the layers that are found are those of the class whose
    type is written without capitals and underscores. *)
Theorem C85_exact : forall st F n c, In c layer_classes -> all_known (idesc n) -> good_types F (idesc n) ->
  exists l, layer_find_all st F n [PaCls c] true [] None = Ok l /\
    forall y, In y l <-> In y (idesc n) /\ is_layer y = true /\ layer_class y = Ok c /\ own_type c = false /\ exists t, type_is y t /\ plain_type t.
Proof.
  intros st F n c Hc HK HT. rewrite find_class_name. exists (filter (typed (normalise (c_name c))) (idesc n)). unfold all_known in HK. rewrite Forall_forall in HK. split.
  - unfold layer_find_all, criterion_of. cbn [with_positional has_key existsb app bind snd fst mapM target].
    assert (target (s "type", WVal (PStr (c_name c))) = Ok (s "type_", WVal (PStr (normalise (c_name c))))) as -> by reflexivity. cbn [bind].
    rewrite (filterM_all _ (typed (normalise (c_name c)))).
    + cbn [bind]. apply mapM_as_layer. intros y Hy. apply filter_In in Hy as [Hy Ht]. apply HK; auto. unfold typed in Ht. apply andb_prop in Ht as [Ht _]. now apply andb_prop in Ht as [Ht _].
    + intros y Hy. apply match_any; [exact (proj1 (Forall_forall _ _) names_not_numbers c Hc)|now apply HK|]. intros y' c' [->|[]] H1 H2 H3. now apply (HT y' c').
  - intros y. rewrite filter_In. unfold typed, type_is. split.
    + intros [Hy H]. apply andb_prop in H as [H H3]. apply andb_prop in H as [H1 H2]. destruct (aget (s "type") (iattrs y)) as [[t| | |]|] eqn:Et; try discriminate. apply pstr_eqb_spec in H3. subst t.
      assert (X : layer_class y = Ok c) by (unfold layer_class; rewrite Et; exact (proj1 (Forall_forall _ _) classes_by_name c Hc)). rewrite X in H2.
      split; [exact Hy|]. split; [exact H1|]. split; [exact X|]. split; [now destruct (own_type c)|]. eexists. split; [reflexivity|apply plain_again].
    + intros (A & B & C & D & t & H1 & H2). split; [exact A|]. rewrite B, C, D, H1. cbn [negb andb]. unfold layer_class in C. rewrite H1 in C. apply plain_normalise in H2.
      apply pstr_eqb_spec. rewrite <- H2. now apply class_name_type.
Qed.
Print Assumptions C85_exact.

(** But one such parameter that is animated is enough: then looking for layers of any class raises ValueError, and so does looking for any type. *)
Theorem C85_animated_refuted : forall st F n before y after c, idesc n = before ++ y :: after -> all_known (idesc n) -> good_types F before ->
  is_layer y = true -> layer_class y = Ok c -> own_type c = true -> animated_type F y ->
  (forall c', layer_find_all st F n [PaCls c'] true [] None = Err ValueError) /\ forall x, layer_find_all st F n [PaStr x] true [] None = Err ValueError.
Proof.
  intros st F n before y after c Hi HK HT Hl Hc Ho Ha.
  assert (X : forall x, layer_find_all st F n [PaStr x] true [] None = Err ValueError); [|split; [intros c'; rewrite find_class_name; apply X|exact X]].
  intros x. unfold layer_find_all, criterion_of. cbn [with_positional has_key existsb app bind snd fst mapM target].
  assert (target (s "type", WVal (PStr x)) = Ok (s "type_", WVal (PStr (normalise x)))) as -> by reflexivity. cbn [bind].
  unfold all_known in HK. rewrite Hi in *. clear Hi. assert (E : filterM (matches st F (CAny [(s "type_", WVal (PStr (normalise x)))])) (before ++ y :: after) = Err ValueError); [|now rewrite E].
  induction before as [|b before IH]; cbn [app filterM].
  - unfold matches at 1. rewrite Hl, Hc. cbn [bind]. now rewrite (match_animated st F y c (normalise x) Hc Ho Ha).
  - inversion HK as [|? ? K1 K2]; subst. destruct (match_some st F b (normalise x)) as (v & ->); [exact K1|intros y' c' [->|[]] H1 H2 H3; apply (HT y' c'); auto; now left|]. cbn [bind].
    rewrite IH; [reflexivity|exact K2|]. intros y' c' I. apply HT. now right.
Qed.
Print Assumptions C85_animated_refuted.

(** And a string that is a number finds, instead of a type, the layers whose parameter type_ is that number. *)
Theorem C85_number_refuted : forall st F n x z l, parse_int (normalise x) = Ok z -> all_known (idesc n) -> good_types F (idesc n) ->
  layer_find_all st F n [PaStr x] true [] None = Ok l ->
  forall y c w a, In y (idesc n) -> is_layer y = true -> layer_class y = Ok c -> own_type c = true -> param_get F y (s "type_") = Ok (w, VInteger) ->
  is_animated (forget w) = false -> get_value VInteger (forget w) (ctx_of F (iuid w)) = Ok (PInt a) -> (In y l <-> a = z).
Proof.
  intros st F n x z l Hx HK HT E y c w a Hy Hl Hc Ho P A G. unfold layer_find_all, criterion_of in E. cbn [with_positional has_key existsb app bind snd fst mapM target] in E.
  assert (T : target (s "type", WVal (PStr x)) = Ok (s "type_", WVal (PStr (normalise x)))) by reflexivity. rewrite T in E. cbn [bind] in E.
  destruct (filterM _ (idesc n)) as [l'|] eqn:Ef; [|discriminate]. cbn [bind] in E. apply mapM_as_layer_inv in E as [-> _].
  assert (M : matches st F (CAny [(s "type_", WVal (PStr (normalise x)))]) y = Ok (Z.eqb a z)).
  { unfold matches. rewrite Hl, Hc. cbn [bind]. rewrite (match_number st F y c (normalise x) w a) by assumption. now rewrite Hx. }
  assert (Q : In y l' <-> matches st F (CAny [(s "type_", WVal (PStr (normalise x)))]) y = Ok true).
  { clear - Ef Hy. revert l' Ef Hy. induction (idesc n) as [|b k IH]; intros l' Ef Hy; [destruct Hy|]. cbn [filterM] in Ef.
    destruct (matches st F _ b) as [v|] eqn:Eb; [|discriminate]. cbn [bind] in Ef. destruct (filterM _ k) as [r|] eqn:Er; [|discriminate]. cbn [bind] in Ef. injection Ef as <-. specialize (IH r eq_refl).
    assert (Sub : In y r -> matches st F (CAny [(s "type_", WVal (PStr (normalise x)))]) y = Ok true).
    { clear - Er. revert r Er. induction k as [|b k IHk]; cbn [filterM]; intros r Er I; [injection Er as <-; destruct I|].
      destruct (matches st F _ b) as [v|] eqn:Eb; [|discriminate]. cbn [bind] in Er. destruct (filterM _ k) as [r'|]; [|discriminate]. cbn [bind] in Er. injection Er as <-.
      destruct v; [destruct I as [->|I]; [exact Eb|]|]; now apply (IHk r'). }
    destruct Hy as [->|Hy].
    - destruct v; split; [intros _; exact Eb|intros _; now left|exact Sub|rewrite Eb; discriminate].
    - specialize (IH Hy). destruct v; [|exact IH]. split; [intros [->|I]; [exact Eb|now apply IH]|intros H; right; now apply IH]. }
  rewrite Q, M. split; [intros [= H]; now apply Z.eqb_eq|intros ->; now rewrite Z.eqb_refl].
Qed.
Print Assumptions C85_number_refuted.

(** A new Blur among circles: its parameter is a number, and it is found by 1. *)
Definition xblur (k : list inode) : inode := xlayer 5 (s "blur") [IE 6 (s "param") [(s "name", AStr (s "type_"))] k].
Definition xtype : inode := IE 7 (s "integer") [(s "value", AStr (s "1"))] [].
Definition xmoving : inode := IE 7 (s "animated") [(s "type", AStr (s "integer"))] [].
Example C85_types_nonvacuous : let n k := IE 1 (s "canvas") [] [xlayer 4 (s "circle") []; xblur k] in
  all_known (idesc (n [xtype])) /\ number_type [n [xtype]] (xblur [xtype]) /\ good_types [n [xtype]] (idesc (n [xtype])) /\
  layer_find_all cls_Layer [n [xtype]] (n [xtype]) [PaStr (s "1")] true [] None = Ok [xblur [xtype]] /\
  layer_find_all cls_Layer [n [xtype]] (n [xtype]) [PaCls cls_Circle] true [] None = Ok [xlayer 4 (s "circle") []] /\
  animated_type [n [xmoving]] (xblur [xmoving]) /\ own_type cls_Blur = true /\ layer_class (xblur [xmoving]) = Ok cls_Blur /\
  layer_find_all cls_Layer [n [xmoving]] (n [xmoving]) [PaCls cls_Circle] true [] None = Err ValueError.
Proof.
  cbv zeta. assert (N : number_type [IE 1 (s "canvas") [] [xlayer 4 (s "circle") []; xblur [xtype]]] (xblur [xtype])).
  { exists xtype, 1%Z. split; [vm_compute; reflexivity|]. split; vm_compute; reflexivity. }
  split. { repeat constructor; intros H; try discriminate H; eexists; vm_compute; reflexivity. }
  split; [exact N|]. split.
  { intros y c [<-|[<-|[<-|[<-|[]]]]] H1 H2 H3; try discriminate H1; [vm_compute in H2; injection H2 as <-; discriminate H3|now right]. }
  split; [vm_compute; reflexivity|]. split; [vm_compute; reflexivity|]. split; [exists xmoving; split; [vm_compute; reflexivity|split; reflexivity]|].
  split; [vm_compute; reflexivity|]. split; vm_compute; reflexivity.
Qed.
