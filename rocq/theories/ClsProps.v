(** The properties of layer classes and new layers: C54, and C81 to C86. *)
From Verif Require Import LayModel DocProofs DocProofs2 LaySpec LayProofs5 LayProofs7 LayProps TlProofs2 ClsProofs.
From Coq Require Import Lia.
Local Open Scope N_scope.

Ltac in_table k := exact (nth_error_In layer_classes k eq_refl).

(** ** C54 new layers *)

(** For each class in the table, except Halftone3, and a document F: [c()] makes a new layer n, of the class c, with one
    param for each declared field and no others, and each can be read as [n[k]] and (but for the blend method) as
    the attribute k of n. What is missing of C54: Halftone3, and reading the attribute blend_method, below;
    and times hold str() of their defaults, which can't be read: C54_times_refuted. *)
Theorem C54_new_layer_partial : forall F c, wf F -> In c layer_classes -> c_name c <> s "Halftone3" ->
  exists n, new_layer F c = (F ++ [n], Ok (iuid n)) /\ wf (F ++ [n]) /\ fget (iuid n) (F ++ [n]) = Some n /\
    layer_class n = Ok c /\ NoDup (declared c) /\ param_names n = map (fun k => Some (AStr k)) (declared c) /\
    forall k ty d, In (k, FParam ty d) (all_fields c) -> ty <> VBlendMethod ->
      exists w, layer_getitem n k = Ok (w, ty) /\ default_kept ty d (forget w) /\
        forall st, field_get st (F ++ [n]) n c k = Ok (PVal ty (forget w) (ctx_of (F ++ [n]) (iuid w))).
Proof.
  intros F c W Hc Hh. destruct (new_layer_ok F c W Hc Hh) as (n & A1 & A2 & A3 & A4 & A5 & A6 & A7). exists n.
  repeat (split; [assumption|]). intros k ty d Hk Hty. destruct (A7 k ty d Hk) as (Ha & w & B1 & B2 & B3). exists w.
  assert (E : own_type_of ty = ty) by (now destruct ty). rewrite E in *. split; [exact B1|]. split; [now destruct ty|].
  intros st. unfold field_get. rewrite Ha. unfold param_field. rewrite B2. cbn [bind fst snd]. unfold inst. now rewrite vcls_eqb_refl.
Qed.
Print Assumptions C54_new_layer_partial.
(** The blend method of a new layer is there, but reading it raises an exception. *)
Theorem C54_blend_method_refuted : forall F c k d, wf F -> In c layer_classes -> c_name c <> s "Halftone3" ->
  In (k, FParam VBlendMethod d) (all_fields c) ->
  exists n, new_layer F c = (F ++ [n], Ok (iuid n)) /\
    (exists w, layer_getitem n k = Ok (w, VInteger) /\ value_eq VInteger (forget w) None d = Ok true) /\
    forall st, field_get st (F ++ [n]) n c k = Err AssertionError.
Proof.
  intros F c k d W Hc Hh Hk. destruct (new_layer_ok F c W Hc Hh) as (n & A1 & A2 & A3 & A4 & A5 & A6 & A7). exists n. split; [exact A1|].
  destruct (A7 k _ d Hk) as (Ha & w & B1 & B2 & B3). split; [eauto|]. intros st. unfold field_get. rewrite Ha. unfold param_field. rewrite B2. cbn [bind snd inst vcls_eqb orb].
  assert (E : exists x, py_str (PVal VInteger (forget w) (ctx_of (F ++ [n]) (iuid w))) = Ok x).
  { cbn [py_str]. destruct (is_animated (forget w)); [eauto|]. cbn [value_eq] in B3. unfold simple_eq in B3. unfold simple_val in *.
    destruct (match is_instance VInteger d with true => _ | false => _ end) as [o|]; [|discriminate]. cbn [bind] in B3.
    destruct (aget (s "value") (tag_attrs (forget w))) as [[v| | |]|]; try discriminate. destruct (parse_int v) as [z|]; [|discriminate]. cbn [bind]. eauto. }
  cbn [own_type_of]. unfold as_value. cbn [fst snd]. destruct E as (x & ->). reflexivity.
Qed.
Print Assumptions C54_blend_method_refuted.
(** The time offset of a new group can't be read, in any document (cx is its root, which gives the frames per second). *)
Theorem C54_times_refuted : forall F, wf F -> exists n w, new_layer F cls_Group = (F ++ [n], Ok (iuid n)) /\
  layer_getitem n (s "time_offset") = Ok (w, VTime) /\ forall cx f, ctx_fps cx = Ok f -> simple_val VTime (forget w) cx = Err ValueError.
Proof.
  intros F W. destruct (new_layer_ok F cls_Group W) as (n & A1 & _ & _ & _ & _ & _ & A7); [in_table 12%nat|discriminate|].
  destruct (A7 (s "time_offset") VTime (PInt 0)) as (_ & w & B1 & _ & B3); [exact (nth_error_In (all_fields cls_Group) 7%nat eq_refl)|]. exists n, w. split; [exact A1|]. split; [exact B1|].
  intros cx f Hf. destruct B3 as (x & Hx & ->). cbn [py_str] in Hx. injection Hx as <-.
  change (simple_val VTime _ cx) with (let* t := T_init (TStr (s "0")) cx in Ok (PT t)). unfold T_init. rewrite Hf. cbn [bind].
  assert (E : parse_time_spec f (s "0") = Err ValueError) by (lazy; reflexivity). now rewrite E.
Qed.
Print Assumptions C54_times_refuted.
(** Halftone3 can't be made. *)
Theorem C54_halftone3_refuted : In cls_Halftone3 layer_classes /\ forall F, new_layer F cls_Halftone3 = (F, Err AttributeError).
Proof. split; [in_table 37%nat|]. intros F. unfold new_layer. assert (E : new_tag cls_Halftone3 = Err AttributeError) by (vm_compute; reflexivity). now rewrite E. Qed.
Print Assumptions C54_halftone3_refuted.
Example C54_nonvacuous : In cls_Circle layer_classes /\ length layer_classes = 56%nat /\
  declared cls_Circle = map s ["z_depth"; "amount"; "blend_method"; "color"; "radius"; "feather"; "origin"; "invert"]%string /\
  In (s "radius", FParam VReal (PFlo (rnd64 1))) (all_fields cls_Circle) /\ c_name cls_Circle <> s "Halftone3" /\
  length (filter (fun c => existsb (fun f => match snd f with FParam VBlendMethod _ => true | _ => false end) (all_fields c)) layer_classes) = 33%nat.
Proof.
  split; [in_table 9%nat|]. split; [reflexivity|]. split; [vm_compute; reflexivity|]. split; [exact (nth_error_In (all_fields cls_Circle) 4%nat eq_refl)|].
  split; [discriminate|vm_compute; reflexivity].
Qed.

(** ** C81 a layer is true *)

(** bool(layer) only says whether there are layers inside it, at any depth. *)
Theorem C81_truth_partial : forall n, layer_truth n = true <-> exists x, In x (idesc n) /\ is_layer x = true.
Proof.
  intros n. unfold layer_truth, layer_len, ifind_all. split.
  - destruct (filter is_layer (idesc n)) as [|x l] eqn:E; [discriminate|]. intros _. exists x. apply filter_In. rewrite E. now left.
  - intros (x & Hx & Hl). destruct (filter is_layer (idesc n)) as [|y l] eqn:E; [|reflexivity].
    assert (H : In x []) by (rewrite <- E; now apply filter_In). destruct H.
Qed.
Print Assumptions C81_truth_partial.
(** [if animation.find('circle'):] doesn't notice the circle it has found. *)
Theorem C81_found_is_false_refuted : exists n x, layer_find cls_Layer xforest n [PaStr (s "circle")] true [] None = Ok (Some x) /\ layer_truth x = false.
Proof. exists xdoc, (xcircle 1 (s "1.0")). split; vm_compute; reflexivity. Qed.
Print Assumptions C81_found_is_false_refuted.
Example C81_nonvacuous : layer_truth xgroup10 = true /\ layer_truth (xcircle 1 (s "1.0")) = false.
Proof. split; vm_compute; reflexivity. Qed.

(** ** C82 what a layer says doesn't depend on other layers *)

(** st is the class of the layer last made. It makes no difference to a field, but type_ and version if the
    layer lacks them. *)
Theorem C82_reading_partial : forall st st' F n c k,
  (k = s "type_" -> exists x, aget (s "type") (iattrs n) = Some x) ->
  (k = s "version" -> exists x, aget (s "version") (iattrs n) = Some x) ->
  field_get st F n c k = field_get st' F n c k.
Proof.
  intros st st' F n c k Ht Hv. unfold field_get. destruct (aget k (all_fields c)) as [[]|]; try reflexivity.
  destruct (pstr_eqb k (s "type_")) eqn:E1.
  { apply pstr_eqb_spec in E1. destruct (Ht E1) as [x Hx]. unfold attr_get. now rewrite Hx. }
  destruct (pstr_eqb k (s "version")) eqn:E2; [|reflexivity].
  apply pstr_eqb_spec in E2. destruct (Hv E2) as [x Hx]. unfold attr_get. now rewrite Hx.
Qed.
Print Assumptions C82_reading_partial.
(** The version of a layer without one is that of whatever layer was made last. *)
Theorem C82_version_refuted : exists st st' F n c, In st layer_classes /\ In st' layer_classes /\ layer_class n = Ok c /\
  field_get st F n c (s "version") = Ok (PStr (s "0.2")) /\ field_get st' F n c (s "version") = Ok (PStr (s "0.3")).
Proof.
  exists cls_Circle, cls_Group, xforest, (xcircle 1 (s "1.0")), cls_Circle.
  split; [in_table 9%nat|]. split; [in_table 12%nat|]. repeat split; vm_compute; reflexivity.
Qed.
Print Assumptions C82_version_refuted.
Example C82_nonvacuous : exists F n, new_layer xforest cls_Circle = (F, Ok (iuid n)) /\ fget (iuid n) F = Some n /\
  aget (s "version") (iattrs n) = Some (AStr (s "0.2")).
Proof.
  set (F := fst (new_layer xforest cls_Circle)). vm_compute in F.
  set (n := match fget 103 F with Some n => n | None => IT [] end). vm_compute in n. exists F, n. repeat split; vm_compute; reflexivity.
Qed.

(** ** C83 wrong arguments *)

(** More than one positional argument, or a criterion given twice, never gives a result, *)
Theorem C83_misuse_partial : forall st F n rec a b pos kw at_ ,
  (exists e, layer_find_all st F n (a :: b :: pos) rec kw at_ = Err e) /\
  (forall x, has_key (s "type") kw = true -> exists e, layer_find_all st F n [PaStr x] rec kw at_ = Err e) /\
  (forall k w w', exists e, layer_find_all st F n [] rec [(k, w)] (Some [(k, w')]) = Err e).
Proof.
  intros. split; [|split].
  - exists UnboundLocalError. now destruct a.
  - intros x H. exists UnboundLocalError. unfold layer_find_all, criterion_of, with_positional. now rewrite H.
  - intros k w w'. exists AttributeError. unfold layer_find_all, criterion_of. cbn [with_positional bind snd with_attrs has_key existsb fst].
    rewrite pstr_eqb_refl. reflexivity.
Qed.
Print Assumptions C83_misuse_partial.
(** but the exception is not the ValueError the code means to raise. *)
Theorem C83_misuse_refuted : forall st F n rec,
  layer_find_all st F n [PaStr (s "circle"); PaStr (s "text")] rec [] None = Err UnboundLocalError /\
  layer_find_all st F n [PaStr (s "circle")] rec [(s "type", WVal (PStr (s "text")))] None = Err UnboundLocalError /\
  layer_find_all st F n [] rec [(s "desc", WVal (PStr (s "a")))] (Some [(s "desc", WVal (PStr (s "b")))]) = Err AttributeError.
Proof. intros. split; [|split]; reflexivity. Qed.
Print Assumptions C83_misuse_refuted.
Example C83_nonvacuous : has_key (s "type") [(s "type", WVal (PStr (s "text")))] = true.
Proof. reflexivity. Qed.

(** ** C84 find_all with a function *)

(** The layers the function accepts, each once, in document order *)
Theorem C84_find_function : forall st F n (rec : bool) f, all_known (if rec then idesc n else filter itag (ikids n)) ->
  layer_find_all st F n [PaFun f] rec [] None =
  Ok (filter (fun y => is_layer y && f y) (if rec then idesc n else filter itag (ikids n))).
Proof. exact find_fun. Qed.
Print Assumptions C84_find_function.
Example C84_nonvacuous : all_known (idesc xdoc) /\
  layer_find_all cls_Layer xforest xdoc [PaFun (fun y => N.ltb 20 (iuid y))] true [] None =
  Ok (filter (fun y => is_layer y && N.ltb 20 (iuid y)) (idesc xdoc)) /\
  ids (filter (fun y => is_layer y && N.ltb 20 (iuid y)) (idesc xdoc)) = [30; 40; 50; 60; 70].
Proof. split; [apply all_known_check; vm_compute; reflexivity|]. split; vm_compute; reflexivity. Qed.

(** ** C85 find_all with a class *)

(** Right for a class without a parameter called type_, if the types in the document are without
    upper-case letters and underscores. *)
Theorem C85_find_class_partial : forall st F n c, In c layer_classes -> own_type c = false ->
  (forall z, In z (idesc n) -> is_param (s "type_") z = false) ->
  (forall y, In y (idesc n) -> is_layer y = true -> exists t, type_is y t /\ normalise t = t /\ known y) ->
  exists l, layer_find_all st F n [PaCls c] true [] None = Ok l /\
    forall y, In y l <-> In y (idesc n) /\ is_layer y = true /\ layer_class y = Ok c.
Proof. exact find_class. Qed.
Print Assumptions C85_find_class_partial.
(** A new layer may not be found by its own class, nor any layer by the class Layer. *)
Theorem C85_find_class_refuted : forall st, exists n y, In y (idesc n) /\ is_layer y = true /\ layer_class y = Ok cls_Solid_Color /\
  layer_find_all st [n] n [PaCls cls_Solid_Color] true [] None = Ok [] /\
  layer_find_all st [n] n [PaCls cls_Layer] true [] None = Ok [].
Proof.
  intros st. exists (IE 1 (s "canvas") [] [xlayer 5 (s "solid_color") []]), (xlayer 5 (s "solid_color") []). split; [vm_compute; tauto|].
  split; [reflexivity|]. split; [vm_compute; reflexivity|]. split; vm_compute; reflexivity.
Qed.
Print Assumptions C85_find_class_refuted.
Example C85_nonvacuous : In cls_Circle layer_classes /\ own_type cls_Circle = false /\
  forallb (fun y => negb (is_layer y) || match aget (s "type") (iattrs y) with Some (AStr t) => pstr_eqb (normalise t) t | _ => false end) (idesc xdoc) = true /\
  layer_find_all cls_Layer xforest xdoc [PaCls cls_Circle] true [] None = Ok [xcircle 1 (s "1.0"); xcircle 40 (s "2.0"); xcircle 70 (s "3.0")].
Proof. split; [in_table 9%nat|]. repeat split; vm_compute; reflexivity. Qed.

(** ** C86 Text(...) *)

Theorem C86_new_text : forall F x, wf F ->
  exists F' n, new_text F x = (F', Ok (iuid n)) /\ wf F' /\ fget (iuid n) F' = Some n /\ layer_class n = Ok cls_Text /\
    forall st, exists m cx, field_get st F' n cls_Text (s "text") = Ok (PVal VString m cx) /\ string_val m = x.
Proof. exact new_text_ok. Qed.
Print Assumptions C86_new_text.
Example C86_nonvacuous : wf xforest /\ snd (new_text xforest (s "hello")) = Ok 103.
Proof. split; [exact xforest_wf|vm_compute; reflexivity]. Qed.

(** ** C92 the attributes of a new layer *)

(** The version of a class: its own, or that of the class it inherits from, or else 0.0 *)
Definition version_is (c : lcls) (x : pstr) : Prop :=
  c_version c = Some x \/
  c_version c = None /\ ((exists b, base_of c = Some b /\ c_version b = Some x) \/
                         (forall b y, base_of c = Some b -> c_version b <> Some y) /\ x = s "0.0").
Theorem C92_new_attributes : forall F c, wf F -> In c layer_classes -> c_name c <> s "Halftone3" ->
  exists n x q, new_layer F c = (F ++ [n], Ok (iuid n)) /\ version_is c x /\ parse_float x = Ok q /\
    map fst (iattrs n) = [s "type"; s "version"; s "active"; s "exclude_from_rendering"] /\
    forall st, field_get st (F ++ [n]) n c (s "active") = Ok (PBool true) /\
      field_get st (F ++ [n]) n c (s "exclude_from_rendering") = Ok (PBool false) /\
      field_get st (F ++ [n]) n c (s "desc") = Ok PNone /\
      (aget (s "version") (all_fields c) = None -> field_get st (F ++ [n]) n c (s "version") = Ok (PFlo q)) /\
      (aget (s "type_") (all_fields c) = None -> field_get st (F ++ [n]) n c (s "type_") = Ok (PStr (lower (c_name c)))).
Proof.
  intros F c W Hc Hh. destruct (new_layer_ok F c W Hc Hh) as (n0 & A1 & _).
  destruct (new_tag c) as [t|] eqn:Et; [|unfold new_layer in A1; rewrite Et in A1; discriminate].
  destruct (new_layer_is F c t W Et) as (n & En & Hf & Hi & _). clear n0 A1.
  assert (Hv : exists x q, (match version_of c with Some x => x | None => s "0.0" end) = x /\ version_is c x /\ parse_float x = Ok q).
  { assert (B : forallb (fun c => match parse_float (match version_of c with Some x => x | None => s "0.0" end) with Ok _ => true | Err _ => false end) layer_classes = true) by (vm_compute; reflexivity).
    rewrite forallb_forall in B. specialize (B c Hc). destruct (parse_float _) as [q|] eqn:Eq; [|discriminate]. eexists _, q. split; [reflexivity|]. split; [|exact Eq].
    unfold version_of, version_is. destruct (c_version c) as [x|]; [now left|]. right. split; [reflexivity|]. destruct (base_of c) as [b|].
    - destruct (c_version b) as [y|] eqn:Ey; [left; eauto|]. right. split; [|reflexivity]. intros b' y [= <-]. congruence.
    - right. split; [discriminate|reflexivity]. }
  destruct Hv as (x & q & Hx & Hv & Hq). exists n, x, q. split; [exact En|]. split; [exact Hv|]. split; [exact Hq|].
  assert (Ha : iattrs n = [(s "type", AStr (lower (c_name c))); (s "version", AStr x); (s "active", AStr (s "true")); (s "exclude_from_rendering", AStr (s "false"))]).
  { unfold new_tag in Et. rewrite Hx in Et. destruct (mapM default_param (all_fields c)); [|discriminate]. cbn [bind] in Et. injection Et as <-.
    destruct n as [|nu nm na nk]; [discriminate|]. cbn [forget] in Hf. now injection Hf as _ Hf _. }
  rewrite Ha. split; [reflexivity|]. intros st. pose proof attr_fields_own as O. rewrite Forall_forall in O. specialize (O c Hc).
  unfold field_get. rewrite !O by (cbn; auto). unfold attr_get. rewrite Ha.
  split; [reflexivity|]. split; [reflexivity|]. split; [reflexivity|]. split; intros ->; [|reflexivity].
  change ((let* q := parse_float x in Ok (PFlo q)) = Ok (PFlo q)). now rewrite Hq.
Qed.
Print Assumptions C92_new_attributes.
Example C92_nonvacuous : version_is cls_Group (s "0.3") /\ In cls_Group layer_classes /\
  (exists F n, new_layer xforest cls_Circle = (F, Ok n)).
Proof. split; [left; reflexivity|]. split; [in_table 12%nat|]. eexists _, _. vm_compute. reflexivity. Qed.

(** ** C93 reading the fields that are attributes *)

(** [active] is true if the attribute isn't there, [exclude_from_rendering] is false; otherwise both are
    true exactly for the word "true" in upper or lower case. [desc] is the text or None. *)
Theorem C93_attribute_fields : forall st F n c, layer_class n = Ok c ->
  (forall v, aget (s "active") (iattrs n) = Some v -> forall b, field_get st F n c (s "active") = Ok (PBool b) <-> (b = true <-> lower (aval_str v) = s "true")) /\
  (aget (s "active") (iattrs n) = None -> field_get st F n c (s "active") = Ok (PBool true)) /\
  (forall v, aget (s "exclude_from_rendering") (iattrs n) = Some v ->
     forall b, field_get st F n c (s "exclude_from_rendering") = Ok (PBool b) <-> (b = true <-> lower (aval_str v) = s "true")) /\
  (aget (s "exclude_from_rendering") (iattrs n) = None -> field_get st F n c (s "exclude_from_rendering") = Ok (PBool false)) /\
  field_get st F n c (s "desc") = Ok (match aget (s "desc") (iattrs n) with Some v => PStr (aval_str v) | None => PNone end).
Proof.
  intros st F n c Hc. pose proof attr_fields_own as O. rewrite Forall_forall in O. specialize (O c (layer_class_in n c Hc)).
  assert (B : forall v b, Ok (PBool (pstr_eqb (lower (aval_str v)) (s "true"))) = Ok (PBool b) <-> (b = true <-> lower (aval_str v) = s "true")).
  { intros v b. destruct (pstr_eqb (lower (aval_str v)) (s "true")) eqn:E.
    - apply pstr_eqb_spec in E. split; [intros [= <-]; tauto|]. intros H. do 2 f_equal. symmetry. now apply H.
    - split; [intros [= <-]; split; [discriminate|intros H; apply pstr_eqb_spec in H; congruence]|]. intros H. destruct b; [|reflexivity].
      exfalso. assert (H' : lower (aval_str v) = s "true") by now apply H. apply pstr_eqb_spec in H'. congruence. }
  unfold field_get. rewrite !O by (cbn; auto).
  change (if pstr_eqb (s "active") (s "type_") then _ else _) with (attr_get (s "active") TBoolA (PBool true) n).
  change (if pstr_eqb (s "exclude_from_rendering") (s "type_") then _ else _) with (attr_get (s "exclude_from_rendering") TBoolA (PBool false) n).
  change (if pstr_eqb (s "desc") (s "type_") then _ else _) with (attr_get (s "desc") TStrA PNone n).
  unfold attr_get. split; [intros v ->; exact (B v)|]. split; [intros ->; reflexivity|]. split; [intros v ->; exact (B v)|]. split; [intros ->; reflexivity|].
  destruct (aget (s "desc") (iattrs n)); reflexivity.
Qed.
Print Assumptions C93_attribute_fields.
Example C93_nonvacuous : field_get cls_Layer [] (IE 1 (s "layer") [(s "type", AStr (s "circle")); (s "active", AStr (s "TRUE")); (s "exclude_from_rendering", AStr (s "1"))] []) cls_Circle (s "active") = Ok (PBool true) /\
  field_get cls_Layer [] (IE 1 (s "layer") [(s "type", AStr (s "circle")); (s "active", AStr (s "TRUE")); (s "exclude_from_rendering", AStr (s "1"))] []) cls_Circle (s "exclude_from_rendering") = Ok (PBool false).
Proof. split; vm_compute; reflexivity. Qed.

(** ** C94 reading a layer doesn't depend on other layers *)

(** [st] and [st'] stand for which layers have been made before. *)
Theorem C94_no_hidden_state_partial : forall st st' F n c k,
  (k = s "version" \/ k = s "type_" -> aget (s "version") (iattrs n) <> None /\ aget (s "type") (iattrs n) <> None) ->
  field_get st F n c k = field_get st' F n c k.
Proof.
  intros st st' F n c k H. unfold field_get. destruct (aget k (all_fields c)) as [[]|]; try reflexivity. unfold attr_get.
  destruct (pstr_eqb k (s "type_")) eqn:E1.
  - apply pstr_eqb_spec in E1. destruct (H (or_intror E1)) as [_ H2]. destruct (aget (s "type") (iattrs n)); [reflexivity|congruence].
  - destruct (pstr_eqb k (s "version")) eqn:E2; [|reflexivity]. apply pstr_eqb_spec in E2. destruct (H (or_introl E2)) as [H1 _]. destruct (aget (s "version") (iattrs n)); [reflexivity|congruence].
Qed.
Print Assumptions C94_no_hidden_state_partial.
(** False for the version of a layer whose tag doesn't say it: that is the version of whichever layer was made last. *)
Theorem C94_hidden_state_refuted : exists st st' n c v v', layer_class n = Ok c /\ field_get st [n] n c (s "version") = Ok v /\
  field_get st' [n] n c (s "version") = Ok v' /\ v <> v'.
Proof.
  exists cls_Group, cls_Text, (IE 1 (s "layer") [(s "type", AStr (s "circle"))] []), cls_Circle, (PStr (s "0.3")), (PStr (s "0.5")).
  repeat split; try (vm_compute; reflexivity). discriminate.
Qed.
Print Assumptions C94_hidden_state_refuted.
Example C94_nonvacuous : aget (s "type") (iattrs (IE 1 (s "layer") [(s "type", AStr (s "circle")); (s "version", AStr (s "0.2"))] [])) <> None /\
  field_get cls_Text [] (IE 1 (s "layer") [(s "type", AStr (s "circle")); (s "version", AStr (s "0.2"))] []) cls_Circle (s "version") = Ok (PFlo (rnd64 (2 # 10))).
Proof. split; [discriminate|vm_compute; reflexivity]. Qed.
