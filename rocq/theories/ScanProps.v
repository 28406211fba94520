(** Theorems about template/__main__.py, which writes the fields of the layer classes. *)
From Verif Require Import ScanModel ScanSpec ScanProofs ScanProofs2 ScanProofs3 RepSpec RepProofs RepProofs4 RepProps.
From Coq Require Import Lia.
Local Open Scope N_scope.

(** An example: a circle, a switch with one in it, and another circle with a param without a value *)
Definition xvalue (tag x : pstr) : node := El tag [(s "value", AStr x)] [].
Definition xparam (name : pstr) (v : list node) : node := El (s "param") [(s "name", AStr name)] v.
Definition xlayer (ty : pstr) (l : list node) : node := El (s "layer") [(s "type", AStr ty); (s "version", AStr (s "0.2"))] l.
Definition xcircle : node := xlayer (s "circle") [xparam (s "radius") [xvalue (s "real") (s "1.5")]; xparam (s "invert") [xvalue (s "bool") (s "false")]; xparam (s "radius") [xvalue (s "real") (s "2.5")]].
Definition xbroken : node := xlayer (s "circle") [xparam (s "radius") []].
Definition xswitch : node := xlayer (s "switch") [xparam (s "canvas") [El (s "canvas") [] [xcircle]]].
Definition xroot : node := El (s "canvas") [(s "fps", AStr (s "24.000"))] [xlayer (s "import") [xparam (s "type") [xvalue (s "string") (s "x")]]; xcircle; xbroken].
Definition xpr (c : N) : bool := false.

(** ** C142: one block for each type of layer *)

(** The names are those of the types of the layers that are in the file, each once; and the text is made from the first layer
    of its type, whatever the others are. *)
Theorem C142_blocks : forall pr ex root fs, scan_soup pr ex root = Ok fs ->
  NoDup (map fst fs) /\
  (forall c, In c (map fst fs) <-> exists n ty, In n (soup_layers root) /\ has_ltype n ty /\ c = title ty) /\
  forall ty n, first_of_type (soup_layers root) ty n -> only_type (soup_layers root) ty ->
    exists b, aget (title ty) fs = Some b /\ layer_block pr ex (soup_ctx root) n = Ok b.
Proof.
  intros pr ex root fs H. destruct (scan_layers_ok pr ex _ _ _ _ _ H (NoDup_nil _)) as (A & B & _ & D). split; [exact A|]. split.
  - intros c. rewrite B. split; [intros [[]|(n & ty & I & P & _ & Q)]; now exists n, ty|]. intros (n & ty & I & P & Q). right. exists n, ty. repeat split; try assumption. intros [].
  - intros ty n F O. apply D; [exact F|intros []|exact O].
Qed.
Print Assumptions C142_blocks.
Example C142_nonvacuous : exists fs, scan_soup xpr [] xroot = Ok fs /\ map fst fs = [s "Import"; s "Circle"] /\ layer_block xpr [] (soup_ctx xroot) xbroken = Err IndexError /\
  first_of_type (soup_layers xroot) (s "circle") xcircle /\ only_type (soup_layers xroot) (s "circle").
Proof.
  eexists. split; [vm_compute; reflexivity|]. split; [reflexivity|]. split; [vm_compute; reflexivity|]. split.
  - exists [xlayer (s "import") [xparam (s "type") [xvalue (s "string") (s "x")]]], [xbroken]. split; [reflexivity|]. split; [reflexivity|]. constructor; [|constructor]. intros E. discriminate E.
  - intros m ty I P T. vm_compute in I. unfold has_ltype in P. repeat (destruct I as [<-|I]; [injection P as <-; (reflexivity || discriminate T)|]). destruct I.
Qed.
(** When two types have the same name apart from capitals, only the one that comes last is written. *)
Theorem C142_capitals_refuted : exists root fs n, first_of_type (soup_layers root) (s "circle") n /\ scan_soup xpr [] root = Ok fs /\
  forall b, aget (title (s "circle")) fs = Some b -> layer_block xpr [] (soup_ctx root) n <> Ok b.
Proof.
  exists (El (s "canvas") [] [xcircle; xlayer (s "Circle") []]). eexists. exists xcircle. split; [exists [], [xlayer (s "Circle") []]; repeat split; constructor|]. split; [vm_compute; reflexivity|].
  intros b H. vm_compute in H. injection H as <-. vm_compute. discriminate.
Qed.
Print Assumptions C142_capitals_refuted.

(** ** C143: the lines of a block *)

(** Each has one line for each name of a param, and what it says comes from the last param with that name. *)
Theorem C143_lines : forall pr ex cx l b, layer_block pr ex cx l = Ok b -> exists ty version params,
  has_ltype l ty /\ aget (s "version") (tag_attrs l) = Some (AStr version) /\
  b = s "SYNFIG_VERSION = " ++ [34] ++ version ++ [34; 10; 10] ++ flat_map field_line params /\
  NoDup (map fst params) /\
  (forall name, In name (map fst params) <-> exists p, In p (find_all (has_name (s "param")) l) /\ makes_field (aget (title ty) ex) p name) /\
  forall name right, In (name, right) params -> exists before p later, find_all (has_name (s "param")) l = before ++ p :: later /\
    makes_field (aget (title ty) ex) p name /\ (forall q, In q later -> ~ makes_field (aget (title ty) ex) q name) /\
    scan_param pr (aget (title ty) ex) ty cx [] p = Ok [(name, right)].
Proof.
  intros pr ex cx l b. unfold layer_block. destruct (str_attr (s "type") l) as [ty|] eqn:T; [|discriminate]. cbn [bind]. destruct (str_attr (s "version") l) as [v|] eqn:V; [|discriminate]. cbn [bind]. apply str_attr_ok in T, V.
  destruct (scan_params pr (aget (title ty) ex) ty cx [] (find_all (has_name (s "param")) l)) as [d|] eqn:P; [|discriminate]. cbn [bind]. intros H. exists ty, v, d. split; [exact T|]. split; [exact V|]. split; [now injection H as <-|].
  destruct (scan_params_ok pr _ _ _ _ [] d P (NoDup_nil _)) as (D & K & _ & _). split; [exact D|]. split.
  - intros n. rewrite K. split; [intros [[]|M]; exact M|now right].
  - intros n r I. exact (params_last _ _ _ _ _ _ _ _ P I).
Qed.
Print Assumptions C143_lines.
Example C143_nonvacuous : layer_block xpr [] None xcircle = Ok (s "SYNFIG_VERSION = " ++ [34] ++ s "0.2" ++ [34; 10; 10] ++
  s "radius               = f.ParamTagField(v.Real, 2.5," ++ [10] ++ s "                    )" ++ [10] ++
  s "invert               = f.ParamTagField(v.Bool, False," ++ [10] ++ s "                    )" ++ [10]).
Proof. vm_compute. reflexivity. Qed.
(** What one param gives: for the usual types, the call with the class and the expression that makes the value *)
Definition class_names : list (pstr * pstr) :=
  [(s "real", s "Real"); (s "integer", s "Integer"); (s "bool", s "Bool"); (s "angle", s "Angle"); (s "time", s "Time"); (s "string", s "String"); (s "color", s "Color"); (s "gradient", s "Gradient")].
Theorem C143_text : forall pr ltype cx p full name v tag cls c e, aget (s "name") (tag_attrs p) = Some (AStr full) -> makes_field None p name ->
  override ltype name = None -> name <> s "blend_method" -> child_tags p = [v] -> tag_name v = tag -> In (tag, cls) class_names -> from_tag v = Ok c -> expression pr c v cx = Ok e ->
  scan_param pr None ltype cx [] p = Ok [(name, s "f." ++ (if existsb (N.eqb 91) full then s "ParamArrayField" else s "ParamTagField") ++ s "(v." ++ cls ++ s ", " ++ expr_text e ++ s "," ++ [10] ++ repeat 32 20 ++ s ")")].
Proof.
  intros pr lt cx p f n v tag cls c e A M O B C T I F E. destruct (makes_name _ _ _ M) as (x & X & En). rewrite A in X. injection X as <-.
  unfold scan_param. unfold str_attr. rewrite A. cbn [bind].
  assert (Z : existsb (N.eqb 91) f && negb (has_infix (s "[0]") f) = false).
  { destruct M as (f' & A' & _ & D). rewrite A in A'. injection A' as <-. destruct D as [[D _]|(_ & _ & D)].
    - destruct (existsb (N.eqb 91) f) eqn:Q; [apply bracket_in in Q; contradiction|reflexivity].
    - apply has_infix_spec in D. rewrite D. apply andb_false_r. }
  rewrite Z. cbv zeta. rewrite <- En, O, C.
  assert (Ty : type_name n v = cls /\ pstr_eqb cls (s "BlendMethod") = false /\ pstr_eqb cls (s "T") = false /\ pstr_eqb cls (s "Waypoint") = false /\ existsb (pstr_eqb cls) value_names = true).
  { unfold type_name. rewrite (proj2 (pstr_eqb_neq _ _) B), T. unfold class_names in I. cbn [In] in I. repeat (destruct I as [I|I]; [injection I as <- <-; repeat split|]). destruct I. }
  destruct Ty as (Ty & T1 & T2 & T3 & T4). rewrite Ty, T1, T2, T3, T4. cbn [orb]. unfold right_side, param_expr. rewrite T1, F. cbn [bind]. rewrite E. cbn [bind doc_arg aset app]. now rewrite <- !app_assoc.
Qed.
Print Assumptions C143_text.
Example C143_text_nonvacuous : let p := xparam (s "text[0].word") [xvalue (s "integer") (s "7")] in
  makes_field None p (s "text") /\ scan_param xpr None (s "group") None [] p = Ok [(s "text", s "f.ParamArrayField(v.Integer, 7," ++ [10] ++ s "                    )")].
Proof.
  split; [|vm_compute; reflexivity]. exists (s "text[0].word"). split; [reflexivity|]. split; [discriminate|]. right. split; [vm_compute; intros I; repeat (destruct I as [I|I]; [discriminate I|]); exact I|].
  split; [exists (s "0].word"); reflexivity|exists (s "text"), (s ".word"); reflexivity].
Qed.
(** The params of the layers within a layer are written as if they were its own. *)
Theorem C143_nested_refuted : exists b u v, (forall p, In p (child_tags xswitch) -> aget (s "name") (tag_attrs p) = Some (AStr (s "canvas"))) /\
  layer_block xpr [] None xswitch = Ok b /\ b = u ++ s "radius  " ++ v.
Proof.
  eexists. exists (s "SYNFIG_VERSION = " ++ [34] ++ s "0.2" ++ [34; 10; 10] ++ s "canvas               = f.SwitchCanvasField()" ++ [10]). eexists.
  split; [intros p [<-|[]]; reflexivity|]. split; [vm_compute; reflexivity|]. vm_compute. reflexivity.
Qed.
Print Assumptions C143_nested_refuted.
(** A param that is animated stops everything, unless it is one of the exceptions. *)
Theorem C143_animated : forall pr ex root fs ty n p name v, scan_soup pr ex root = Ok fs -> first_of_type (soup_layers root) ty n ->
  In p (find_all (has_name (s "param")) n) -> makes_field (aget (title ty) ex) p name -> override ty name = None -> name <> s "blend_method" -> child_tags p = [v] -> tag_name v <> s "animated".
Proof.
  intros pr ex root fs ty n p name v H F I M O B C E. destruct (block_of pr ex _ _ _ _ _ H ty n F) as (b & L); [intros []|].
  unfold layer_block in L. destruct F as (? & ? & _ & T & _). unfold has_ltype in T. unfold str_attr in L. rewrite T in L. cbn [bind] in L. destruct (aget (s "version") (tag_attrs n)) as [[ver| | |]|]; try discriminate. cbn [bind] in L.
  destruct (scan_params pr _ _ _ [] _) as [d|] eqn:P; [|discriminate]. destruct (params_checked _ _ _ _ _ _ _ P p I) as (e & e' & Q).
  destruct (param_checked _ _ _ _ _ _ _ _ Q M O) as [[Z _]|(v' & Z & Y)]; rewrite C in Z; [discriminate|]. injection Z as <-.
  unfold type_name in Y. rewrite (proj2 (pstr_eqb_neq _ _) B), E in Y. vm_compute in Y. repeat (destruct Y as [Y|Y]; [discriminate Y|]). exact Y.
Qed.
Print Assumptions C143_animated.
Example C143_animated_nonvacuous : scan_soup xpr [] (El (s "canvas") [] [xlayer (s "circle") [xparam (s "radius") [El (s "animated") [(s "type", AStr (s "real"))] []]]]) = Err ValueError.
Proof. vm_compute. reflexivity. Qed.

(** ** C144: running it twice *)

(** The second run changes nothing in a file, if the names in it are fit for Python, and the file is as it should be. *)
Theorem C144_partial : forall pr ex root fs d name x ps, (forall c, pr c = true -> encodable [c]) -> python_names root -> soup_layers root <> [] ->
  scan_soup pr ex root = Ok fs ->
  file_text d name x -> lines_of x (flat_map piece_lines ps) -> ~ malformed (flat_map piece_lines ps) -> Forall piece_ok ps ->
  (forall a b c, In (Block a b c) ps -> Forall (fun l => forall y, ~ is_class l y) b) ->
  let d1 := o_disk (handle fs d name) in let o2 := handle fs d1 name in o_res o2 = Ok tt /\ forall n, same_file d1 (o_disk o2) n.
Proof.
  intros pr ex root fs d name x ps Hpr P N H Ht Hl Hm Ho Hb. destruct (scan_good pr Hpr ex root fs P H) as (A & B & C).
  apply (C67_partial fs d name x ps); try assumption.
  intros ->. destruct (soup_layers root) as [|n l] eqn:E; [contradiction|]. destruct (C142_blocks _ _ _ _ H) as (_ & K & _).
  destruct (types_of pr ex _ _ _ _ _ H n) as (ty & T); [rewrite E; now left|]. destruct (proj2 (K (title ty))) as [].
  exists n, ty. rewrite E. split; [now left|]. now split.
Qed.
Print Assumptions C144_partial.
Lemma word_okb x : match x with [] => false | _ => forallb word_char x end = true -> word_name x.
Proof. destruct x as [|c x]; [discriminate|]. intros H. split; [discriminate|]. apply Forall_forall. now rewrite forallb_forall in H. Qed.
Example C144_nonvacuous : python_names xroot /\ (exists fs, scan_soup xpr [] xroot = Ok fs /\ fs <> []).
Proof.
  split; [|eexists; split; [vm_compute; reflexivity|discriminate]]. intros l I. vm_compute in I. repeat (destruct I as [<-|I]; [split; [intros v V; injection V as <-; split; [eexists; vm_compute; reflexivity|]; split; intros J; repeat (destruct J as [J|J]; [discriminate J|]); exact J|]; intros p x J X; vm_compute in J; repeat (destruct J as [<-|J]; [injection X as <-; apply word_okb; reflexivity|]); destruct J|]). destruct I.
Qed.
(** Without that, a version or a name with newlines in it can put a marker in the file. *)
Theorem C144_names_refuted : exists root fs d name, soup_layers root <> [] /\ scan_soup xpr [] root = Ok fs /\ o_res (handle fs d name) = Ok tt /\ o_res (handle fs (o_disk (handle fs d name)) name) = Err ValueError.
Proof.
  exists (El (s "canvas") [] [El (s "layer") [(s "type", AStr (s "circle")); (s "version", AStr ([10] ++ s "### }}}" ++ [10]))] []]). eexists. exists [(xa, text [s "### {{{ Circle"; s "### }}}"])], xa.
  split; [discriminate|]. split; [vm_compute; reflexivity|]. split; vm_compute; reflexivity.
Qed.
Print Assumptions C144_names_refuted.

(** ** C145: what is needed to write anything *)

(** Either the files are given the fields, or nothing at all has happened. *)
Theorem C145_all_or_nothing : forall pr ex d names,
  (exists x root fs, contains d (s "test/pick-and-mix.sif") x /\ parse_doc (norm_eol x) = Ok root /\ scan_soup pr ex root = Ok fs /\ scan_pick_and_mix pr ex d names = handle_all fs d names) \/
  exists e, scan_pick_and_mix pr ex d names = mkO d [] [] (Err e).
Proof.
  intros pr ex d names. unfold scan_pick_and_mix. destruct (aget (s "test/pick-and-mix.sif") d) as [b|] eqn:A; [|right; now eexists]. destruct (decode b) as [x|] eqn:D; [|right; now eexists].
  destruct (parse_doc (norm_eol x)) as [root|] eqn:P; [|right; now eexists]. cbn [bind]. destruct (scan_soup pr ex root) as [fs|] eqn:S; [|right; now eexists].
  left. exists x, root, fs. split; [|now repeat split]. exists b. split; [exact A|]. now apply decode_spec.
Qed.
Print Assumptions C145_all_or_nothing.
(** Fields are only made if all layers have types, the first one of each type has a version, and its params have names, and each one value
    of a type that there is a class for. *)
Theorem C145_checked : forall pr ex root fs, scan_soup pr ex root = Ok fs ->
  (forall n, In n (soup_layers root) -> exists ty, has_ltype n ty) /\
  forall ty n, first_of_type (soup_layers root) ty n ->
    (exists v, aget (s "version") (tag_attrs n) = Some (AStr v)) /\
    forall p, In p (find_all (has_name (s "param")) n) -> (exists x, aget (s "name") (tag_attrs p) = Some (AStr x)) /\
      forall name, makes_field (aget (title ty) ex) p name -> override ty name = None ->
        (child_tags p = [] /\ name = s "index") \/ exists v, child_tags p = [v] /\ In (type_name name v) (s "BlendMethod" :: value_names).
Proof.
  intros pr ex root fs H. split; [exact (types_of pr ex _ _ _ _ _ H)|]. intros ty n F. destruct (block_of pr ex _ _ _ _ _ H ty n F) as (b & L); [intros []|].
  unfold layer_block in L. destruct F as (? & ? & _ & T & _). unfold has_ltype in T. unfold str_attr in L. rewrite T in L. cbn [bind] in L. destruct (aget (s "version") (tag_attrs n)) as [[ver| | |]|]; try discriminate. cbn [bind] in L. split; [now exists ver|].
  destruct (scan_params pr _ _ _ [] _) as [d|] eqn:P; [|discriminate]. intros p I. destruct (params_checked _ _ _ _ _ _ _ P p I) as (e & e' & Q). split.
  - unfold scan_param, str_attr in Q. destruct (aget (s "name") (tag_attrs p)) as [[y| | |]|]; try discriminate. now exists y.
  - intros name M O. exact (param_checked _ _ _ _ _ _ _ _ Q M O).
Qed.
Print Assumptions C145_checked.
Example C145_nonvacuous : exists d names fs, scan_pick_and_mix xpr [] d names = handle_all fs d names /\ o_written (handle_all fs d names) = names /\ names <> [] /\
  scan_pick_and_mix xpr [] (adel (s "test/pick-and-mix.sif") d) names = mkO (adel (s "test/pick-and-mix.sif") d) [] [] (Err FileNotFoundError).
Proof.
  exists [(s "test/pick-and-mix.sif", s "<?xml version=""1.0"" encoding=""UTF-8""?>" ++ [10] ++ s "<canvas><layer type=""circle"" version=""0.2""/></canvas>" ++ [10]); (xa, text [s "class Circle:"; s "    ### {{{"; s "    ### }}}"])], [xa], [(s "Circle", s "SYNFIG_VERSION = " ++ [34] ++ s "0.2" ++ [34; 10; 10])].
  split; [vm_compute; reflexivity|]. split; [vm_compute; reflexivity|]. split; [discriminate|]. vm_compute. reflexivity.
Qed.
