(** More about the fields that template/__main__.py writes: names, and texts for all types of values. *)
From Coq Require Import Permutation Lia.
From Verif Require Import ScanModel ScanSpec ScanSpec2 ScanProofs ScanProofs3 ScanProofs4 ScanProps.
Local Open Scope N_scope.

(** C142: the name of a class is that of the type, with capitals at the beginnings of words. (Only ASCII letters are
    letters here.) *)
Theorem C142_class_names : forall pr ex root fs, scan_soup pr ex root = Ok fs ->
  forall c, In c (map fst fs) <-> exists n ty, In n (soup_layers root) /\ has_ltype n ty /\ titled ty c.
Proof.
  intros pr ex root fs H c. destruct (C142_blocks pr ex root fs H) as (_ & B & _). rewrite B. split; intros (n & ty & I & T & E); exists n, ty; (split; [exact I|]; split; [exact T|]).
  - subst c. apply title_titled.
  - symmetry. now apply title_iff.
Qed.
Print Assumptions C142_class_names.
Example C142_class_names_nonvacuous : titled (s "noise_DISTORT2x-import") (s "Noise_Distort2X-Import").
Proof. apply title_iff. vm_compute. reflexivity. Qed.

(** C142: all layers count, however deep they are. *)
Theorem C142_all_layers : forall root n, In n (soup_layers root) <-> is_tag n = true /\ tag_name n = s "layer" /\ within n root.
Proof. exact soup_layers_all. Qed.
Print Assumptions C142_all_layers.
Example C142_all_nonvacuous : In xcircle (soup_layers (El (s "canvas") [] [xswitch])) /\ xcircle <> xswitch.
Proof.
  split; [|discriminate]. apply C142_all_layers. split; [reflexivity|]. split; [reflexivity|]. 
  unfold xswitch, xlayer, xparam. do 4 (eapply within_kid; [left; reflexivity|]). apply within_here.
Qed.

(** C143: there is no line for a param just if the class has the field from another class: it is the same object in both. *)
Theorem C143_inherited : forall pr k ltype cx p full d, aget (s "name") (tag_attrs p) = Some (AStr full) ->
  (exists f sup g, aget full (k_dict k) = Some f /\ In sup (k_supers k) /\ aget full sup = Some g /\ f_id g = f_id f) ->
  scan_param pr (Some k) ltype cx d p = Ok d /\ forall name, ~ makes_field (Some k) p name.
Proof.
  intros pr k lt cx p full d A H. apply inherited_spec in H. split.
  - unfold scan_param, str_attr. rewrite A. cbn [bind]. now rewrite H.
  - intros name (f & A' & B & _). rewrite A in A'. injection A' as <-. rewrite (B k eq_refl) in H. discriminate.
Qed.
Print Assumptions C143_inherited.
Theorem C143_own : forall k p name, aget (s "name") (tag_attrs p) = Some (AStr name) -> ~ In 91 name ->
  (forall f sup g, aget name (k_dict k) = Some f -> In sup (k_supers k) -> aget name sup = Some g -> f_id g <> f_id f) ->
  makes_field (Some k) p name.
Proof.
  intros k p name A B H. exists name. split; [exact A|]. split; [|now left]. intros c [= <-]. destruct (is_inherited_param k name) eqn:E; [|reflexivity].
  apply inherited_spec in E as (f & sup & g & E1 & E2 & E3 & E4). destruct (H f sup g E1 E2 E3 E4).
Qed.
Print Assumptions C143_own.
(** A class with two fields; one is from the class it inherits from, and the other isn't. *)
Definition xklass : klass := mkK [(s "radius", mkF 1 None); (s "invert", mkF 2 (Some (s "It's")))] [[(s "radius", mkF 1 None); (s "invert", mkF 3 None)]].
Example C143_inherited_nonvacuous : layer_block (fun c => (32 <=? c) && (c <? 127)) [(s "Circle", xklass)] None xcircle = Ok (s "SYNFIG_VERSION = " ++ [34] ++ s "0.2" ++ [34; 10; 10] ++
  s "invert               = f.ParamTagField(v.Bool, False," ++ [10] ++ repeat 32 30 ++ s "doc=""It's""," ++ [10] ++ s "                    )" ++ [10]).
Proof. vm_compute. reflexivity. Qed.

(** C143: the three exceptions *)
Theorem C143_exceptions : forall pr k cx p ltype name text, makes_field k p name ->
  In (ltype, (name, text)) [(s "duplicate", (s "index", s "f.DuplicatesIndexField(None)"));
                            (s "halftone3", (s "tone", s "f.ParamArrayField(v.Tone, default=None)"));
                            (s "switch", (s "canvas", s "f.SwitchCanvasField()"))] ->
  scan_param pr k ltype cx [] p = Ok [(name, text)].
Proof.
  intros pr k cx p lt name text M I. destruct (makes_name _ _ _ M) as (full & A & En). unfold scan_param, str_attr. rewrite A. cbn [bind].
  assert (W : match k with Some c => is_inherited_param c full | None => false end = false).
  { destruct M as (f' & A' & D & _). rewrite A in A'. injection A' as <-. destruct k; [now apply D|reflexivity]. } rewrite W.
  assert (Z : existsb (N.eqb 91) full && negb (has_infix (s "[0]") full) = false).
  { destruct M as (f' & A' & _ & D). rewrite A in A'. injection A' as <-. destruct D as [[D _]|(_ & _ & D)].
    - destruct (existsb (N.eqb 91) full) eqn:Q; [apply bracket_in in Q; contradiction|reflexivity].
    - apply has_infix_spec in D. rewrite D. apply andb_false_r. }
  rewrite Z. cbv zeta. rewrite <- En. clear -I. cbn [In] in I. repeat (destruct I as [I|I]; [injection I as <- <- <-; reflexivity|]). destruct I.
Qed.
Print Assumptions C143_exceptions.
(** There are no others. *)
Theorem C143_no_more_exceptions : forall ltype name, ~ In (ltype, name) [(s "duplicate", s "index"); (s "halftone3", s "tone"); (s "switch", s "canvas")] -> override ltype name = None.
Proof.
  intros lt name H. cbn [In] in H. unfold override.
  destruct (pstr_eqb lt (s "duplicate") && pstr_eqb name (s "index")) eqn:E1; [apply andb_true_iff in E1 as [E E']; apply pstr_eqb_spec in E, E'; subst; tauto|].
  destruct (pstr_eqb lt (s "halftone3") && pstr_eqb name (s "tone")) eqn:E2; [apply andb_true_iff in E2 as [E E']; apply pstr_eqb_spec in E, E'; subst; tauto|].
  destruct (pstr_eqb lt (s "switch") && pstr_eqb name (s "canvas")) eqn:E3; [apply andb_true_iff in E3 as [E E']; apply pstr_eqb_spec in E, E'; subst; tauto|reflexivity].
Qed.
Print Assumptions C143_no_more_exceptions.

(** C143: what is on the right, for all types of values: the kind of field, the name of the class, the expression for the value, and the
    description that the field had before. Where there is no expression for values of the class, the field says so. *)
Theorem C143_field : forall pr k ltype cx p full name v cls (array : bool) h r, aget (s "name") (tag_attrs p) = Some (AStr full) -> makes_field k p name -> (array = true <-> In 91 full) ->
  ~ In (ltype, name) [(s "duplicate", s "index"); (s "halftone3", s "tone"); (s "switch", s "canvas")] ->
  child_tags p = [v] -> value_class name v cls -> In cls (s "BlendMethod" :: value_names) ->
  first_of_field pr cx v array cls h -> rest_of_field pr k name r -> scan_param pr k ltype cx [] p = Ok [(name, h ++ r)].
Proof. intros pr k lt cx p full name v cls a h r A M Ar O. apply C143_no_more_exceptions in O. now apply field_text with (full := full). Qed.
Print Assumptions C143_field.
(** The value always has one such name, and the rest is determined by the class. *)
Theorem C143_field_total : forall name v, exists cls, value_class name v cls /\ forall cls', value_class name v cls' -> cls' = cls.
Proof. intros name v. exists (type_name name v). split; [apply type_name_class|]. intros c H. exact (value_class_unique _ _ _ _ H (type_name_class name v)). Qed.
Print Assumptions C143_field_total.
Example C143_field_nonvacuous :
  let xy := El (s "vector") [] [El (s "y") [] [Txt (s "2.0")]; El (s "x") [] [Txt (s "1.0")]] in
  value_class (s "origin") xy (s "X_Y") /\
  scan_param xpr (Some xklass) (s "circle") None [] (xparam (s "origin") [xy]) = Ok [(s "origin", s "f.ParamTagField(v.X_Y, (1.0, 2.0)," ++ [10] ++ s "                    )")] /\
  scan_param xpr None (s "circle") None [] (xparam (s "origin") [El (s "bline") [] []]) = Ok [(s "origin", s "f.NotImplementedField(" ++ [34] ++ s "Bline" ++ [34] ++ s "," ++ [10] ++ s "                    )")] /\
  scan_param xpr None (s "circle") None [] (xparam (s "blend_method") [xvalue (s "integer") (s "13")]) = Ok [(s "blend_method", s "f.ParamTagField(v.BlendMethod, v.13," ++ [10] ++ s "                    )")].
Proof.
  cbv zeta. split; [apply is_xy; [discriminate|reflexivity|vm_compute; apply perm_swap]|]. split; [vm_compute; reflexivity|]. split; vm_compute; reflexivity.
Qed.

(** C143: a line begins with the name and as many spaces as make it twenty characters. The name type has to be another one in Python. *)
Theorem C143_line : forall name right, exists left n, field_line (name, right) = left ++ repeat 32 n ++ s " = " ++ right ++ [10] /\
  (name = s "type" /\ left = s "type_" \/ name <> s "type" /\ left = name) /\ (length left + n = Nat.max 20 (length left))%nat.
Proof.
  intros name right. exists (if pstr_eqb name (s "type") then s "type_" else name), (20 - length (if pstr_eqb name (s "type") then s "type_" else name))%nat.
  split; [unfold field_line, pad20; cbn [fst snd]; now rewrite <- !app_assoc|]. split; [|set (z := length _); change (z + (20 - z) = Nat.max 20 z)%nat; clearbody z; lia].
  destruct (pstr_eqb name (s "type")) eqn:E; [left|right]; [split; [now apply pstr_eqb_spec|reflexivity]|split; [now apply pstr_eqb_neq|reflexivity]].
Qed.
Print Assumptions C143_line.
Example C143_line_nonvacuous : field_line (s "type", s "1") = s "type_                = 1" ++ [10] /\ field_line (s "a_rather_long_name_of_a_field", s "1") = s "a_rather_long_name_of_a_field = 1" ++ [10].
Proof. split; vm_compute; reflexivity. Qed.
