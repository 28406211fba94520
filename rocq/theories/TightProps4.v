(** More of what is stored, compared and raised for arguments that are unusual: truth values for numbers, tuples of the wrong length, tags without texts. *)
From Verif Require AnimProofs2 SerProofs.
From Verif Require Import XpProofs ValModel ValSpec ValProofs TlModel LayModel.
From Coq Require Import Lia.
Local Open Scope Z_scope.

(** C15, C17: True and False are the numbers 1 and 0. *)
Theorem C15_truths : forall prior (b : bool), stores VInteger prior (PBool b) (PInt (if b then 1 else 0)).
Proof. intros prior b. exact (integer_stores prior (if b then 1 else 0)). Qed.
Print Assumptions C15_truths.
Theorem C17_truths : forall prior (b : bool), stores VReal prior (PBool b) (PFlo (if b then 1 else 0)%Q).
Proof. intros prior [|]; [exact (real_stores prior 1%Q)|exact (real_stores prior 0%Q)]. Qed.
Print Assumptions C17_truths.
(** C16: what is false in Python is stored as false, and what is true as true. *)
Inductive falsy : pyval -> Prop :=
| falsy_none : falsy PNone
| falsy_zero : falsy (PInt 0)
| falsy_flo q : (q == 0)%Q -> falsy (PFlo q)
| falsy_str : falsy (PStr [])
| falsy_tuple : falsy (PTuple [])
| falsy_list : falsy (PList [])
| falsy_dict : falsy (PDict [])
| falsy_dictf : falsy (PDictF []).
Definition container (v : pyval) : bool := match v with PInt _ | PFlo _ | PStr _ | PTuple _ | PList _ | PDict _ | PDictF _ => true | _ => false end.
Theorem C16_truth : forall prior v, v <> PNone -> v <> PTuple [] -> (falsy v -> stores VBool prior v (PBool false)) /\ (container v = true -> ~ falsy v -> stores VBool prior v (PBool true)).
Proof.
  intros prior v N1 N2. assert (X : forall b, py_bool v = Ok b -> container v = true -> stores VBool prior v (PBool b)).
  { intros b Hb Hc. destruct (bool_stores prior b) as (n & E & G). exists n. split; [|exact G]. rewrite <- E. cbn [set_value]. unfold simple_set, simple_str.
    destruct v as [|b'|z|q|x|l|l|d|d|t|c m cx|]; try discriminate Hc; try now rewrite Hb. destruct l; [now destruct N2|]. cbn [eq_empty_tuple bind is_none]. now rewrite Hb. }
  split; intros H.
  - destruct H; try (apply X; reflexivity); [now destruct N1|]. apply X; [|reflexivity]. cbn [py_bool]. apply Qeq_bool_iff in H. now rewrite H.
  - intros Hf. destruct v as [|b'|z|q|x|l|l|d|d|t|c m cx|]; try discriminate H; apply X; try reflexivity; cbn [py_bool].
    + destruct (Z.eqb_spec z 0) as [->|]; [exfalso; apply Hf; constructor|reflexivity].
    + destruct (Qeq_bool q 0) eqn:E; [|reflexivity]. exfalso. apply Hf. constructor. now apply Qeq_bool_iff.
    + destruct x; [exfalso; apply Hf; constructor|reflexivity].
    + destruct l; [exfalso; apply Hf; constructor|reflexivity].
    + destruct l; [exfalso; apply Hf; constructor|reflexivity].
    + destruct d; [exfalso; apply Hf; constructor|reflexivity].
    + destruct d; [exfalso; apply Hf; constructor|reflexivity].
Qed.
Print Assumptions C16_truth.
Example C16_truth_nonvacuous : falsy (PDict []) /\ container (PList [PNone]) = true /\ ~ falsy (PList [PNone]).
Proof. split; [constructor|]. split; [reflexivity|]. intros H. inversion H. Qed.

(** C23: tuples that don't have 0, 3 or 4 components, and objects that aren't tuples, strings or colours, are refused, and nothing changes. *)
Theorem C23_refused : forall n v, (match v with PTuple l => ~ In (length l) [0; 3; 4]%nat | PStr _ => False | PVal VColor _ _ => False | _ => True end) -> set_value VColor n v = (n, Err ValueError).
Proof.
  intros n v H. cbn [set_value]. unfold color_set. assert (E : color_conv v = Err ValueError); [|now rewrite E]. destruct v as [|b'|z|q|x|l|l|d|d|t|c m cx|]; try reflexivity; [contradiction| |].
  - destruct l as [|a [|b [|c [|d [|e l]]]]]; try reflexivity; exfalso; apply H; cbn [length In]; auto.
  - destruct c; try reflexivity. contradiction.
Qed.
Print Assumptions C23_refused.
(** A colour with a component missing, or without a number in it, can't be read. *)
Theorem C23_malformed : forall n, 
  (forall d, In d [s "r"; s "g"; s "b"; s "a"] -> find_all (has_name d) n = [] -> (forall d', In d' [s "r"; s "g"; s "b"; s "a"] -> d' <> d -> exists q, color_comp n d' = Ok q) -> color_tuple n = Err IndexError) /\
  (forall d t l, In d [s "r"; s "g"; s "b"; s "a"] -> find_all (has_name d) n = t :: l -> node_string t = None -> (forall d', In d' [s "r"; s "g"; s "b"; s "a"] -> d' <> d -> exists q, color_comp n d' = Ok q) -> color_tuple n = Err TypeError).
Proof.
  intros n. assert (X : forall d e, In d [s "r"; s "g"; s "b"; s "a"] -> color_comp n d = Err e -> (forall d', In d' [s "r"; s "g"; s "b"; s "a"] -> d' <> d -> exists q, color_comp n d' = Ok q) -> color_tuple n = Err e).
  { intros d e Hd He Ho. unfold color_tuple, rgba. cbn [mapM]. assert (Y : forall d', In d' [s "r"; s "g"; s "b"; s "a"] -> color_comp n d' = Err e \/ exists q, color_comp n d' = Ok q).
    { intros d' Hd'. destruct (pstr_eqb d' d) eqn:E; [apply pstr_eqb_spec in E; subst; auto|]. right. apply Ho; [exact Hd'|]. intros ->. rewrite pstr_eqb_refl in E. discriminate. }
    destruct (Y (s "r")) as [->|(q1 & E1)]; [now left|reflexivity|]. rewrite E1. cbn [bind]. destruct (Y (s "g")) as [->|(q2 & E2)]; [right; now left|reflexivity|]. rewrite E2. cbn [bind].
    destruct (Y (s "b")) as [->|(q3 & E3)]; [right; right; now left|reflexivity|]. rewrite E3. cbn [bind]. destruct (Y (s "a")) as [->|(q4 & E4)]; [right; right; right; now left|reflexivity|].
    exfalso. destruct Hd as [<-|[<-|[<-|[<-|[]]]]]; congruence. }
  split.
  - intros d Hd Hf Ho. apply (X d); auto. unfold color_comp. now rewrite Hf.
  - intros d t l Hd Hf Ht Ho. apply (X d); auto. unfold color_comp. now rewrite Hf, Ht.
Qed.
Print Assumptions C23_malformed.

(** C24: a vector takes two numbers, and no other tuples. *)
Definition a_number (v : pyval) : Prop := match v with PInt _ | PFlo _ | PBool _ => True | _ => False end.
Theorem C24_refused : forall n l, l <> [] -> (forall a b, l = [a; b] -> ~ (a_number a /\ a_number b)) -> set_value VXY n (PTuple l) = (n, Err TypeError).
Proof.
  intros n l Hl H. cbn [set_value]. unfold vector_set. assert (E : vector_members (PTuple l) = Err TypeError); [|now rewrite E]. cbn [vector_members]. destruct l as [|a [|b [|c l]]]; try reflexivity; [now destruct Hl|].
  destruct (is_number a) eqn:Ea; [|reflexivity]. destruct (is_number b) eqn:Eb; [|reflexivity]. exfalso. apply (H a b eq_refl). split; [now destruct a|now destruct b].
Qed.
Print Assumptions C24_refused.
Example C24_refused_nonvacuous : forall a b, [PInt 1; PStr (s "2")] = [a; b] -> ~ (a_number a /\ a_number b).
Proof. intros a b [= <- <-] [_ []]. Qed.

(** C70: a dictionary whose keys are strings is no gradient. With fewer than two of them nothing happens; with two or more, the colours that were there are lost. *)
Theorem C70_string_keys : forall n d, (length d < 2)%nat -> set_value VGradient n (PDict d) = (n, Err ValueError).
Proof. intros n d H. cbn [set_value gradient_set]. destruct (Z.ltb_spec (Z.of_nat (length d)) 2); [reflexivity|lia]. Qed.
Print Assumptions C70_string_keys.
Theorem C70_string_keys_refuted : forall n d, (2 <= length d)%nat -> exists e, set_value VGradient n (PDict d) = (El (tag_name n) (tag_attrs n) [], Err e).
Proof.
  intros n d H. cbn [set_value gradient_set]. destruct (Z.ltb_spec (Z.of_nat (length d)) 2); [lia|]. pose proof (SerProofs.sort_perm (fun a b : pstr * pyval => pstr_le (fst a) (fst b)) d) as P. apply Permutation.Permutation_length in P.
  destruct (sort _ d) as [|[k v] l]; [cbn [length] in P; lia|]. destruct (new_flat VColor v); eauto.
Qed.
Print Assumptions C70_string_keys_refuted.
(** Nothing can be assigned to a canvas but empty containers; what it had is lost either way. *)
Theorem C70_canvas_refuted : forall n v, (match v with PVal _ _ _ => False | _ => True end) ->
  fst (set_value VCanvas n v) = El (tag_name n) (tag_attrs n) [] /\
  (snd (set_value VCanvas n v) = Ok tt <-> In v [PTuple []; PList []; PDict []; PDictF []; PStr []]) /\ (snd (set_value VCanvas n v) <> Ok tt -> snd (set_value VCanvas n v) = Err TypeError).
Proof.
  intros n v H. cbn [set_value]. destruct v as [|b'|z|q|[|c x]|[|y l]|[|y l]|[|y d]|[|y d]|t|c m cx|]; try contradiction; cbn [canvas_set fst snd]; (split; [reflexivity|]); (split; [|tauto]);
    (split; [intros E; try discriminate E; cbn [In]; auto 6|]); intros E; cbn [In] in E; try reflexivity; repeat (destruct E as [E|E]; [discriminate E|]); destruct E.
Qed.
Print Assumptions C70_canvas_refuted.

(** C72: a colour is equal to a tuple of four numbers just if these are its components; a tuple of three is completed by 1. It isn't equal to anything
    that isn't a colour, a string or a tuple. *)
Definition number_is (a : Q) (v : pyval) : Prop := match v with PFlo q => (a == q)%Q | PInt z => (a == inject_Z z)%Q | PBool b => (a == if b then 1 else 0)%Q | _ => False end.
Theorem C72_colour_tuples : forall n r g b a v1 v2 v3 v4, color_tuple n = Ok [r; g; b; a] ->
  (exists e, color_eq n (PTuple [v1; v2; v3; v4]) = Ok e /\ (e = true <-> number_is r v1 /\ number_is g v2 /\ number_is b v3 /\ number_is a v4)) /\
  (exists e, color_eq n (PTuple [v1; v2; v3]) = Ok e /\ (e = true <-> number_is r v1 /\ number_is g v2 /\ number_is b v3 /\ (a == 1)%Q)).
Proof.
  intros n r g b a v1 v2 v3 v4 H. set (eqb := fun ab : Q * pyval => match snd ab with PFlo q => Qeq_bool (fst ab) q | PInt z => Qeq_bool (fst ab) (inject_Z z) | PBool b => Qeq_bool (fst ab) (if b then 1%Q else 0%Q) | _ => false end).
  assert (X : forall q v, eqb (q, v) = true <-> number_is q v) by (intros q v; unfold eqb, number_is; cbn [fst snd]; destruct v; try apply Qeq_bool_iff; split; try discriminate; intros []).
  split; unfold color_eq; cbn [length Nat.eqb app]; rewrite H; cbn [bind length Nat.eqb]; fold eqb; (eexists; split; [reflexivity|]); cbn [combine forallb]; rewrite !andb_true_iff, !X; [tauto|]. cbn [number_is]. tauto.
Qed.
Print Assumptions C72_colour_tuples.
Theorem C72_colour_others : forall n v, (match v with PVal VColor _ _ | PStr _ | PTuple _ => False | _ => True end) -> color_eq n v = Ok false.
Proof. intros n v H. destruct v as [| | | | | | | | | |c m cx|]; try contradiction; try reflexivity. destruct c; try contradiction; reflexivity. Qed.
Print Assumptions C72_colour_others.
(** Numbers, and strings that say no number, differ. A string is equal only to strings. *)
Lemma real_kind c n cx w : In c [VReal; VAngle] -> simple_val c n cx = Ok w -> exists q, w = PFlo q.
Proof. intros [<-|[<-|[]]] H; unfold simple_val in H; destruct (aget _ _) as [[x| | |]|]; try discriminate; destruct (parse_float x); try discriminate; cbn [bind] in H; injection H as <-; eauto. Qed.
Lemma int_kind n cx w : simple_val VInteger n cx = Ok w -> exists z, w = PInt z.
Proof. intros H. unfold simple_val in H. destruct (aget _ _) as [[x| | |]|]; try discriminate. destruct (parse_int x); try discriminate. cbn [bind] in H. injection H as <-. eauto. Qed.
Theorem C72_no_number : forall c n cx x w, In c [VReal; VAngle; VInteger] -> get_value c n cx = Ok w ->
  (c = VInteger -> parse_int x = Err ValueError) -> (c <> VInteger -> parse_float x = Err ValueError) -> simple_eq c n cx (PStr x) = Ok false.
Proof.
  intros c n cx x w Hc Hv Hi Hf. destruct Hc as [<-|[<-|[<-|[]]]]; cbn [get_value] in Hv; unfold simple_eq; cbn [is_instance py_float py_int].
  - rewrite Hf by discriminate. cbn [conv_or_keep bind]. rewrite Hv. cbn [bind]. destruct (real_kind VReal n cx w (or_introl eq_refl) Hv) as (q & ->). reflexivity.
  - rewrite Hf by discriminate. cbn [conv_or_keep bind]. rewrite Hv. cbn [bind]. destruct (real_kind VAngle n cx w (or_intror (or_introl eq_refl)) Hv) as (q & ->). reflexivity.
  - rewrite Hi by reflexivity. cbn [conv_or_keep bind]. rewrite Hv. cbn [bind]. destruct (int_kind n cx w Hv) as (z & ->). reflexivity.
Qed.
Print Assumptions C72_no_number.
Example C72_no_number_nonvacuous : parse_int (s "12.5") = Err ValueError /\ parse_float (s "twelve") = Err ValueError.
Proof. split; vm_compute; reflexivity. Qed.
Theorem C72_strings : forall n cx v, (match v with PStr _ | PVal _ _ _ | PT _ => False | _ => True end) -> value_eq VString n cx v = Ok false.
Proof. intros n cx v H. destruct v; try contradiction; reflexivity. Qed.
Print Assumptions C72_strings.
(** C48: for fields that are numbers or truth values, what is sought is compared as a number. *)
Definition as_number (v : pyval) (q : Q) : Prop := match v with PInt z => (q == inject_Z z)%Q | PFlo x => (q == x)%Q | PBool b => (q == if b then 1 else 0)%Q | _ => False end.
Theorem C48_numbers : forall a b x y, as_number a x -> as_number b y -> exists e, field_eq a b = Ok e /\ (e = true <-> (x == y)%Q).
Proof.
  intros a b x y Ha Hb. assert (X : forall v q, as_number v q -> exists q', py_num v = Some q' /\ (q == q')%Q) by (intros v q H; destruct v; try contradiction; eexists; split; try reflexivity; exact H).
  destruct (X a x Ha) as (p & Ep & Hp), (X b y Hb) as (q & Eq & Hq). exists (Qeq_bool p q). split.
  - destruct a; try contradiction; destruct b; try contradiction; cbn [field_eq]; rewrite Ep, Eq; reflexivity.
  - rewrite Qeq_bool_iff. now rewrite Hp, Hq.
Qed.
Print Assumptions C48_numbers.

(** C74: a tag that is animated says of what type. If it doesn't, it can't be read. *)
Theorem C74_no_type : forall n, is_animated n = true -> aget (s "type") (tag_attrs n) = None -> from_tag n = Err KeyError.
Proof. intros n A H. unfold from_tag. now rewrite A, H. Qed.
Print Assumptions C74_no_type.
Example C74_no_type_nonvacuous : is_animated (El (s "animated") [] []) = true.
Proof. reflexivity. Qed.
(** C10: only None, tags, and objects that have a tag can be references. *)
Theorem C10_bad_reference : forall v, T_new v RBad = Err TypeError.
Proof. reflexivity. Qed.
Print Assumptions C10_bad_reference.
(** C11: if the animation doesn't say when it ends, or begins, times that count from there can't be worked out. *)
Theorem C11_missing : forall f a k, aget k a = None -> root_time f a k = Err KeyError.
Proof. intros f a k H. unfold root_time. now rewrite H. Qed.
Print Assumptions C11_missing.
(** C73: a blend method is written as an integer that is static. *)
Theorem C73_blend_method : forall v n, new_value VBlendMethod v = Ok n -> tag_name n = s "integer" /\ aget (s "static") (tag_attrs n) = Some (AStr (s "true")).
Proof.
  intros v n H. unfold new_value, new_flat in H. destruct (simple_set VBlendMethod (empty_tag VBlendMethod) v) as [m [[]|e]]; [|discriminate H]. cbn [bind] in H. assert (E : n = El (s "integer") (aset (s "static") (AStr (s "true")) (tag_attrs m)) (tag_kids m)) by congruence. rewrite E. split; [reflexivity|]. cbn [tag_attrs]. apply AnimProofs2.aget_aset_same.
Qed.
Print Assumptions C73_blend_method.
Example C73_blend_method_nonvacuous : exists n, new_value VBlendMethod (PInt 2) = Ok n.
Proof. eexists. vm_compute. reflexivity. Qed.
(** C134: a coordinate that is missing is a KeyError; one without a text is a TypeError. *)
Theorem C134_coordinates : forall n k, (filter (has_name k) (child_tags n) = [] -> vector_getitem n k = Err KeyError) /\
  (forall t l, filter (has_name k) (child_tags n) = t :: l -> node_string t = None -> vector_getitem n k = Err TypeError).
Proof. intros n k. unfold vector_getitem, vector_get. split; [intros ->; reflexivity|]. intros t l -> Ht. rewrite Ht. reflexivity. Qed.
Print Assumptions C134_coordinates.
(** C140: values of types that aren't implemented can't be read or assigned. *)
Theorem C140_not_implemented : forall x n cx v, get_value (VTbd x) n cx = Err NotImplementedError /\ set_value (VTbd x) n v = (n, Err AttributeError).
Proof. intros x n cx v. split; reflexivity. Qed.
Print Assumptions C140_not_implemented.
(** C40: a canvas is a list of layers. If there is anything else in it, it can't be read. *)
Theorem C40_canvas : forall n cx, ((forall t, In t (child_tags n) -> tag_name t = s "layer") -> exists l, get_value VCanvas n cx = Ok (PList l) /\ length l = length (child_tags n)) /\
  ((exists t, In t (child_tags n) /\ tag_name t <> s "layer") -> get_value VCanvas n cx = Err ValueError).
Proof.
  intros n cx. assert (X : forall t, In t (child_tags n) -> has_name (s "layer") t = true <-> tag_name t = s "layer").
  { intros t Ht. unfold child_tags in Ht. apply filter_In in Ht as [_ Ht]. destruct t as [|nm a k]; [discriminate|]. cbn [has_name tag_name]. apply pstr_eqb_spec. }
  cbn [get_value]. split.
  - intros H. assert (E : forallb (has_name (s "layer")) (child_tags n) = true) by (apply forallb_forall; intros t Ht; apply X; auto). rewrite E. eexists. split; [reflexivity|]. apply map_length.
  - intros (t & Ht & Hn). destruct (forallb _ _) eqn:E; [|reflexivity]. rewrite forallb_forall in E. exfalso. apply Hn, X; auto.
Qed.
Print Assumptions C40_canvas.
(** C36: times, numbers and strings are keys of timelines. With other keys, nothing is set. *)
Theorem C36_other_keys : forall c n cx par x, tl_setitem c n cx par KeyOther x = (n, Err TypeError).
Proof. reflexivity. Qed.
Print Assumptions C36_other_keys.
