(** Property C165: a layer is found by what was assigned to its parameters. *)
From Coq Require Import Lia Permutation.
From Verif Require Import PyFloatProofs PyFmtProofs PyFmtProofs2 PyRoundProofs ValModel ValSpec ValProofs ValProofs2 TightProps4 LayModel DocProofs DocProofs2 LaySpec LayProofs LayProofs5 LayProofs7 LayProps ViewModel ViewSpec ViewProofs FndModel FndSpec FndProofs.
Local Open Scope N_scope.

(** ** The search *)

(** What this finds is what find_all of LayModel finds, where that is defined. *)
Lemma eq_extends a b r : field_eq a b = Ok r -> found_eq a b = Ok r.
Proof.
  intros H. destruct a as [|b0|z|q|x|l|l|d|d|t|c n cx|]; try (destruct b as [|b1|z1|q1|x1|l1|l1|d1|d1|t1|c1 n1 cx1|]; try exact H; discriminate H).
  cbn [field_eq] in H. cbn [found_eq]. destruct c; try exact H; try discriminate H. cbn [value_eq] in H. cbn [val_eq].
  destruct b as [|b1|z1|q1|x1|l1|l1|d1|d1|t1|c1 n1 cx1|]; try exact H. destruct c1; try discriminate H. exact H.
Qed.
Lemma str_same pr c n cx : match c with VXY | VGradient | VTransformation | VCanvas | VTbd _ => False | _ => True end -> value_str pr c n cx = py_str (PVal c n cx).
Proof. destruct c; intros H; try contradiction; reflexivity. Qed.
Lemma any_extends pr st F n c l r : any_match st F n c l = Ok r -> any_found pr st F n c l = Ok r.
Proof.
  revert r. induction l as [|[k w] l IH]; intros r H; [exact H|]. cbn [any_match] in H. cbn [any_found]. unfold read_for_match in H. unfold read_logged.
  destruct (field_get st F n c k) as [v|e] eqn:E; cbn [bind] in H |- *; [|destruct e; try discriminate H; now apply IH].
  set (p := match v with PVal _ _ _ => py_str v | _ => Ok [] end) in *.
  assert (X : (match v with PVal (VXY | VGradient | VTransformation | VCanvas | VTbd _) _ _ => False | _ => True end) \/ p = Err AttributeError -> match v with PVal t m cx => value_str pr t m cx | _ => Ok [] end = p).
  { unfold p. destruct v as [| | | | | | | | | |t m cx|]; try reflexivity. intros [Hc|Hc].
    - apply str_same. destruct t; exact Hc.
    - apply str_same. unfold py_str in Hc. destruct (is_animated m); [discriminate Hc|]. destruct t; exact I || discriminate Hc. }
  destruct p as [y|e]; cbn [bind] in H.
  - destruct w as [x|x]; [|discriminate H]. destruct (field_eq v x) as [b|e] eqn:Eb; cbn [bind] in H; [|discriminate H]. rewrite X.
    + cbn [bind wanted]. rewrite (eq_extends v x b Eb). cbn [bind]. destruct b; [exact H|]. now apply IH.
    + left. destruct v as [| | | | | | | | | |t m cx|]; try exact I. cbn [field_eq] in Eb. destruct t; exact I || discriminate Eb.
  - destruct e; try discriminate H. rewrite X by now right. cbn [bind]. now apply IH.
Qed.
Lemma filterM_ext {A} (f g : A -> res bool) l : (forall x r, f x = Ok r -> g x = Ok r) -> forall r, filterM f l = Ok r -> filterM g l = Ok r.
Proof.
  intros H. induction l as [|x l IH]; intros r E; [exact E|]. cbn [filterM] in E |- *. destruct (f x) as [b|] eqn:Ef; [|discriminate E]. rewrite (H x b Ef). cbn [bind] in E |- *.
  destruct (filterM f l) as [r'|] eqn:El; [|discriminate E]. now rewrite (IH r' eq_refl).
Qed.
Theorem C165_extends : forall printable st F n pos rec kw at_ l, layer_find_all st F n pos rec kw at_ = Ok l -> find_all_of printable st F n pos rec kw at_ = Ok l.
Proof.
  intros pr st F n pos rec kw at_ l H. unfold layer_find_all in H. unfold find_all_of. destruct (criterion_of pos kw at_) as [cr|]; [|discriminate H]. cbn [bind] in H |- *.
  destruct (filterM (matches st F cr) _) as [r|] eqn:E; [|discriminate H]. cbn [bind] in H. rewrite (filterM_ext (matches st F cr) (matches_all pr st F cr) _) with (r := r); [exact H| |exact E].
  intros x b Hx. unfold matches in Hx. unfold matches_all. destruct (is_layer x); [|exact Hx]. destruct (layer_class x) as [c|]; [|discriminate Hx]. cbn [bind] in Hx |- *. destruct cr; [exact Hx|exact Hx|]. now apply any_extends.
Qed.
Print Assumptions C165_extends.

(** A layer meets a criterion: its field k can be read, and is equal to v. With one criterion, exactly the layers that meet it are found. *)
Definition meets_it (printable : N -> bool) (st : lcls) (F : forest) (y : inode) (k : pstr) (v : pyval) : Prop :=
  exists c found, layer_class y = Ok c /\ read_logged printable st F y c k = Ok found /\ found_eq found v = Ok true.
Theorem C165_one : forall printable st F n k v l, k <> s "type" -> find_all_of printable st F n [] true [(k, WVal v)] None = Ok l ->
  forall y, In y l <-> In y (idesc n) /\ is_layer y = true /\ meets_it printable st F y k v.
Proof.
  intros pr st F n k v l Hk H y. unfold find_all_of, criterion_of in H. cbn [with_positional bind snd fst mapM] in H. unfold target in H. cbn [fst snd] in H.
  replace (pstr_eqb k (s "type")) with false in H by (symmetry; now apply pstr_eqb_neq). cbn [bind] in H.
  destruct (filterM _ (idesc n)) as [r|] eqn:E; [|discriminate H]. cbn [bind] in H. apply mapM_as_layer_inv in H as [-> _]. rewrite (filterM_In _ _ _ E y).
  unfold matches_all, meets_it. destruct (is_layer y); [|split; [intros [_ X]; discriminate X|intros (_ & X & _); discriminate X]].
  destruct (layer_class y) as [c|]; [|split; [intros [_ X]; discriminate X|intros (_ & _ & c & f & X & _); discriminate X]]. cbn [bind any_found wanted]. split.
  - intros [Hy X]. split; [exact Hy|]. split; [reflexivity|]. exists c. destruct (read_logged pr st F y c k) as [f|e]; [|destruct e; discriminate X]. exists f. split; [reflexivity|]. split; [reflexivity|].
    destruct (found_eq f v) as [b|]; [|discriminate X]. cbn [bind] in X. now destruct b.
  - intros (Hy & _ & c' & f & [= <-] & -> & ->). auto.
Qed.
Print Assumptions C165_one.

(** A description, or another attribute, can be looked for with a value too: with a String, it is found just if that is its text. *)
Theorem C165_text : forall x n cx, exists b, found_eq (PStr x) (PVal VString n cx) = Ok b /\ (b = true <-> get_value VString n cx = Ok (PStr x)).
Proof. intros x n cx. eexists. split; [reflexivity|]. cbn [get_value]. rewrite pstr_eqb_spec. split; [intros ->; reflexivity|intros [= E]; auto]. Qed.
Print Assumptions C165_text.
(** Nothing is equal to a class, but for values that are true: [Bool == Circle]. *)
Theorem C165_classes : forall found x, found_eq found (wanted (WCls x)) = Ok true -> exists n cx, found = PVal VBool n cx /\ get_value VBool n cx = Ok (PBool true).
Proof.
  intros a x H. cbn [wanted] in H. destruct a as [| | | | | | | | | |c n cx|]; try discriminate H. cbn [found_eq] in H. destruct c; cbn [val_eq] in H; try discriminate H.
  - unfold simple_eq in H. cbn [is_instance py_bool bind] in H. exists n, cx. split; [reflexivity|]. cbn [get_value]. destruct (simple_val VBool n cx) as [v|]; [|discriminate H]. cbn [bind] in H. destruct v as [|b| | | | | | | | | |]; try discriminate H. now destruct b.
  - unfold simple_eq in H. cbn in H. destruct (simple_val VTime n cx) as [v|]; [|discriminate H]. cbn [bind] in H. destruct v; try discriminate H.
  - unfold grad_eq in H. destruct (gradient_val n cx); [|discriminate H]. discriminate H.
Qed.
Print Assumptions C165_classes.

(** ** C165 *)

(** After [value.value = v], [value == v]. What is missing: vectors, and colours given as tuples, with more decimals than are stored, for which it is false;
    values with v of other classes (C71). *)
Theorem C165_equal_partial : forall c prior v, kept c prior v -> exists m, set_value c prior v = (m, Ok tt) /\ forall cx, found_eq (PVal c m cx) v = Ok true.
Proof. intros c prior v K. destruct (kept_equal c prior v K) as (m & S & _ & _ & E). exists m. split; [exact S|]. intros cx. apply (E (fun _ => true) cx). Qed.
Print Assumptions C165_equal_partial.

(** For vectors and for colours given as tuples of floats, this is exact: they are equal to what was assigned just if that has ten decimals, or six. *)
Theorem C165_vectors_exactly : forall prior x y, begins_with_x prior -> is_dbl x -> is_dbl y ->
  exists m, set_value VXY prior (PTuple [PFlo x; PFlo y]) = (m, Ok tt) /\ forall cx, exists b, found_eq (PVal VXY m cx) (PTuple [PFlo x; PFlo y]) = Ok b /\ (b = true <-> has_decimals 10 x /\ has_decimals 10 y).
Proof.
  intros prior x y B Hx Hy. pose proof (xy_iter prior x y B) as R. destruct (set_value VXY prior (PTuple [PFlo x; PFlo y])) as [m r] eqn:S. rewrite vector_set_pair in S. injection S as <- <-. cbn [fst] in R. set (m := El (s "vector") [] (tag_kids prior ++ xy_tags x y)) in *. exists m. split; [reflexivity|]. intros cx.
  destruct (vec_eq_tuple m _ [x; y] R) as (e & Ee & X). exists e. split; [exact Ee|]. rewrite X, two_equal. split.
  - intros [E1 E2]. split; now apply round_same.
  - intros [E1 E2]. rewrite !fixed10 by assumption. split; reflexivity.
Qed.
Print Assumptions C165_vectors_exactly.
Theorem C165_colours_exactly : forall prior r g b a, is_dbl r -> is_dbl g -> is_dbl b -> is_dbl a ->
  (exists m, set_value VColor prior (PTuple [PFlo r; PFlo g; PFlo b; PFlo a]) = (m, Ok tt) /\
     forall cx, exists e, found_eq (PVal VColor m cx) (PTuple [PFlo r; PFlo g; PFlo b; PFlo a]) = Ok e /\ (e = true <-> Forall (has_decimals 6) [r; g; b; a])) /\
  (exists m, set_value VColor prior (PTuple [PFlo r; PFlo g; PFlo b]) = (m, Ok tt) /\
     forall cx, exists e, found_eq (PVal VColor m cx) (PTuple [PFlo r; PFlo g; PFlo b]) = Ok e /\ (e = true <-> Forall (has_decimals 6) [r; g; b])).
Proof.
  intros prior r g b a Hr Hg Hb Ha. split.
  - destruct (color_tuple_stores prior r g b a) as (m & S & _ & C & _). exists m. split; [exact S|]. intros cx. destruct (C72_colour_tuples m _ _ _ _ (PFlo r) (PFlo g) (PFlo b) (PFlo a) C) as ((e & E & X) & _). exists e. split; [exact E|]. rewrite X. cbn [number_is]. split.
    + intros (E1 & E2 & E3 & E4). repeat (constructor; [now apply round_same|]). constructor.
    + intros F. inversion_clear F as [|? ? F1 F']. inversion_clear F' as [|? ? F2 F'']. inversion_clear F'' as [|? ? F3 F3']. inversion_clear F3' as [|? ? F4 _]. rewrite !fixed6 by assumption. repeat split; reflexivity.
  - destruct (color_tuple3_stores prior r g b) as (m & S & _ & C & _). exists m. split; [exact S|]. intros cx. destruct (C72_colour_tuples m _ _ _ _ (PFlo r) (PFlo g) (PFlo b) PNone C) as (_ & (e & E & X)). exists e. split; [exact E|]. rewrite X. cbn [number_is]. split.
    + intros (E1 & E2 & E3 & _). repeat (constructor; [now apply round_same|]). constructor.
    + intros F. inversion_clear F as [|? ? F1 F']. inversion_clear F' as [|? ? F2 F'']. inversion_clear F'' as [|? ? F3 _]. rewrite !fixed6 by assumption. repeat split; reflexivity.
Qed.
Print Assumptions C165_colours_exactly.

(** After [layer.k = v], [find_all(k=v)] finds this layer, from wherever above it the search begins, if it ends at all (that is, if no other layer raises). *)
Lemma found_after pr st F u n cl k ty d w c v m (ok : ctx -> Prop) : wf F -> fget u F = Some n -> is_layer n = true -> layer_class n = Ok cl ->
  aget k (all_fields cl) = Some (FParam ty d) -> k <> s "type" -> param_get F n k = Ok (w, c) -> inst ty c = true ->
  set_value c (forget w) v = (m, Ok tt) -> from_tag m = Ok c -> (forall cx, ok cx -> val_eq c m cx v = Ok true /\ exists x, value_str pr c m cx = Ok x) ->
  exists F' n', field_set F u n cl k v = (F', Ok tt) /\ fget u F' = Some n' /\
    forall G l, ok (ctx_of F' (iuid w)) -> In n' (idesc G) -> find_all_of pr st F' G [] true [(k, WVal v)] None = Ok l -> In n' l.
Proof.
  intros W Hu Hl Hc Hf Hk Hg Hi S T E.
  destruct (C51_set_field_partial F u n k v w c m (Ok tt) W Hu Hg S) as (w' & U & M & P & W' & n' & Hu' & Nn & Na & Pg & _).
  exists (fput (iuid w) w' F), n'. split; [unfold field_set; rewrite Hf; exact P|]. split; [exact Hu'|]. set (F' := fput (iuid w) w' F) in *. intros G l Ok' In' Hfind.
  apply (C165_one pr st F' G k v l Hk Hfind). split; [exact In'|]. split; [destruct (fget_In _ _ _ Hu') as (_ & _ & It); unfold is_layer, named in *; rewrite It, Nn; apply andb_prop in Hl as [_ Hl]; exact Hl|].
  exists cl, (PVal c m (ctx_of F' (iuid w'))). split; [unfold layer_class in *; now rewrite Na|]. rewrite T in Pg. cbn [bind] in Pg. rewrite <- U in Ok'. destruct (E (ctx_of F' (iuid w')) Ok') as (E1 & x & E2). split; [|exact E1].
  unfold read_logged, field_get. rewrite Hf. unfold param_field. rewrite Pg. cbn [bind snd]. rewrite Hi. unfold as_value. cbn [fst snd bind]. rewrite M, E2. reflexivity.
Qed.
Theorem C165_found_partial : forall printable st F u n cl k ty d w c v, wf F -> fget u F = Some n -> is_layer n = true -> layer_class n = Ok cl ->
  aget k (all_fields cl) = Some (FParam ty d) -> k <> s "type" -> param_get F n k = Ok (w, c) -> inst ty c = true -> kept c (forget w) v ->
  exists F' n', field_set F u n cl k v = (F', Ok tt) /\ fget u F' = Some n' /\
    forall G l, In n' (idesc G) -> find_all_of printable st F' G [] true [(k, WVal v)] None = Ok l -> In n' l.
Proof.
  intros pr st F u n cl k ty d w c v W Hu Hl Hc Hf Hk Hg Hi K. destruct (kept_equal c (forget w) v K) as (m & S & T & A & E).
  destruct (found_after pr st F u n cl k ty d w c v m (fun _ => True) W Hu Hl Hc Hf Hk Hg Hi S T) as (F' & n' & X1 & X2 & X3); [intros cx _; apply E|].
  exists F', n'. split; [exact X1|]. split; [exact X2|]. intros G l. now apply X3.
Qed.
Print Assumptions C165_found_partial.

(** The same for times, assigned as a number of frames, where the canvas has a whole number of frames in a second. *)
Theorem C165_times : forall prior n p, (0 <= n < 10 ^ 6)%Z -> (0 < p)%Z ->
  exists m, set_value VTime prior (PInt n) = (m, Ok tt) /\ forall cx, TimeSpec.at_fps (inject_Z p) cx -> found_eq (PVal VTime m cx) (PInt n) = Ok true.
Proof. intros prior n p Hn Hp. destruct (time_kept prior n p Hn Hp) as (m & S & _ & _ & E). exists m. split; [exact S|]. intros cx Hc. apply (E (fun _ => true) cx Hc). Qed.
Print Assumptions C165_times.
Theorem C165_found_times : forall printable st F u n cl k ty d w z p, wf F -> fget u F = Some n -> is_layer n = true -> layer_class n = Ok cl ->
  aget k (all_fields cl) = Some (FParam ty d) -> k <> s "type" -> param_get F n k = Ok (w, VTime) -> inst ty VTime = true -> (0 <= z < 10 ^ 6)%Z -> (0 < p)%Z ->
  exists F' n', field_set F u n cl k (PInt z) = (F', Ok tt) /\ fget u F' = Some n' /\
    forall G l, TimeSpec.at_fps (inject_Z p) (ctx_of F' (iuid w)) -> In n' (idesc G) -> find_all_of printable st F' G [] true [(k, WVal (PInt z))] None = Ok l -> In n' l.
Proof.
  intros pr st F u n cl k ty d w z p W Hu Hl Hc Hf Hk Hg Hi Hz Hp. destruct (time_kept (forget w) z p Hz Hp) as (m & S & T & A & E).
  exact (found_after pr st F u n cl k ty d w VTime (PInt z) m (TimeSpec.at_fps (inject_Z p)) W Hu Hl Hc Hf Hk Hg Hi S T (E pr)).
Qed.
Print Assumptions C165_found_times.

(** A third isn't found: it is stored with ten decimals, and compared exactly. Nor is a colour with a third of red in it. A circle whose radius is set to a third is. *)
Definition third : Q := rnd64 (1 # 3).
Definition fcirc : inode :=
  IE 10 (s "layer") [(s "type", AStr (s "circle"))]
    [IE 11 (s "param") [(s "name", AStr (s "radius"))] [IE 12 (s "real") [(s "value", AStr (s "1.0"))] []];
     IE 13 (s "param") [(s "name", AStr (s "origin"))] [IE 14 (s "vector") [] [IE 15 (s "x") [] [IT (s "1.0")]; IE 16 (s "y") [] [IT (s "2.0")]]];
     IE 20 (s "param") [(s "name", AStr (s "color"))] [IE 21 (s "color") [] [IE 22 (s "r") [] [IT (s "1.0")]; IE 23 (s "g") [] [IT (s "0.0")]; IE 24 (s "b") [] [IT (s "0.0")]; IE 25 (s "a") [] [IT (s "1.0")]]]].
Definition fdoc165 : forest := [IE 1 (s "canvas") [(s "fps", AStr (s "24"))] [fcirc]].
Definition finds (F : forest) (k : pstr) (v : pyval) : res (list N) :=
  match fget 1 F with Some g => let* l := find_all_of (fun _ => true) cls_Layer F g [] true [(k, WVal v)] None in Ok (map iuid l) | None => Err KeyError end.
Definition set_and_find (k : pstr) (v : pyval) : res (list N) := let (F, r) := field_set fdoc165 10 fcirc cls_Circle k v in let* _ := r in finds F k v.
Theorem C165_refuted :
  (exists x y, is_dbl x /\ is_dbl y /\ set_and_find (s "origin") (PTuple [PFlo x; PFlo y]) = Ok []) /\
  (exists r g b, is_dbl r /\ is_dbl g /\ is_dbl b /\ set_and_find (s "color") (PTuple [PFlo r; PFlo g; PFlo b]) = Ok []) /\
  set_and_find (s "radius") (PFlo third) = Ok [10].
Proof.
  split; [exists third, 0%Q|split; [exists third, 0%Q, 0%Q|]]; repeat (split; [vm_compute; reflexivity|]); vm_compute; reflexivity.
Qed.
Print Assumptions C165_refuted.
Example C165_nonvacuous : wf fdoc165 /\ fget 10 fdoc165 = Some fcirc /\ is_layer fcirc = true /\ layer_class fcirc = Ok cls_Circle /\
  (exists d w, aget (s "origin") (all_fields cls_Circle) = Some (FParam VXY d) /\ param_get fdoc165 fcirc (s "origin") = Ok (w, VXY) /\
     kept VXY (forget w) (PTuple [PFlo (rnd64 (decimal 10 25000000000)); PFlo (rnd64 (decimal 10 (-1)))])) /\
  set_and_find (s "origin") (PTuple [PFlo (rnd64 (decimal 10 25000000000)); PFlo (rnd64 (decimal 10 (-1)))]) = Ok [10] /\
  set_and_find (s "color") (PStr (s "C0ffee")) = Ok [10] /\ finds fdoc165 (s "color") (PStr (s "C0ffee")) = Ok [].
Proof.
  split; [unfold wf; vm_compute; repeat constructor; cbn; intuition discriminate|]. repeat (split; [vm_compute; reflexivity|]). split.
  - eexists. eexists. split; [vm_compute; reflexivity|]. split; [vm_compute; reflexivity|]. constructor; [split; [|reflexivity]|eexists; reflexivity|eexists; reflexivity]. constructor; [now left|constructor; [now right|constructor]].
  - repeat (split; [vm_compute; reflexivity|]). vm_compute. reflexivity.
Qed.

(** A group's transformation and time, and a gradient *)
Definition fgrp : inode :=
  IE 10 (s "layer") [(s "type", AStr (s "group"))]
    [IE 11 (s "param") [(s "name", AStr (s "transformation"))] [IE 12 (s "composite") [(s "type", AStr (s "transformation"))] []];
     IE 13 (s "param") [(s "name", AStr (s "time_offset"))] [IE 14 (s "time") [(s "value", AStr (s "0s"))] []]].
Definition fgrad : inode :=
  IE 20 (s "layer") [(s "type", AStr (s "linear_gradient"))] [IE 21 (s "param") [(s "name", AStr (s "gradient"))] [IE 22 (s "gradient") [] []]].
Definition fdoc165b : forest := [IE 0 (s "[document]") [] [IE 1 (s "canvas") [(s "fps", AStr (s "24"))] [fgrp; fgrad]]].
Definition some_trans : list (pstr * pyval) :=
  [(s "scale", PTuple [PFlo (rnd64 (decimal 10 20000000000)); PFlo 1]); (s "angle", PFlo (rnd64 (1 # 3))); (s "offset", PTuple [PFlo (rnd64 (decimal 10 1)); PFlo 0]); (s "skew_angle", PFlo 0)].
Definition some_stops : list stop := [(1000000%Z, [0; 0; 0; 1]%Q); (250000%Z, [1; rnd64 (decimal 6 333333); 0; 1]%Q)].
Definition sets_and_finds (u : N) (n : inode) (c : lcls) (k : pstr) (v : pyval) : res (list N) := let (F, r) := field_set fdoc165b u n c k v in let* _ := r in finds F k v.
Example C165_nonvacuous_parts : wf fdoc165b /\ fget 10 fdoc165b = Some fgrp /\ layer_class fgrp = Ok cls_Group /\
  (exists d w, aget (s "transformation") (all_fields cls_Group) = Some (FParam VTransformation d) /\ param_get fdoc165b fgrp (s "transformation") = Ok (w, VTransformation) /\ kept VTransformation (forget w) (PDict some_trans)) /\
  kept VGradient (El (s "gradient") [] []) (PDictF (map (fun a => (position (fst a), colour_arg (snd a))) some_stops)) /\
  TimeSpec.at_fps (inject_Z 24) (ctx_of fdoc165b 14) /\
  sets_and_finds 10 fgrp cls_Group (s "transformation") (PDict some_trans) = Ok [10] /\
  sets_and_finds 10 fgrp cls_Group (s "time_offset") (PInt 7) = Ok [10] /\
  sets_and_finds 20 fgrad cls_Linear_Gradient (s "gradient") (PDictF (map (fun a => (position (fst a), colour_arg (snd a))) some_stops)) = Ok [20].
Proof.
  assert (D : forall k m x, rnd64 (decimal k m) = x -> has_decimals k x) by (intros k m x H; exists m; auto).
  split; [unfold wf; vm_compute; repeat constructor; cbn; intuition discriminate|]. split; [vm_compute; reflexivity|]. split; [vm_compute; reflexivity|]. split.
  - eexists. eexists. split; [vm_compute; reflexivity|]. split; [vm_compute; reflexivity|].
    apply (kept_transformation _ _ (rnd64 (decimal 10 1)) 0%Q (rnd64 (1 # 3)) 0%Q (rnd64 (decimal 10 20000000000)) 1%Q);
      [vm_compute; reflexivity|vm_compute; reflexivity|exists 1%Z; reflexivity|apply (D 10%nat 0%Z); vm_compute; reflexivity|apply rnd64_is_dbl|vm_compute; reflexivity|exists 20000000000%Z; reflexivity|apply (D 10%nat 10000000000%Z); vm_compute; reflexivity|].
    unfold some_trans, full.
    eapply perm_trans; [apply perm_skip, perm_swap|]. eapply perm_trans; [apply perm_swap|]. apply perm_skip. eapply perm_trans; [apply perm_swap|]. apply perm_skip. apply perm_swap.
  - split.
    + apply (kept_gradient _ some_stops [(250000%Z, [1; rnd64 (decimal 6 333333); 0; 1]%Q); (1000000%Z, [0; 0; 0; 1]%Q)]); [reflexivity| | |apply perm_swap].
      * split; [constructor; [reflexivity|constructor]|]. split; [|cbn; lia]. repeat constructor; try (cbn; lia); try (vm_compute; reflexivity).
      * assert (Z : has_decimals 6 0) by (apply (D 6%nat 0%Z); vm_compute; reflexivity). assert (O : has_decimals 6 1) by (apply (D 6%nat 1000000%Z); vm_compute; reflexivity). assert (H : has_decimals 6 (rnd64 (decimal 6 333333))) by (eexists; reflexivity).
        constructor; [cbn [snd]; constructor; [exact O|constructor; [exact H|constructor; [exact Z|constructor; [exact O|constructor]]]]|constructor; [|constructor]]. cbn [snd]. constructor; [exact Z|constructor; [exact Z|constructor; [exact Z|constructor; [exact O|constructor]]]].
    + split; [exists [(s "fps", AStr (s "24"))], (AStr (s "24")); split; [vm_compute; reflexivity|]; split; [reflexivity|vm_compute; reflexivity]|]. repeat (split; [vm_compute; reflexivity|]). vm_compute. reflexivity.
Qed.
Example C165_exactly_nonvacuous : begins_with_x (El (s "vector") [] []) /\ is_dbl third /\ is_dbl (1#2) /\ has_decimals 10 (1#2) /\ ~ has_decimals 10 third /\ ~ has_decimals 6 third.
Proof.
  split; [split; [constructor|exact I]|]. split; [vm_compute; reflexivity|]. split; [vm_compute; reflexivity|]. split; [exists 5000000000%Z; vm_compute; reflexivity|].
  split; intros H; [apply fixed10 in H|apply fixed6 in H]; vm_compute in H; discriminate H.
Qed.
