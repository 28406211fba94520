(** Properties C15 to C27 and C70 to C75: values (value/*.py). *)
From Verif Require Import SerModel ValSpec PyFloatProofs ValProofs ValProofs2.
From Coq Require Import Permutation Lia.
Local Open Scope Z_scope.

(** C15 *)
Theorem C15_integers_survive :
  forall (prior : node) (z : Z), stores VInteger prior (PInt z) (PInt z).
Proof. exact integer_stores. Qed.
Print Assumptions C15_integers_survive.

Example C15_nonvacuous :
  exists n, set_value VInteger (empty_tag VInteger) (PInt (-120)) = (n, Ok tt)
  /\ n = El (s "integer") [(s "value", AStr (s "-120"))] [].
Proof. eexists. split; reflexivity. Qed.

(** C16 *)
Theorem C16_bools_survive :
  forall (prior : node) (b : bool), stores VBool prior (PBool b) (PBool b).
Proof. exact bool_stores. Qed.
Print Assumptions C16_bools_survive.

(** C16: any stored string is read as a bool: true if it is "true" in any case. *)
Theorem C16_every_string_reads_as_bool :
  forall (n : node) (cx : ctx) (x : pstr), aget (s "value") (tag_attrs n) = Some (AStr x) ->
  get_value VBool n cx = Ok (PBool (pstr_eqb (lower x) (s "true"))).
Proof. exact bool_reads. Qed.
Print Assumptions C16_every_string_reads_as_bool.

Example C16_nonvacuous :
  get_value VBool (El (s "bool") [(s "value", AStr (s "TrUe"))] []) None = Ok (PBool true)
  /\ get_value VBool (El (s "bool") [(s "value", AStr (s "1"))] []) None = Ok (PBool false).
Proof. split; reflexivity. Qed.

(** C16: but a str is not parsed when it is assigned: Bool('false') is true. *)
Theorem C16_false_string_refuted :
  exists n, set_value VBool (empty_tag VBool) (PStr (s "false")) = (n, Ok tt) /\ get_value VBool n None = Ok (PBool true).
Proof. eexists. split; reflexivity. Qed.
Print Assumptions C16_false_string_refuted.

(** C17: Real(x) reads as the double nearest to the ten-decimal number
    nearest to x; the distance is at most 5e-11 and a rounding error of x. *)
Theorem C17_reals_to_ten_decimals :
  forall (prior : node) (x : Q),
  exists w, stores VReal prior (PFlo x) (PFlo w) /\ rounded_to 10 x w /\
    (Qabs (w - x) <= (1 # 20000000000) + Qabs x * pow2 (-52))%Q.
Proof. exact real_prop. Qed.
Print Assumptions C17_reals_to_ten_decimals.

(** C17: what was read is stored exactly. *)
Theorem C17_read_values_are_kept :
  forall (prior : node) (x w : Q), is_dbl x -> stores VReal prior (PFlo x) (PFlo w) ->
  forall prior', stores VReal prior' (PFlo w) (PFlo w).
Proof. exact real_same_value. Qed.
Print Assumptions C17_read_values_are_kept.

(** C17: and the tag is the same (the sign of zero is not modelled, hence the condition). *)
Theorem C17_restoring_writes_the_same :
  forall (prior : node) (x : Q), is_dbl x -> (0 <= x)%Q \/ ~ (round_dec 10 x == 0)%Q ->
  forall n w, set_value VReal prior (PFlo x) = (n, Ok tt) -> get_value VReal n None = Ok w ->
  set_value VReal n w = (n, Ok tt).
Proof. exact real_again. Qed.
Print Assumptions C17_restoring_writes_the_same.

Example C17_nonvacuous :
  let x := rnd64 (123456789012345 # 1000000000000000) in
  is_dbl x /\ ~ (round_dec 10 x == x)%Q /\ ~ (round_dec 10 x == 0)%Q /\ set_value VReal (empty_tag VReal) (PFlo x)
    = (El (s "real") [(s "value", AStr (s "0.1234567890"))] [], Ok tt).
Proof. vm_compute. repeat split; discriminate. Qed.

(** C18 *)
Theorem C18_angles_survive :
  forall (prior : node) (x : Q), is_dbl x -> stores VAngle prior (PFlo x) (PFlo x).
Proof. exact angle_stores. Qed.
Print Assumptions C18_angles_survive.

Example C18_nonvacuous :
  let x := rnd64 (-1 # 3) in is_dbl x /\ set_value VAngle (empty_tag VAngle) (PFlo x)
    = (El (s "angle") [(s "value", AStr (s "-0.3333333333333333"))] [], Ok tt).
Proof. vm_compute. split; reflexivity. Qed.

(** C19: for every right-hand side and every prior tag. *)
Theorem C19_failed_assignment_changes_nothing :
  forall (c : vcls) (n : node) (v : pyval) (n' : node) (e : exn),
  In c [VReal; VInteger; VBool; VAngle; VTime] \/ c = VBlendMethod \/ c = VColor \/ c = VString ->
  set_value c n v = (n', Err e) -> n' = n.
Proof. exact simple_atomic. Qed.
Print Assumptions C19_failed_assignment_changes_nothing.

Example C19_nonvacuous :
  let n := El (s "real") [(s "guid", AStr (s "7")); (s "value", AStr (s "1"))] [] in
  set_value VReal n (PStr (s "one")) = (n, Err ValueError) /\ set_value VColor n (PTuple [PInt 1]) = (n, Err ValueError)
  /\ set_value VTime n (PStr (s "2s")) = (n, Err ValueError).
Proof. vm_compute. repeat split; reflexivity. Qed.

(** C20: equal when the distance is at most 1/10000, different when it
    is more (apart from the rounding of the difference), and symmetric. *)
Theorem C20_real_equality_is_a_tolerance :
  forall n cx x m cy y, get_value VReal n cx = Ok (PFlo x) -> get_value VReal m cy = Ok (PFlo y) ->
  (forall v, v = PVal VReal m cy \/ v = PFlo y ->
    ((Qabs (x - y) <= 1 # 10000)%Q -> simple_eq VReal n cx v = Ok true) /\
    (((1 # 10000) * (1 + pow2 (-51)) < Qabs (x - y))%Q -> simple_eq VReal n cx v = Ok false)) /\
  simple_eq VReal m cy (PVal VReal n cx) = simple_eq VReal n cx (PVal VReal m cy).
Proof. exact real_eq_tolerance. Qed.
Print Assumptions C20_real_equality_is_a_tolerance.

Definition real_tag (x : String.string) : node := El (s "real") [(s "value", AStr (s x))] [].
(** C20: it is not transitive. *)
Theorem C20_not_transitive :
  exists a b c, simple_eq VReal a None (PVal VReal b None) = Ok true /\ simple_eq VReal b None (PVal VReal c None) = Ok true
  /\ simple_eq VReal a None (PVal VReal c None) = Ok false.
Proof.
  exists (El (s "real") [(s "value", AStr (s "0"))] []), (El (s "real") [(s "value", AStr (s "0.0001"))] []),
    (El (s "real") [(s "value", AStr (s "0.0002"))] []). vm_compute. repeat split; reflexivity.
Qed.
Print Assumptions C20_not_transitive.

Example C20_nonvacuous :
  simple_eq VReal (real_tag "17.5") None (PFlo (rnd64 (175001 # 10000))) = Ok true /\
  simple_eq VReal (real_tag "17.5") None (PFlo (rnd64 (175002 # 10000))) = Ok false.
Proof. vm_compute. split; reflexivity. Qed.

(** C21, in memory: every string is read back. *)
Theorem C21_strings_read_back :
  forall (n : node) (x : pstr), is_tag n = true ->
  exists n', set_value VString n (PStr x) = (n', Ok tt) /\ forall cx, get_value VString n' cx = Ok (PStr x).
Proof. exact string_reads. Qed.
Print Assumptions C21_strings_read_back.

(** C21, through a file: strings of XML characters, not only spaces. Missing from
    the full property: empty and blank strings, for which it is false. *)
Theorem C21_strings_survive_files_partial :
  forall (prior : node) (x : pstr), has_name (s "string") prior = true ->
  Forall (fun c => xml_char c = true) x -> Exists (fun c => ascii_space c = false) x ->
  stores VString prior (PStr x) (PStr x).
Proof. exact string_stores. Qed.
Print Assumptions C21_strings_survive_files_partial.

Example C21_nonvacuous :
  let x := s " a <b> & c" in Forall (fun c => xml_char c = true) x /\ Exists (fun c => ascii_space c = false) x.
Proof. cbv zeta. split; [repeat constructor|]. apply Exists_cons_tl. now apply Exists_cons_hd. Qed.

(** C21: the empty string comes back from the file as 'None', and blanks are lost. *)
Theorem C21_empty_refuted :
  exists n, set_value VString (empty_tag VString) (PStr []) = (n, Ok tt) /\ get_value VString n None = Ok (PStr []) /\
    get_value VString (reload n) None = Ok (PStr (s "None")).
Proof. eexists. split; [reflexivity|]. split; reflexivity. Qed.
Print Assumptions C21_empty_refuted.
Theorem C21_blank_refuted :
  exists n, set_value VString (empty_tag VString) (PStr (s "   ")) = (n, Ok tt) /\
    get_value VString (reload n) None = Ok (PStr (s " ")).
Proof. eexists. split; [reflexivity|]. reflexivity. Qed.
Print Assumptions C21_blank_refuted.

(** C22: with or without '#', six or eight digits, in any letter case. *)
Theorem C22_colours_survive_hex :
  forall (prior : node) (hash : bool) (x : pstr), Forall is_hex x -> length x = 6%nat \/ length x = 8%nat ->
  stores VColor prior (PStr ((if hash then s "#" else []) ++ x)) (PStr (canonical_hex x)).
Proof. exact color_hex_stores. Qed.
Print Assumptions C22_colours_survive_hex.

Example C22_nonvacuous :
  Forall is_hex (s "a0B1c2FE") /\ canonical_hex (s "a0B1c2FE") = s "#a0b1c2fe" /\ canonical_hex (s "a0B1c2fF") = s "#a0b1c2".
Proof. split; [|split; reflexivity]. repeat (apply Forall_cons; [vm_compute; repeat (try (left; reflexivity); right)|]). apply Forall_nil. Qed.

(** C22: comparing a colour with a hex string compares the canonical spellings. *)
Theorem C22_comparing_with_hex :
  forall n x (hash : bool) y, get_value VColor n None = Ok (PStr x) -> is_animated n = false ->
  Forall is_hex y -> length y = 6%nat \/ length y = 8%nat ->
  color_eq n (PStr ((if hash then s "#" else []) ++ y)) = Ok (pstr_eqb x (canonical_hex y)).
Proof. exact color_eq_hex. Qed.
Print Assumptions C22_comparing_with_hex.

Example C22_comparing_nonvacuous :
  let n := fst (set_value VColor (empty_tag VColor) (PStr (s "#a0b1c2"))) in
  get_value VColor n None = Ok (PStr (s "#a0b1c2")) /\ color_eq n (PStr (s "A0B1C2ff")) = Ok true
  /\ color_eq n (PStr (s "A0B1C2fe")) = Ok false.
Proof. vm_compute. repeat split; reflexivity. Qed.

(** C22: but other strings are accepted too. *)
Theorem C22_bad_hex_accepted_refuted :
  exists n, set_value VColor (empty_tag VColor) (PStr (s "#-1+1 1")) = (n, Ok tt).
Proof. eexists. vm_compute. reflexivity. Qed.
Print Assumptions C22_bad_hex_accepted_refuted.

(** C23 *)
Theorem C23_colour_tuples_to_six_decimals :
  forall (prior : node) (q1 q2 q3 q4 : Q), exists n w1 w2 w3 w4,
  set_value VColor prior (PTuple [PFlo q1; PFlo q2; PFlo q3; PFlo q4]) = (n, Ok tt) /\
  from_tag n = Ok VColor /\ reload n = n /\ color_tuple n = Ok [w1; w2; w3; w4] /\
  rounded_to 6 q1 w1 /\ rounded_to 6 q2 w2 /\ rounded_to 6 q3 w3 /\ rounded_to 6 q4 w4.
Proof. exact color_prop. Qed.
Print Assumptions C23_colour_tuples_to_six_decimals.

Theorem C23_three_components :
  forall (prior : node) (q1 q2 q3 : Q), exists n w1 w2 w3,
  set_value VColor prior (PTuple [PFlo q1; PFlo q2; PFlo q3]) = (n, Ok tt) /\
  from_tag n = Ok VColor /\ reload n = n /\ color_tuple n = Ok [w1; w2; w3; 1%Q] /\
  rounded_to 6 q1 w1 /\ rounded_to 6 q2 w2 /\ rounded_to 6 q3 w3.
Proof. exact color3_prop. Qed.
Print Assumptions C23_three_components.

Example C23_nonvacuous :
  color_tuple (fst (set_value VColor (empty_tag VColor) (PTuple [PFlo (rnd64 (1 # 3)); PFlo 0; PFlo 2])))
  = Ok [rnd64 (333333 # 1000000); 0; 2; 1]%Q.
Proof. vm_compute. reflexivity. Qed.

(** C24, for a new vector: all the ways to read it agree. *)
Theorem C24_first_assignment_partial :
  forall (n : node) (x y : Q), child_tags n = [] -> exists n' u v,
  set_value VXY n (PTuple [PFlo x; PFlo y]) = (n', Ok tt) /\ from_tag n' = Ok VXY /\
  rounded_to 10 x u /\ rounded_to 10 y v /\
  vector_tuple n' = Ok [u; v] /\ vector_getitem n' (s "x") = Ok u /\ vector_getitem n' (s "y") = Ok v /\
  vector_attr n' (s "x") = Ok u /\ vector_attr n' (s "y") = Ok v /\
  vector_getitem_int n' 0 = Ok u /\ vector_getitem_int n' 1 = Ok v.
Proof. exact vector_prop. Qed.
Print Assumptions C24_first_assignment_partial.

(** C24, for any number of assignments, starting from any vector: as_tuple()
    gives the last one. Missing from the full property: the items and
    attributes, for which it is false. *)
Theorem C24_tuple_is_last_assigned_partial :
  forall (n : node) (h : list (Q * Q)) (x y : Q), only_xy n -> exists u v,
  vector_tuple (assign_pairs n (h ++ [(x, y)])) = Ok [u; v] /\ rounded_to 10 x u /\ rounded_to 10 y v.
Proof. exact vector_history_prop. Qed.
Print Assumptions C24_tuple_is_last_assigned_partial.

Example C24_nonvacuous :
  let n := El (s "vector") [] [El (s "x") [] [Txt (s "1")]; El (s "y") [] [Txt (s "2")]] in
  only_xy n /\ vector_tuple (assign_pairs n [(3, 4); (5, 6)]%Q) = Ok [5; 6]%Q /\ child_tags (empty_tag VXY) = [].
Proof. cbv zeta. split; [|split; vm_compute; reflexivity]. constructor; [now left|constructor; [now right|constructor]]. Qed.

(** C24: the items and attributes keep showing the first assignment, whatever comes after. *)
Theorem C24_items_are_stale_refuted :
  exists n, (forall h, vector_getitem (assign_pairs n h) (s "x") = Ok 1%Q) /\
    vector_tuple (assign_pairs n [(3, 4)]%Q) = Ok [3; 4]%Q /\
    vector_attr (assign_pairs n [(3, 4)]%Q) (s "x") = Ok 1%Q.
Proof. exact vector_stale. Qed.
Print Assumptions C24_items_are_stale_refuted.

(** C25: assigning one key wipes the others. *)
Theorem C25_one_key_wipes_the_others_refuted :
  exists n n', set_value VTransformation (empty_tag VTransformation) (PDict (full 0 0 30 0 1 1)) = (n, Ok tt) /\
    (exists t, composite_getitem n None (s "angle") = Ok (PVal VAngle t None) /\ get_value VAngle t None = Ok (PFlo 30)) /\
    set_value VTransformation n (PDict [(s "offset", PTuple [PFlo 1; PFlo 2])]) = (n', Ok tt) /\
    composite_getitem n' None (s "angle") = Err KeyError.
Proof. exact composite_wipes. Qed.
Print Assumptions C25_one_key_wipes_the_others_refuted.

(** C26: a full dictionary, with its keys in any order. *)
Theorem C26_transformations_survive :
  forall (n : node) l ox oy a k sx sy cx, is_tag n = true -> is_dbl a -> is_dbl k -> Permutation l (full ox oy a k sx sy) ->
  exists n', set_value VTransformation n (PDict l) = (n', Ok tt) /\
    forall m, m = n' \/ m = reload n' ->
    exists t1 t2 t3 t4 ox' oy' sx' sy',
    rounded_to 10 ox ox' /\ rounded_to 10 oy oy' /\ rounded_to 10 sx sx' /\ rounded_to 10 sy sy' /\
    composite_getitem m cx (s "offset") = Ok (PVal VXY t1 cx) /\ vector_tuple t1 = Ok [ox'; oy'] /\
    composite_getitem m cx (s "angle") = Ok (PVal VAngle t2 cx) /\ get_value VAngle t2 cx = Ok (PFlo a) /\
    composite_getitem m cx (s "skew_angle") = Ok (PVal VAngle t3 cx) /\ get_value VAngle t3 cx = Ok (PFlo k) /\
    composite_getitem m cx (s "scale") = Ok (PVal VXY t4 cx) /\ vector_tuple t4 = Ok [sx'; sy'].
Proof. exact composite_prop. Qed.
Print Assumptions C26_transformations_survive.

(** C26: any dictionary of acceptable values: the given keys hold them, and only those keys. *)
Theorem C26_any_keys :
  forall (n : node) (l : list (pstr * pyval)), is_tag n = true -> NoDup (map fst l) ->
  (forall k v, In (k, v) l -> exists c t, aget k transformation_keys = Some c /\ new_value c v = Ok t /\ from_tag t = Ok c) ->
  exists n', set_value VTransformation n (PDict l) = (n', Ok tt) /\
    (forall k v c t cx, In (k, v) l -> aget k transformation_keys = Some c -> new_value c v = Ok t ->
       composite_getitem n' cx k = Ok (PVal c t cx) /\
       (from_tag (reload t) = Ok c -> composite_getitem (reload n') cx k = Ok (PVal c (reload t) cx))) /\
    (forall k cx, ~ In k (map fst l) -> composite_getitem n' cx k = Err KeyError).
Proof. exact composite_set_reads. Qed.
Print Assumptions C26_any_keys.

Example C26_nonvacuous :
  is_tag (empty_tag VTransformation) = true /\ is_dbl 45 /\
  Permutation (rev (full 1 2 45 0 1 1)) (full 1 2 45 0 1 1).
Proof. split; [reflexivity|]. split; [vm_compute; reflexivity|]. apply Permutation_sym, Permutation_rev. Qed.

Theorem C26_unknown_key :
  forall (n : node) (l : list (pstr * pyval)) (k : pstr) (v : pyval), In (k, v) l -> aget k transformation_keys = None ->
  set_value VTransformation n (PDict l) = (n, Err KeyError).
Proof. exact composite_unknown. Qed.
Print Assumptions C26_unknown_key.

Example C26_unknown_nonvacuous : aget (s "offsets") transformation_keys = None.
Proof. reflexivity. Qed.

(** C27: a gradient assigned as a dictionary in any order, followed by any
    item assignments, in memory and after saving. *)
Theorem C27_gradients_read_as_assigned :
  forall (n : node) (d0 d h : list stop) (cx : ctx), Permutation d0 d -> gradient_ok d -> Forall stop_ok h ->
  exists n', set_value VGradient n (PDictF (map (fun a => (position (fst a), colour_arg (snd a))) d0)) = (n', Ok tt) /\
    shows (sets n' cx h) cx (puts (six_each d) h) /\ shows (reload (sets n' cx h)) cx (puts (six_each d) h).
Proof. exact gradient_whole. Qed.
Print Assumptions C27_gradients_read_as_assigned.

(** C27: one item assignment. *)
Theorem C27_item_assignment :
  forall (n : node) (cx : ctx) (d : list stop) (m : Z) (c : list Q),
  shows n cx d -> gradient_ok d -> six_stops d -> stop_ok (m, c) ->
  exists n', gradient_setitem n cx (position m) (colour_arg c) = (n', Ok tt) /\
    (exists t, gradient_getitem n' cx (position m) = Ok (PVal VColor t cx) /\ color_tuple t = Ok (six_decimals c)) /\
    (forall m' c', m' <> m -> In (m', c') d ->
       exists t, gradient_getitem n' cx (position m') = Ok (PVal VColor t cx) /\ color_tuple t = Ok c') /\
    (forall m', m' <> m -> 0 <= m' <= 10 ^ 6 -> ~ In m' (map fst d) -> gradient_getitem n' cx (position m') = Err KeyError).
Proof. exact gradient_one. Qed.
Print Assumptions C27_item_assignment.

Example C27_nonvacuous :
  let d := [(0, [0; 0; 0; 1]%Q); (333333, [1; 0; 0; 1]%Q); (1000000, [1; 1; 1; 1]%Q)] in
  gradient_ok d /\ Forall stop_ok [(500000, [0; 1; 0; 1]%Q)] /\ six_stops d /\
  map fst (puts d [(500000, [0; 1; 0; 1]%Q)]) = [0; 333333; 500000; 1000000].
Proof.
  cbv zeta. split; [|split; [|split]].
  - split; [repeat constructor|]. split; [|cbn; lia]. repeat constructor; cbn; lia.
  - repeat constructor; cbn; lia.
  - repeat constructor.
  - reflexivity.
Qed.

Theorem C27_too_few :
  forall (n : node) (d : list (Q * pyval)), (length d < 2)%nat -> set_value VGradient n (PDictF d) = (n, Err ValueError).
Proof. exact gradient_small. Qed.
Print Assumptions C27_too_few.

(** C27 without distinct printed positions: two colours, and only one is left, which can't even be read. *)
Theorem C27_close_positions_refuted :
  exists a b n, ~ (a == b)%Q /\
    set_value VGradient (empty_tag VGradient) (PDictF [(a, PStr (s "#000000")); (b, PStr (s "#ffffff"))]) = (n, Ok tt) /\
    exists v, get_value VGradient n None = Ok (PDictF [v]).
Proof. exact gradient_collision. Qed.
Print Assumptions C27_close_positions_refuted.

(** C70: a failed assignment to a transformation, gradient or canvas loses the old value. *)
Theorem C70_failed_composite_loses_refuted :
  exists n n', set_value VTransformation (empty_tag VTransformation) (PDict (full 0 0 30 0 1 1)) = (n, Ok tt) /\
    set_value VTransformation n (PDict [(s "angle", PStr (s "thirty"))]) = (n', Err ValueError) /\ tag_kids n' = [].
Proof. exact composite_loses. Qed.
Print Assumptions C70_failed_composite_loses_refuted.
Theorem C70_failed_gradient_loses_refuted :
  exists n n', set_value VGradient (empty_tag VGradient) (PDictF [(0%Q, PStr (s "#000000")); (1%Q, PStr (s "#ffffff"))]) = (n, Ok tt) /\
    gradient_setitem n None (1 # 2)%Q (PStr (s "red")) = (n', Err ValueError) /\ get_value VGradient n' None = Err ValueError.
Proof. exact gradient_loses. Qed.
Print Assumptions C70_failed_gradient_loses_refuted.
Theorem C70_failed_canvas_loses_refuted :
  exists n n' e, tag_kids n <> [] /\ set_value VCanvas n (PList [POther]) = (n', Err e) /\ tag_kids n' = [].
Proof. exists (El (s "canvas") [] [El (s "layer") [] []]). eexists. eexists. split; [discriminate|]. split; reflexivity. Qed.
Print Assumptions C70_failed_canvas_loses_refuted.
(** C70, the part that holds: a wrong type, too few colours or an unknown key are detected in time. *)
Theorem C70_detected_in_time_partial :
  forall (n : node),
  (forall v, py_items v = None -> exists e, set_value VTransformation n v = (n, Err e)) /\
  (forall l k v, In (k, v) l -> aget k transformation_keys = None -> set_value VTransformation n (PDict l) = (n, Err KeyError)) /\
  (forall d, (length d < 2)%nat -> set_value VGradient n (PDictF d) = (n, Err ValueError)).
Proof. exact detected. Qed.
Print Assumptions C70_detected_in_time_partial.

(** C71: assigning a value of the same class copies it: colours. *)
Theorem C71_colours_copy_partial :
  forall (prior m : node) (cy : ctx) (l : list Q), color_tuple m = Ok l ->
  exists n, set_value VColor prior (PVal VColor m cy) = (n, Ok tt) /\ color_tuple n = Ok (six_decimals l) /\ reload n = n.
Proof. exact color_copy. Qed.
Print Assumptions C71_colours_copy_partial.
(** C71: bools. *)
Theorem C71_bools_copy_partial :
  forall (prior m : node) (cy : ctx) (b : bool), get_value VBool m cy = Ok (PBool b) ->
  stores VBool prior (PVal VBool m cy) (PBool b).
Proof. exact bool_copy. Qed.
Print Assumptions C71_bools_copy_partial.
(** C71: all other numbers raise instead. *)
Theorem C71_numbers_refuted :
  forall (c : vcls) (prior m : node) (cy : ctx), In c [VReal; VInteger; VAngle] ->
  set_value c prior (PVal c m cy) = (prior, Err TypeError).
Proof. exact number_copy. Qed.
Print Assumptions C71_numbers_refuted.
Theorem C71_transformation_refuted :
  exists n n', set_value VTransformation (empty_tag VTransformation) (PDict (full 0 0 30 0 1 1)) = (n, Ok tt) /\
    set_value VTransformation (empty_tag VTransformation) (PVal VTransformation n None) = (n', Err TypeError).
Proof. exact transformation_copy. Qed.
Print Assumptions C71_transformation_refuted.
Example C71_nonvacuous :
  color_tuple (color_node [] [0; 1; 0; 1]%Q) = Ok [0; 1; 0; 1]%Q
  /\ get_value VBool (El (s "bool") [(s "value", AStr (s "true"))] []) None = Ok (PBool true).
Proof. vm_compute. split; reflexivity. Qed.

(** C72: comparing a number with something that isn't one raises. *)
Theorem C72_comparison_raises_refuted :
  forall (c : vcls) (n : node) (cx : ctx), In c [VReal; VInteger; VAngle] -> simple_eq c n cx PNone = Err TypeError.
Proof. intros c n cx [<-|[<-|[<-|[]]]]; reflexivity. Qed.
Print Assumptions C72_comparison_raises_refuted.
(** C72: but it never raises when a number is compared with a number. *)
Theorem C72_numbers_compare_partial :
  forall (n : node) (cx : ctx) (x : Q) (v : pyval), get_value VReal n cx = Ok (PFlo x) ->
  (exists q, v = PFlo q) \/ (exists z, v = PInt z) \/ (exists b, v = PBool b) \/ (exists y, v = PStr y /\ parse_float y <> Err EUnmodelled) ->
  exists b, simple_eq VReal n cx v = Ok b.
Proof. exact numbers_compare. Qed.
Print Assumptions C72_numbers_compare_partial.
Example C72_nonvacuous : get_value VReal (real_tag "17.5") None = Ok (PFlo (35 # 2)) /\
  simple_eq VReal (real_tag "17.5") None (PStr (s "x")) = Ok false.
Proof. vm_compute. split; reflexivity. Qed.
(** C72: an Integer equals a float that it isn't. *)
Theorem C72_integer_equals_fraction_refuted :
  simple_eq VInteger (El (s "integer") [(s "value", AStr (s "3"))] []) None (PFlo (rnd64 (37 # 10))) = Ok true.
Proof. vm_compute. reflexivity. Qed.
Print Assumptions C72_integer_equals_fraction_refuted.

(** C73: values made without arguments: zero, false, white. *)
Theorem C73_defaults_partial :
  (forall cx n, new_value VReal (PTuple []) = Ok n -> get_value VReal n cx = Ok (PFlo 0) /\ from_tag n = Ok VReal) /\
  (forall cx n, new_value VInteger (PTuple []) = Ok n -> get_value VInteger n cx = Ok (PInt 0) /\ from_tag n = Ok VInteger) /\
  (forall cx n, new_value VAngle (PTuple []) = Ok n -> get_value VAngle n cx = Ok (PFlo 0) /\ from_tag n = Ok VAngle) /\
  (forall cx n, new_value VBool (PTuple []) = Ok n -> get_value VBool n cx = Ok (PBool false) /\ from_tag n = Ok VBool) /\
  (forall cx n, new_value VColor (PTuple []) = Ok n -> get_value VColor n cx = Ok (PStr (s "#ffffff")) /\ from_tag n = Ok VColor).
Proof. exact defaults. Qed.
Print Assumptions C73_defaults_partial.
Example C73_nonvacuous : forallb (fun c => match new_value c (PTuple []) with Ok _ => true | Err _ => false end) [VReal; VInteger; VAngle; VBool; VColor] = true.
Proof. vm_compute. reflexivity. Qed.
(** C73: String() is "()", and X_Y() can't be read from the document. *)
Theorem C73_string_default_refuted : exists n, new_value VString (PTuple []) = Ok n /\ get_value VString n None = Ok (PStr (s "()")).
Proof. eexists. split; reflexivity. Qed.
Print Assumptions C73_string_default_refuted.
Theorem C73_vector_default_refuted : exists n, new_value VXY (PTuple []) = Ok n /\ from_tag n = Err TypeError.
Proof. eexists. split; reflexivity. Qed.
Print Assumptions C73_vector_default_refuted.

(** C74: whatever is successfully assigned to a number, bool or time, the tag is recognised as that class. *)
Theorem C74_class_is_recognised_partial :
  forall (c : vcls) (prior : node) (v : pyval) (n : node), In c [VReal; VInteger; VBool; VAngle; VTime; VColor] ->
  set_value c prior v = (n, Ok tt) -> from_tag n = Ok c.
Proof. exact class_recognised. Qed.
Print Assumptions C74_class_is_recognised_partial.
Example C74_nonvacuous : exists n, set_value VReal (empty_tag VReal) (PStr (s " 1e2 ")) = (n, Ok tt).
Proof. eexists. vm_compute. reflexivity. Qed.
(** C74: not so for blend methods. *)
Theorem C74_blend_method_refuted :
  exists n, set_value VBlendMethod (empty_tag VBlendMethod) (PInt 2) = (n, Ok tt) /\ from_tag n = Err KeyError.
Proof. eexists. split; reflexivity. Qed.
Print Assumptions C74_blend_method_refuted.

(** C75: a whole number of frames assigned to a Time reads as that time, in the document and after saving. *)
Theorem C75_times_survive :
  forall (prior : node) (n p : Z) (cx : ctx), 0 <= n < 10 ^ 6 -> 0 < p -> TimeSpec.at_fps (inject_Z p) cx ->
  exists t, set_value VTime prior (PInt n) = (t, Ok tt) /\ from_tag t = Ok VTime /\
    get_value VTime t cx = Ok (PT (mkT (inject_Z n) (Some (inject_Z p)))) /\
    get_value VTime (reload t) cx = Ok (PT (mkT (inject_Z n) (Some (inject_Z p)))).
Proof. exact time_stores. Qed.
Print Assumptions C75_times_survive.
Example C75_nonvacuous :
  let cx := Some [(s "fps", AStr (s "24.000"))] in
  TimeSpec.at_fps (inject_Z 24) cx /\ exists t, set_value VTime (empty_tag VTime) (PInt 36) = (t, Ok tt)
  /\ get_value VTime t cx = Ok (PT (mkT 36 (Some 24%Q))).
Proof.
  cbv zeta. split.
  - exists [(s "fps", AStr (s "24.000"))], (AStr (s "24.000")). split; [reflexivity|]. split; [reflexivity|]. vm_compute. reflexivity.
  - eexists. split; [reflexivity|]. vm_compute. reflexivity.
Qed.
(** C75: but a time with a unit is refused, although the value is in a document. *)
Theorem C75_seconds_refuted :
  forall prior, set_value VTime prior (PStr (s "2s")) = (prior, Err ValueError).
Proof. intros prior. reflexivity. Qed.
Print Assumptions C75_seconds_refuted.
