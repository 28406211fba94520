(** C113-C119: expressions that recreate a value. [recreates] and [is_literal], which says what a
    Python literal means, are in PexSpec.v. The theorems hold for every [printable]: which
    characters [repr()] escapes makes no difference. *)
From Coq Require Import Permutation.
From Verif Require Import PexModel PexSpec SerProofs ValProofs ValProofs2 ValSpec TimeSpec PyRoundProofs PyFloatProofs PexProofs PexProofs2 PexProofs3 PexProofs4.
Local Open Scope Z_scope.

(** Which characters are printable, for examples. *)
Definition latin (c : N) : bool := (160 <? c)%N && (c <? 688)%N.

(** A text means at most one value. *)
Theorem C113_literal_unique : forall x v w, is_literal x v -> is_literal x w -> v = w.
Proof. exact literal_unique. Qed.
Print Assumptions C113_literal_unique.

(** C113: integers, truth values, angles and strings are recreated exactly. *)
Theorem C113_exact :
  forall printable c n cx w, In c [VInteger; VBool; VAngle; VString] -> is_animated n = false ->
  get_value c n cx = Ok w -> text_points w ->
  exists m, recreates printable c n cx m /\ forall cy, get_value c m cy = Ok w.
Proof. exact exact_ones. Qed.
Print Assumptions C113_exact.

Example C113_nonvacuous :
  let n := El (s "string") [] [Txt ([39%N; 34%N; 92%N; 10%N; 7%N; 228%N; 8232%N; 128512%N] ++ s "x")] in
  is_animated n = false /\ text_points (PStr (string_val n)) /\ get_value VString n None = Ok (PStr (string_val n)) /\
  expression latin VString n None = Ok (EStr (s "'\'""\\\n\x07" ++ [228%N] ++ s "\" ++ s "u2028\U0001f600x'")).
Proof. cbv zeta. split; [reflexivity|]. split; [|split; vm_compute; reflexivity]. vm_compute string_val. repeat (constructor; [reflexivity|]). constructor. Qed.

Example C113_nonvacuous_angle :
  let n := El (s "angle") [(s "value", AStr (s "-1e-7"))] [] in
  exists q, get_value VAngle n None = Ok (PFlo q) /\ expression latin VAngle n None = Ok (EStr (s "-1e-07")).
Proof. cbv zeta. eexists. split; vm_compute; reflexivity. Qed.

(** C114: real numbers are recreated up to the ten decimals they are stored with; the
    library considers the two equal, in either order. *)
Theorem C114_partial :
  forall printable n cx x, is_animated n = false -> get_value VReal n cx = Ok (PFlo x) ->
  exists m w, recreates printable VReal n cx m /\ (forall cy, get_value VReal m cy = Ok (PFlo w)) /\ rounded_to 10 x w /\ close 10 w x /\
    (forall cy, simple_eq VReal n cx (PVal VReal m cy) = Ok true) /\ (forall cy, simple_eq VReal m cy (PVal VReal n cx) = Ok true).
Proof. exact recreate_real. Qed.
Print Assumptions C114_partial.

(** C114: what was assigned through the library is recreated exactly. *)
Theorem C114_assigned :
  forall printable prior y n cx, is_dbl y -> set_value VReal prior (PFlo y) = (n, Ok tt) ->
  exists m, recreates printable VReal n cx m /\ forall cy, get_value VReal m cy = get_value VReal n cy.
Proof. exact real_assigned. Qed.
Print Assumptions C114_assigned.

(** C114: numbers with more decimals, as other programs write them, change. *)
Theorem C114_refuted :
  exists n m x y, recreates latin VReal n None m /\ get_value VReal n None = Ok (PFlo x) /\ get_value VReal m None = Ok (PFlo y) /\ ~ (x == y)%Q.
Proof.
  exists (El (s "real") [(s "value", AStr (s "0.12345678901"))] []), (El (s "real") [(s "value", AStr (s "0.1234567890"))] []).
  do 2 eexists. split; [|split; [vm_compute; reflexivity|split; [vm_compute; reflexivity|vm_compute; discriminate]]].
  eexists. exists (PFlo (rnd64 (12345678901 # 100000000000))). split; [vm_compute; reflexivity|]. split; [exists 1%nat; vm_compute; reflexivity|vm_compute; reflexivity].
Qed.
Print Assumptions C114_refuted.

Example C114_nonvacuous :
  let n := El (s "real") [(s "value", AStr (s "-12.5"))] [] in
  is_animated n = false /\ get_value VReal n None = Ok (PFlo (-25 # 2)) /\ expression latin VReal n None = Ok (EStr (s "-12.5")) /\
  set_value VReal (El (s "real") [] []) (PFlo (-25 # 2)) = (El (s "real") [(s "value", AStr (s "-12.5000000000"))] [], Ok tt).
Proof. vm_compute. repeat split. Qed.

(** C115: vectors are recreated up to the ten decimals of each part. *)
Theorem C115_partial :
  forall printable n cx x y, from_tag n = Ok VXY -> is_animated n = false -> vector_tuple n = Ok [x; y] ->
  exists m u v, recreates printable VXY n cx m /\ from_tag m = Ok VXY /\ vector_tuple m = Ok [u; v] /\
    rounded_to 10 x u /\ rounded_to 10 y v /\ close 10 u x /\ close 10 v y.
Proof. exact recreate_xy. Qed.
Print Assumptions C115_partial.

(** C115: what was assigned through the library is recreated exactly, and compares equal. *)
Theorem C115_assigned :
  forall printable x y n cx, is_dbl x -> is_dbl y -> new_value VXY (PTuple [PFlo x; PFlo y]) = Ok n ->
  exists m l, recreates printable VXY n cx m /\ vector_tuple n = Ok l /\ vector_tuple m = Ok l /\ vector_eq m l = Ok true.
Proof. exact xy_assigned. Qed.
Print Assumptions C115_assigned.

(** C115: a vector with more decimals differs from the one recreated, as the library compares them. *)
Theorem C115_refuted :
  exists n m l, recreates latin VXY n None m /\ vector_tuple m = Ok l /\ vector_eq n l = Ok false.
Proof.
  exists (El (s "vector") [] [El (s "x") [] [Txt (s "0.00000000001")]; El (s "y") [] [Txt (s "1")]]),
         (El (s "vector") [] [El (s "x") [] [Txt (s "0.0000000000")]; El (s "y") [] [Txt (s "1.0000000000")]]), [0%Q; 1%Q].
  split; [|split; vm_compute; reflexivity]. exists (EStr (s "(1e-11, 1.0)")), (PTuple [PFlo (rnd64 (1 # 100000000000)); PFlo 1]).
  split; [vm_compute; reflexivity|]. split; [exists 5%nat; vm_compute; reflexivity|vm_compute; reflexivity].
Qed.
Print Assumptions C115_refuted.

Example C115_nonvacuous :
  let n := El (s "vector") [] [El (s "x") [] [Txt (s "0.25")]; El (s "y") [] [Txt (s "-3e20")]] in
  from_tag n = Ok VXY /\ is_animated n = false /\ expression latin VXY n None = Ok (EStr (s "(0.25, -3e+20)")) /\ exists x y, vector_tuple n = Ok [x; y].
Proof. cbv zeta. split; [reflexivity|]. split; [reflexivity|]. split; [vm_compute; reflexivity|]. do 2 eexists. vm_compute. reflexivity. Qed.

(** C116: colours are recreated up to the six decimals of each component. *)
Theorem C116_partial :
  forall printable n cx l, color_tuple n = Ok l ->
  exists m ws, recreates printable VColor n cx m /\ from_tag m = Ok VColor /\ color_tuple m = Ok ws /\ Forall2 (rounded_to 6) l ws /\ Forall2 (close 6) ws l.
Proof. exact recreate_color. Qed.
Print Assumptions C116_partial.

(** C116: a colour whose components have no more than six decimals is recreated exactly, with
    the same hexadecimal code. *)
Theorem C116_exact :
  forall printable n cx l, color_tuple n = Ok l -> six_decimals l = l ->
  exists m, recreates printable VColor n cx m /\ color_tuple m = Ok l /\ color_hex m = color_hex n.
Proof. exact color_exact. Qed.
Print Assumptions C116_exact.

(** C116: rounding to six decimals can change the hexadecimal code. *)
Theorem C116_refuted :
  exists n m x y, recreates latin VColor n None m /\ get_value VColor n None = Ok (PStr x) /\ get_value VColor m None = Ok (PStr y) /\ x <> y.
Proof.
  exists (El (s "color") [] [El (s "r") [] [Txt (s "0.0019607")]; El (s "g") [] [Txt (s "0")]; El (s "b") [] [Txt (s "0")]; El (s "a") [] [Txt (s "1")]]).
  exists (El (s "color") [] [El (s "r") [] [Txt (s "0.001961")]; El (s "g") [] [Txt (s "0.000000")]; El (s "b") [] [Txt (s "0.000000")]; El (s "a") [] [Txt (s "1.000000")]]).
  do 2 eexists. split; [|split; [vm_compute; reflexivity|split; [vm_compute; reflexivity|vm_compute; discriminate]]].
  eexists. exists (PTuple [PFlo (rnd64 (19607 # 10000000)); PFlo 0; PFlo 0; PFlo 1]).
  split; [vm_compute; reflexivity|]. split; [exists 7%nat; vm_compute; reflexivity|vm_compute; reflexivity].
Qed.
Print Assumptions C116_refuted.

(** C116: whatever is recreated is not animated, so an animated colour is not recreated. *)
Theorem C116_animated_refuted :
  forall printable n cx m, recreates printable VColor n cx m -> is_animated m = false.
Proof. exact color_static. Qed.
Print Assumptions C116_animated_refuted.

Example C116_nonvacuous :
  exists n l m, new_value VColor (PStr (s "#12ab0480")) = Ok n /\ color_tuple n = Ok l /\ six_decimals l = l /\
    expression latin VColor n None = Ok (ETuple l) /\ tuple_str l = s "(0.070588, 0.670588, 0.015686, 0.501961)" /\ recreates latin VColor n None m.
Proof.
  eexists. eexists. eexists. split; [vm_compute; reflexivity|]. split; [vm_compute; reflexivity|]. split; [vm_compute; reflexivity|]. split; [vm_compute; reflexivity|].
  split; [vm_compute; reflexivity|]. eexists. eexists. split; [vm_compute; reflexivity|]. split; [exists 7%nat; vm_compute; reflexivity|vm_compute; reflexivity].
Qed.

(** C117: gradients are recreated with all their stops, in order, and each colour up to six decimals. *)
Theorem C117_partial :
  forall printable n cx d, shows n cx d -> gradient_ok d ->
  exists m, recreates printable VGradient n cx m /\ forall cy, shows m cy (six_each d).
Proof. exact recreate_gradient. Qed.
Print Assumptions C117_partial.

(** C117: exactly, when the colours have no more than six decimals. *)
Theorem C117_exact :
  forall printable n cx d, shows n cx d -> gradient_ok d -> six_stops d ->
  exists m, recreates printable VGradient n cx m /\ forall cy, shows m cy d.
Proof. exact gradient_exact. Qed.
Print Assumptions C117_exact.

Definition stops3 : list stop := [(0, [1; 0; 0; 1]%Q); (250000, [0; 1 # 2; 0; 1]%Q); (1000000, [0; 0; 1; 0]%Q)].
Definition grad3 : node := fst (set_value VGradient (empty_tag VGradient) (PDictF (map (fun a => (position (fst a), colour_arg (snd a))) stops3))).
Example C117_nonvacuous :
  gradient_ok stops3 /\ six_stops stops3 /\ shows grad3 None stops3 /\
  expression latin VGradient grad3 None = Ok (EStr (s "{0.0:(1.0, 0.0, 0.0, 1.0),0.25:(0.0, 0.5, 0.0, 1.0),1.0:(0.0, 0.0, 1.0, 0.0)}")).
Proof.
  split; [|split; [|split]].
  - split; [repeat constructor; cbn; lia|]. split; [|cbn; lia]. unfold stops3.
    do 3 (constructor; [split; [cbn; lia|split; [reflexivity|do 4 (constructor; [vm_compute; reflexivity|]); constructor]]|]). constructor.
  - do 3 (constructor; [vm_compute; reflexivity|]). constructor.
  - eexists. split; [vm_compute; reflexivity|]. do 3 (constructor; [split; [vm_compute; reflexivity|eexists; split; [reflexivity|vm_compute; reflexivity]]|]). constructor.
  - vm_compute. reflexivity.
Qed.

(** C117: stops that are less than a millionth apart may become one. *)
Theorem C117_refuted :
  exists n m d d', recreates latin VGradient n None m /\ get_value VGradient n None = Ok (PDictF d) /\ get_value VGradient m None = Ok (PDictF d') /\
    length d = 2%nat /\ length d' = 1%nat.
Proof.
  pose (c := fun p x => El (s "color") [(s "pos", AStr p)] [El (s "r") [] [Txt x]; El (s "g") [] [Txt x]; El (s "b") [] [Txt x]; El (s "a") [] [Txt (s "1")]]).
  pose (n := El (s "gradient") [] [c (s "0.1234567") (s "0"); c (s "0.1234568") (s "1")]).
  pose (a := PDictF [(rnd64 (1234567 # 10000000), PTuple [PFlo 0; PFlo 0; PFlo 0; PFlo 1]); (rnd64 (1234568 # 10000000), PTuple [PFlo 1; PFlo 1; PFlo 1; PFlo 1])]).
  pose (m := fst (set_value VGradient (empty_tag VGradient) a)). exists n, m.
  exists (match get_value VGradient n None with Ok (PDictF d) => d | _ => [] end), (match get_value VGradient m None with Ok (PDictF d) => d | _ => [] end).
  split; [|split; [vm_compute; reflexivity|split; [vm_compute; reflexivity|split; vm_compute; reflexivity]]].
  exists (match expression latin VGradient n None with Ok e => e | Err _ => EInt 0 end), a.
  split; [vm_compute; reflexivity|]. split; [exists 20%nat; vm_compute; reflexivity|vm_compute; reflexivity].
Qed.
Print Assumptions C117_refuted.

(** C118: transformations with plain parts are recreated: the angles exactly, and the
    offset and the scale up to ten decimals. *)
Theorem C118_partial :
  forall printable n cx d t1 t2 t3 t4 ox oy a k sx sy,
  get_value VTransformation n cx = Ok (PDict d) -> Permutation d (four cx t1 t2 t3 t4) ->
  is_animated t1 = false -> is_animated t4 = false ->
  vector_tuple t1 = Ok [ox; oy] -> get_value VAngle t2 cx = Ok (PFlo a) -> get_value VAngle t3 cx = Ok (PFlo k) -> vector_tuple t4 = Ok [sx; sy] ->
  exists m, recreates printable VTransformation n cx m /\ forall cy,
    exists u1 u2 u3 u4 ox' oy' sx' sy',
    rounded_to 10 ox ox' /\ rounded_to 10 oy oy' /\ rounded_to 10 sx sx' /\ rounded_to 10 sy sy' /\
    close 10 ox' ox /\ close 10 oy' oy /\ close 10 sx' sx /\ close 10 sy' sy /\
    composite_getitem m cy (s "offset") = Ok (PVal VXY u1 cy) /\ vector_tuple u1 = Ok [ox'; oy'] /\
    composite_getitem m cy (s "angle") = Ok (PVal VAngle u2 cy) /\ get_value VAngle u2 cy = Ok (PFlo a) /\
    composite_getitem m cy (s "skew_angle") = Ok (PVal VAngle u3 cy) /\ get_value VAngle u3 cy = Ok (PFlo k) /\
    composite_getitem m cy (s "scale") = Ok (PVal VXY u4 cy) /\ vector_tuple u4 = Ok [sx'; sy'].
Proof. exact transformation_prop. Qed.
Print Assumptions C118_partial.

Example C118_nonvacuous :
  exists n d t1 t2 t3 t4, set_value VTransformation (empty_tag VTransformation) (PDict (full 1 2 30 0 (1 # 2) (1 # 2))) = (n, Ok tt) /\
    get_value VTransformation n None = Ok (PDict d) /\ Permutation d (four None t1 t2 t3 t4) /\
    is_animated t1 = false /\ is_animated t4 = false /\ vector_tuple t1 = Ok [1; 2]%Q /\ get_value VAngle t2 None = Ok (PFlo 30) /\
    get_value VAngle t3 None = Ok (PFlo 0) /\ vector_tuple t4 = Ok [1 # 2; 1 # 2]%Q.
Proof.
  do 6 eexists. split; [vm_compute; reflexivity|]. split; [vm_compute; reflexivity|]. split; [apply Permutation_refl|].
  repeat split; vm_compute; reflexivity.
Qed.

(** C118: when the offset is animated, the expression is no literal. *)
Theorem C118_refuted :
  exists n d, get_value VTransformation n None = Ok (PDict d) /\ (exists e, expression latin VTransformation n None = Ok e) /\
    forall m, ~ recreates latin VTransformation n None m.
Proof.
  pose (w := El (s "waypoint") [(s "time", AStr (s "0s")); (s "before", AStr (s "constant")); (s "after", AStr (s "constant"))]
               [El (s "vector") [] [El (s "x") [] [Txt (s "0")]; El (s "y") [] [Txt (s "0")]]]).
  pose (n := El (s "composite") [(s "type", AStr (s "transformation"))]
    [El (s "offset") [] [El (s "animated") [(s "type", AStr (s "vector"))] [w]];
     El (s "angle") [] [El (s "angle") [(s "value", AStr (s "0"))] []]; El (s "skew_angle") [] [El (s "angle") [(s "value", AStr (s "0"))] []];
     El (s "scale") [] [El (s "vector") [] [El (s "x") [] [Txt (s "1")]; El (s "y") [] [Txt (s "1")]]]]).
  exists n, (match get_value VTransformation n None with Ok (PDict d) => d | _ => [] end). split; [vm_compute; reflexivity|].
  pose (e := match expression latin VTransformation n None with Ok e => e | Err _ => EInt 0 end).
  assert (E : expression latin VTransformation n None = Ok e) by (vm_compute; reflexivity). split; [exists e; exact E|].
  intros m (e' & v & He & (f & Hf) & _). rewrite E in He. injection He as <-.
  do 8 (destruct f as [|f]; [vm_compute in Hf; discriminate Hf|]). vm_compute in Hf. discriminate Hf.
Qed.
Print Assumptions C118_refuted.

(** C119: times of less than a second, in whole frames, are recreated exactly, to be used in
    any document with the same frame rate. *)
Theorem C119_partial :
  forall printable n cx k p, get_value VTime n cx = Ok (PT (whole_time k p)) -> 0 < p <= 10 ^ 6 -> Z.abs k < p ->
  exists m, recreates printable VTime n cx m /\ forall cy, at_fps (inject_Z p) cy -> get_value VTime m cy = Ok (PT (whole_time k p)).
Proof. exact recreate_time. Qed.
Print Assumptions C119_partial.

(** C119: from one second on, never: the expression is a literal, but the constructor,
    which knows no frame rate, raises ValueError. *)
Theorem C119_seconds_refuted :
  forall printable n cx k p, get_value VTime n cx = Ok (PT (whole_time k p)) -> 0 < p <= 10 ^ 6 -> p <= Z.abs k < 2 ^ 53 ->
  exists x, expression printable VTime n cx = Ok (EStr x) /\ is_literal x (PStr (T_str (whole_time k p))) /\
    new_value VTime (PStr (T_str (whole_time k p))) = Err ValueError /\ forall m, ~ recreates printable VTime n cx m.
Proof. exact never_time. Qed.
Print Assumptions C119_seconds_refuted.

(** C119: the expression of a blend method is never a literal, nor is that of an animated number, truth value or vector. *)
Theorem C119_blend_refuted : forall printable n cx m, ~ recreates printable VBlendMethod n cx m.
Proof. exact never_blend. Qed.
Print Assumptions C119_blend_refuted.
Theorem C119_animated_refuted :
  forall printable c n cx m, In c [VReal; VInteger; VBool; VXY] -> is_animated n = true -> ~ recreates printable c n cx m.
Proof. exact never_animated. Qed.
Print Assumptions C119_animated_refuted.

Example C119_nonvacuous :
  let cx := Some [(s "fps", AStr (s "24"))] in
  let n1 := El (s "time") [(s "value", AStr (s "7f"))] [] in
  let n2 := El (s "time") [(s "value", AStr (s "1m 2f"))] [] in
  get_value VTime n1 cx = Ok (PT (whole_time 7 24)) /\ get_value VTime n2 cx = Ok (PT (whole_time 1442 24)) /\
  expression latin VTime n1 cx = Ok (EStr (s "'7f'")) /\ expression latin VTime n2 cx = Ok (EStr (s "'1m 2f'")) /\
  at_fps (inject_Z 24) cx /\ is_animated (El (s "animated") [] []) = true.
Proof. cbv zeta. do 4 (split; [vm_compute; reflexivity|]). split; [|reflexivity]. exists [(s "fps", AStr (s "24"))], (AStr (s "24")). split; [reflexivity|]. split; [reflexivity|vm_compute; reflexivity]. Qed.
