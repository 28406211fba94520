(** The theorems about printing gradients, transformations and timelines. *)
From Verif Require Import PyFmtProofs PexSpec PexProofs2 PexProofs TlModel StrModel StrSpec StrProofs2 StrProofs3 StrProps.
Local Open Scope Z_scope.

(** ** C138 *)

(** Gradients print alike if and only if they have the same colours at the same positions, in the same order. *)
Theorem C138_gradients : forall pr n m cx cy d d' l l' x y, gradient_val n cx = Ok d -> gradient_val m cy = Ok d' -> Forall2 stop_has d l -> Forall2 stop_has d' l' ->
  value_str pr VGradient n cx = Ok x -> value_str pr VGradient m cy = Ok y -> (x = y <-> l = l').
Proof. intros pr n m cx cy d d' l l' x y. exact (gradient_str_inj pr n m cx cy d d' x y l l'). Qed.
Print Assumptions C138_gradients.
(** Transformations that aren't animated and are made of vectors and angles print alike if and only if they have the same parts, in the same order,
    and these print alike. *)
Theorem C138_transformations : forall pr n m cx cy d d' x y, composite_val n cx = Ok d -> composite_val m cy = Ok d' -> Forall flat_part d -> Forall flat_part d' -> is_animated n = false -> is_animated m = false ->
  value_str pr VTransformation n cx = Ok x -> value_str pr VTransformation m cy = Ok y ->
  (x = y <-> map fst d = map fst d' /\ mapM (flat_repr pr) (map snd d) = mapM (flat_repr pr) (map snd d')).
Proof. exact trans_str_inj. Qed.
Print Assumptions C138_transformations.
Definition xcomp (k x : string) : node := El (s k) [] [Txt (s x)].
Definition xstop (p r : string) : node := El (s "color") [(s "pos", AStr (s p))] [xcomp "r" r; xcomp "g" "0"; xcomp "b" "0.5"; xcomp "a" "1"].
Definition xgrad : node := El (s "gradient") [] [xstop "0.0" "0"; xstop "0.5" "1"].
Definition xpart (k : string) (v : node) : node := El (s k) [] [v].
Definition xvec (x y : string) : node := El (s "vector") [] [xcomp "x" x; xcomp "y" y].
Definition xtrans : node := El (s "composite") [(s "type", AStr (s "transformation"))] [xpart "offset" (xvec "1" "2"); xpart "angle" (xsimple "angle" "90"); xpart "skew_angle" (xsimple "angle" "0"); xpart "scale" (xvec "1" "1")].
Example C138_parts_nonvacuous :
  (exists d, gradient_val xgrad None = Ok d /\ Forall2 stop_has d [(0%Q, s "#000080"); ((1 # 2)%Q, s "#ff0080")] /\ value_str xprintable VGradient xgrad None = Ok (s "{0.0:#000080,0.5:#ff0080}")) /\
  (exists d, composite_val xtrans None = Ok d /\ Forall flat_part d /\ is_animated xtrans = false /\
     value_str xprintable VTransformation xtrans None = Ok (s "{'offset': [X_Y (1.0, 2.0)], 'angle': [Angle 90" ++ [176%N] ++ s "], 'skew_angle': [Angle 0" ++ [176%N] ++ s "], 'scale': [X_Y (1.0, 1.0)]}")).
Proof.
  split.
  - exists [(0%Q, PVal VColor (xstop "0.0" "0") None); ((1 # 2)%Q, PVal VColor (xstop "0.5" "1") None)]. split; [vm_compute; reflexivity|]. split; [|vm_compute; reflexivity].
    assert (D : is_dbl 0 /\ is_dbl (1 # 2)) by (split; [apply (parse_float_dbl (s "0.0"))|apply (parse_float_dbl (s "0.5"))]; vm_compute; reflexivity). destruct D as [D1 D2].
    constructor; [|constructor; [|constructor]]; (split; [reflexivity|]); (split; [assumption|]); eexists _, None; (split; [reflexivity|]); split; vm_compute; reflexivity.
  - exists [(s "offset", PVal VXY (xvec "1" "2") None); (s "angle", PVal VAngle (xsimple "angle" "90") None); (s "skew_angle", PVal VAngle (xsimple "angle" "0") None); (s "scale", PVal VXY (xvec "1" "1") None)].
    split; [vm_compute; reflexivity|]. split; [|split; vm_compute; reflexivity].
    constructor; [|constructor; [|constructor; [|constructor; [|constructor]]]]; eexists _, _, None; (split; [reflexivity|]); (split; [vm_compute; reflexivity|]); cbn; auto.
Qed.

(** ** C139 timelines *)

(** Timelines print alike if and only if their values are of the same class, and they have the same times (as they are printed) in the same order, with waypoints that print alike;
    if their values print without brackets. What is missing: other values, see below. *)
Theorem C139_partial : forall pr c c' n n' cx cx' d d' x y, In c all_vcls -> In c' all_vcls -> waypoints n cx = Ok d -> waypoints n' cx' = Ok d' ->
  (forall k w, In (k, w) d -> bracketless (w_cls w) (w_val w)) -> (forall k w, In (k, w) d' -> bracketless (w_cls w) (w_val w)) ->
  timeline_str pr c n cx = Ok x -> timeline_str pr c' n' cx' = Ok y ->
  (x = y <-> c = c' /\ map (fun kv => T_str (fst kv)) d = map (fun kv => T_str (fst kv)) d' /\ mapM (fun w => wp_str pr w cx) (map snd d) = mapM (fun w => wp_str pr w cx') (map snd d')).
Proof.
  intros pr c c' n n' cx cx' d d' x y C C' D D' B B'. apply timeline_inj; try assumption.
  - intros w v I. apply in_map_iff in I as ((k & w') & <- & I). apply value_no_bracket. exact (B k w' I).
  - intros w v I. apply in_map_iff in I as ((k & w') & <- & I). apply value_no_bracket. exact (B' k w' I).
Qed.
Print Assumptions C139_partial.
Definition xwp (t v : string) : node := El (s "waypoint") [(s "time", AStr (s t)); (s "before", AStr (s "linear")); (s "after", AStr (s "linear"))] [El (s "string") [] [Txt (s v)]].
(** A string with brackets: one waypoint is printed like two *)
Definition xtricky : node :=
  El (s "animated") [(s "type", AStr (s "string"))]
     [El (s "waypoint") [(s "time", AStr (s "1s")); (s "before", AStr (s "linear")); (s "after", AStr (s "linear"))]
         [El (s "string") [] [Txt (s "a], 2s: [ 2s " ++ [127805%N] ++ s "-" ++ [127805%N] ++ s " - b")]]].
Definition xtwo : node := El (s "animated") [(s "type", AStr (s "string"))] [xwp "1s" "a"; xwp "2s" "b"].
Definition xctx : ctx := Some [(s "fps", AStr (s "24"))].
Theorem C139_refuted : exists n m d d' x, waypoints n xctx = Ok d /\ waypoints m xctx = Ok d' /\ length d = 1%nat /\ length d' = 2%nat /\
  timeline_str xprintable VString n xctx = Ok x /\ timeline_str xprintable VString m xctx = Ok x.
Proof.
  exists xtricky, xtwo. eexists _, _, _. split; [vm_compute; reflexivity|]. split; [vm_compute; reflexivity|]. split; [vm_compute; reflexivity|]. split; [vm_compute; reflexivity|]. split; vm_compute; reflexivity.
Qed.
Print Assumptions C139_refuted.
Definition xrwp (t v : string) : node := El (s "waypoint") [(s "time", AStr (s t)); (s "before", AStr (s "linear")); (s "after", AStr (s "clamped"))] [xsimple "real" v].
Definition xreals : node := El (s "animated") [(s "type", AStr (s "real"))] [xrwp "1s" "0.5"; xrwp "2s" "1"].
Example C139_nonvacuous : exists d x, In VReal all_vcls /\ waypoints xreals xctx = Ok d /\ length d = 2%nat /\ (forall k w, In (k, w) d -> bracketless (w_cls w) (w_val w)) /\ timeline_str xprintable VReal xreals xctx = Ok x.
Proof.
  eexists _, _. split; [now left|]. split; [vm_compute; reflexivity|]. split; [vm_compute; reflexivity|]. split; [|vm_compute; reflexivity].
  intros k w [H|[H|[]]]; injection H as <- <-; left; now left.
Qed.

(** Whatever it contains, a value that is animated prints as "(animated)", except a gradient. *)
Theorem C138_animated : forall pr c n cx, is_animated n = true -> c <> VGradient -> value_str pr c n cx = Ok (s "(animated)") /\ value_repr pr c n cx = Ok (s "[" ++ class_name c ++ s " (animated)]").
Proof.
  intros pr c n cx A G. assert (E : value_str pr c n cx = Ok (s "(animated)")) by (destruct c; try contradiction; unfold value_str, flat_str, vector_str, py_str; rewrite A; reflexivity).
  split; [exact E|]. unfold value_repr. rewrite E. reflexivity.
Qed.
Print Assumptions C138_animated.
Example C138_animated_nonvacuous : is_animated xreals = true /\ value_repr xprintable VReal xreals xctx = Ok (s "[Real (animated)]").
Proof. split; vm_compute; reflexivity. Qed.

(** The time, which is first, is padded with blanks to three characters, and no more: waypoints below each other have their interpolations and values
    below each other if the times are short. *)
Theorem C137_aligned : forall pr w cx x, wp_str pr w cx = Ok x -> exists blanks rest,
  x = s "[" ++ blanks ++ T_str (w_time w) ++ s " " ++ rest /\ Forall (fun c => c = 32%N) blanks /\ length (blanks ++ T_str (w_time w)) = Nat.max 3 (length (T_str (w_time w))).
Proof.
  intros pr w cx x H. apply StrProofs2.wp_str_ok in H as (b & e & y & _ & _ & _ & ->). unfold pad3. exists (repeat 32%N (3 - length (T_str (w_time w)))), (b ++ s "-" ++ e ++ s " - " ++ y ++ s "]").
  split; [now rewrite <- !app_assoc|]. split; [apply Forall_forall; intros c I; now apply repeat_spec in I|]. rewrite app_length, repeat_length. lia.
Qed.
Print Assumptions C137_aligned.
Example C137_aligned_nonvacuous : exists w x, waypoint_new (KeyStr (s "1s")) (PVal VReal (El (s "real") [(s "value", AStr (s "0.5"))] []) None) (s "auto") (s "linear") xctx = Ok w /\ wp_str xprintable w None = Ok x /\ T_str (w_time w) = s "1s".
Proof. eexists _, _. split; [vm_compute; reflexivity|]. split; vm_compute; reflexivity. Qed.
