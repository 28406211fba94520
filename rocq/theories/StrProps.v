(** The theorems about printing. *)
From Verif Require Import LayProofs5 PexSpec StrModel StrSpec StrProofs StrProofs2 WrProofs TlSpec TlProofs TlProofs4 DocProofs.
Local Open Scope Z_scope.

(** ** Examples to use *)
Definition xprintable (c : N) : bool := negb (breaks_line c).
Lemma xprintable_sane : sane xprintable.
Proof. intros c H _. unfold xprintable. now rewrite H. Qed.
Definition xparam (k : string) (v : node) : node := El (s "param") [(s "name", AStr (s k))] [v].
Definition xtext (desc : list (pstr * aval)) (x : string) : node :=
  El (s "layer") ((s "type", AStr (s "text")) :: desc) [xparam "text" (El (s "string") [] [Txt (s x)])].
Definition xgroup (desc : list (pstr * aval)) (l : list node) : node :=
  El (s "layer") ((s "type", AStr (s "group")) :: desc) [xparam "canvas" (El (s "canvas") [] l)].
Definition xkeyframe (t a name : string) : node := El (s "keyframe") [(s "time", AStr (s t)); (s "active", AStr (s a))] [Txt (s name)].
Definition xdoc : node :=
  El (s "canvas") [(s "fps", AStr (s "24"))]
     [xkeyframe "0s" "true" "start"; xkeyframe "1s 12f" "false" "it's";
      xgroup [(s "desc", AStr (s "it's"))] [xtext [] "hello"; xtext [(s "desc", AStr [])] "hello"; xtext [(s "desc", AStr (s "hello"))] "world"]].
Definition xforest : forest := doc_forest xdoc.
Definition nth_layer (F : forest) (k : nat) : inode := nth k (filter is_layer (fdesc F)) (IT []).

(** ** C135 layers *)

(** Two layers print alike if and only if they are at the same depth, of the same class, and have the same desc and (for texts) the same
    text; where a desc which is empty counts as none. *)
Theorem C135_layers : forall pr F G n m d c ds tx d' c' ds' tx' a b, layer_has F n d c ds tx -> layer_has G m d' c' ds' tx' ->
  layer_repr pr F n = Ok a -> layer_repr pr G m = Ok b -> (a = b <-> d = d' /\ c = c' /\ ds = ds' /\ tx = tx').
Proof.
  intros pr F G n m d c ds tx d' c' ds' tx' a b H H' A B. split.
  - intros <-. exact (layer_line_inj pr F G n m d c ds tx d' c' ds' tx' a H H' A B).
  - intros (<- & <- & <- & <-). rewrite (has_repr pr _ _ _ _ _ _ H) in A. rewrite (has_repr pr _ _ _ _ _ _ H') in B. congruence.
Qed.
Print Assumptions C135_layers.
(** They all can be printed, in one line, starting with as many hyphens as there are layers around the layer. *)
Theorem C135_line : forall pr F n d c ds tx, sane pr -> layer_has F n d c ds tx ->
  exists a r k, layer_repr pr F n = Ok a /\ one_line a /\ a = s "[" ++ repeat 45%N (Z.to_nat d) ++ k :: r /\ k <> 45%N.
Proof.
  intros pr F n d c ds tx S H. assert (A := has_repr pr _ _ _ _ _ _ H). destruct (has_codes _ _ _ _ _ _ H) as (_ & _ & _ & _ & I). destruct (head_facts c I) as ((k & r & K & N) & _).
  rewrite K in A. eexists _, _, k. split; [exact A|]. split; [exact (layer_one_line pr F n _ S A)|]. split; [reflexivity|exact N].
Qed.
Print Assumptions C135_line.
(** No desc and an empty desc, which are different, print alike. *)
Theorem C135_refuted : exists F n m a, field_get cls_Text F n cls_Text (s "desc") = Ok PNone /\ field_get cls_Text F m cls_Text (s "desc") = Ok (PStr []) /\
  layer_repr xprintable F n = Ok a /\ layer_repr xprintable F m = Ok a.
Proof.
  exists xforest, (nth_layer xforest 1), (nth_layer xforest 2), (s "[-" ++ symbol_of cls_Text ++ s "text 'hello']"). repeat split; vm_compute; reflexivity.
Qed.
Print Assumptions C135_refuted.
Lemma xcodes x : forallb (fun c => (c <? 1114112)%N) x = true -> code_points x.
Proof. intros H. rewrite forallb_forall in H. apply Forall_forall. intros c Hc. apply H in Hc. now apply N.ltb_lt. Qed.
Example C135_nonvacuous : (exists c, layer_has xforest (nth_layer xforest 0) 0 c (Some (s "it's")) None) /\ (exists c, layer_has xforest (nth_layer xforest 1) 1 c None (Some (s "hello"))) /\
  (exists c, layer_has xforest (nth_layer xforest 3) 1 c (Some (s "hello")) (Some (s "world"))) /\ sane xprintable.
Proof.
  split; [|split; [|split; [|exact xprintable_sane]]].
  - exists cls_Group. constructor; [vm_compute; reflexivity|vm_compute; reflexivity| |intros C; vm_compute in C; discriminate].
    eexists. split; [vm_compute; reflexivity|]. split; [reflexivity|]. split; [discriminate|now apply xcodes].
  - exists cls_Text. constructor; [vm_compute; reflexivity|vm_compute; reflexivity| |].
    + eexists. split; [vm_compute; reflexivity|]. left. reflexivity.
    + split; [reflexivity|]. split; [now apply xcodes|]. eexists _, _, _. split; [vm_compute; reflexivity|vm_compute; reflexivity].
  - exists cls_Text. constructor; [vm_compute; reflexivity|vm_compute; reflexivity| |].
    + eexists. split; [vm_compute; reflexivity|]. split; [reflexivity|]. split; [discriminate|now apply xcodes].
    + split; [reflexivity|]. split; [now apply xcodes|]. eexists _, _, _. split; [vm_compute; reflexivity|vm_compute; reflexivity].
Qed.

(** ** C136 keyframes *)

(** Two keyframes print alike if and only if their names are the same, they are both active or not, and their times print alike. *)
Theorem C136_keyframes : forall pr F G k l t x a t' x' a' u v, keyframe_has F k t x a -> keyframe_has G l t' x' a' ->
  kf_str pr F k = Ok u -> kf_str pr G l = Ok v -> (u = v <-> T_str t = T_str t' /\ x = x' /\ a = a').
Proof.
  intros pr F G k l t x a t' x' a' u v H H' U V. rewrite (kf_has_str pr _ _ _ _ _ H) in U. rewrite (kf_has_str pr _ _ _ _ _ H') in V. injection U as <-. injection V as <-. split.
  - apply kf_inj; [apply H|apply H'].
  - intros (-> & -> & ->). reflexivity.
Qed.
Print Assumptions C136_keyframes.
(** The keyframes of an animation print as one line about the animation, and one line for each keyframe, in the order of the document. *)
Theorem C136_list : forall pr F n x, sane pr -> keyframes_str pr F n = Ok x ->
  exists a ls, anim_repr pr F n = Ok a /\ mapM (kf_str pr F) (keyframes n) = Ok ls /\ one_line (s "Keyframes of " ++ a ++ s ":") /\ Forall one_line ls /\
    x = join [10%N] ((s "Keyframes of " ++ a ++ s ":") :: match ls with [] => [s "  (none)"] | _ => map (fun y => s "  - " ++ y) ls end).
Proof. exact keyframes_lines. Qed.
Print Assumptions C136_list.
Example C136_nonvacuous : (exists k t, In k (keyframes (nth 0 xforest (IT []))) /\ keyframe_has xforest k t (s "it's") false) /\
  (exists n, fget 1 xforest = Some n /\ exists x, keyframes_str xprintable xforest n = Ok x).
Proof.
  split.
  - exists (nth 1 (keyframes (nth 0 xforest (IT []))) (IT [])). eexists. split; [vm_compute; auto|]. split; [vm_compute; reflexivity|]. split; [vm_compute; reflexivity|]. split; [vm_compute; reflexivity|now apply xcodes].
  - eexists. split; [vm_compute; reflexivity|]. eexists. vm_compute. reflexivity.
Qed.

(** ** C137 waypoints *)
Theorem C137_waypoints : forall pr w w' cx cx' a b, wp_str pr w cx = Ok a -> wp_str pr w' cx' = Ok b ->
  (a = b <-> T_str (w_time w) = T_str (w_time w') /\ w_before w = w_before w' /\ w_after w = w_after w' /\
             value_str pr (w_cls w) (w_val w) cx = value_str pr (w_cls w') (w_val w') cx').
Proof. exact wp_inj. Qed.
Print Assumptions C137_waypoints.
(** Every waypoint that is made can be printed, if its value can. *)
Theorem C137_made : forall pr k v b a cx w x, waypoint_new k v b a cx = Ok w -> value_str pr (w_cls w) (w_val w) cx = Ok x -> exists y, wp_str pr w cx = Ok y.
Proof.
  intros pr k v b a cx w x H V. destruct (waypoint_new_interp _ _ _ _ _ _ H) as [B A]. destruct (emoji_all _ B) as (e & E). destruct (emoji_all _ A) as (f & G).
  unfold wp_str. rewrite E. cbn [bind]. rewrite G. cbn [bind]. rewrite V. cbn [bind]. eauto.
Qed.
Print Assumptions C137_made.
Example C137_nonvacuous : exists w, waypoint_new (KeyStr (s "1s")) (PVal VReal (El (s "real") [(s "value", AStr (s "0.5"))] []) None) (s "auto") (s "linear") (Some [(s "fps", AStr (s "24"))]) = Ok w /\
  wp_str xprintable w None = Ok (s "[ 1s " ++ [128994%N] ++ s "-" ++ [127805%N] ++ s " - 0.5]").
Proof. eexists. split; [vm_compute; reflexivity|vm_compute; reflexivity]. Qed.

(** ** C138 values *)

(** Values of these classes, and vectors, print alike if and only if they are the same, if they aren't animated. What is missing: the other classes;
    for angles and times it isn't so. *)
Theorem C138_partial : forall pr c n m cx cy x y, In c [VReal; VInteger; VBool; VString; VColor; VBlendMethod] -> is_animated n = false -> is_animated m = false ->
  value_str pr c n cx = Ok x -> value_str pr c m cy = Ok y -> (x = y <-> get_value c n cx = get_value c m cy).
Proof. exact values_inj. Qed.
Print Assumptions C138_partial.
Theorem C138_vectors : forall pr n m cx cy l l' x y, from_tag n = Ok VXY -> from_tag m = Ok VXY -> is_animated n = false -> is_animated m = false ->
  vector_tuple n = Ok l -> vector_tuple m = Ok l' -> value_str pr VXY n cx = Ok x -> value_str pr VXY m cy = Ok y -> (x = y <-> l = l').
Proof. exact xy_inj. Qed.
Print Assumptions C138_vectors.
(** And repr() also tells the class. *)
Theorem C138_repr : forall pr c d n m cx cy x y, In c all_vcls -> In d all_vcls -> value_repr pr c n cx = Ok x -> value_repr pr d m cy = Ok y ->
  (x = y <-> c = d /\ value_str pr c n cx = value_str pr d m cy).
Proof. exact repr_value_inj. Qed.
Print Assumptions C138_repr.
Definition xsimple (k v : string) : node := El (s k) [(s "value", AStr (s v))] [].
(** Angles and times that differ by little print alike; and a string may look like something animated. *)
Theorem C138_refuted : exists a a' t t' z z' cx,
  get_value VAngle a cx = Ok (PFlo 90) /\ get_value VAngle a' cx <> Ok (PFlo 90) /\ value_str xprintable VAngle a cx = value_str xprintable VAngle a' cx /\ value_str xprintable VAngle a cx = Ok (s "90" ++ [176%N]) /\
  get_value VTime t cx <> get_value VTime t' cx /\ value_str xprintable VTime t cx = Ok (s "2f") /\ value_str xprintable VTime t' cx = Ok (s "2f") /\
  is_animated z = true /\ is_animated z' = false /\ value_str xprintable VString z cx = value_str xprintable VString z' cx.
Proof.
  exists (xsimple "angle" "90"), (xsimple "angle" "90.00001"), (xsimple "time" "2f"), (xsimple "time" "2.000001f"), (El (s "animated") [(s "type", AStr (s "string"))] []), (El (s "string") [] [Txt (s "(animated)")]), (Some [(s "fps", AStr (s "24"))]).
  split; [vm_compute; reflexivity|]. split; [intros C; vm_compute in C; discriminate|]. split; [vm_compute; reflexivity|]. split; [vm_compute; reflexivity|]. split; [intros C; vm_compute in C; discriminate|]. repeat split; vm_compute; reflexivity.
Qed.
Print Assumptions C138_refuted.
Example C138_nonvacuous : is_animated (xsimple "real" "0.1") = false /\ value_str xprintable VReal (xsimple "real" "0.1") None = Ok (s "0.1") /\
  value_repr xprintable VReal (xsimple "real" "0.1") None = Ok (s "[Real 0.1]") /\ In VReal all_vcls.
Proof. repeat split; try (vm_compute; reflexivity). now left. Qed.
