(** More about new animations, files that aren't UTF-8, params without names, and comparing vectors and gradients with other things. *)
From Verif Require Import AnimModel AnimSpec AnimProofs2 AnimProps LayModel LaySpec ViewModel ViewSpec ViewProofs ViewProps.
From Coq Require Import Lia.
Local Open Scope Z_scope.

(** ** C90 What is in a new animation *)

(** [Animation()] is called "New animation", has no description, is 480 by 270 pixels large, shows the plane from (-4, 9/4) to (4, -9/4), has a grey background, 24 frames
    per second, starts at 0, ends after five seconds, has no layers, and has one keyframe: at 0, called "start", active. *)
Theorem C90_contents : exists a n k, new_anim = Ok a /\ doc_top (doc_forest (am_root a)) = Some n /\
  (forall st, let get f := anim_get st (doc_forest (am_root a)) n (s f) in
     get "name"%string = Ok (PStr (s "New animation")) /\ get "desc"%string = Ok (PStr []) /\ get "width"%string = Ok (PInt 480) /\ get "height"%string = Ok (PInt 270) /\
     get "fps"%string = Ok (PFlo 24) /\ get "begin_time"%string = Ok (PT (mkT 0 (Some 24%Q))) /\ get "end_time"%string = Ok (PT (mkT 120 (Some 24%Q)))) /\
  size n = Ok (480, 270) /\ viewbox n = Ok [-4 # 1; 9 # 4; 4 # 1; -9 # 4]%Q /\
  (exists c, background n = Ok c /\ color_tuple c = Ok [1 # 2; 1 # 2; 1 # 2; 1]%Q) /\
  filter is_layer (idesc n) = [] /\
  keyframes n = [k] /\ kf_name k = s "start" /\ kf_active k = Ok true /\ kf_time (doc_forest (am_root a)) k = Ok (mkT 0 (Some 24%Q)).
Proof.
  exists (mkAnim xblank FBlank None), (xroot xblank), (hd (IT []) (keyframes (xroot xblank))). cbn [am_root].
  split; [vm_compute; reflexivity|]. split; [vm_compute; reflexivity|].
  split; [intros st; cbv zeta; do 6 (split; [vm_compute; reflexivity|]); vm_compute; reflexivity|].
  do 2 (split; [vm_compute; reflexivity|]).
  split; [exists (match background (xroot xblank) with Ok c => c | Err _ => Txt [] end); split; vm_compute; reflexivity|]. do 4 (split; [vm_compute; reflexivity|]). vm_compute; reflexivity.
Qed.
Print Assumptions C90_contents.

(** ** C91 Files that aren't UTF-8 *)

(** A plain file which begins like XML but is not UTF-8 isn't loaded: this is a ValueError (UnicodeDecodeError). *)
Theorem C91_not_utf8 : forall fs x b, aget x fs = Some (Raw (s "<?" ++ b)) -> (forall t, utf8_out t <> Some (s "<?" ++ b)) -> load fs x = Err ValueError.
Proof.
  intros fs x b H U. unfold load. rewrite H. change (kind_by_magic (Raw (s "<?" ++ b))) with (Ok FSif). cbn [bind main_file].
  unfold parse_bytes. destruct (decode (s "<?" ++ b)) as [t|] eqn:E; [|reflexivity]. exfalso. apply (U t). clear - E. unfold decode in E.
  destruct (utf8_in (s "<?" ++ b)) as [y|]; [|discriminate]. destruct (utf8_out y) as [c|] eqn:Ey; [|discriminate]. destruct (pstr_eqb (s "<?" ++ b) c) eqn:Ec; [|discriminate].
  apply pstr_eqb_spec in Ec. rewrite Ec. congruence.
Qed.
Print Assumptions C91_not_utf8.
Example C91_not_utf8_nonvacuous : let b := [255]%N in aget (s "x") [(s "x", Raw (s "<?" ++ b))] = Some (Raw (s "<?" ++ b)) /\ forall t, utf8_out t <> Some (s "<?" ++ b).
Proof.
  cbv zeta. split; [reflexivity|]. intros t H. apply XpProofs.utf8_in_out in H. vm_compute in H. discriminate.
Qed.

(** ** C50 Params without names *)

(** If a layer has a param without a name, items() raises AttributeError, provided that the other params can be read; and so do the keys(). *)
Theorem C50_nameless : forall n, (forall p, In p (ifind_children (named (s "param")) n) ->
    aget (s "name") (iattrs p) = None \/ exists x v, aget (s "name") (iattrs p) = Some (AStr x) /\ value_of p = Ok v) ->
  ((exists p, In p (ifind_children (named (s "param")) n) /\ aget (s "name") (iattrs p) = None) <-> layer_items n = Err AttributeError) /\
  ((exists p, In p (ifind_children (named (s "param")) n) /\ aget (s "name") (iattrs p) = None) <-> layer_keys n = Err AttributeError).
Proof.
  intros n H. unfold layer_keys.
  assert (G : (exists p, In p (ifind_children (named (s "param")) n) /\ aget (s "name") (iattrs p) = None) <-> layer_items n = Err AttributeError).
  2:{ split; [exact G|]. rewrite G. split; [now intros ->|]. destruct (layer_items n); cbn [bind]; [discriminate|now intros [= ->]]. }
  unfold layer_items. generalize dependent (ifind_children (named (s "param")) n). intros l H.
  assert (G : (exists p, In p l /\ aget (s "name") (iattrs p) = None) <->
     mapM (fun p => let* v := value_of p in match aget (s "name") (iattrs p) with Some (AStr x) => Ok (x, v) | _ => Err EUnmodelled end) l = Err AttributeError).
  { induction l as [|p l IH]; [split; [now intros (p & [] & _)|discriminate]|]. cbn [mapM].
    destruct (H p (or_introl eq_refl)) as [E|(x & v & E & V)].
    - assert (V : value_of p = Err AttributeError) by (unfold value_of; now rewrite E). rewrite V. cbn [bind]. split; [reflexivity|]. intros _. exists p. split; [now left|exact E].
    - rewrite V. cbn [bind]. rewrite E. cbn [bind]. assert (IH' := IH (fun q Hq => H q (or_intror Hq))).
      assert (X : (exists q, In q (p :: l) /\ aget (s "name") (iattrs q) = None) <-> exists q, In q l /\ aget (s "name") (iattrs q) = None).
      { split; intros (q & Hq & Eq); exists q; [destruct Hq as [<-|Hq]; [congruence|auto]|split; [now right|exact Eq]]. }
      rewrite X, IH'. destruct (mapM _ l) as [r|e]; cbn [bind]; split; congruence. }
  rewrite G. destruct (mapM _ l); cbn [bind]; split; congruence.
Qed.
Print Assumptions C50_nameless.
Example C50_nameless_nonvacuous : exists n p q, In p (ifind_children (named (s "param")) n) /\ In q (ifind_children (named (s "param")) n) /\ aget (s "name") (iattrs q) = None /\
  (forall p, In p (ifind_children (named (s "param")) n) -> aget (s "name") (iattrs p) = None \/ exists x v, aget (s "name") (iattrs p) = Some (AStr x) /\ value_of p = Ok v) /\
  aget (s "name") (iattrs p) = Some (AStr (s "x")).
Proof.
  pose (p := IE 3 (s "param") [(s "name", AStr (s "x"))] [IE 4 (s "real") [(s "value", AStr (s "1"))] []]). pose (q := IE 5 (s "param") [] []).
  exists (IE 2 (s "layer") [] [p; q]), p, q. split; [left; reflexivity|]. split; [right; left; reflexivity|]. split; [reflexivity|]. split; [|reflexivity].
  intros r [<-|[<-|[]]]; [right|now left]. exists (s "x"), (IE 4 (s "real") [(s "value", AStr (s "1"))] [], VReal). split; [reflexivity|vm_compute; reflexivity].
Qed.

(** ** C130 Vectors and tuples of other things *)

(** Things that are never equal to a number *)
Definition no_number (v : pyval) : Prop :=
  match v with
  | PNone | PStr _ | PTuple _ | PList _ | PDict _ | PDictF _ | POther | PVal (VString | VColor | VXY | VTransformation | VGradient | VCanvas) _ _ => True
  | _ => False
  end.
(** A vector isn't equal to a tuple or list in which such a thing is. *)
Theorem C130_elements : forall a x y u v, plain_xy a x y -> no_number u \/ no_number v ->
  vec_eq a (PTuple [u; v]) <> Ok true /\ vec_eq a (PList [u; v]) <> Ok true.
Proof.
  intros a x y u v P H. destruct (plain_reads _ _ _ P) as (R & _).
  assert (G : forall q w, no_number w -> float_eq q w <> Ok true).
  { intros q w. destruct w as [| | | | | | | | | |c n cx|]; try contradiction; try (intros _; discriminate). destruct c; try contradiction; intros _; cbn [float_eq]; try discriminate;
      [destruct (gradient_val n cx)|destruct (get_value VCanvas n cx)]; discriminate. }
  assert (B : both float_eq [x; y] [u; v] <> Ok true).
  { unfold both. cbn [combine mapM fst snd]. specialize (fun w => G x w) as G1. destruct (float_eq x u) as [b|] eqn:E1; [|discriminate]. cbn [bind]. destruct (float_eq y v) as [b'|] eqn:E2; [|discriminate]. cbn [bind forallb].
    destruct H as [H|H]; [apply (G x) in H; rewrite E1 in H|apply (G y) in H; rewrite E2 in H]; destruct b, b'; cbn [andb]; congruence. }
  pose proof (reads_length _ _ R) as L. unfold reads in R. unfold vec_eq. cbn [py_len py_iter]. rewrite R. cbn [length bind] in *. rewrite <- L. cbn [Z.of_nat Pos.of_succ_nat Pos.succ Z.eqb Pos.eqb negb]. split; exact B.
Qed.
Print Assumptions C130_elements.
Example C130_elements_nonvacuous : plain_xy xv12 1 2 /\ no_number (PVal VCanvas (El (s "canvas") [] []) None) /\ vec_eq xv12 (PTuple [PVal VCanvas (El (s "canvas") [] []) None; PInt 2]) = Ok false.
Proof. split; [apply C130_nonvacuous|]. split; [exact I|vm_compute; reflexivity]. Qed.

(** ** C131 Gradients and other things *)

(** A gradient is not equal to numbers, strings, None, tuples, lists, or objects of other classes; nor to a value of another class that can be read, unless that is a vector or a transformation. *)
Theorem C131_others : forall a cx d, gradient_val a cx = Ok d ->
  (forall v, match v with PNone | PBool _ | PInt _ | PFlo _ | PStr _ | PTuple _ | PList _ | POther => True | _ => False end -> grad_eq a cx v = Ok false) /\
  (forall c n cy v, In c [VReal; VInteger; VBool; VAngle; VString; VColor; VBlendMethod; VCanvas] -> get_value c n cy = Ok v -> grad_eq a cx (PVal c n cy) = Ok false).
Proof.
  intros a cx d H. unfold grad_eq. rewrite H. cbn [bind]. split.
  - intros v. destruct v; try contradiction; reflexivity.
  - intros c n cy v Hc E. rewrite E. cbn [bind]. assert (G : match v with PBool _ | PInt _ | PFlo _ | PStr _ | PList _ => True | _ => False end).
    { repeat (destruct Hc as [<-|Hc]; [cbn [get_value] in E; unfold simple_val in E|]); [..|destruct Hc];
        try (destruct (aget (s "value") (tag_attrs n)) as [[x| | |]|]; try discriminate).
      all: repeat match type of E with
                  | context [parse_float ?x] => destruct (parse_float x); [|discriminate]
                  | context [parse_int ?x] => destruct (parse_int x); [|discriminate]
                  | context [color_hex ?x] => destruct (color_hex x); [|discriminate]
                  | context [forallb ?f ?x] => destruct (forallb f x); [|discriminate]
                  end.
      all: cbn [bind] in E; injection E as <-; exact I. }
    destruct v; try contradiction; reflexivity.
Qed.
Print Assumptions C131_others.
Example C131_others_nonvacuous : (exists d, gradient_val xgrad None = Ok d) /\ get_value VReal (El (s "real") [(s "value", AStr (s "1"))] []) None = Ok (PFlo 1) /\
  get_value VCanvas (El (s "canvas") [] []) None = Ok (PList []).
Proof. split; [destruct xgrad_reads as (d & (H & _) & _); eauto|]. split; vm_compute; reflexivity. Qed.
