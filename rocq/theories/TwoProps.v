(** Property C162: layers moved from one animation to another *)
From Coq Require Import Lia QArith Qfield.
From Verif Require TimeSpec TimeProps.
From Verif Require Import AnimModel AnimSpec AnimProofs3 AnimProofs5 AnimProps LayModel DocProofs DocProofs2 LaySpec LayProofs LayProofs2 LayProofs3 LayProofs4 MovProofs TwoSpec TwoProofs.
Local Open Scope N_scope.

(** ** C162 moving a layer from one animation to another *)

(** A layer anywhere in the animation A, appended to the animation B or a group in it, or inserted there, is in B afterwards and not in A.
    It is the same as before, with all that is in it. What else is in A and B is as it was, up to white space. *)
Theorem C162_moved : forall F A B m t n ch F', wf F -> animation F A -> animation F B -> A <> B ->
  fget (moved_layer m) F = Some t -> is_layer t = true -> known t -> part_of t A ->
  fget (snd (into m)) F = Some n -> part_of n B -> children (fst (into m)) n = Ok ch -> try_move F m = (F', Ok tt) ->
  wf F' /\ fget (moved_layer m) F' = Some t /\ exists A' B', animation F' A' /\ animation F' B' /\ part_of t B' /\ ~ part_of t A' /\
    squeeze A' = squeeze (idel (moved_layer m) A) /\ squeeze (idel (moved_layer m) B') = squeeze B.
Proof.
  intros F A B m t n ch F' W HA HB Hne Hl Htl Htk PA Hg PB Hch H.
  destruct (moved_over F A B m (moved_layer m) t n ch F' W HA HB Hne eq_refl Hl Htl Htk PA Hg PB Hch H) as (W' & Hl' & A' & B' & HA' & HB' & Ne & P & EA & EB).
  split; [exact W'|]. split; [exact Hl'|]. exists A', B'. repeat (split; [assumption|]). split; [|now split].
  intros PA'. apply Ne. now apply (anim_one F' A' B' t t).
Qed.
Print Assumptions C162_moved.

(** Its params, and those of layers in it, hold the same values, but their times are read with the frame rate of B. *)
Theorem C162_params : forall F A B m t n ch F', wf F -> animation F A -> animation F B -> A <> B ->
  fget (moved_layer m) F = Some t -> is_layer t = true -> known t -> part_of t A ->
  fget (snd (into m)) F = Some n -> part_of n B -> children (fst (into m)) n = Ok ch -> try_move F m = (F', Ok tt) ->
  forall x k ty v, part_of x t -> param_field F x k ty = Ok v ->
    exists c w, v = PVal c w (Some (iattrs A)) /\ param_field F' x k ty = Ok (PVal c w (Some (iattrs B))).
Proof.
  intros F A B m t n ch F' W HA HB Hne Hl Htl Htk PA Hg PB Hch H x k ty v Px E.
  destruct (moved_over F A B m (moved_layer m) t n ch F' W HA HB Hne eq_refl Hl Htl Htk PA Hg PB Hch H) as (W' & Hl' & A' & B' & HA' & HB' & Ne & P & EA & EB).
  assert (Q : forall r, part_of t r -> itag r = true -> forall w, In w (idesc x) -> part_of w r).
  { intros r Pr Tr w Hw. pose proof (is_layer_tag _ Htl) as Tt. assert (Tx : itag x = true) by (destruct x; [destruct Hw|reflexivity]). right.
    assert (In w (idesc t)) by (destruct Px as [->|Px]; [exact Hw|]; rewrite (idesc_kids t) in * by exact Tt; now apply desc_trans with x).
    destruct Pr as [->|Pr]; [assumption|]. rewrite (idesc_kids r) in * by exact Tr. now apply desc_trans with t. }
  unfold param_field in *. destruct (param_get F x k) as [[w c]|] eqn:G; [|discriminate]. change (param_get F' x k) with (param_get F x k). rewrite G. cbn [bind snd fst] in *.
  destruct (inst ty c) eqn:Ei; [|now destruct (py_str (as_value F (w, c)))]. injection E as <-.
  assert (I : In w (idesc x)).
  { unfold param_get in G. destruct (ifind (is_param k) x) as [p|] eqn:Ep; [|discriminate]. destruct (filter itag (ikids p)) as [|w' [|? ?]] eqn:Ek; try discriminate.
    destruct (from_tag (forget w')) as [c'|]; [|discriminate]. cbn [bind] in G. injection G as -> ->. apply ifind_In in Ep as [Ep _].
    assert (Tx : itag x = true) by (destruct x; [destruct Ep|reflexivity]). rewrite (idesc_kids x) in * by exact Tx. assert (Hw : In w (filter itag (ikids p))) by (rewrite Ek; now left). apply filter_In in Hw as [Hw Tw].
    now apply (kid_desc _ p). }
  exists c, (forget w). unfold as_value. cbn [fst snd].
  rewrite (anim_ctx F A w W HA (Q A PA (anim_tag F A HA) w I)), (anim_ctx F' B' w W' HB' (Q B' P (anim_tag F' B' HB') w I)).
  destruct (squeeze_shape _ _ EB) as (_ & _ & EBa & _). rewrite idel_attrs in EBa. rewrite EBa. now split.
Qed.
Print Assumptions C162_params.

(** So a time with the text of a specification (C01) keeps its text. At p frames a second in A and q in B, it has the frames which that text gives at q afterwards:
    it lasts as many seconds as before only if it has no frames besides its seconds, and as many frames only if it has no seconds (unless p = q). *)
Theorem C162_times : forall F A B m t n ch F', wf F -> animation F A -> animation F B -> A <> B ->
  fget (moved_layer m) F = Some t -> is_layer t = true -> known t -> part_of t A ->
  fget (snd (into m)) F = Some n -> part_of n B -> children (fst (into m)) n = Ok ch -> try_move F m = (F', Ok tt) ->
  forall x k w cx l trail p q, part_of x t -> param_field F x k VTime = Ok (PVal VTime w cx) -> aget (s "value") (tag_attrs w) = Some (AStr (TimeSpec.write l trail)) ->
    TimeSpec.wf_spec l trail -> (TimeSpec.seconds_of l = 0 \/ 0 <= TimeSpec.amount TimeSpec.UF l)%Z -> (0 < p)%Z -> (0 < q)%Z ->
    TimeSpec.at_fps (inject_Z p) (Some (iattrs A)) -> TimeSpec.at_fps (inject_Z q) (Some (iattrs B)) -> TimeSpec.small p l -> TimeSpec.small q l ->
    exists t1 t2, get_value VTime w cx = Ok (PT t1) /\ t1 = mkT (inject_Z (TimeSpec.frames_of p l)) (Some (inject_Z p)) /\
      (exists cx', param_field F' x k VTime = Ok (PVal VTime w cx') /\ get_value VTime w cx' = Ok (PT t2)) /\ t2 = mkT (inject_Z (TimeSpec.frames_of q l)) (Some (inject_Z q)) /\
      ((exists u v, in_seconds t1 = Some u /\ in_seconds t2 = Some v /\ u == v) <-> p = q \/ TimeSpec.amount TimeSpec.UF l = 0%Z) /\
      (frames t1 == frames t2 <-> p = q \/ TimeSpec.seconds_of l = 0%Z).
Proof.
  intros F A B m t n ch F' W HA HB Hne Hl Htl Htk PA Hg PB Hch H x k w cx l trail p q Px E Ev Wl Hs Hp Hq Ap Aq Sp Sq.
  destruct (C162_params F A B m t n ch F' W HA HB Hne Hl Htl Htk PA Hg PB Hch H x k VTime _ Px E) as (c & w' & Ew & E'). injection Ew as <- <- ->.
  pose proof (TimeProps.C01_integer_specs l trail p _ Wl Ap Hp Sp Hs) as T1. pose proof (TimeProps.C01_integer_specs l trail q _ Wl Aq Hq Sq Hs) as T2.
  eexists. eexists. split; [cbn [get_value]; unfold simple_val; rewrite Ev, T1; reflexivity|]. split; [reflexivity|].
  split; [exists (Some (iattrs B)); split; [exact E'|]; cbn [get_value]; unfold simple_val; rewrite Ev, T2; reflexivity|]. split; [reflexivity|].
  unfold in_seconds. cbn [fps frames]. unfold TimeSpec.frames_of. set (a := TimeSpec.seconds_of l). set (b := TimeSpec.amount TimeSpec.UF l).
  set (b' := (if (a <? 0)%Z then (- b)%Z else b)). assert (Eb : b = 0%Z <-> b' = 0%Z) by (unfold b'; destruct (a <? 0)%Z; lia).
  clearbody b'. split.
  - rewrite Eb. clear - Hp Hq. assert (Np : ~ inject_Z p == 0) by (unfold Qeq; cbn; lia). assert (Nq : ~ inject_Z q == 0) by (unfold Qeq; cbn; lia). split.
    + intros (u & v & Eu & Ev & X). injection Eu as <-. injection Ev as <-.
      assert (Y : inject_Z ((a * p + b') * q) == inject_Z ((a * q + b') * p)).
      { rewrite (inject_Z_mult (a * p + b') q), (inject_Z_mult (a * q + b') p). transitivity (inject_Z (a * p + b') / inject_Z p * (inject_Z p * inject_Z q))%Q; [field; exact Np|]. rewrite X. field. exact Nq. }
      unfold Qeq in Y. cbn in Y. destruct (Z.eq_dec b' 0) as [Z|Z]; [now right|left]. nia.
    + intros X. eexists. eexists. split; [reflexivity|]. split; [reflexivity|]. destruct X as [->| ->]; [reflexivity|]. rewrite !Z.add_0_r, !inject_Z_mult. field. now split.
  - clear - Hp Hq. unfold Qeq. cbn. rewrite !Z.mul_1_r. clearbody a. split; [|intros [->| ->]; reflexivity]. intros X. destruct (Z.eq_dec a 0) as [Z|Z]; [now right|left]. nia.
Qed.
Print Assumptions C162_times.

(** Two animations, of 24 and of 12 frames a second. *)
Definition xslow : node := xcanvas [(s "begin-time", AStr (s "0f")); (s "end-time", AStr (s "10s")); (s "fps", AStr (s "12.000"))] [El (s "layer") [(s "type", AStr (s "text"))] []].
Definition xfast : node :=
  xcanvas [(s "begin-time", AStr (s "0f")); (s "end-time", AStr (s "10s")); (s "fps", AStr (s "24.000"))]
    [El (s "layer") [(s "type", AStr (s "group"))]
       [El (s "param") [(s "name", AStr (s "time_offset"))] [El (s "time") [(s "value", AStr (s "2s 6f"))] []]];
     El (s "layer") [(s "type", AStr (s "text"))] []].
Definition xtwo : forest := [fst (label 0 (El (s "[document]") [] [xfast])); fst (label 100 (El (s "[document]") [] [xslow]))].
Definition xget (u : N) : inode := match fget u xtwo with Some n => n | None => IT [] end.
Definition xmoved : forest := fst (group_append xtwo KAnim 101 2).
Example C162_nonvacuous : wf xtwo /\ animation xtwo (xget 1) /\ animation xtwo (xget 101) /\ xget 1 <> xget 101 /\
  is_layer (xget 2) = true /\ known (xget 2) /\ part_of (xget 2) (xget 1) /\ try_move xtwo (MAppend KAnim 101 2) = (xmoved, Ok tt) /\
  (exists ch, children KAnim (xget 101) = Ok ch /\ ids ch = [102]) /\
  (exists v, param_field xtwo (xget 2) (s "time_offset") VTime = Ok v /\ match v with PVal c w cx => get_value c w cx = Ok (PT (mkT 54 (Some 24%Q))) | _ => False end) /\
  (exists v, param_field xmoved (xget 2) (s "time_offset") VTime = Ok v /\ match v with PVal c w cx => get_value c w cx = Ok (PT (mkT 30 (Some 12%Q))) | _ => False end) /\
  (exists a b ca cb, fget 1 xmoved = Some a /\ fget 101 xmoved = Some b /\ children KAnim a = Ok ca /\ children KAnim b = Ok cb /\ ids ca = [5] /\ ids cb = [102; 2]).
Proof.
  split; [unfold wf; assert (E : fuids xtwo = [0; 1; 2; 3; 4; 5; 100; 101; 102]) by (vm_compute; reflexivity); rewrite E; repeat (constructor; [cbn; intuition discriminate|]); constructor|].
  split; [exists (fst (label 0 (El (s "[document]") [] [xfast]))); split; [now left|]; split; [reflexivity|]; split; [vm_compute; now left|vm_compute; reflexivity]|].
  split; [exists (fst (label 100 (El (s "[document]") [] [xslow]))); split; [right; now left|]; split; [reflexivity|]; split; [vm_compute; now left|vm_compute; reflexivity]|].
  split; [vm_compute; discriminate|]. split; [vm_compute; reflexivity|]. split; [eexists; vm_compute; reflexivity|]. split; [right; vm_compute; now left|].
  split; [vm_compute; reflexivity|]. split; [eexists; split; [vm_compute; reflexivity|vm_compute; reflexivity]|].
  split; [eexists; split; [vm_compute; reflexivity|vm_compute; reflexivity]|]. split; [eexists; split; [vm_compute; reflexivity|vm_compute; reflexivity]|].
  exists (match fget 1 xmoved with Some n => n | None => IT [] end), (match fget 101 xmoved with Some n => n | None => IT [] end).
  exists (match fget 1 xmoved with Some n => match children KAnim n with Ok c => c | Err _ => [] end | None => [] end), (match fget 101 xmoved with Some n => match children KAnim n with Ok c => c | Err _ => [] end | None => [] end).
  repeat split; vm_compute; reflexivity.
Qed.
