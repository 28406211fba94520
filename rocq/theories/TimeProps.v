(** Properties C01 to C12: times (t.py). *)
From Verif Require Import TimeModel TimeSpec PyFloatProofs TimeProofs TimeProofs2.
Local Open Scope Z_scope.

(** The attributes of a root canvas, for the examples: 24 FPS, 0s to 5s. *)
Definition canvas24 : attrs :=
  [(s "fps", AStr (s "24.000")); (s "begin-time", AStr (s "0f")); (s "end-time", AStr (s "5s"))].

(** C01: a specification made of distinct h/m/s/f parts with whole counts, in
    any order, with any blanks between the parts, denotes what it says. *)
Theorem C01_integer_specs :
  forall (l : list item) (trail : pstr) (p : Z) (c : ctx),
  wf_spec l trail -> at_fps (inject_Z p) c -> 0 < p -> small p l ->
  (seconds_of l = 0 \/ 0 <= amount UF l) ->
  T_init (TStr (write l trail)) c = Ok (mkT (inject_Z (frames_of p l)) (Some (inject_Z p))).
Proof. exact T_spec_value. Qed.
Print Assumptions C01_integer_specs.

Example C01_nonvacuous :
  let l := [mkItem [] true [1; 2]%N UM; mkItem (s "  ") false [3]%N UF; mkItem [] false [0; 1]%N UH] in
  write l (s " ") = s "-12m  3f01h " /\ wf_spec l (s " ") /\ at_fps (inject_Z 24) (Some canvas24) /\ small 24 l
  /\ frames_of 24 l = (3600 - 720) * 24 + 3
  /\ T_init (TStr (s "-12m  3f01h ")) (Some canvas24) = Ok (mkT 69123 (Some 24%Q)).
Proof.
  cbv zeta. split; [reflexivity|]. split; [|split; [|split; [|split]]].
  - split; [|split]; [repeat constructor; discriminate|repeat constructor|].
    repeat constructor; cbn; intuition discriminate.
  - exists canvas24, (AStr (s "24.000")). split; [reflexivity|]. split; [reflexivity|]. vm_compute. reflexivity.
  - vm_compute. discriminate.
  - reflexivity.
  - vm_compute. reflexivity.
Qed.

(** C02, for a whole number of frames at a whole FPS: reading back what was
    printed gives the same time exactly when it is not negative, or is written
    with at most one of h, m, s. Missing from the full property: fractional
    frame counts or FPS (false in general, see C02_fraction_refuted). *)
Theorem C02_print_parse_partial :
  forall (n p : Z) (c : ctx),
  Z.abs n < 2 ^ 53 -> 0 < p <= 10 ^ 6 -> at_fps (inject_Z p) c ->
  let t := mkT (inject_Z n) (Some (inject_Z p)) in
  T_init (TStr (T_str t)) c = Ok t <-> 0 <= n \/ one_unit (Z.abs n / p).
Proof. exact str_roundtrip. Qed.
Print Assumptions C02_print_parse_partial.

Example C02_nonvacuous :
  at_fps (inject_Z 24) (Some canvas24)
  /\ T_str (mkT 86429 (Some 24%Q)) = s "1h 1s 5f"
  /\ T_init (TStr (s "1h 1s 5f")) (Some canvas24) = Ok (mkT 86429 (Some 24%Q))
  /\ T_str (mkT (-29) (Some 24%Q)) = s "-1s 5f".
Proof.
  split; [|vm_compute; repeat split; reflexivity].
  exists canvas24, (AStr (s "24.000")). split; [reflexivity|]. split; [reflexivity|]. vm_compute. reflexivity.
Qed.

(** C02 without a known FPS: up to a million frames. *)
Theorem C02_print_parse_unanchored_partial :
  forall n : Z, Z.abs n < 10 ^ 6 ->
  let t := mkT (inject_Z n) None in T_init (TStr (T_str t)) None = Ok t.
Proof. exact str_roundtrip_none. Qed.
Print Assumptions C02_print_parse_unanchored_partial.

Example C02_unanchored_nonvacuous : T_str (mkT (-999999) None) = s "-999999f".
Proof. vm_compute. reflexivity. Qed.

(** C02 is false: -1m 5s reads back as -55 seconds, *)
Theorem C02_negative_refuted :
  exists t t' : T, T_init (TStr (T_str t)) (Some canvas24) = Ok t'
    /\ fps t = Some 24%Q /\ frames t = (-65 * 24)%Q /\ frames t' = (-55 * 24)%Q.
Proof.
  exists (mkT (-65 * 24)%Q (Some 24%Q)), (mkT (-55 * 24)%Q (Some 24%Q)). vm_compute. repeat split; reflexivity.
Qed.
Print Assumptions C02_negative_refuted.

(** one third of a frame loses its tail, *)
Theorem C02_fraction_refuted :
  exists t t' : T, T_init (TStr (T_str t)) (Some canvas24) = Ok t' /\ T_eq t (CT t') = Ok false
    /\ fps t = Some 24%Q /\ frames t = fdiv 1 3.
Proof.
  exists (mkT (fdiv 1 3) (Some 24%Q)). eexists. split; [vm_compute; reflexivity|]. split; [vm_compute; reflexivity|].
  split; reflexivity.
Qed.
Print Assumptions C02_fraction_refuted.

(** and a million frames without FPS ("1e+06f") cannot be read at all. *)
Theorem C02_million_refuted :
  T_init (TNum 1000000) None = Ok (mkT 1000000 None)
  /\ T_init (TStr (T_str (mkT 1000000 None))) None = Err ValueError.
Proof. vm_compute. split; reflexivity. Qed.
Print Assumptions C02_million_refuted.

(** C03: the six comparisons of times with compatible FPS never raise and are
    those of the frame counts. *)
Theorem C03_order_is_frames :
  forall a b : T, compat a b ->
  (T_lt a (CT b) = Ok true <-> frames a < frames b)%Q
  /\ (T_eq a (CT b) = Ok true <-> frames a == frames b)%Q
  /\ (T_gt a (CT b) = Ok true <-> frames b < frames a)%Q
  /\ (T_le a (CT b) = Ok true <-> frames a <= frames b)%Q
  /\ (T_ge a (CT b) = Ok true <-> frames b <= frames a)%Q
  /\ (T_ne a (CT b) = Ok true <-> ~ frames a == frames b)%Q
  /\ (forall op, In op [T_lt; T_eq; T_gt; T_le; T_ge; T_ne] -> exists r, op a (CT b) = Ok r).
Proof. exact T_order. Qed.
Print Assumptions C03_order_is_frames.

(** C03: hence exactly one of <, ==, > holds; <= and >= are the unions. *)
Theorem C03_trichotomy :
  forall a b : T, compat a b ->
  ( (T_lt a (CT b) = Ok true  /\ T_eq a (CT b) = Ok false /\ T_gt a (CT b) = Ok false)
    \/ (T_lt a (CT b) = Ok false /\ T_eq a (CT b) = Ok true  /\ T_gt a (CT b) = Ok false)
    \/ (T_lt a (CT b) = Ok false /\ T_eq a (CT b) = Ok false /\ T_gt a (CT b) = Ok true))
  /\ (T_le a (CT b) = Ok true <-> T_lt a (CT b) = Ok true \/ T_eq a (CT b) = Ok true)
  /\ (T_ge a (CT b) = Ok true <-> T_gt a (CT b) = Ok true \/ T_eq a (CT b) = Ok true)
  /\ (T_gt a (CT b) = Ok true <-> T_lt b (CT a) = Ok true).
Proof. exact T_trichotomy. Qed.
Print Assumptions C03_trichotomy.

(** C03: < is transitive. The outer two need to be comparable: an unknown FPS in
    the middle may connect two that are not. *)
Theorem C03_transitive :
  forall a b c : T, compat a b -> compat b c -> compat a c ->
  T_lt a (CT b) = Ok true -> T_lt b (CT c) = Ok true -> T_lt a (CT c) = Ok true.
Proof. exact T_transitive. Qed.
Print Assumptions C03_transitive.

Example C03_nonvacuous :
  let a := mkT 3 None in let b := mkT 5 (Some 24%Q) in let c := mkT 7 (Some 24%Q) in
  compat a b /\ compat b c /\ compat a c /\ T_lt a (CT b) = Ok true /\ T_lt b (CT c) = Ok true
  /\ T_le c (CT a) = Ok false.
Proof. vm_compute. repeat split; reflexivity. Qed.

(** C04: a comparison raises ValueError exactly when both FPS are known and
    differ. The documented exemption for zero frames is missing: see below. *)
Theorem C04_conflict_partial :
  forall (a b : T) op, In op [T_lt; T_eq; T_gt; T_le; T_ge; T_ne] ->
  (op a (CT b) = Err ValueError <-> exists f g, fps a = Some f /\ fps b = Some g /\ ~ (f == g)%Q).
Proof. exact T_conflict_iff. Qed.
Print Assumptions C04_conflict_partial.

Example C04_nonvacuous : T_lt (mkT 3 (Some 24%Q)) (CT (mkT 4 (Some 25%Q))) = Err ValueError.
Proof. reflexivity. Qed.

(** C04 as documented is false: zero frames are refused too. *)
Theorem C04_zero_refuted :
  exists a b : T, frames a = 0%Q /\ frames b = 0%Q /\ T_eq a (CT b) = Err ValueError.
Proof. exists (mkT 0 (Some 24%Q)), (mkT 0 (Some 25%Q)). vm_compute. repeat split; reflexivity. Qed.
Print Assumptions C04_zero_refuted.

(** C05 holds between times of the same FPS, and for zero. *)
Theorem C05_hash_partial :
  forall a b : T, T_ok a -> T_ok b -> T_eq a (CT b) = Ok true ->
  (frames a == 0)%Q \/ fps a = fps b -> T_hash a = T_hash b.
Proof. exact T_hash_partial. Qed.
Print Assumptions C05_hash_partial.

Example C05_nonvacuous :
  T_ok (mkT 0 None) /\ T_ok (mkT 0 (Some 24%Q)) /\ T_eq (mkT 0 None) (CT (mkT 0 (Some 24%Q))) = Ok true.
Proof. vm_compute. repeat split; reflexivity. Qed.

(** C05 is false when the FPS is known for one of the two only. *)
Theorem C05_refuted :
  exists a b : T, T_eq a (CT b) = Ok true /\ T_hash a <> T_hash b.
Proof. exists (mkT 24 None), (mkT 24 (Some 24%Q)). split; [reflexivity|vm_compute; discriminate]. Qed.
Print Assumptions C05_refuted.

(** C06: what T(-n) is, whatever the begin and end times. It is the n-th last
    frame of the animation only when the animation begins at 0. *)
Theorem C06_negative_index_partial :
  forall p a le te lb tb n,
  at_fps (inject_Z p) (Some a) -> 0 < p ->
  aget (s "end-time") a = Some (AStr (write le te)) -> wf_spec le te -> small p le -> 0 <= amount UF le ->
  aget (s "begin-time") a = Some (AStr (write lb tb)) -> wf_spec lb tb -> small p lb -> 0 <= amount UF lb ->
  Z.abs (frames_of p le) <= 2 ^ 51 -> Z.abs (frames_of p lb) <= 2 ^ 51 -> 0 < n <= 2 ^ 51 ->
  T_init (TNum (inject_Z (- n))) (Some a)
  = Ok (mkT (inject_Z (1 + frames_of p le - frames_of p lb - n)) (Some (inject_Z p))).
Proof. exact T_negative. Qed.
Print Assumptions C06_negative_index_partial.

Example C06_nonvacuous :
  T_init (TNum (-1)) (Some canvas24) = Ok (mkT 120 (Some 24%Q))
  /\ T_init (TStr (s "5s")) (Some canvas24) = Ok (mkT 120 (Some 24%Q)).
Proof. vm_compute. split; reflexivity. Qed.

(** C06 is false of an animation that begins later: T(-1) is not its end. *)
Theorem C06_refuted :
  exists a t, T_init (TNum (-1)) (Some a) = Ok t
    /\ T_init (TStr (s "5s")) (Some a) = Ok (mkT 120 (Some 24%Q))
    /\ aget (s "end-time") a = Some (AStr (s "5s"))
    /\ T_lt t (CT (mkT 120 (Some 24%Q))) = Ok true.
Proof.
  exists (aset (s "begin-time") (AStr (s "1s")) canvas24), (mkT 96 (Some 24%Q)). vm_compute. repeat split; reflexivity.
Qed.
Print Assumptions C06_refuted.

(** C07: [seconds] is the double nearest to frames/fps; it raises exactly when
    the FPS is unknown and there are frames. *)
Theorem C07_seconds :
  forall t : T,
  (T_seconds t = Err ValueError <-> fps t = None /\ ~ (frames t == 0)%Q)
  /\ (forall e, T_seconds t = Err e -> e = ValueError)
  /\ (fps t = None -> (frames t == 0)%Q -> T_seconds t = Ok 0%Q)
  /\ (forall f, fps t = Some f -> exists r, T_seconds t = Ok r /\ is_dbl r
        /\ forall d, is_dbl d -> (Qabs (r - frames t / f) <= Qabs (d - frames t / f))%Q).
Proof. exact T_seconds_spec. Qed.
Print Assumptions C07_seconds.

(** C07: whole seconds come back exactly. *)
Theorem C07_whole_seconds :
  forall sec p : Z, 0 < p -> Z.abs (sec * p) <= 2 ^ 53 ->
  T_seconds (mkT (inject_Z (sec * p)) (Some (inject_Z p))) = Ok (inject_Z sec).
Proof. exact T_seconds_whole. Qed.
Print Assumptions C07_whole_seconds.

Example C07_nonvacuous :
  T_seconds (mkT 48 (Some 24%Q)) = Ok 2%Q /\ T_seconds (mkT 48 None) = Err ValueError
  /\ T_seconds (mkT 36 (Some 24%Q)) = Ok (3 # 2)%Q.
Proof. vm_compute. repeat split; reflexivity. Qed.

(** C08, what holds: every accepted string is blanks and numbers, each followed
    by one character, and these characters are distinct. Missing: that they are
    among h, m, s, f. *)
Theorem C08_accepted_shape_partial :
  forall x c t, T_init (TStr x) c = Ok t ->
  exists l, flat_map chunk_text l = strip x /\ Forall chunk_ok l /\ NoDup (flat_map chunk_unit l).
Proof. exact T_accepted_chunks. Qed.
Print Assumptions C08_accepted_shape_partial.

(** C08: text without any digit (and without "inf" or "nan") is rejected. *)
Theorem C08_no_digit_partial :
  forall x c f, ctx_fps c = Ok f -> ~ blank x -> Forall (fun ch => is_digit ch = false) x ->
  Forall (fun ch => ch <> 110%N /\ ch <> 78%N) x -> T_init (TStr x) c = Err ValueError.
Proof. exact T_no_digit. Qed.
Print Assumptions C08_no_digit_partial.

Example C08_nonvacuous :
  T_init (TStr (s "teatime")) None = Err ValueError /\ T_init (TStr (s "1s1s")) None = Err ValueError.
Proof. vm_compute. split; reflexivity. Qed.

(** C08 is false: '10', '5x' and '' are taken to be frame 0. *)
Theorem C08_refuted :
  T_init (TStr (s "10")) None = Ok (mkT 0 None) /\ T_init (TStr (s "5x")) None = Ok (mkT 0 None)
  /\ T_init (TStr (s "")) None = Ok (mkT 0 None) /\ T_init (TStr (s "1e3f")) None = Ok (mkT 3 None).
Proof. vm_compute. repeat split; reflexivity. Qed.
Print Assumptions C08_refuted.

(** C09: a unit given twice is rejected, wherever the two are. *)
Theorem C09_repeated_unit :
  forall c f l trail, ctx_fps c = Ok f -> Forall wf_item l -> blank trail -> ~ NoDup (map unit_ l) ->
  T_init (TStr (write l trail)) c = Err ValueError.
Proof. exact T_spec_dup. Qed.
Print Assumptions C09_repeated_unit.

Example C09_nonvacuous :
  let l := [mkItem [] false [1]%N US; mkItem (s " ") false [2]%N UF; mkItem (s " ") false [3]%N US] in
  write l [] = s "1s 2f 3s" /\ ~ NoDup (map unit_ l) /\ ctx_fps None = Ok None.
Proof. cbv zeta. split; [reflexivity|]. split; [|reflexivity]. cbn. intros H. inversion H; subst. apply H2. cbn. auto. Qed.

(** C10: without a reference, a specification is accepted exactly when it
    amounts to zero seconds. *)
Theorem C10_unanchored :
  forall l trail, wf_spec l trail -> small 1 l ->
  T_init (TStr (write l trail)) None =
  if seconds_of l =? 0 then Ok (mkT (inject_Z (amount UF l)) None) else Err ValueError.
Proof. exact T_spec_unanchored. Qed.
Print Assumptions C10_unanchored.

(** C10: with a reference, seconds and a negative number of frames are rejected. *)
Theorem C10_negative_frames :
  forall l trail p c, wf_spec l trail -> at_fps (inject_Z p) c -> 0 < p -> small p l ->
  seconds_of l <> 0 -> amount UF l < 0 -> T_init (TStr (write l trail)) c = Err ValueError.
Proof. exact T_spec_neg_frames. Qed.
Print Assumptions C10_negative_frames.

Example C10_nonvacuous :
  T_init (TStr (s "0s")) None = Ok (mkT 0 None) /\ T_init (TStr (s "1s")) None = Err ValueError
  /\ T_init (TStr (s "7f")) None = Ok (mkT 7 None) /\ T_init (TStr (s "1s -2f")) (Some canvas24) = Err ValueError.
Proof. vm_compute. repeat split; reflexivity. Qed.

(** C10: the documentation says "0s 2f" is refused without a reference; it is not. *)
Theorem C10_zero_seconds_refuted : T_init (TStr (s "0s 2f")) None = Ok (mkT 2 None).
Proof. vm_compute. reflexivity. Qed.
Print Assumptions C10_zero_seconds_refuted.

(** C11: with any tag inside the document as reference, T() gives what it gives
    with the outermost canvas. *)
Theorem C11_any_tag_same_reference :
  forall (root doc : node) (anc : list node) (n : node) (v : tval),
  at_path root anc n -> tag_name root = s "canvas" ->
  T_new v (RTag n (anc ++ [doc])) = T_init v (Some (tag_attrs root))
  /\ T_new v (RHasTag n (anc ++ [doc])) = T_init v (Some (tag_attrs root)).
Proof. exact T_any_tag. Qed.
Print Assumptions C11_any_tag_same_reference.

(** C11: a tag of a layer that is in no document gives no reference. *)
Theorem C11_detached_no_reference :
  forall (top : node) (anc : list node) (n : node) (v : tval),
  at_path top anc n -> (forall c, In c (tag_kids top) -> tag_name c <> s "canvas") ->
  T_new v (RTag n anc) = T_new v RNone.
Proof. exact T_detached. Qed.
Print Assumptions C11_detached_no_reference.

Example C11_nonvacuous :
  let inner := El (s "layer") [] [] in
  let inl := El (s "canvas") [(s "fps", AStr (s "99"))] [inner] in
  let par := El (s "param") [] [inl] in
  let lay := El (s "layer") [] [par] in
  let root := El (s "canvas") canvas24 [lay] in
  at_path root [inl; par; lay; root] inner /\ at_path lay [inl; par; lay] inner.
Proof. cbv zeta. split; repeat (eapply at_child; [|now left]); apply at_root. Qed.

(** C12: no time has a non-positive FPS. *)
Theorem C12_fps_positive :
  forall v c t, T_init v c = Ok t -> match fps t with Some f => (0 < f)%Q | None => c = None end.
Proof. exact T_fps_positive. Qed.
Print Assumptions C12_fps_positive.

Theorem C12_nonpositive_raises :
  forall v a x f, aget (s "fps") a = Some x -> float_of_aval x = Ok f -> (f <= 0)%Q ->
  T_init v (Some a) = Err ValueError.
Proof. exact T_fps_nonpositive. Qed.
Print Assumptions C12_nonpositive_raises.

Example C12_nonvacuous :
  T_init (TNum 3) (Some (aset (s "fps") (AStr (s "0.0")) canvas24)) = Err ValueError
  /\ T_init (TNum 3) (Some canvas24) = Ok (mkT 3 (Some 24%Q)).
Proof. vm_compute. split; reflexivity. Qed.
