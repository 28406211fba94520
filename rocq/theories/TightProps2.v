(** More about what raises which exception: the constructor of waypoints, and parameters that are missing or malformed. *)
From Verif Require Import TlModel LayModel LaySpec TlSpec LayProps MovProps PrmProps.
From Coq Require Import Lia.
Local Open Scope N_scope.

(** C35: [Waypoint(time, value, before, after)]. Only values can be put into it, and only if they aren't animated; the time is a T, a number or a string. *)
Definition a_time (k : tkey) (cx : ctx) : res T := match k with KeyT t => Ok t | KeyNum q => T_init (TNum q) cx | KeyStr x => T_init (TStr x) cx | KeyOther => Err TypeError end.
Theorem C35_constructor : forall k v b a cx,
  ((forall c n cy, v <> PVal c n cy) -> waypoint_new k v b a cx = Err TypeError) /\
  forall c n cy, v = PVal c n cy ->
    (is_animated n = true -> waypoint_new k v b a cx = Err ValueError) /\
    (is_animated n = false -> (forall e, a_time k cx = Err e -> waypoint_new k v b a cx = Err e) /\
       forall t, a_time k cx = Ok t ->
         (check_interpolation b = Err ValueError \/ check_interpolation a = Err ValueError -> waypoint_new k v b a cx = Err ValueError) /\
         forall b' a', check_interpolation b = Ok b' -> check_interpolation a = Ok a' -> waypoint_new k v b a cx = Ok (mkW t b' a' c n)).
Proof.
  intros k v b a cx. split.
  - intros H. destruct v; try reflexivity. now contradiction (H c n cx0).
  - intros c n cy ->. unfold waypoint_new. split; [now intros ->|]. intros ->. fold (a_time k cx). split; [now intros e ->|]. intros t ->. cbn [bind]. split.
    + intros [->| ->]; [reflexivity|]. assert (X : forall e, check_interpolation b = Err e -> e = ValueError) by (unfold check_interpolation; intros e; destruct (pstr_eqb b _); [congruence|]; destruct (existsb _ _); [discriminate|]; destruct (aget b _); congruence).
      destruct (check_interpolation b) as [y|e]; [reflexivity|]. now rewrite (X e eq_refl).
    + now intros b' a' -> ->.
Qed.
Print Assumptions C35_constructor.
Example C35_constructor_nonvacuous : waypoint_new (KeyNum 3) (PFlo 1) (s "auto") (s "halt") None = Err TypeError /\ is_animated (El (s "animated") [(s "type", AStr (s "real"))] []) = true /\
  a_time KeyOther None = Err TypeError /\ a_time (KeyT (mkT 1 None)) None = Ok (mkT 1 None) /\ check_interpolation (s "none") = Err ValueError.
Proof. split; [reflexivity|]. split; [reflexivity|]. split; [reflexivity|]. split; vm_compute; reflexivity. Qed.

(** C50: a parameter that the layer doesn't have, and one that doesn't have exactly one value in it, can't be read or set as a field or as an item. The exceptions of both ways differ.
    When setting fails in this way, nothing has changed. *)
Theorem C50_malformed : forall st F n c k ty d v, aget k (all_fields c) = Some (FParam ty d) -> fget (iuid n) F = Some n ->
  (ifind (is_param k) n = None ->
     field_get st F n c k = Err AttributeError /\ field_set F (iuid n) n c k v = (F, Err AttributeError) /\ layer_getitem n k = Err KeyError /\ layer_setitem F (iuid n) k (SPlain v) = (F, Err KeyError)) /\
  forall p, ifind (is_param k) n = Some p -> length (filter itag (ikids p)) <> 1%nat ->
     field_get st F n c k = Err ValueError /\ field_set F (iuid n) n c k v = (F, Err ValueError) /\ layer_getitem n k = Err AttributeError /\ layer_setitem F (iuid n) k (SPlain v) = (F, Err AttributeError).
Proof.
  intros st F n c k ty d v Hk Hu. unfold field_get, field_set, layer_setitem, param_field, param_set, param_get, layer_getitem, value_of. rewrite Hk, Hu. split.
  - intros ->. cbn [bind]. auto.
  - intros p -> Hl. destruct (filter itag (ikids p)) as [|x [|y l]]; [|cbn [length] in Hl; congruence|]; cbn [bind]; (split; [reflexivity|]; split; [reflexivity|]; destruct (aget (s "name") (iattrs p)); auto).
Qed.
Print Assumptions C50_malformed.
Definition xmalformed : inode := xlayer 2 (s "circle") [IE 3 (s "param") [(s "name", AStr (s "radius"))] [IT (s " ")]].
Example C50_malformed_nonvacuous : exists c ty d p, layer_class xmalformed = Ok c /\ aget (s "radius") (all_fields c) = Some (FParam ty d) /\ ifind (is_param (s "radius")) xmalformed = Some p /\ length (filter itag (ikids p)) <> 1%nat /\
  ifind (is_param (s "amount")) xmalformed = None /\ fget (iuid xmalformed) [xmalformed] = Some xmalformed.
Proof.
  exists (nth 9 layer_classes (mkC [] [] None [])). do 3 eexists. split; [vm_compute; reflexivity|]. split; [vm_compute; reflexivity|]. split; [vm_compute; reflexivity|]. split; [discriminate|]. split; vm_compute; reflexivity.
Qed.
