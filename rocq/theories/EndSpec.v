(** Programs whose results are saved and loaded: what is in the file should be what the lists, variables and dictionaries of WldSpec.v say. *)
From Verif Require Import AnimModel LayModel LaySpec MovSpec VarSpec WrSpec TlModel PrmSpec SerModel SavSpec SavSpec2 WldSpec.
Local Open Scope N_scope.

(** All strings are XML; those that become attributes or names are of one line. The document around the animation (0) isn't a layer. *)
Definition sound_act (x : act) : Prop :=
  match x with
  | AMove _ => True
  | AAssign a => as_layer_ a <> 0 /\ good_val (as_value_ a) /\ tidy_val (as_value_ a)
  | AEdit u _ e => u <> 0 /\ good_vedit e /\ tidy_vedit e
  end.
Definition sound_wact (x : wact) : Prop :=
  match x with
  | WAct x => sound_act x
  | WNew _ => True
  | WField _ k v => good_val v /\ tidy_val v /\ (k = s "desc" -> line_of v)
  end.

(** The attributes of the animation (1) *)
Definition topped (a : attrs) (F : forest) : Prop := exists r, fget 1 F = Some r /\ iattrs r = a.

(** The tag of a value whose timeline stays the same in a file: attributes are strings, but times may be times whose strings mean the same, and the values
    at the waypoints have solid tags. *)
Definition steady_attr (cx : ctx) (v : aval) : Prop :=
  match v with AStr _ => True | ATime t => T_init (TStr (T_str t)) cx = T_init (TNum (frames t)) cx | _ => False end.
Definition steady_waypoint (cx : ctx) (n : node) : Prop :=
  clean_attrs (tag_attrs n) /\ (forall k v, aget k (tag_attrs n) = Some v -> steady_attr cx v /\ (k <> s "time" -> exists y, v = AStr y)) /\ Forall solid (child_tags n).
Definition steady (cx : ctx) (n : node) : Prop :=
  clean_attrs (tag_attrs n) /\ (forall v, aget (s "type") (tag_attrs n) = Some v -> exists y, v = AStr y) /\ Forall (steady_waypoint cx) (child_tags n).
(** The same instant, ways to get there and from there, and value *)
Definition same_waypoint (cx cy : ctx) (a b : wp) : Prop :=
  w_time b = w_time a /\ w_before b = w_before a /\ w_after b = w_after a /\ w_cls b = w_cls a /\
  same_result kept (get_value (w_cls a) (w_val a) cx) (get_value (w_cls b) (w_val b) cy).

(** The layer m of the document G is as the world w says that the layer with the number u is. Its attributes are those of the dictionary of u, as
    strings. Its parameters have the class and value of the variables of u, if these have solid tags (SavSpec2.v), and the same waypoints, if the
    timelines are steady. If it is a group, then its children are
    those in the list of u, in this order, and they are as the world says. [pl] says which variable the layer calls f, and [cx] is what times mean. *)
Inductive told (w : world) (pl : N -> pstr -> option N) (cx : ctx) (G : forest) : N -> inode -> Prop :=
| told_layer u m :
    is_layer m = true ->
    (forall a k, snd w u = Some a -> aget k (iattrs m) = option_map (fun v => AStr (aval_str v)) (aget k a)) ->
    (forall f q t c, pl u f = Some q -> snd (fst w) q = Some t -> from_tag t = Ok c -> solid t ->
       exists v, layer_getitem m f = Ok (v, c) /\ same_result kept (get_value c t cx) (get_value c (forget v) (ctx_of G (iuid v)))) ->
    (forall f q t c, pl u f = Some q -> snd (fst w) q = Some t -> from_tag t = Ok c -> steady cx t ->
       exists v, layer_getitem m f = Ok (v, c) /\ is_animated (forget v) = is_animated t /\
         same_result (Forall2 (same_waypoint cx (ctx_of G (iuid v)))) (tl_values t cx) (tl_values (forget v) (ctx_of G (iuid v)))) ->
    (forall c, layer_class m = Ok c -> kind_of c = KGroup -> exists ch, children KGroup m = Ok ch /\ Forall2 (told w pl cx G) (fst (fst w) u) ch) ->
    told w pl cx G u m.
