(** What timelines are supposed to be: finite maps from instants to waypoints. *)
From Verif Require Import TlModel SerModel TimeSpec ValSpec.
Local Open Scope Z_scope.

(** The time of a waypoint, in frames. *)
Definition at_ (w : wp) : Q := frames (w_time w).

(** Strictly increasing in time. *)
Fixpoint in_order (l : list wp) : Prop :=
  match l with
  | [] => True
  | w :: l' => (forall v, In v l' -> at_ w < at_ v)%Q /\ in_order l'
  end.

(** ** The abstract operations *)

(** The waypoint at time q. *)
Definition find_at (q : Q) (l : list wp) : option wp := find (fun w => Qeq_bool (at_ w) q) l.
(** With w at its time, in place of what was there. *)
Definition put_wp (w : wp) (l : list wp) : list wp :=
  filter (fun v => Qlt_bool (at_ v) (at_ w)) l ++ w :: filter (fun v => Qlt_bool (at_ w) (at_ v)) l.
(** Without the one at q. *)
Definition without (q : Q) (l : list wp) : list wp := filter (fun w => negb (Qeq_bool (at_ w) q)) l.
(** All of ws, one after the other. *)
Definition put_all (ws : list wp) (l : list wp) : list wp := fold_left (fun l w => put_wp w l) ws l.

(** ** The timeline of a value *)

(** The waypoints [timeline.values()] gives are the list l. They are strictly increasing in
    time, at or after zero, and all at the speed f of the document; and
    there are as many in the file. *)
Definition timeline_is (n : node) (cx : ctx) (f : option Q) (l : list wp) : Prop :=
  is_tag n = true /\ ctx_fps cx = Ok f /\
  tl_values n cx = Ok l /\ length (waypoint_tags n) = length l /\
  in_order l /\ Forall (fun w => fps (w_time w) = f /\ (0 <= at_ w)%Q) l.

(** The type of the value: the name of its tag, or the type attribute when it is animated. *)
Definition has_type (n : node) (ty : pstr) : Prop :=
  is_tag n = true /\
  if is_animated n then aget (s "type") (tag_attrs n) = Some (AStr ty) else tag_name n = ty.

(** The user names the instant q by k: a number, a T at the
    document's speed or at no particular speed, or a string which means it. *)
Inductive names (cx : ctx) (f : option Q) : tkey -> Q -> Prop :=
| names_num q : (0 <= q)%Q -> names cx f (KeyNum q) q
| names_T q : (0 <= q)%Q -> names cx f (KeyT (mkT q f)) q
| names_bare q : (0 <= q)%Q -> names cx f (KeyT (mkT q None)) q
| names_str x q : T_init (TStr x) cx = Ok (mkT q f) -> (0 <= q)%Q -> names cx f (KeyStr x) q.

(** Canonical names of interpolations *)
Definition interpolation (x : pstr) : Prop :=
  In x [s "tcb"; s "clamped"; s "constant"; s "linear"; s "ease"].

(** A waypoint that can be in the timeline of a value of type [ty]: its
    interpolations are right and its value is a static one of that type. *)
Definition fits (ty : pstr) (w : wp) : Prop :=
  interpolation (w_before w) /\ interpolation (w_after w) /\
  is_animated (w_val w) = false /\ tag_name (w_val w) = ty /\ is_tag (w_val w) = true /\ from_tag (w_val w) = Ok (w_cls w).

(** The waypoint that assigning x to the time t of a timeline of class c means. *)
Inductive gives (c : vcls) (t : T) : tlarg -> wp -> Prop :=
| gives_wp b a c' n t' : gives c t (AWp (mkW t' b a c' n)) (mkW t b a c' n)
| gives_value n cy : is_animated n = false -> gives c t (AVal (PVal c n cy)) (mkW t (s "clamped") (s "clamped") c n)
| gives_new v n : (forall c' m cy, v <> PVal c' m cy) -> new_value c v = Ok n ->
    gives c t (AVal v) (mkW t (s "clamped") (s "clamped") c n).

(** ** Histories *)

(** Operations that name their times properly, and their meaning on lists. *)
Inductive op : Type :=
| OSet (k : tkey) (x : tlarg)
| ODel (k : tkey)
| OAdd (ws : list wp) (overwrite : bool).

(** Running one operation on the value's tag *)
Definition run_op (c : vcls) (cx : ctx) (n : node) (o : op) : outcome :=
  match o with
  | OSet k x => tl_setitem c n cx true k x
  | ODel k => tl_delitem n cx true k
  | OAdd ws ow => tl_add c n cx true ws ow
  end.
Definition run_ops (c : vcls) (cx : ctx) (n : node) (l : list op) : node :=
  fold_left (fun n o => fst (run_op c cx n o)) l n.

(** The times of ws are at the document's speed, not before zero, and distinct. *)
Definition fresh (f : option Q) (ws : list wp) : Prop :=
  Forall (fun w => fps (w_time w) = f /\ (0 <= at_ w)%Q) ws /\
  ForallOrdPairs (fun v w => ~ (at_ v == at_ w)%Q) ws.

(** What the operation should do to the waypoints. *)
Inductive op_means (c : vcls) (cx : ctx) (f : option Q) (ty : pstr) : op -> list wp -> list wp -> res unit -> Prop :=
| means_set k x q w l : names cx f k q -> gives c (mkT q f) x w -> fits ty w ->
    op_means c cx f ty (OSet k x) l (put_wp w l) (Ok tt)
| means_del k q l w : names cx f k q -> find_at q l = Some w ->
    op_means c cx f ty (ODel k) l (without q l) (Ok tt)
| means_del_missing k q l : names cx f k q -> find_at q l = None ->
    op_means c cx f ty (ODel k) l l (Err KeyError)
| means_add ws ow l : l <> [] -> fresh f ws -> Forall (fits ty) ws -> ow = true \/ Forall (fun w => find_at (at_ w) l = None) ws ->
    op_means c cx f ty (OAdd ws ow) l (put_all ws l) (Ok tt)
| means_clash ws l : fresh f ws -> ~ Forall (fun w => find_at (at_ w) l = None) ws ->
    op_means c cx f ty (OAdd ws false) l l (Err ValueError).

Inductive ops_mean (c : vcls) (cx : ctx) (f : option Q) (ty : pstr) : list op -> list wp -> list wp -> Prop :=
| mean_nil l : ops_mean c cx f ty [] l l
| mean_cons o os l l' l'' r : op_means c cx f ty o l l' r -> ops_mean c cx f ty os l' l'' ->
    ops_mean c cx f ty (o :: os) l l''.

(** ** Animating *)

(** Values that [value.value] gives and that the constructor of the class keeps exactly. *)
Definition keepable (c : vcls) (cx : ctx) (v : pyval) : Prop :=
  match c, v with
  | VInteger, PInt _ | VBool, PBool _ | VString, PStr _ => True
  | VAngle, PFlo x => is_dbl x
  | VReal, PFlo x => round_dec 10 x = x
  | VTime, PT t => exists m p : Z, t = mkT (inject_Z m) (Some (inject_Z p)) /\ 0 <= m < 10 ^ 6 /\ 0 < p /\ at_fps (inject_Z p) cx
  | VColor, PStr x => exists y, Forall is_hex y /\ (length y = 6%nat \/ length y = 8%nat) /\ x = canonical_hex y
  | VXY, PDict d => Forall (fun kv => exists x, snd kv = PStr x) d
  | _, _ => False
  end.

(** Values whose class has a tag of its own *)
Definition plain (c : vcls) : Prop := In c [VReal; VInteger; VBool; VAngle; VTime; VString; VColor; VXY].

(** ** Times in general *)

(** Not at two different numbers of frames per second *)
Definition same_speed (a b : T) : Prop := conflict a b = false.
(** A key which isn't a T at another speed than the document's *)
Definition key_speed (cx : ctx) (k : tkey) : Prop :=
  match k with
  | KeyT t => forall f, ctx_fps cx = Ok f -> same_speed t (mkT 0 f)
  | _ => True
  end.
(** The waypoints are not at different speeds, nor at another one than the document's. *)
Definition speeds_agree (cx : ctx) (ws : list wp) : Prop :=
  (forall a b, In a ws -> In b ws -> same_speed (w_time a) (w_time b)) /\
  (forall a f, In a ws -> ctx_fps cx = Ok f -> same_speed (w_time a) (mkT 0 f)).
Definition not_str (k : tkey) : Prop := forall x, k <> KeyStr x.

(** ** Saving *)

(** No attribute twice *)
Definition attrs_distinct (n : node) : Prop := NoDup (map fst (tag_attrs n)).
(** The time is the same when it is written as a string and parsed. *)
Definition kept_time (cx : ctx) (t : T) : Prop := T_init (TStr (T_str t)) cx = Ok t.
(** The waypoint whose value has been saved and loaded *)
Definition reload_wp (w : wp) : wp := mkW (w_time w) (w_before w) (w_after w) (w_cls w) (reload (w_val w)).
