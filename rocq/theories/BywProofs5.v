(** The waypoints of one text. *)
From Verif Require Import TlSpec TlProofs TlProofs2 TlProofs3 TlProofs4.
From Verif Require Import BywModel BywSpec BywProofs BywProofs4.
Local Open Scope Z_scope.

Lemma constant_waypoint_is cx x q f text : T_init (TStr (x ++ s "s")) cx = Ok (mkT q (Some f)) -> constant_waypoint cx x text = Ok (shows f q text).
Proof. intros H. unfold constant_waypoint. change (new_value VString (PStr text)) with (Ok (string_node text)). cbn [bind]. rewrite H. reflexivity. Qed.

Lemma shows_fits f q x : fits (s "string") (shows f q x).
Proof. unfold fits, interpolation, shows. cbn [w_before w_after w_val w_cls]. repeat split; cbn; auto. Qed.

Lemma still_is cx f n m : still cx f n m -> from_tag n = Ok VString /\ is_tag n = true /\ is_animated m = false /\ is_tag m = true /\ tag_name m = s "string" /\
  from_tag m = Ok VString /\ (if is_animated n then set_is_animated VString n cx true false else (n, Ok tt)) = (m, Ok tt).
Proof.
  assert (S : forall n, is_tag n = true -> tag_name n = s "string" -> from_tag n = Ok VString /\ is_animated n = false).
  { intros n' Ht Hn. unfold from_tag, is_animated. rewrite Hn. split; reflexivity. }
  intros [n' Ht Hn|n' w l Ha L Ht].
  - destruct (S n' Ht Hn) as [Hf Ha]. rewrite Ha. auto 10.
  - pose proof (timeline_fits _ _ _ _ _ L Ht) as F. apply Forall_inv in F. destruct F as (_ & _ & F1 & F2 & F3 & F4).
    destruct (S _ F3 F2) as [F5 _]. rewrite Ha. destruct Ht as [Ht1 Ht2]. rewrite Ha in Ht2. repeat split; auto.
    + unfold from_tag. rewrite Ha, Ht2. reflexivity.
    + unfold set_is_animated, unanimate. rewrite Ha. destruct L as (_ & _ & -> & _). reflexivity.
Qed.

Definition good_wps (f : Q) (l : list wp) : Prop :=
  in_order l /\ Forall (fun w => fps (w_time w) = Some f /\ (0 <= at_ w)%Q) l /\ Forall (fits (s "string")) l.
Lemma good_put f l w : good_wps f l -> fits (s "string") w -> fps (w_time w) = Some f -> (0 <= at_ w)%Q -> good_wps f (put_wp w l).
Proof.
  intros (O & P & Q) Hw Hf H0. split; [now apply put_in_order|]. rewrite !Forall_forall in *.
  split; intros v Hv; apply put_members in Hv as [->|[Hv _]]; auto.
Qed.
Lemma animated_is cx f l : ctx_fps cx = Ok (Some f) -> good_wps f l -> is_animated (animated_string l) = true /\ has_type (animated_string l) (s "string") /\
  timeline_is (animated_string l) cx (Some f) l.
Proof.
  intros Hf (O & P & Q). assert (A : is_animated (animated_string l) = true) by reflexivity.
  assert (T : has_type (animated_string l) (s "string")) by (split; reflexivity). split; [exact A|]. split; [exact T|].
  eapply (stored_is (animated_string l) cx (Some f) (s "string") l); eauto. apply child_tags_plain.
Qed.

Lemma one_fresh f w : fps (w_time w) = Some f -> (0 <= at_ w)%Q -> TlSpec.fresh (Some f) [w].
Proof. intros H1 H2. split; repeat constructor; auto. Qed.
Lemma wrote_kids c n cx n' ws ow r : is_animated n = true -> tl_add c n cx true ws ow = (n', Ok r) -> exists l, n' = with_kids n (map wp_tag l).
Proof.
  intros Ha H. unfold tl_add in H. destruct (let* existing := _ in _) as [d|]; [|discriminate]. unfold set_is_animated, animate in H. rewrite Ha in H.
  destruct (tsets ws d) as [d'|]; [|discriminate]. destruct (sort_wps (map snd d')) as [l|]; [|discriminate]. injection H as <- _. eauto.
Qed.
Lemma map_wp_tag_inj f l l' cx : ctx_fps cx = Ok (Some f) -> good_wps f l' -> forall n, is_animated n = true -> has_type n (s "string") ->
  timeline_is (with_kids n (map wp_tag l)) cx (Some f) l' -> child_tags (with_kids n (map wp_tag l)) = map wp_tag l' -> map wp_tag l = map wp_tag l'.
Proof. intros _ _ n _ _ _ H. rewrite <- H. symmetry. apply child_tags_plain. Qed.

Lemma add_next cx f l w : ctx_fps cx = Ok (Some f) -> good_wps f l -> fits (s "string") w -> fps (w_time w) = Some f -> (0 <= at_ w)%Q ->
  tl_add VString (animated_string l) cx true [w] true = (animated_string (put_wp w l), Ok tt).
Proof.
  intros Hf G Hw Hv H0. destruct (animated_is cx f l Hf G) as (A & T & L).
  destruct (add_is VString _ _ _ _ _ true [w] true L T A (one_fresh f w Hv H0) (Forall_cons w Hw (Forall_nil _)) (or_introl eq_refl)) as (n' & E & (A' & K & _) & _ & _).
  destruct (wrote_kids _ _ _ _ _ _ _ A E) as (l' & En). rewrite E. f_equal. rewrite En in K |- *. unfold animated_string, with_kids. cbn [tag_name tag_attrs].
  f_equal. etransitivity; [symmetry; apply child_tags_plain|]. exact K.
Qed.
Lemma add_first cx f m w : ctx_fps cx = Ok (Some f) -> is_animated m = false -> is_tag m = true -> tag_name m = s "string" ->
  fits (s "string") w -> fps (w_time w) = Some f -> (0 <= at_ w)%Q ->
  tl_add VString m cx true [w] true = (animated_string [w], Ok tt).
Proof.
  intros Hf Ha Ht Hn Hw Hv H0.
  assert (E0 : waypoints m cx = Ok []) by (unfold waypoints, waypoint_tags; now rewrite Ha).
  unfold tl_add. rewrite E0. cbn [bind map clashes tdels].
  assert (E1 : exists k, set_is_animated VString m cx true true = (El (s "animated") [(s "type", AStr (s "string"))] k, Ok tt)).
  { cbn [set_is_animated]. unfold animate. rewrite Ha. cbn [get_value]. unfold animated_tag. rewrite Hn.
    set (n0 := with_kids _ []). change n0 with (El (s "animated") [(s "type", AStr (s "string"))] []). 
    unfold tl_setitem. assert (ensure_fps cx (KeyNum 0) = Ok (mkT 0 (Some f))) as ->.
    { cbn [ensure_fps]. unfold T_init. rewrite Hf. reflexivity. }
    cbn [new_waypoint]. match goal with |- context [new_value VString ?v] => assert (exists z, new_value VString v = Ok z) as [z ->] by (eexists; reflexivity) end.
    cbn [bind]. change (is_animated (El (s "animated") _ [])) with true. cbv iota. change (waypoints (El (s "animated") _ []) cx) with (@Ok (list (T * wp)) []). cbn [bind tset map snd set_waypoints].
    rewrite (sort_wps_same (Some f)) by (repeat constructor). eexists. reflexivity. }
  destruct E1 as (k & ->). change (tsets [w] []) with (@Ok (list (T * wp)) [(w_time w, w)]). cbv beta iota. cbn [map snd].
  rewrite (sort_wps_same (Some f)) by (repeat constructor; exact Hv). reflexivity.
Qed.

(** The waypoints that are put one after the other *)
Definition const_of (f : Q) (p : Q * pstr) : wp := shows f (fst p) (snd p).
Lemma good_const f l : forall l0, good_wps f l0 -> Forall (fun p => 0 <= fst p)%Q l -> good_wps f (put_all (map (const_of f) l) l0).
Proof.
  induction l as [|p l IH]; intros l0 G H; [exact G|]. apply Forall_cons_iff in H as [H0 H]. cbn [map put_all fold_left].
  apply (IH (put_wp (const_of f p) l0)); [|exact H]. apply good_put; auto; try apply shows_fits; exact H0.
Qed.
