(** The theorems about the types of values, and the views of a timeline. *)
From Verif Require Import ValModel TlModel WrSpec TypeModel TypeSpec TypeProofs StrProps2.
Local Open Scope Z_scope.

(** ** C140 types *)

(** Whatever is done to a value's timeline (and to the stops of a gradient), and if it is animated or stops being so, and whether that succeeds or fails: its type stays the same. *)
Theorem C140_timelines : forall c cx n l, Forall (fun e => not_assigned (snd e)) l -> stored_type (history c cx n l) = stored_type n.
Proof. intros c cx n l H. now apply timeline_history_type. Qed.
Print Assumptions C140_timelines.
(** And with assignments, if the type was that of the class: whatever is assigned, and if that fails. What is missing: blend methods, see below. *)
Theorem C140_partial : forall c cx n l, c <> VBlendMethod -> stored_type n = Ok (AStr (file_type c)) -> stored_type (history c cx n l) = Ok (AStr (file_type c)).
Proof. intros c cx n l C H. now apply history_type. Qed.
Print Assumptions C140_partial.
Example C140_nonvacuous :
  let n := El (s "real") [(s "value", AStr (s "1.5"))] [] in
  let l := [(true, VAnimated true); (true, VTlSet (KeyStr (s "1s")) (AVal (PFlo 2))); (false, VTlDel (KeyNum 99)); (true, VTlDel (KeyNum 24))] in
  stored_type n = Ok (AStr (s "real")) /\ is_animated (history VReal xctx n l) = true /\ stored_type (history VReal xctx n l) = Ok (AStr (s "real")) /\
  is_animated (history VReal xctx n (l ++ [(true, VTlDel (KeyNum 0))])) = false /\
  history VReal xctx n (l ++ [(true, VSet (PFlo 3))]) = El (s "real") [(s "value", AStr (s "3.0000000000"))] [].
Proof. vm_compute. repeat split. Qed.
(** Assigning to a blend method changes its type, from one that Synfig knows to one that it doesn't. *)
Theorem C140_refuted : exists n v, stored_type n = Ok (AStr (s "integer")) /\ snd (set_value VBlendMethod n v) = Ok tt /\ stored_type (fst (set_value VBlendMethod n v)) = Ok (AStr (s "blendmethod")).
Proof. exists (El (s "integer") [(s "value", AStr (s "0"))] []), (PInt 1). vm_compute. repeat split. Qed.
Print Assumptions C140_refuted.

(** ** C141 the views of a timeline *)

(** [keys], [values], [items], [len] and the truth of a timeline agree, and all fail if one of them does. *)
Theorem C141_views : forall n cx d, tl_items n cx = Ok d ->
  tl_keys n cx = Ok (map fst d) /\ tl_values n cx = Ok (map snd d) /\ tl_len n cx = Ok (Z.of_nat (length d)) /\ (tl_bool n cx = Ok true <-> d <> []) /\ (tl_bool n cx = Ok false <-> d = []).
Proof.
  intros n cx d H. pose proof (views n cx) as V. rewrite H in V. destruct V as (K & V & L & B). split; [exact K|]. split; [exact V|]. split; [exact L|].
  rewrite B. destruct d; repeat split; congruence.
Qed.
Print Assumptions C141_views.
Theorem C141_failures : forall n cx e, tl_items n cx = Err e ->
  tl_keys n cx = Err e /\ tl_values n cx = Err e /\ tl_len n cx = Err e /\ tl_bool n cx = Err e /\ tl_iter n cx = Err e.
Proof. intros n cx e H. pose proof (views n cx) as V. rewrite H in V. exact V. Qed.
Print Assumptions C141_failures.
(** A timeline in a file, whose waypoints can be read, has one item for each of their times: the last waypoint with that time. *)
Theorem C141_files : forall n cx ws, written_as n cx ws -> exists d, tl_items n cx = Ok d /\
  (forall k w, In (k, w) d -> (frames k == frames (w_time w))%Q /\ last_at w ws) /\
  (forall w, In w ws -> exists k v, In (k, v) d /\ (frames k == frames (w_time w))%Q) /\
  ForallOrdPairs (fun a b => ~ (frames a == frames b)%Q) (map fst d).
Proof. exact file_views. Qed.
Print Assumptions C141_files.
(** A value that isn't animated has an empty timeline. *)
Theorem C141_static : forall n cx, tag_name n <> s "animated" -> tl_items n cx = Ok [] /\ tl_len n cx = Ok 0 /\ tl_bool n cx = Ok false /\ tl_iter n cx = Ok [].
Proof.
  intros n cx H. assert (A : is_animated n = false) by (apply pstr_eqb_neq; exact H).
  unfold tl_bool, tl_len, tl_iter, tl_values, tl_items, waypoints, waypoint_tags. rewrite A. repeat split.
Qed.
Print Assumptions C141_static.
Example C141_nonvacuous :
  let n := El (s "animated") [(s "type", AStr (s "string"))] [xwp "1s" "a"; xwp "2s" "b"; xwp "24f" "c"] in
  exists ws d, written_as n xctx ws /\ length ws = 3%nat /\ tl_items n xctx = Ok d /\ tl_len n xctx = Ok 2 /\ map (fun kv => w_val (snd kv)) d = [El (s "string") [] [Txt (s "c")]; El (s "string") [] [Txt (s "b")]].
Proof.
  exists [mkW (mkT 24 (Some 24%Q)) (s "linear") (s "linear") VString (El (s "string") [] [Txt (s "a")]); mkW (mkT 48 (Some 24%Q)) (s "linear") (s "linear") VString (El (s "string") [] [Txt (s "b")]); mkW (mkT 24 (Some 24%Q)) (s "linear") (s "linear") VString (El (s "string") [] [Txt (s "c")])].
  eexists. split; [|split; [reflexivity|split; [vm_compute; reflexivity|split; vm_compute; reflexivity]]].
  split; [reflexivity|]. exists (AStr (s "string")). split; [reflexivity|]. repeat constructor; vm_compute; reflexivity.
Qed.
