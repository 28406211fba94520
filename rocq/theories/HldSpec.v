(** Held waypoints: what they mean. *)
From Verif Require Import TlModel SerModel TimeSpec ValSpec TlSpec WpvModel HldModel.

(** A program holds waypoints. Each has a time, interpolations and a class of its own. Its value is that of the waypoint which is at q in the timeline, or its own. *)
Definition handle := (wp * option Q)%type.
Definition handles := N -> option handle.
Definition put_handle (h : handles) (j : N) (x : handle) : handles := fun z => if N.eqb z j then Some x else h z.
Definition is_now (l : list wp) (h : handle) : wp :=
  match snd h with
  | Some q => match find_at q l with Some x => with_val (w_val x) (fst h) | None => fst h end
  | None => fst h
  end.
(** All of them on their own, with the values of that moment *)
Definition all_loose (l : list wp) (hs : handles) : handles := fun j => option_map (fun h => (is_now l h, None)) (hs j).
(** The waypoint at q with the value m, all else as it was *)
Definition revalue (q : Q) (m : node) (l : list wp) : list wp := map (fun w => if Qeq_bool (at_ w) q then with_val m w else w) l.
Definition retime (t : T) (w : wp) : wp := mkW t (w_before w) (w_after w) (w_cls w) (w_val w).

(** What an act does to the waypoints of the timeline and to those that are held. The timeline is of the type ty, at the speed f. *)
Inductive act_means (c : vcls) (cx : ctx) (f : option Q) (ty : pstr) : hact -> list wp * handles -> list wp * handles -> res unit -> Prop :=
| means_nth j i l hs w : nth_error l i = Some w -> act_means c cx f ty (HNth j i) (l, hs) (l, put_handle hs j (w, Some (at_ w))) (Ok tt)
| means_val j v l hs w q x m r : hs j = Some (w, Some q) -> find_at q l = Some x -> set_value (w_cls w) (w_val x) v = (m, r) ->
    fits ty (with_val m x) -> act_means c cx f ty (HVal j v) (l, hs) (revalue q m l, hs) r
| means_own_val j v l hs w m r : hs j = Some (w, None) -> set_value (w_cls w) (w_val w) v = (m, r) ->
    act_means c cx f ty (HVal j v) (l, hs) (l, put_handle hs j (with_val m w, None)) r
| means_before j x l hs w p w' : hs j = Some (w, p) -> set_before w x = Ok w' -> act_means c cx f ty (HBefore j x) (l, hs) (l, put_handle hs j (w', p)) (Ok tt)
| means_not_before j x l hs w p e : hs j = Some (w, p) -> set_before w x = Err e -> act_means c cx f ty (HBefore j x) (l, hs) (l, hs) (Err e)
| means_after j x l hs w p w' : hs j = Some (w, p) -> set_after w x = Ok w' -> act_means c cx f ty (HAfter j x) (l, hs) (l, put_handle hs j (w', p)) (Ok tt)
| means_not_after j x l hs w p e : hs j = Some (w, p) -> set_after w x = Err e -> act_means c cx f ty (HAfter j x) (l, hs) (l, hs) (Err e)
| means_time j t l hs w p : hs j = Some (w, p) -> act_means c cx f ty (HTime j t) (l, hs) (l, put_handle hs j (retime t w, p)) (Ok tt)
| means_op o l hs l' : op_means c cx f ty o l l' (Ok tt) -> act_means c cx f ty (HOp o) (l, hs) (l', all_loose l hs) (Ok tt)
| means_no_op o l hs e : op_means c cx f ty o l l (Err e) -> act_means c cx f ty (HOp o) (l, hs) (l, hs) (Err e)
| means_put k j q l hs w p : hs j = Some (w, p) -> names cx f k q -> fits ty (is_now l (w, p)) ->
    act_means c cx f ty (HPut k j) (l, hs) (put_wp (retime (mkT q f) (is_now l (w, p))) l, all_loose l (put_handle hs j (retime (mkT q f) w, p))) (Ok tt).
Inductive acts_mean (c : vcls) (cx : ctx) (f : option Q) (ty : pstr) : list hact -> list wp * handles -> list wp * handles -> list (res unit) -> Prop :=
| acts_nil s : acts_mean c cx f ty [] s s []
| acts_cons a l s s' s'' r rs : act_means c cx f ty a s s' r -> acts_mean c cx f ty l s' s'' rs -> acts_mean c cx f ty (a :: l) s s'' (r :: rs).

(** What can be seen: the waypoints of the timeline, and each of those that are held *)
Definition seen (cx : ctx) (f : option Q) (st : hstate) (a : list wp * handles) : Prop :=
  timeline_is (fst st) cx f (fst a) /\ forall j, option_map (current (fst st)) (snd st j) = option_map (is_now (fst a)) (snd a j).

(** Acts which only concern held waypoints *)
Definition on_waypoint (a : hact) : Prop := match a with HVal _ _ | HBefore _ _ | HAfter _ _ | HTime _ _ => True | _ => False end.
