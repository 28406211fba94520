(** C154: parameters hold values of any class but Canvas, and their timelines, through any history of moves, assignments and edits. *)
From Coq Require Import Lia Lqa.
From Verif Require Import TlModel TlSpec TlProofs TlProofs2 TlProofs4.
From Verif Require TlProps.
From Verif Require Import AnimModel LayModel DocProofs LaySpec LayProofs LayProps LoopModel VarSpec MovSpec MovProofs MovProofs2 MovProps MixSpec MixProps WrSpec PrmSpec PrmProofs PrmProofs2 PrmProofs3.
Local Open Scope N_scope.

(** Whatever is done: each step returns or raises what it does for plain lists and for single values, and so do the lists of children and the
    values of all parameters at the end. *)
Theorem C154_acts : forall F h st l l', usual F -> mirrors F (h, st) -> acts_mean F st l l' ->
  snd (acts F l) = snd (list_acts (h, st) l') /\ usual (fst (acts F l)) /\ mirrors (fst (acts F l)) (fst (list_acts (h, st) l')).
Proof. intros F h st l l'. apply acts_right. Qed.
Print Assumptions C154_acts.
(** What is read is what the variable holds, by [layer['k']] and by [layer.k] alike. *)
Theorem C154_read : forall F hs u k q t, usual F -> mirrors F hs -> place F u k = Some q -> snd hs q = Some t ->
  exists n w, fget u F = Some n /\ forget w = t /\ layer_getitem n k = (let* c := from_tag t in Ok (w, c)) /\ param_get F n k = (let* c := from_tag t in Ok (w, c)).
Proof. intros F hs u k q t U [_ A]. exact (read_value F (snd hs) u k q t (us_wf F U) A). Qed.
Print Assumptions C154_read.
(** Every document has its lists and variables: all named params with one value that has no layers in it. *)
Theorem C154_all : forall F, usual F -> exists h, mirrors F (h, values F) /\ forall q w, holder_of F q w -> values F q = Some (forget w).
Proof. intros F U. destruct (shows_ex F U) as (h & S). exists h. split; [split; [exact S|apply values_hold]|intros q w; apply values_all]. Qed.
Print Assumptions C154_all.
(** A variable holds what the assignments to it and the edits of it make of what it held, in their order, and nothing else matters. *)
Theorem C154_history : forall F h st l l' q t, usual F -> mirrors F (h, st) -> acts_mean F st l l' -> st q = Some t ->
  forall u k, place (fst (acts F l)) u k = Some q ->
  exists n w, fget u (fst (acts F l)) = Some n /\ forget w = history q (filter (touches q) l') t /\
    layer_getitem n k = (let* c := from_tag (forget w) in Ok (w, c)) /\ param_get (fst (acts F l)) n k = (let* c := from_tag (forget w) in Ok (w, c)).
Proof.
  intros F h st l l' q t U M Ml Hq u k Hp. destruct (acts_right l l' F h st U M Ml) as (_ & U' & _ & A').
  assert (X : forall l t, history q (filter (touches q) l) t = history q l t).
  { clear. induction l as [|[m|q' how v|q' cx e] l IH]; intros t; [reflexivity|cbn [filter touches history]; apply IH| |]; cbn [filter touches history]; destruct (N.eqb_spec q' q) as [->|Hn]; cbn [history]; rewrite ?N.eqb_refl; apply IH. }
  rewrite X. destruct (read_value _ _ u k q _ (us_wf _ U') A' Hp (history_is q l' h st t Hq)) as (n & w & Hu & Hw & R1 & R2). exists n, w. rewrite Hw. auto.
Qed.
Print Assumptions C154_history.
(** If these are operations on its timeline, then the timeline read at the end is what they make of a list of waypoints (C28), whatever
    else was done in between, and the class of the value is what it was. Transformations: see below. *)
Theorem C154_timelines_partial : forall F h st l l' q t c cx f ty wl os wl', usual F -> mirrors F (h, st) -> acts_mean F st l l' ->
  st q = Some t -> from_tag t = Ok c -> c <> VTransformation -> timeline_is t cx f wl -> has_type t ty ->
  filter (touches q) l' = map (fun o => LEd q cx (vedit_of o)) os -> ops_mean c cx f ty os wl wl' ->
  forall u k, place (fst (acts F l)) u k = Some q ->
  exists n w, fget u (fst (acts F l)) = Some n /\ layer_getitem n k = Ok (w, c) /\ param_get (fst (acts F l)) n k = Ok (w, c) /\ timeline_is (forget w) cx f wl'.
Proof.
  intros F h st l l' q t c cx f ty wl os wl' U M Ml Hq Hc Hn Ht Hty E HO u k Hp. destruct (acts_right l l' F h st U M Ml) as (_ & U' & _ & A').
  destruct (history_ops c cx f ty q l' os t wl wl' Hc Hn Ht Hty HO E) as (C' & T' & _).
  destruct (read_value _ _ u k q _ (us_wf _ U') A' Hp (history_is q l' h st t Hq)) as (n & w & Hu & Hw & R1 & R2). exists n, w. rewrite C' in *. rewrite Hw. auto.
Qed.
Print Assumptions C154_timelines_partial.

(** ** An animation of 24 frames a second: the layers of [yforest] (MovProps.v) *)

Definition pattrs : attrs := [(s "fps", AStr (s "24")); (s "begin-time", AStr (s "0f")); (s "end-time", AStr (s "5s"))].
Definition pvector (u : N) (x y : pstr) : inode := IE u (s "vector") [] [IE (u + 1) (s "x") [] [IT x]; IE (u + 2) (s "y") [] [IT y]].
Definition pforest : forest :=
  [IE 0 (s "[document]") [] [IE 1 (s "canvas") pattrs [IT nl; xcircle 2 (s "1.0"); IT nl;
     xgroup 10 [xlayer 20 (s "text") [xparam 21 (s "origin") (pvector 22 (s "1.0") (s "2.0"))]; IT nl; xinner]; xcircle 70 (s "3.0"); IT nl]]].
Lemma pforest_usual : usual pforest.
Proof. eapply usual_checked; [unfold wf; vm_compute; repeat constructor; cbn; lia|vm_compute; reflexivity|vm_compute; reflexivity|vm_compute; reflexivity]. Qed.
Definition shows_check (F : forest) (h : shelf) : bool :=
  forallb (fun n => match (if iuid n =? 1 then Ok KAnim else if is_layer n then let* k := layer_class n in Ok (kind_of k) else Ok KPlain) with
      | Ok KPlain => true | Ok kd => match children kd n with Ok ch => if list_eq_dec N.eq_dec (ids ch) (h (iuid n)) then true else false | Err _ => false end | Err _ => false end) (fdesc F).
Lemma shows_checked F h : usual F -> shows_check F h = true -> shows F h.
Proof.
  intros U E x kd n [Hg Hk]. pose proof (fget_In _ _ _ Hg) as (Hd & Hu & _). unfold shows_check in E. rewrite forallb_forall in E. specialize (E n Hd). rewrite Hu in E.
  destruct Hk as [[-> ->]|(-> & Hl & k & Hk & Hkd)].
  - change (1 =? 1) with true in E. cbn [bind] in E. destruct (children KAnim n) as [ch|]; [|discriminate]. exists ch. split; [reflexivity|]. destruct (list_eq_dec N.eq_dec (ids ch) (h 1)); [assumption|discriminate].
  - assert (X : x <> 1).
    { intros ->. destruct (us_root _ U) as (r & Hr & Hc). assert (r = n) by congruence. subst r. unfold named in Hc. unfold is_layer, named in Hl. destruct n as [|u nm a kk]; [discriminate|].
      cbn [itag iname andb] in *. apply pstr_eqb_spec in Hc. subst nm. discriminate. }
    apply N.eqb_neq in X. rewrite X, Hl, Hk in E. cbn [bind] in E. rewrite Hkd in E. destruct (children KGroup n) as [ch|]; [|discriminate]. exists ch. split; [reflexivity|]. destruct (list_eq_dec N.eq_dec (ids ch) (h x)); [assumption|discriminate].
Qed.
(** The timeline of the radius of circle 40 is set at two times and then at the first again, and something missing is deleted. In between circle 40 is
    moved out of its group, the text's origin is animated, and assigned to, and the radius of circle 70 is assigned to. *)
Definition pops : list op := [OSet (KeyNum 48) (AWp (TlProps.wpt 0 "2.0000000000")); OSet (KeyStr (s "1s")) (AVal (PFlo 3)); ODel (KeyNum 47)].
Definition pacts : list act :=
  [AEdit 40 (s "radius") (VTlSet (KeyNum 48) (AWp (TlProps.wpt 0 "2.0000000000"))); AMove (MAppend KGroup 30 70); AEdit 20 (s "origin") (VAnimated true);
   AMove (MInsert KAnim 1 0 40); AEdit 40 (s "radius") (VTlSet (KeyStr (s "1s")) (AVal (PFlo 3))); AAssign (assign ByItem 70 (s "radius") (PStr (s "wide")));
   AEdit 20 (s "origin") (VTlSet (KeyNum 24) (AVal (PTuple [PFlo 3; PFlo 4]))); AEdit 40 (s "radius") (VTlDel (KeyNum 47)); AAssign (assign ByField 70 (s "radius") (PInt 4))].
Definition placts : list lact :=
  [LEd 41 (Some pattrs) (VTlSet (KeyNum 48) (AWp (TlProps.wpt 0 "2.0000000000"))); LMv (MAppend KGroup 30 70); LEd 21 (Some pattrs) (VAnimated true);
   LMv (MInsert KAnim 1 0 40); LEd 41 (Some pattrs) (VTlSet (KeyStr (s "1s")) (AVal (PFlo 3))); LAs 71 ByItem (PStr (s "wide"));
   LEd 21 (Some pattrs) (VTlSet (KeyNum 24) (AVal (PTuple [PFlo 3; PFlo 4]))); LEd 41 (Some pattrs) (VTlDel (KeyNum 47)); LAs 71 ByField (PInt 4)].
Lemma placts_mean : acts_mean pforest (values pforest) pacts placts.
Proof.
  unfold pacts, placts. cbn [acts_mean].
  repeat lazymatch goal with
  | |- _ /\ _ => split
  | |- fits _ _ => apply fits_checked; vm_compute; reflexivity
  | |- acts_mean _ _ _ _ => idtac
  | |- _ <> _ => vm_compute; discriminate
  | |- bare_val _ => repeat split
  | |- bare_vedit _ => vm_compute; repeat split
  | |- True => exact I
  | |- _ = _ => vm_compute; reflexivity
  end.
Qed.
Example C154_nonvacuous : usual pforest /\ mirrors pforest (yshelf, values pforest) /\ acts_mean pforest (values pforest) pacts placts /\
  snd (acts pforest pacts) = [Ok tt; Ok tt; Ok tt; Ok tt; Ok tt; Err ValueError; Ok tt; Err KeyError; Ok tt] /\
  map (fst (fst (list_acts (yshelf, values pforest) placts))) [1; 10; 30; 50] = [[40; 10; 2]; [30; 20]; [50; 70]; [60]] /\
  snd (fst (list_acts (yshelf, values pforest) placts)) 71 = Some (El (s "real") [(s "value", AStr (s "4.0000000000"))] []).
Proof.
  split; [exact pforest_usual|]. split; [split; [apply shows_checked; [exact pforest_usual|vm_compute; reflexivity]|apply values_hold]|]. split; [exact placts_mean|]. split; [vm_compute; reflexivity|]. split; vm_compute; reflexivity.
Qed.
Example C154_timelines_nonvacuous : exists t, values pforest 41 = Some t /\ from_tag t = Ok VReal /\ timeline_is t (Some pattrs) (Some 24%Q) [] /\ has_type t (s "real") /\
  filter (touches 41) placts = map (fun o => LEd 41 (Some pattrs) (vedit_of o)) pops /\
  ops_mean VReal (Some pattrs) (Some 24%Q) (s "real") pops [] [TlProps.wpt 24 "3.0000000000"; TlProps.wpt 48 "2.0000000000"] /\ place (fst (acts pforest pacts)) 40 (s "radius") = Some 41.
Proof.
  eexists. split; [vm_compute; reflexivity|]. split; [vm_compute; reflexivity|]. split; [repeat split; try (vm_compute; reflexivity); constructor|]. split; [repeat split; vm_compute; reflexivity|]. split; [reflexivity|].
  split; [exact TlProps.C29_histories_nonvacuous|vm_compute; reflexivity].
Qed.

(** ** Transformations *)

(** The tag of an animated transformation says that its type is composite, which is then not understood: after anything is put on the timeline of
    [layer['transformation']], that raises KeyError. Setting [is_animated] does not even succeed: the angles can't be copied, but by then the transformation is gone. *)
Definition ptransformation : inode := xparam 81 (s "transformation") (IE 82 (s "composite") [(s "type", AStr (s "transformation"))]
  [IE 83 (s "offset") [] [pvector 84 (s "0.0") (s "0.0")]; IE 90 (s "angle") [] [IE 91 (s "angle") [(s "value", AStr (s "0.0"))] []];
   IE 92 (s "skew_angle") [] [IE 93 (s "angle") [(s "value", AStr (s "0.0"))] []]; IE 94 (s "scale") [] [pvector 95 (s "1.0") (s "1.0")]]).
Definition tforest : forest := [IE 0 (s "[document]") [] [IE 1 (s "canvas") pattrs [xlayer 80 (s "group") [xparam 98 (s "canvas") (IE 99 (s "canvas") [] []); ptransformation]]]].
Theorem C154_transformation_refuted : exists F u n w F1 n1 F2 n2, usual F /\ fget u F = Some n /\ layer_getitem n (s "transformation") = Ok (w, VTransformation) /\ holder_of F 81 w /\
  do_act F (AEdit u (s "transformation") (VTlSet (KeyNum 0) (AVal (PVal VTransformation (forget w) (Some pattrs))))) = (F1, Ok tt) /\
  fget u F1 = Some n1 /\ layer_getitem n1 (s "transformation") = Err KeyError /\
  do_act F (AEdit u (s "transformation") (VAnimated true)) = (F2, Err TypeError) /\ fget u F2 = Some n2 /\ layer_getitem n2 (s "transformation") = Err KeyError /\
  values F2 81 = Some (El (s "animated") [(s "type", AStr (s "composite"))] []).
Proof.
  exists tforest, 80. do 6 eexists. split; [eapply usual_checked; [unfold wf; vm_compute; repeat constructor; cbn; lia|vm_compute; reflexivity|vm_compute; reflexivity|vm_compute; reflexivity]|].
  split; [vm_compute; reflexivity|]. split; [vm_compute; reflexivity|]. split; [eexists; split; [vm_compute; reflexivity|]; split; [vm_compute; reflexivity|]; split; [vm_compute; discriminate|]; split; vm_compute; reflexivity|].
  repeat (split; [vm_compute; reflexivity|]). vm_compute; reflexivity.
Qed.
Print Assumptions C154_transformation_refuted.
