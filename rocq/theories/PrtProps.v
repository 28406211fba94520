(** Property C170: changing parts of a transformation or of a gradient in place (PrtModel.v). *)
From Verif Require Import SerModel SavSpec SavSpec2 SavProofs SavProofs4 TlProofs3.
From Verif Require Import AnimModel LayModel WrSpec TlModel PrmSpec WpvModel WpvProofs PrtModel PrtSpec PrtProofs.
From Coq Require Import Lia.
Local Open Scope Z_scope.

(** Whatever is done to the parts of a transformation, by their names and in any order, assigning to their values and their timelines: each part is what
    its own acts make of it, and there are no other parts than before. *)
Theorem C170_parts : forall cx l n d n' rs, has_parts n d -> part_edits n cx l = (n', rs) ->
  tag_name n' = tag_name n /\ tag_attrs n' = tag_attrs n /\
  exists d', has_parts n' d' /\ map fst d' = map fst d /\ forall k, aget k d' = option_map (fun t => history_of cx k t l) (aget k d).
Proof.
  intros cx l. induction l as [|[k e] l IH]; intros n d n' rs H; cbn [part_edits history_of].
  - intros E. injection E as <- _. split; [reflexivity|]. split; [reflexivity|]. exists d. split; [exact H|]. split; [reflexivity|]. intros k. now destruct (aget k d).
  - pose proof (part_step n d cx k e H) as P. unfold parts_edit in P. destruct (part_edits (fst (part_edit n cx k e)) cx l) as [n2 rs2] eqn:E2.
    assert (X : exists d1, has_parts (fst (part_edit n cx k e)) d1 /\ map fst d1 = map fst d /\
      (forall k', aget k' d1 = option_map (fun t => if pstr_eqb k k' then fst (val_edit t cx e) else t) (aget k' d)) /\
      tag_name (fst (part_edit n cx k e)) = tag_name n /\ tag_attrs (fst (part_edit n cx k e)) = tag_attrs n).
    { destruct (aget k d) as [t|] eqn:A.
      - destruct (val_edit t cx e) as [m r] eqn:V. destruct P as (n1 & -> & P1 & P2 & P3). cbn [fst]. exists (put_part d k m). split; [exact P1|]. split; [apply put_fst|]. split; [|auto].
        intros k'. destruct (pstr_eqb k k') eqn:E.
        + apply pstr_eqb_spec in E. subst k'. rewrite put_get_same by congruence. rewrite A. cbn [option_map]. now rewrite V.
        + apply pstr_eqb_neq in E. rewrite put_get_other by congruence. now destruct (aget k' d).
      - destruct P as (n1 & -> & P1 & P2 & P3). cbn [fst]. exists d. split; [exact P1|]. split; [reflexivity|]. split; [|auto].
        intros k'. destruct (aget k' d) as [t|] eqn:B; [|reflexivity]. cbn [option_map]. destruct (pstr_eqb k k') eqn:E; [|reflexivity]. apply pstr_eqb_spec in E. congruence. }
    destruct (part_edit n cx k e) as [n1 r]. cbn [fst] in *. rewrite E2. intros E. injection E as <- _. destruct X as (d1 & H1 & K1 & G1 & T1 & T2).
    destruct (IH n1 d1 n2 rs2 H1 E2) as (Q1 & Q2 & d' & Q3 & Q4 & Q5). split; [congruence|]. split; [congruence|]. exists d'. split; [exact Q3|]. split; [congruence|].
    intros k'. rewrite Q5, G1. destruct (aget k' d); reflexivity.
Qed.
Print Assumptions C170_parts.

(** And each act has the result that it would have on the part by itself, as the acts before it have left that. *)
Theorem C170_results : forall cx l n d n' rs, has_parts n d -> part_edits n cx l = (n', rs) ->
  length rs = length l /\
  forall i k e, nth_error l i = Some (k, e) ->
    nth_error rs i = Some (match aget k d with None => Err KeyError | Some t => snd (val_edit (history_of cx k t (firstn i l)) cx e) end).
Proof.
  intros cx l. induction l as [|[k e] l IH]; intros n d n' rs H; cbn [part_edits].
  - intros E. injection E as _ <-. split; [reflexivity|]. intros [|i] k e; discriminate.
  - destruct (part_edit n cx k e) as [n1 r] eqn:E1. destruct (part_edits n1 cx l) as [n2 rs2] eqn:E2. intros E. injection E as _ <-.
    pose proof (part_step n d cx k e H) as P. unfold parts_edit in P.
    assert (X : exists d1, has_parts n1 d1 /\ (forall k', aget k' d1 = option_map (fun t => if pstr_eqb k k' then fst (val_edit t cx e) else t) (aget k' d)) /\
      r = match aget k d with None => Err KeyError | Some t => snd (val_edit t cx e) end).
    { destruct (aget k d) as [t|] eqn:A.
      - destruct (val_edit t cx e) as [m r0] eqn:V. destruct P as (n0 & P0 & P1 & _). rewrite P0 in E1. injection E1 as <- <-. exists (put_part d k m). split; [exact P1|]. split; [|reflexivity].
        intros k'. destruct (pstr_eqb k k') eqn:E.
        + apply pstr_eqb_spec in E. subst k'. rewrite put_get_same by congruence. rewrite A. cbn [option_map]. now rewrite V.
        + apply pstr_eqb_neq in E. rewrite put_get_other by congruence. now destruct (aget k' d).
      - destruct P as (n0 & P0 & P1 & _). rewrite P0 in E1. injection E1 as <- <-. exists d. split; [exact P1|]. split; [|reflexivity].
        intros k'. destruct (aget k' d) as [t|] eqn:B; [|reflexivity]. cbn [option_map]. destruct (pstr_eqb k k') eqn:E; [|reflexivity]. apply pstr_eqb_spec in E. congruence. }
    destruct X as (d1 & H1 & G1 & R). destruct (IH n1 d1 n2 rs2 H1 E2) as [L I]. split; [cbn [length]; now rewrite L|].
    intros [|i] k' e'; cbn [nth_error firstn history_of]; intros E; [injection E as -> ->; now rewrite R|]. rewrite (I i k' e' E), G1. now destruct (aget k' d).
Qed.
Print Assumptions C170_results.

(** What is read of a part, by its name *)
Theorem C170_read : forall n d cx k, has_parts n d ->
  composite_getitem n cx k = match aget k d with None => Err KeyError | Some t => match from_tag t with Ok c => Ok (PVal c t cx) | Err x => Err x end end.
Proof. intros n d cx k H. rewrite (part_read n d cx k H). destruct (aget k d) as [t|]; [|reflexivity]. now destruct (from_tag t). Qed.
Print Assumptions C170_read.

(** One act: the part is changed as a value by itself would be, with the same result, and the other parts are read as before. *)
Theorem C170_one : forall n d cx k e t, has_parts n d -> aget k d = Some t -> exists n' d',
  part_edit n cx k e = (n', snd (val_edit t cx e)) /\ has_parts n' d' /\ aget k d' = Some (fst (val_edit t cx e)) /\
  forall k' cy, k' <> k -> composite_getitem n' cy k' = composite_getitem n cy k'.
Proof.
  intros n d cx k e t H A. pose proof (part_step n d cx k e H) as P. unfold parts_edit in P. rewrite A in P. destruct (val_edit t cx e) as [m r]. cbn [fst snd].
  destruct P as (n' & E & P & _). exists n', (put_part d k m). split; [exact E|]. split; [exact P|]. split; [apply put_get_same; congruence|].
  intros k' cy D. rewrite (part_read _ _ _ _ P), (part_read _ _ _ _ H). now rewrite put_get_other by exact D.
Qed.
Print Assumptions C170_one.

(** After saving and loading each part is there, with its class; and what it stands for, when its texts and attributes are written as they are
    ([solid], SavSpec2.v: those that are assigned are). *)
Theorem C170_saved : forall n d k t c cx cy, has_parts n d -> aget k d = Some t -> clean_attrs (tag_attrs t) -> from_tag t = Ok c ->
  composite_getitem n cx k = Ok (PVal c t cx) /\ composite_getitem (reload n) cy k = Ok (PVal c (reload t) cy) /\
  (solid t -> same_times cx cy -> same_result kept (get_value c t cx) (get_value c (reload t) cy)).
Proof.
  intros n d k t c cx cy H A C E. split; [rewrite (part_read _ _ _ _ H), A, E; reflexivity|]. split; [|intros S T; now apply solid_value].
  assert (R : has_parts (reload n) (map (fun kt => (fst kt, reload (snd kt))) d)).
  { destruct H as [H N]. split; [|rewrite map_map; cbn [fst]; exact N]. rewrite child_tags_reload. clear - H. induction H as [|f [k t] l d [H1 H2] _ IH]; cbn [map]; constructor; [|exact IH].
    cbn [fst snd] in *. split; [rewrite <- H1; destruct f; reflexivity|]. now rewrite child_tags_reload, H2. }
  rewrite (part_read _ _ _ _ R). replace (aget k (map (fun kt => (fst kt, reload (snd kt))) d)) with (Some (reload t)).
  - rewrite from_tag_same by exact C. now rewrite E.
  - clear - A. induction d as [|[k' t'] d IH]; [discriminate|]. cbn [aget map fst snd] in *. destruct (pstr_eqb k k'); [now injection A as ->|]. now apply IH.
Qed.
Print Assumptions C170_saved.

(** But a colour of a gradient can't be changed in place: whatever colour is assigned, the gradient can't be read any more. *)
Theorem C170_stops_refuted : forall n cx q v n', plain_stops n -> stop_assign n cx q v = (n', Ok tt) ->
  get_value VGradient n' cx = Err KeyError /\ (forall p, gradient_getitem n' cx p = Err KeyError) /\ (forall p w, gradient_setitem n' cx p w = (n', Err KeyError)).
Proof.
  intros n cx q v n' P. unfold stop_assign, gradient_getitem, gradient_setitem. destruct (gradient_val n cx) as [d|] eqn:G; cbn [bind]; [|discriminate].
  destruct (qget q d) as [w|] eqn:W; [|discriminate].
  assert (Cw : exists t, w = PVal VColor t cx) by (apply (stop_is_colour n cx q); unfold gradient_getitem; rewrite G; cbn [bind]; now rewrite W).
  destruct Cw as [t ->]. destruct (last_stop q (child_tags n)) as [i|] eqn:L; [|discriminate]. cbn [set_value]. unfold color_set.
  destruct (color_conv v) as [l|]; [|discriminate]. intros E. injection E as <-. set (m := color_node [] l). set (n' := with_kids n _).
  assert (K : child_tags n' = change_nth i (fun _ => m) (child_tags n)) by (unfold n', child_tags; cbn [with_kids tag_kids]; apply at_tag_child; reflexivity).
  assert (P' : plain_stops n').
  { unfold plain_stops. rewrite K. unfold plain_stops in P. clear - P. revert i. induction P as [|x k Hx P IH]; intros [|i]; cbn [change_nth]; constructor; auto; try apply P.
    split; [reflexivity|]. unfold m, color_node, find_all. cbn [descendants]. unfold rgba. cbn [combine map].
    destruct l as [|l1 [|l2 [|l3 [|l4 l]]]]; reflexivity. }
  assert (G' : gradient_val n' cx = Err KeyError).
  { unfold gradient_val in *. rewrite (stops_found _ P') , K, change_nth_length. rewrite (stops_found _ P) in G. destruct (_ <? _); [discriminate|].
    destruct (mapM _ (child_tags n)) as [ws|] eqn:M; [|discriminate]. erewrite mapM_lost; [reflexivity|exact M|now apply (last_stop_length q)|reflexivity]. }
  cbn [get_value]. rewrite G'. auto.
Qed.
Print Assumptions C170_stops_refuted.

(** The colour that is written is that at the position, and it is the one that was assigned: what is lost is where it was. *)
Theorem C170_stop_partial : forall n cx q v n', stop_assign n cx q v = (n', Ok tt) -> exists pre t post m,
  child_tags n = pre ++ t :: post /\ at_pos q t /\ Forall (fun x => ~ at_pos q x) post /\
  child_tags n' = pre ++ m :: post /\ new_value VColor v = Ok m /\ tag_name n' = tag_name n /\ tag_attrs n' = tag_attrs n.
Proof.
  intros n cx q v n'. unfold stop_assign. destruct (gradient_getitem n cx q) as [w|] eqn:G; [|discriminate].
  destruct (stop_is_colour n cx q w G) as [t0 ->]. destruct (last_stop q (child_tags n)) as [i|] eqn:L; [|discriminate]. cbn [set_value]. unfold color_set at 1.
  destruct (color_conv v) as [l|] eqn:C; [|discriminate]. intros E. injection E as <-. destruct (last_stop_is q (child_tags n) i L) as (pre & t & post & -> & E & P & F).
  exists pre, t, post, (color_node [] l). split; [exact E|]. split; [exact P|]. split; [exact F|].
  split; [unfold child_tags; cbn [with_kids tag_kids]; change (filter is_tag (at_tag (length pre) (fun _ => color_node [] l) (tag_kids n)) = pre ++ color_node [] l :: post); rewrite at_tag_child by reflexivity;
    change (change_nth (length pre) (fun _ : node => color_node [] l) (child_tags n) = pre ++ color_node [] l :: post); rewrite E; exact (change_nth_mid (fun _ => color_node [] l) t pre post)|].
  split; [cbn [new_value]; unfold new_flat, color_set; rewrite C; reflexivity|]. destruct n; split; reflexivity.
Qed.
Print Assumptions C170_stop_partial.

(** A new transformation; its angle is set twice, its offset is animated. And a gradient from black to white *)
Definition xvec (x y : Q) : pyval := PTuple [PFlo x; PFlo y].
Definition xtrans : node := match new_value VTransformation (PDict [(s "offset", xvec 0 0); (s "angle", PFlo 30); (s "skew_angle", PFlo 0); (s "scale", xvec 1 1)]) with Ok n => n | Err _ => Txt [] end.
Definition xgrad : node := match new_value VGradient (PDictF [(0%Q, PStr (s "000000")); (1%Q, PStr (s "ffffff"))]) with Ok n => n | Err _ => Txt [] end.
Definition xedits : list (pstr * vedit) := [(s "angle", VSet (PFlo 45)); (s "offset", VTlSet (KeyNum 0) (AVal (xvec 1 2))); (s "angle", VSet (PFlo 60)); (s "size", VSet (PFlo 1))].
Example C170_nonvacuous : (exists d, has_parts xtrans d /\ length d = 4%nat) /\ snd (part_edits xtrans None xedits) = [Ok tt; Ok tt; Ok tt; Err KeyError] /\
  match composite_getitem (fst (part_edits xtrans None xedits)) None (s "angle") with Ok (PVal VAngle t _) => get_value VAngle t None = Ok (PFlo 60) | _ => False end /\
  match composite_getitem (fst (part_edits xtrans None xedits)) None (s "offset") with Ok (PVal VXY t _) => is_animated t = true | _ => False end /\
  plain_stops xgrad /\ snd (stop_assign xgrad None 1 (PStr (s "ff0000"))) = Ok tt /\ match get_value VGradient xgrad None with Ok _ => True | Err _ => False end.
Proof.
  split. { exists (flat_map (fun x => map (fun t => (tag_name x, t)) (child_tags x)) (child_tags xtrans)).
    split; [|vm_compute; reflexivity]. vm_compute. split; [repeat constructor|]. repeat (apply NoDup_cons; [cbn [In]; intros X; decompose [or] X; easy|]). apply NoDup_nil. }
  split; [vm_compute; reflexivity|]. split; [vm_compute; reflexivity|]. split; [vm_compute; reflexivity|].
  split; [vm_compute; repeat constructor|]. split; [vm_compute; reflexivity|]. vm_compute. exact I.
Qed.
(** Of C170_saved: the angle of that transformation *)
Definition xangle : node := El (s "angle") [(s "value", AStr (s "30.0"))] [].
Example C170_saved_nonvacuous : (exists d, has_parts xtrans d /\ aget (s "angle") d = Some xangle) /\ clean_attrs (tag_attrs xangle) /\ solid xangle /\ from_tag xangle = Ok VAngle.
Proof.
  split.
  - exists (flat_map (fun x => map (fun t => (tag_name x, t)) (child_tags x)) (child_tags xtrans)).
    split; [|vm_compute; reflexivity]. vm_compute. split; [repeat constructor|]. repeat (apply NoDup_cons; [cbn [In]; intros X; decompose [or] X; easy|]). apply NoDup_nil.
  - assert (C : clean_attrs (tag_attrs xangle)).
    { split; [constructor; [intros []|constructor]|]. constructor; [|constructor]. cbn [fst snd]. split; [|intros _; now eexists].
      unfold one_line. apply Forall_forall. intros x Hx. vm_compute in Hx. decompose [or] Hx; solve [contradiction|subst x; vm_compute; discriminate]. }
    split; [exact C|]. split; [|vm_compute; reflexivity]. unfold xangle. apply solid_El. split; [exact C|]. split; [constructor; [now eexists|constructor]|]. split; [exact I|constructor].
Qed.
