(** The theorem that calls change nothing but what they are about: the rest stays as it is, and where it is. *)
From Verif Require Import ValModel TlModel AnimModel AnimSpec LayModel LaySpec DocProofs DocProofs2 WrProofs3 AnimProps WrSpec WrSpec2 WrProofs4 WrProofs6 WrProps.
Local Open Scope N_scope.

Lemma edits_app F l m : edits F (l ++ m) = edits (edits F l) m.
Proof. unfold edits. apply fold_left_app. Qed.

(** ** C129 calls only change what they name *)

(** After any edits [es1] of a document, v is a tag: a layer, a value or anything else, in the document or outside. Then come more
    edits, and none of them names v, something in v, or something v is in. Then everything about v is the same: its name, its
    attributes, everything in it, and the tag it is in. *)
Theorem C129_others : forall n0 es1 es2 v n, is_tag n0 = true -> Forall meant es1 -> Forall meant es2 ->
  let F := edits (doc_forest n0) es1 in let F' := edits (doc_forest n0) (es1 ++ es2) in
  fget v F = Some n -> all_apart F v es2 -> fget v F' = Some n /\ option_map iuid (fparent v F') = option_map iuid (fparent v F).
Proof.
  intros n0 es1 es2 v n T M1 M2 F F' En A. destruct n0 as [|nm a k]; [discriminate|]. pose proof (edits_inv nm es1 _ M1 (doc_inv nm a k)) as I1. fold F in I1.
  apply (all_names_away nm) in A; auto. pose proof En as En'. apply fget_In in En' as (Hn & Ev & Tn). destruct (at_ex F n Hn) as (q & Hq).
  destruct (edits_away nm v n q es2 F I1 M2 En A Hq) as [E1 E2]. unfold F'. rewrite edits_app. fold F.
  split; [exact E1|]. pose proof (edits_inv nm es2 F M2 I1) as I2. pose proof (at_parent _ _ _ (proj1 I1) Tn Hq) as P1. pose proof (at_parent _ _ _ (proj1 I2) Tn E2) as P2. rewrite Ev in P1, P2. congruence.
Qed.
Print Assumptions C129_others.
(** The edits may also be about a tag that v is in, if they only change its attributes, another parameter of it, move it, replace it
    or put layers into it. *)
Theorem C129_away : forall n0 es1 es2 v n, is_tag n0 = true -> Forall meant es1 -> Forall meant es2 ->
  let F := edits (doc_forest n0) es1 in let F' := edits (doc_forest n0) (es1 ++ es2) in
  fget v F = Some n -> all_away F v es2 -> fget v F' = Some n /\ option_map iuid (fparent v F') = option_map iuid (fparent v F).
Proof.
  intros n0 es1 es2 v n T M1 M2 F F' En A. destruct n0 as [|nm a k]; [discriminate|]. pose proof (edits_inv nm es1 _ M1 (doc_inv nm a k)) as I1. fold F in I1.
  pose proof En as En'. apply fget_In in En' as (Hn & Ev & Tn). destruct (at_ex F n Hn) as (q & Hq).
  destruct (edits_away nm v n q es2 F I1 M2 En A Hq) as [E1 E2]. unfold F'. rewrite edits_app. fold F.
  split; [exact E1|]. pose proof (edits_inv nm es2 F M2 I1) as I2. pose proof (at_parent _ _ _ (proj1 I1) Tn Hq) as P1. pose proof (at_parent _ _ _ (proj1 I2) Tn E2) as P2. rewrite Ev in P1, P2. congruence.
Qed.
Print Assumptions C129_away.

Definition withinb (F : forest) (v t : N) : bool := match fget v F with Some n => existsb (N.eqb t) (uids n) | None => false end.
Lemma withinb_out F v t : withinb F v t = false -> ~ within F v t.
Proof. unfold withinb. intros H (n & E & C). rewrite E in H. assert (X : existsb (N.eqb t) (uids n) = true) by (apply existsb_exists; exists t; split; [exact C|apply N.eqb_refl]). congruence. Qed.
Definition apartb (F : forest) (v : N) (e : edit) : bool := forallb (fun t => negb (withinb F v t) && negb (withinb F t v)) (names e).
Fixpoint all_apartb (F : forest) (v : N) (es : list edit) : bool := match es with [] => true | e :: l => apartb F v e && all_apartb (fst (apply_edit F e)) v l end.
Lemma all_apartb_ok v es : forall F, all_apartb F v es = true -> all_apart F v es.
Proof.
  induction es as [|e es IH]; intros F H; [exact I|]. cbn [all_apartb all_apart] in *. apply andb_prop in H as [H1 H2]. split; [|now apply IH]. intros t Ht. unfold apartb in H1. rewrite forallb_forall in H1. specialize (H1 t Ht). apply andb_prop in H1 as [A B].
  split; apply withinb_out; now apply Bool.negb_true_iff.
Qed.

(** The same for [away], except for the value of an item and the description of the animation *)
Definition awayb (F : forest) (v : N) (e : edit) : bool :=
  match e with
  | ENew _ | EText _ => true
  | EField u c k _ => negb (withinb F v u) && match param_name c k with None => true | Some _ => false end
  | EAnim u k _ => negb (withinb F v u) && match param_name cls_Group k with None => true | Some _ => false end && negb (pstr_eqb k (s "desc"))
  | EAppend kd g l | EInsert kd g _ l => negb (withinb F v l) && match fget g F with Some n => match canvas_of kd n with Ok c => negb (withinb F v (iuid c)) | Err _ => true end | None => true end
  | _ => apartb F v e
  end.
Fixpoint all_awayb (F : forest) (v : N) (es : list edit) : bool := match es with [] => true | e :: l => awayb F v e && all_awayb (fst (apply_edit F e)) v l end.
Lemma awayb_ok F v e : wf F -> awayb F v e = true -> away F v e.
Proof.
  intros W H. assert (G : apartb F v e = true -> away F v e) by (intros X; apply names_away; [exact W|]; apply (all_apartb_ok v [e] F); cbn [all_apartb]; now rewrite X).
  destruct e as [c|x|u f x|u c k x|u k x|kd g l|kd g i l|w c e]; cbn [awayb] in H; try (now apply G); try exact I; cbn [away].
  - apply andb_prop in H as [H1 H2]. split; [apply withinb_out; now apply Bool.negb_true_iff|]. intros n f w d _ E. rewrite E in H2. discriminate.
  - apply andb_prop in H as [H H3]. apply andb_prop in H as [H1 H2]. split; [apply withinb_out; now apply Bool.negb_true_iff|]. split; [intros n f w d _ E; rewrite E in H2; discriminate|]. intros n t _ ->. discriminate.
  - apply andb_prop in H as [H1 H2]. split; [apply withinb_out; now apply Bool.negb_true_iff|]. intros n c E Ec. rewrite E, Ec in H2. apply withinb_out. now apply Bool.negb_true_iff.
  - apply andb_prop in H as [H1 H2]. split; [apply withinb_out; now apply Bool.negb_true_iff|]. intros n c E Ec. rewrite E, Ec in H2. apply withinb_out. now apply Bool.negb_true_iff.
Qed.
Lemma all_awayb_ok rn v es : forall F, inv rn F -> Forall meant es -> all_awayb F v es = true -> all_away F v es.
Proof.
  induction es as [|e es IH]; intros F V M H; [exact I|]. inversion_clear M as [|? ? M1 M2]. cbn [all_awayb all_away] in *. apply andb_prop in H as [H1 H2]. split; [apply awayb_ok; [apply V|exact H1]|]. apply IH; auto. now apply apply_inv.
Qed.

(** In the document of WrProps.v, the group isn't touched by what is done to the text, and the text isn't by what is done to the group, or to the animation. *)
Definition xes : list edit :=
  [EItem xt (s "text") (SPlain (PStr (s "a"))); EField xt cls_Text (s "desc") (PStr (s "b")); EValue (xt + 4) VReal (VTlAdd [xw] true); EText (s "c"); ENew cls_Group].
Definition xes2 : list edit := [EAnim 1 (s "fps") (PInt 12); EInsert KAnim 1 0 68; EAppend KAnim 1 68; EField 68 cls_Group (s "desc") (PStr (s "b"))].
Lemma xes_meant : Forall meant xes.
Proof.
  assert (E : xt = 20) by (vm_compute; reflexivity). unfold xes. rewrite E. apply Forall_forall. intros e He. cbn [In] in He. destruct He as [<-|[<-|[<-|[<-|[<-|[]]]]]]; cbn [meant].
  1: split; [discriminate|exact I].
  1: split; [discriminate|exact text_known].
  1: reflexivity.
  1: exact I.
  exact group_known.
Qed.
Lemma xes2_meant : Forall meant xes2.
Proof.
  unfold xes2. apply Forall_forall. intros e He. cbn [In] in He. destruct He as [<-|[<-|[<-|[<-|[]]]]]; cbn [meant].
  1: discriminate.
  1, 2: split; [discriminate|reflexivity].
  split; [discriminate|exact group_known].
Qed.
Example C129_nonvacuous : is_tag xblank = true /\ Forall meant xcalls /\ Forall meant xes /\ Forall meant xes2 /\
  (exists n, fget 68 xF = Some n /\ is_layer n = true) /\ all_apart xF 68 xes /\ fget xt (edits xF xes) <> fget xt xF /\
  (exists n, fget xt xF = Some n /\ is_layer n = true) /\ all_away xF xt xes2 /\ fget 1 (edits xF xes2) <> fget 1 xF.
Proof.
  split; [apply xblank_ok|]. split; [exact xcalls_meant|]. split; [exact xes_meant|]. split; [exact xes2_meant|]. split; [|split; [|split; [|split; [|split]]]].
  - exists (match fget 68 xF with Some n => n | None => IT [] end). split; vm_compute; reflexivity.
  - apply all_apartb_ok. vm_compute. reflexivity.
  - intros C. assert (X : match fget xt xF with Some n => forget n | None => Txt [] end = match fget xt (edits xF xes) with Some n => forget n | None => Txt [] end) by now rewrite C. revert X. vm_compute. discriminate.
  - exists (match fget xt xF with Some n => n | None => IT [] end). split; vm_compute; reflexivity.
  - apply (all_awayb_ok (tag_name xblank)); [|exact xes2_meant|vm_compute; reflexivity]. apply edits_inv; [exact xcalls_meant|]. unfold xF0. destruct xblank_ok as (_ & _ & T). destruct xblank as [|nm a k]; [discriminate|]. apply doc_inv.
  - intros C. assert (X : match fget 1 xF with Some n => length (ikids n) | None => 0%nat end = match fget 1 (edits xF xes2) with Some n => length (ikids n) | None => 0%nat end) by now rewrite C. revert X. vm_compute. discriminate.
Qed.
