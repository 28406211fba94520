(** Loops over the children of a group. *)
From Coq Require Import Permutation Lia.
From Verif Require Import LayModel DocProofs DocProofs2 LaySpec LayProofs LayProofs2 LayProofs3 LayProofs4 LoopModel MovSpec MovProofs.
Local Open Scope N_scope.

(** ** The canvas of another group *)

Lemma append_slots F kd g l a kda na ca : usual F -> fits F (MAppend kd g l) -> canv F a kda na ca -> snd (group_append F kd g l) = Ok tt ->
  exists na' ca', canv (fst (group_append F kd g l)) a kda na' ca' /\ iuid ca' = iuid ca /\ (g <> a -> slots ca' = filter (not_slot l) (slots ca)).
Proof.
  intros U ((n & Hh) & t & Hl & Htl & Ho) Ca Hok. destruct (canv_ex _ _ _ _ U Hh) as (c & C). destruct (canv_in _ _ _ _ _ U C) as (Hk & Hcc & _).
  destruct (group_append F kd g l) as [F' r] eqn:EF. cbn [fst snd] in *. subst r. destruct (append_shape F kd g n c l t F' (us_wf F U) (proj1 Hh) Hk Hcc Hl EF) as (i & ->).
  destruct (mg_to F g kd n c l t i U C Hl Htl Ho a kda na ca Ca) as (m' & cy' & C' & _ & Eu & Es). exists m', cy'. split; [exact C'|]. split; [exact Eu|]. intros Hne. apply Es. congruence.
Qed.
Lemma insert_slots F kd g i l a kda na ca : usual F -> fits F (MInsert kd g i l) -> canv F a kda na ca -> snd (group_insert F kd g i l) = Ok tt ->
  exists na' ca', canv (fst (group_insert F kd g i l)) a kda na' ca' /\ iuid ca' = iuid ca /\ (g <> a -> slots ca' = filter (not_slot l) (slots ca)).
Proof.
  intros U ((n & Hh) & t & Hl & Htl & Ho) Ca Hok. destruct (canv_ex _ _ _ _ U Hh) as (c & C). destruct (canv_in _ _ _ _ _ U C) as (Hk & Hcc & Hcf & Hct & Hcd). pose proof (us_wf F U) as W.
  pose proof (canv_ch _ _ _ _ _ U C) as Hch. pose proof (us_known F U l t Hl Htl) as Htk.
  assert (Egi : group_insert F kd g i l = match py_index (layers_in c) i with Err e => (F, Err e) | Ok b =>
     andthen (insert_text_after F (iuid b) nl) (fun F1 => andthen (insert_after F1 (iuid b) l) (fun F2 => insert_text_after F2 (iuid b) nl)) end).
  { unfold group_insert, group_index. rewrite (proj1 Hh), Hch. cbn [bind]. destruct kd; congruence. }
  rewrite Egi in *. clear Egi. destruct (py_index (layers_in c) i) as [b|e] eqn:Ei; [|discriminate Hok].
  assert (V0 : view F kd g c) by (split; [exact W|split; [exact Hk|split; [now apply (canv_known F g kd n)|exists n; split; [apply Hh|exact Hcc]]]]).
  assert (Hb : In b (layers_in c)).
  { unfold py_index in Ei. destruct (_ <? 0)%Z; [discriminate|]. destruct (nth_error _ _) as [b'|] eqn:E; [|discriminate]. injection Ei as ->. eapply nth_error_In; eauto. }
  destruct (text_step F kd g c b nl V0 Hb) as (i1 & E1 & V1 & P1 & G1). pose proof (text_stepped F g kd n c i1 nl U C) as St1.
  destruct (tx_to F g kd n c i1 nl U C a kda na ca Ca) as (na1 & ca1 & Ca1 & _ & Eu1a & Es1).
  set (F1 := fat (iuid c) (ins i1 (IT nl)) F) in *. set (c1 := ins i1 (IT nl) c) in *. rewrite E1 in *. cbn [andthen] in *.
  destruct St1 as (U1 & K1 & T1). destruct (T1 _ _ _ _ C) as (n1 & c1' & C1 & Ec1). pose proof (view_canv _ _ _ _ U1 V1 _ _ C1). subst c1'.
  assert (Hb1 : In b (layers_in c1)) by (unfold c1; now rewrite layers_text).
  assert (Eu1 : iuid c1 = iuid c) by (unfold c1; now destruct c).
  destruct (N.eq_dec l (iuid b)) as [El|Hnb].
  { exfalso. assert (Hpar : fparent (iuid b) F1 = Some c1).
    { destruct (canv_in _ _ _ _ _ U1 C1) as (_ & _ & Hcf1 & _). apply in_layers in Hb1 as [Hb1 Hbl]. apply (child_parent F1 (iuid c1)); auto; [apply (us_wf F1 U1)|now apply is_layer_tag]. }
    assert (E2 : insert_after F1 (iuid b) l = (F1, Err ValueError)) by (unfold insert_after, insert_beside; rewrite Hpar, El, N.eqb_refl; unfold c1; destruct c; [discriminate|reflexivity]).
    rewrite E2 in Hok. discriminate. }
  assert (Hout : ~ In (iuid c) (uids t)) by now apply (mg_out F g kd n c l t U C). pose proof (G1 l t Hl Hout) as Hl1.
  destruct (after_step F1 kd g c1 b l t V1 Hb1 Hnb Hl1 Htl Htk) as [[Hno _]|(Ho1 & i2 & E2 & V2 & Hb2 & P2 & D2 & L2 & A & B & EA & EB)]; [rewrite Eu1 in Hno; contradiction|].
  rewrite E2 in *. cbn [andthen] in *. destruct (mg_to F1 g kd n1 c1 l t i2 U1 C1 Hl1 Htl Ho a kda na1 ca1 Ca1) as (na2 & ca2 & Ca2 & _ & Eu2a & Es2).
  destruct (view_children _ _ _ _ V2) as (n2 & Hn2 & Hch2). pose proof (move_stepped F1 g kd n1 c1 l t i2 n2 _ _ U1 C1 Hl1 Htl Ho Hn2 Hch2 EB) as St2.
  set (F2 := fat (iuid c1) (ins i2 t) (fdel l F1)) in *. set (c2 := ins i2 t (idel l c1)) in *.
  destruct St2 as (U2 & K2 & T2). destruct (T2 _ _ _ _ C1) as (n2' & c2' & C2 & Ec2). pose proof (view_canv _ _ _ _ U2 V2 _ _ C2). subst c2'.
  destruct (text_step F2 kd g c2 (idel l b) nl V2 Hb2) as (i3 & E3 & _). rewrite idel_uid in E3. rewrite E3. cbn [fst].
  destruct (tx_to F2 g kd n2' c2 i3 nl U2 C2 a kda na2 ca2 Ca2) as (na3 & ca3 & Ca3 & _ & Eu3a & Es3). exists na3, ca3. split; [exact Ca3|]. split; [congruence|]. intros Hne. rewrite Es3, Es2, Es1 by congruence. reflexivity.
Qed.
Lemma move_slots F m a kda na ca : usual F -> fits F m -> canv F a kda na ca -> snd (try_move F m) = Ok tt ->
  exists na' ca', canv (do_move F m) a kda na' ca' /\ iuid ca' = iuid ca /\ (target m <> a -> slots ca' = filter (not_slot (moved_layer m)) (slots ca)).
Proof. destruct m as [kd g l|kd g i l]; cbn [target moved_layer]; unfold do_move; cbn [try_move]; intros; [now apply append_slots with (na := na)|now apply insert_slots with (na := na)]. Qed.

Lemma shows_ex F : usual F -> exists h, shows F h.
Proof.
  intros U. exists (fun x : N => match fget x F with
    | Some n => match children (if x =? 1 then KAnim else KGroup) n with Ok ch => ids ch | Err _ => [] end | None => [] end).
  intros x kd n Hx. destruct (canv_ex _ _ _ _ U Hx) as (c & C). exists (layers_in c). pose proof (canv_ch _ _ _ _ _ U C) as E. split; [exact E|]. rewrite (proj1 Hx).
  assert (Ek : (if x =? 1 then KAnim else KGroup) = kd).
  { destruct Hx as [Hx [[-> ->]|(-> & Hl & _)]]; [reflexivity|]. destruct (N.eqb_spec x 1) as [->|]; [|reflexivity]. destruct (us_root F U) as (r & Hr & Hc). assert (r = n) by congruence. subst r. rewrite (canvas_not_layer _ Hc) in Hl. discriminate. }
  rewrite Ek, E. reflexivity.
Qed.
Lemma move_usual F m : usual F -> fits F m -> usual (do_move F m).
Proof. intros U Hf. destruct (shows_ex F U) as (h & S). assert (R : right_move F h m) by (destruct m; [now apply append_right|now apply insert_right]). apply R. Qed.

(** ** Runs *)

Lemma run_app ms1 : forall F ms2, run F (ms1 ++ ms2) = andthen (run F ms1) (fun F1 => run F1 ms2).
Proof. induction ms1 as [|m ms IH]; intros F ms2; [reflexivity|]. cbn [app run]. destruct (try_move F m) as [F1 [u|e]]; cbn [andthen]; [apply IH|reflexivity]. Qed.
Lemma run_fits_app ms1 : forall F ms2, run_fits F (ms1 ++ ms2) -> run_fits F ms1 /\ (snd (run F ms1) = Ok tt -> run_fits (fst (run F ms1)) ms2).
Proof.
  induction ms1 as [|m ms IH]; intros F ms2 H; [split; [exact I|intros _; exact H]|]. destruct H as [Hf H]. cbn [run_fits run]. unfold do_move in *. destruct (try_move F m) as [F1 [[]|e]] eqn:E; cbn [fst snd andthen] in *.
  - destruct (IH F1 ms2 (H eq_refl)) as [A B]. split; [split; [exact Hf|intros _; exact A]|exact B].
  - split; [split; [exact Hf|discriminate]|discriminate].
Qed.
Lemma filter_slots (P : option N -> bool) A : (forall o, In o A -> P o = true) -> filter P A = A. Proof. intros H. now apply filter_all. Qed.
Lemma run_slots l a kda ms : forall F na ca A R, usual F -> run_fits F ms -> (forall m, In m ms -> moved_layer m = l /\ target m <> a) -> canv F a kda na ca ->
  slots ca = A ++ R -> (forall o, In o A -> not_slot l o = true) -> snd (run F ms) = Ok tt ->
  usual (fst (run F ms)) /\ exists na' ca' R', canv (fst (run F ms)) a kda na' ca' /\ iuid ca' = iuid ca /\ slots ca' = A ++ R'.
Proof.
  induction ms as [|m ms IH]; intros F na ca A R U Hf Hm Ca Es HA Hok.
  - cbn [run fst]. split; [exact U|]. exists na, ca, R. auto.
  - destruct Hf as [Hf Hr]. cbn [run] in *. destruct (Hm m (or_introl eq_refl)) as [El Et].
    pose proof (move_usual F m U Hf) as U1. pose proof (move_slots F m a kda na ca U Hf Ca) as MS. unfold do_move in *.
    destruct (try_move F m) as [F1 [[]|e]]; cbn [fst snd andthen] in *; [|discriminate]. specialize (Hr eq_refl). destruct (MS eq_refl) as (na1 & ca1 & Ca1 & Eu & Es1). specialize (Es1 Et).
    rewrite El, Es, filter_app, (filter_slots _ A HA) in Es1.
    destruct (IH F1 na1 ca1 A (filter (not_slot l) R) U1 Hr) as (U2 & na2 & ca2 & R2 & C2 & Eu2 & Es2); auto; [intros m' Hm'; apply Hm; now right|]. split; [exact U2|]. exists na2, ca2, R2. split; [exact C2|]. split; [congruence|exact Es2].
Qed.

(** ** The loop *)

Fixpoint somes (A : list (option N)) : list N := match A with [] => [] | Some x :: A' => x :: somes A' | None :: A' => somes A' end.
Lemma somes_app A B : somes (A ++ B) = somes A ++ somes B.
Proof. induction A as [|[x|] A IH]; cbn [app somes]; [reflexivity|now rewrite IH|exact IH]. Qed.
Lemma somes_slots c : ids (layers_in c) = rev (somes (slots c)).
Proof.
  unfold layers_in, slots. rewrite ids_rev. f_equal. generalize (ikids c). intros k. induction k as [|x k IH]; [reflexivity|]. cbn [filter map]. unfold slot at 1. destruct (is_layer x); cbn [somes ids map]; [now rewrite <- IH|exact IH].
Qed.
Lemma somes_In A x : In (Some x) A <-> In x (somes A).
Proof.
  induction A as [|[y|] A IH]; cbn [somes In]; [tauto| |]; rewrite <- IH.
  - split; (intros [H|H]; [left; congruence|now right]).
  - split; [intros [H|H]; [discriminate|exact H]|now right].
Qed.

Lemma each_is a kda body j : forall F na ca A R, usual F -> canv F a kda na ca -> slots ca = A ++ R -> length A = j -> NoDup (somes A) ->
  (forall l m, In l (somes A) -> In m (body l) -> moved_layer m = l /\ target m <> a) -> run_fits F (flat_map body (rev (somes A))) ->
  each F (iuid ca) j body = run F (flat_map body (rev (somes A))).
Proof.
  induction j as [|j IH]; intros F na ca A R U Ca Es Ej ND Hm Hf; [destruct A; [reflexivity|discriminate]|].
  destruct A as [|o A _] using rev_ind; [discriminate|]. rewrite app_length in Ej. cbn [length] in Ej. assert (Ej' : length A = j) by lia.
  destruct (canv_in _ _ _ _ _ U Ca) as (_ & _ & Hcf & _). cbn [each]. rewrite Hcf.
  assert (En : nth_error (slots ca) j = Some o) by (rewrite Es, <- app_assoc, nth_error_app2 by lia; replace (j - length A)%nat with 0%nat by lia; reflexivity).
  unfold slots in En. rewrite nth_error_map in En. destruct (nth_error (ikids ca) j) as [x|] eqn:Ex; [|discriminate]. cbn [option_map] in En. injection En as En. unfold slot in En.
  rewrite somes_app in *. destruct (is_layer x) eqn:Hx; subst o; cbn [somes] in *.
  - assert (Hk : known x) by (apply (canv_known F a kda na ca U Ca); apply in_layers; split; [eapply nth_error_In; eauto|exact Hx]).
    destruct Hk as (k & Hk). unfold as_layer. rewrite Hk. cbn [bind].
    rewrite rev_app_distr in *. cbn [rev app flat_map] in *. rewrite run_app. apply run_fits_app in Hf as [Hf1 Hf2].
    assert (Nx : ~ In (iuid x) (somes A)).
    { intros Hi. apply NoDup_remove_2 in ND. apply ND. apply in_or_app. now left. }
    assert (HA : forall o, In o A -> not_slot (iuid x) o = true).
    { intros [y|] Hy; [|reflexivity]. cbn [not_slot]. apply negb_true_iff, N.eqb_neq. intros <-. apply Nx. now apply somes_In. }
    assert (Hb : forall m, In m (body (iuid x)) -> moved_layer m = iuid x /\ target m <> a) by (intros m Hi; apply (Hm (iuid x) m); [apply in_or_app; right; now left|exact Hi]).
    pose proof (fun R0 E => run_slots (iuid x) a kda (body (iuid x)) F na ca A R0 U Hf1 Hb Ca E HA) as RS. rewrite <- app_assoc in Es. specialize (RS _ Es).
    destruct (run F (body (iuid x))) as [F1 [[]|e]]; cbn [fst snd andthen] in *; [|reflexivity].
    destruct (RS eq_refl) as (U1 & na1 & ca1 & R1 & Ca1 & Eu & Es1). rewrite <- Eu. apply (IH F1 na1 ca1 A R1); auto.
    + apply NoDup_remove_1 in ND. now rewrite app_nil_r in ND.
    + intros l m Hl. apply Hm. apply in_or_app. now left.
  - rewrite app_nil_r in *. rewrite <- app_assoc in Es. apply (IH F na ca A ([None] ++ R)); auto.
Qed.

Lemma loop_is F a kda na ch body : usual F -> holder F a kda na -> children kda na = Ok ch ->
  (forall l m, In l (ids ch) -> In m (body l) -> moved_layer m = l /\ target m <> a) -> run_fits F (flat_map body (ids ch)) ->
  for_children F kda a body = run F (flat_map body (ids ch)).
Proof.
  intros U H Hch Hm Hf. destruct (canv_ex _ _ _ _ U H) as (ca & Ca). destruct (canv_in _ _ _ _ _ U Ca) as (Hk & Hcc & _). rewrite (canv_ch _ _ _ _ _ U Ca) in Hch. injection Hch as <-.
  unfold for_children. rewrite (proj1 H), Hcc. assert (E : forall A (x y : A), match kda with KPlain => x | _ => y end = y) by (intros; destruct kda; congruence). rewrite E.
  pose proof (ids_NoDup _ _ _ _ _ U Ca) as ND. rewrite somes_slots in *. apply (each_is a kda body (length (ikids ca)) F na ca (slots ca) []); auto.
  - now rewrite app_nil_r.
  - unfold slots. apply map_length.
  - apply NoDup_rev in ND. now rewrite rev_involutive in ND.
  - intros l m Hl. apply Hm. now apply in_rev in Hl.
Qed.

Lemma run_all ms : forall F, snd (doc_moves F ms) = map (fun _ => Ok tt) ms -> run F ms = (fst (doc_moves F ms), Ok tt).
Proof.
  induction ms as [|m ms IH]; intros F H; [reflexivity|]. cbn [doc_moves run map] in *. destruct (try_move F m) as [F1 r]. specialize (IH F1). destruct (doc_moves F1 ms) as [F2 rs]. cbn [fst snd] in *. injection H as -> H. cbn [andthen]. now apply IH.
Qed.
Lemma fit_run ms : forall F, all_fit F ms -> run_fits F ms.
Proof. induction ms as [|m ms IH]; intros F H; [exact I|]. destruct H as [A B]. split; [exact A|]. intros _. now apply IH. Qed.

Lemma loop_moves F a kda na b kdb nb cha chb : usual F -> holder F a kda na -> holder F b kdb nb -> a <> b ->
  children kda na = Ok cha -> children kdb nb = Ok chb -> (forall t, In t cha -> ~ In b (uids t)) ->
  exists F', for_children F kda a (fun l => [MAppend kdb b l]) = (F', Ok tt) /\ usual F' /\
  (exists na', holder F' a kda na' /\ children kda na' = Ok []) /\
  (exists nb' ch, holder F' b kdb nb' /\ children kdb nb' = Ok ch /\ ids ch = ids chb ++ ids cha).
Proof.
  intros U Ha Hb Hne Hca Hcb Hout. destruct (all_moved_fit F a kda na b kdb nb cha chb U Ha Hb Hne Hca Hcb Hout) as (A & B & C & D & E). exists (fst (doc_moves F (map (MAppend kdb b) (ids cha)))).
  assert (Em : forall k, flat_map (fun l => [MAppend kdb b l]) k = map (MAppend kdb b) k) by (induction k as [|y k IH]; [reflexivity|cbn [flat_map map app]; now rewrite IH]).
  split; [|auto]. rewrite (loop_is F a kda na cha); auto.
  - rewrite Em. apply run_all. rewrite A. unfold ids. now rewrite !map_map.
  - intros l m _ [<-|[]]. cbn [moved_layer target]. split; [reflexivity|congruence].
  - rewrite Em. now apply fit_run.
Qed.

(** ** A body that leaves the group without layers *)

Lemma run_canv a kda ms : forall F na ca, usual F -> run_fits F ms -> canv F a kda na ca -> snd (run F ms) = Ok tt ->
  usual (fst (run F ms)) /\ exists na' ca', canv (fst (run F ms)) a kda na' ca' /\ iuid ca' = iuid ca.
Proof.
  induction ms as [|m ms IH]; intros F na ca U Hf Ca Hok.
  - cbn [run fst]. split; [exact U|]. now exists na, ca.
  - destruct Hf as [Hf Hr]. cbn [run] in *. pose proof (move_usual F m U Hf) as U1. pose proof (move_slots F m a kda na ca U Hf Ca) as MS. unfold do_move in *.
    destruct (try_move F m) as [F1 [[]|e]]; cbn [fst snd andthen] in *; [|discriminate]. specialize (Hr eq_refl). destruct (MS eq_refl) as (na1 & ca1 & Ca1 & Eu & _).
    destruct (IH F1 na1 ca1 U1 Hr Ca1 Hok) as (U2 & na2 & ca2 & C2 & Eu2). split; [exact U2|]. exists na2, ca2. split; [exact C2|congruence].
Qed.
Lemma each_none body c j : forall F cn, fget c F = Some cn -> layers_in cn = [] -> each F c j body = (F, Ok tt).
Proof.
  induction j as [|j IH]; intros F cn Hc Hn; [reflexivity|]. cbn [each]. rewrite Hc. destruct (nth_error (ikids cn) j) as [x|] eqn:E; [|reflexivity].
  destruct (is_layer x) eqn:Hx; [|now apply (IH F cn)]. exfalso. assert (Hi : In x (layers_in cn)) by (apply in_layers; split; [eapply nth_error_In; eauto|exact Hx]). rewrite Hn in Hi. exact Hi.
Qed.
Lemma each_first body c j : forall F cn x l, fget c F = Some cn -> rev (filter is_layer (firstn j (ikids cn))) = x :: l -> known x -> (j <= length (ikids cn))%nat ->
  exists i, each F c j body = andthen (run F (body (iuid x))) (fun F1 => each F1 c i body).
Proof.
  induction j as [|j IH]; intros F cn x l Hc Hx Hk Hj; [discriminate|]. cbn [each]. rewrite Hc. destruct (nth_error (ikids cn) j) as [y|] eqn:E; [|apply nth_error_None in E; lia].
  assert (Ef : firstn (S j) (ikids cn) = firstn j (ikids cn) ++ [y]).
  { clear - E. revert j E. generalize (ikids cn). induction l as [|z l IH]; intros [|j] E; try discriminate; cbn in *; [now injection E as ->|now rewrite (IH j E)]. }
  rewrite Ef, filter_app, rev_app_distr in Hx. cbn [filter] in Hx. destruct (is_layer y); cbn [rev app] in Hx.
  - injection Hx as -> _. exists j. unfold as_layer. destruct Hk as (k & ->). reflexivity.
  - apply (IH F cn x l); auto. lia.
Qed.
Lemma loop_emptied F a kda na x ch body F1 na1 : usual F -> holder F a kda na -> children kda na = Ok (x :: ch) -> run_fits F (body (iuid x)) ->
  run F (body (iuid x)) = (F1, Ok tt) -> holder F1 a kda na1 -> children kda na1 = Ok [] -> for_children F kda a body = (F1, Ok tt).
Proof.
  intros U H Hch Hf Hr H1 Hn. destruct (canv_ex _ _ _ _ U H) as (ca & Ca). destruct (canv_in _ _ _ _ _ U Ca) as (Hk & Hcc & Hcf & _). rewrite (canv_ch _ _ _ _ _ U Ca) in Hch. injection Hch as Hch.
  unfold for_children. rewrite (proj1 H), Hcc. assert (E : forall A (x y : A), match kda with KPlain => x | _ => y end = y) by (intros; destruct kda; congruence). rewrite E.
  assert (Hx : known x) by (apply (canv_known F a kda na ca U Ca); rewrite Hch; now left).
  destruct (each_first body (iuid ca) (length (ikids ca)) F ca x ch) as (i & ->); auto; [now rewrite firstn_all|].
  pose proof (run_canv a kda (body (iuid x)) F na ca U Hf Ca) as RC. rewrite Hr in *. cbn [fst snd andthen] in *. destruct (RC eq_refl) as (U1 & na2 & ca2 & C2 & Eu).
  assert (na2 = na1) by (destruct C2 as [[C2 _] _], H1 as [H1 _]; congruence). subst na2. rewrite (canv_ch _ _ _ _ _ U1 C2) in Hn. injection Hn as Hn.
  destruct (canv_in _ _ _ _ _ U1 C2) as (_ & _ & Hcf2 & _). rewrite <- Eu. now apply each_none with (cn := ca2).
Qed.
