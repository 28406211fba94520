(** Proofs for the programs of the tutorial *)
From Verif Require Import XpSpec LayModel DocProofs DocProofs2 LaySpec LayProofs LayProofs2 LayProofs3 LayProofs4 LayProofs5 LayProofs6 LayProofs7 VarSpec VarProofs MovSpec MovProofs MovProofs2 MixSpec MixProofs WrSpec ClsTable ClsProofs PrmSpec PrmProofs PrmProofs2 PrmProofs3 WldSpec WldProofs WldProofs2 FindProps TutModel TutSpec.
From Coq Require Import Lia.
Local Open Scope N_scope.

Definition prog (k : pstr) (vf : N -> pyval) (us : list N) : list wact := map (fun u => WAct (AAssign (assign ByItem u k (vf u)))) us.

Lemma setitem_is F u k v : fget u F <> None -> do_wact F (WAct (AAssign (assign ByItem u k v))) = layer_setitem F u k (SPlain v).
Proof. intros H. cbn [do_wact do_act]. unfold do_assign. cbn [as_layer_ as_how as_name as_value_]. destruct (fget u F); [reflexivity|congruence]. Qed.
Lemma place_there F u k q : place F u k = Some q -> fget u F <> None.
Proof. unfold place. destruct (fget u F); [discriminate|]. intros H. discriminate H. Qed.

Lemma one_step F w u k q t c v m : usual F -> depicts F w -> place F u k = Some q -> snd (fst w) q = Some t -> from_tag t = Ok c -> bare_val v -> new_value c v = Ok m ->
  let G := fst (layer_setitem F u k (SPlain v)) in let w' := ((fst (fst w), vput (snd (fst w)) q m), snd w) in
  wact_means F w (WAct (AAssign (assign ByItem u k v))) (LwAct (LAs q ByItem v)) /\ fst (list_wact w (LwAct (LAs q ByItem v))) = w' /\
  snd (layer_setitem F u k (SPlain v)) = Ok tt /\ usual G /\ depicts G w' /\ forall u' k' z, place F u' k' = Some z -> place G u' k' = Some z.
Proof.
  intros U D Hp Hq Hc Hv Hm G w'. destruct w as [[h st] at_]. cbn [fst snd] in *. destruct D as [M T]. cbn [fst snd] in M, T.
  assert (E : val_assign t ByItem v = (m, Ok tt)) by (unfold val_assign; now rewrite Hc, Hm).
  pose proof (setitem_is F u k v (place_there _ _ _ _ Hp)) as Ed. cbn [do_wact do_act] in Ed.
  destruct (assign_is F st (assign ByItem u k v) q t (us_wf F U) (proj2 M) Hp Hq Hv) as (R1 & R2 & R3). cbn [as_how as_value_] in R1, R2, R3. rewrite Ed in R1, R3.
  split. { cbn [wact_means act_means acts_mean as_layer_ as_name as_how as_value_ fst snd]. split; [exact Hp|]. split; [congruence|]. auto. }
  split. { subst w'. cbn [list_wact list_act fst snd]. unfold on_var. now rewrite Hq, E. }
  split. { now rewrite R1, E. }
  destruct (value_step F h st q t (fun t => val_assign t ByItem v) _ _ U M Hq R1 R2 R3) as (_ & U' & M' & _ & P & _).
  split; [exact U'|]. split; [|exact P]. unfold on_var in M'. rewrite Hq, E in M'. split; [exact M'|]. cbn [snd].
  apply (value_tells F h st q t (fun t => val_assign t ByItem v) G at_ U M Hq R2 R3 T).
Qed.

Lemma loop body k c vf mf us : forall F w, usual F -> depicts F w -> NoDup us ->
  (forall u, In u us -> exists q t, place F u k = Some q /\ snd (fst w) q = Some t /\ from_tag t = Ok c) ->
  (forall u, In u us -> bare_val (vf u) /\ new_value c (vf u) = Ok (mf u) /\ from_tag (mf u) = Ok c) ->
  (forall u u' q, In u us -> In u' us -> place F u k = Some q -> place F u' k = Some q -> mf u = mf u') ->
  (forall G w1 u q t, In u us -> usual G -> depicts G w1 -> place G u k = Some q -> snd (fst w1) q = Some t -> from_tag t = Ok c ->
     (place F u k = Some q /\ snd (fst w) q = Some t \/ exists u', In u' us /\ u' <> u /\ place F u k = place F u' k) -> body G u = layer_setitem G u k (SPlain (vf u))) ->
  exists l', wacts_mean F w (prog k vf us) l' /\ for_each body F us = (fst (wacts F (prog k vf us)), Ok tt) /\
    only w (fst (list_wacts w l')) (fun q => exists u, In u us /\ place F u k = Some q) /\
    (forall u q, In u us -> place F u k = Some q -> snd (fst (fst (list_wacts w l'))) q = Some (mf u)) /\
    (forall u' k' q, place F u' k' = Some q -> place (fst (wacts F (prog k vf us))) u' k' = Some q).
Proof.
  induction us as [|u us IH]; intros F w U D Nd Hp Hv Hs Hb.
  - exists []. split; [exact I|]. split; [reflexivity|]. split; [repeat split; auto|]. split; [intros u q []|auto].
  - destruct (Hp u (or_introl eq_refl)) as (q & t & P & Q & C). destruct (Hv u (or_introl eq_refl)) as (B & Hm & Cm). inversion Nd as [|? ? Nu Nd']; subst.
    destruct (one_step F w u k q t c (vf u) (mf u) U D P Q C B Hm) as (Mn & Ew & Er & U' & D' & Pl).
    pose proof (setitem_is F u k (vf u) (place_there _ _ _ _ P)) as Ed.
    assert (Eb : body F u = layer_setitem F u k (SPlain (vf u))) by (apply (Hb F w u q t); auto; now left).
    set (F1 := fst (layer_setitem F u k (SPlain (vf u)))) in *. set (w1 := ((fst (fst w), vput (snd (fst w)) q (mf u)), snd w) : world) in *.
    assert (Pi : forall z x, In z us -> place F1 z k = Some x -> place F z k = Some x).
    { intros z x Hz Hx. destruct (Hp z (or_intror Hz)) as (q' & t' & P' & _). rewrite (Pl _ _ _ P') in Hx. congruence. }
    assert (S1 : forall z, snd (fst w1) z = if N.eqb z q then Some (mf u) else snd (fst w) z) by (intros z; reflexivity).
    destruct (IH F1 w1 U' D' Nd') as (l' & M' & E' & (O1 & O2 & O3) & G' & L').
    { intros z Hz. destruct (Hp z (or_intror Hz)) as (q' & t' & P' & Q' & C'). exists q'. rewrite S1. destruct (N.eqb_spec q' q) as [->|_]; [exists (mf u)|exists t']; repeat split; auto. }
    { intros z Hz. apply Hv. now right. }
    { intros z z' x Hz Hz' Hx Hx'. apply (Hs z z' x); try (now right); auto. }
    { intros G w2 z x y Hz UG DG PG QG CG Hor. apply (Hb G w2 z x y); auto; [now right|]. destruct Hor as [[P1 Q1]|(u' & I1 & I2 & I3)].
      - rewrite S1 in Q1. destruct (N.eqb_spec x q) as [->|_]; [right; exists u; split; [now left|]; split; [congruence|]; rewrite (Pi z q Hz P1); auto|left; split; auto].
      - right. exists u'. split; [now right|]. split; [exact I2|]. destruct (Hp z (or_intror Hz)) as (q' & t' & P' & _). rewrite (Pl _ _ _ P') in I3. symmetry in I3. rewrite P'. symmetry. now apply Pi. }
    exists (LwAct (LAs q ByItem (vf u)) :: l'). unfold prog. cbn [map]. fold (prog k vf us). cbn [wacts_mean wacts list_wacts for_each].
    rewrite Eb. rewrite Ed. destruct (list_wact w (LwAct (LAs q ByItem (vf u)))) as [w1' r1] eqn:El. cbn [fst] in Ew. subst w1'.
    destruct (layer_setitem F u k (SPlain (vf u))) as [F1' r2] eqn:Es. cbn [fst snd] in *. subst r2. cbn [fst] in F1. subst F1. rewrite E'.
    destruct (wacts F1' (prog k vf us)) as [F2 rs]. destruct (list_wacts w1 l') as [w2 rs']. cbn [fst snd] in *.
    split; [now split|]. split; [reflexivity|]. split; [|split].
    + split; [exact O1|]. split; [exact O2|]. intros z Hz. rewrite O3.
      * rewrite S1. destruct (N.eqb_spec z q) as [->|_]; [|reflexivity]. destruct Hz. exists u. split; [now left|exact P].
      * intros (u' & I1 & I2). apply Hz. exists u'. split; [now right|]. now apply Pi.
    + intros u' z [<-|Hu'] Hz; [|apply G'; auto]. assert (z = q) by congruence. subst z.
      assert (Dec : (exists u', In u' us /\ place F1' u' k = Some q) \/ ~ exists u', In u' us /\ place F1' u' k = Some q).
      { clear. induction us as [|x us IH]; [right; intros (? & [] & _)|]. destruct IH as [(y & I1 & I2)|H]; [left; exists y; split; [now right|auto]|].
        destruct (place F1' x k) as [z|] eqn:E; [destruct (N.eqb_spec z q) as [->|Hn]; [left; exists x; split; [now left|auto]|]|];
          right; intros (y & [<-|I1] & I2); try congruence; apply H; eauto. }
      destruct Dec as [(u' & I1 & I2)|H]; [|rewrite (O3 q H), S1, N.eqb_refl; reflexivity].
      rewrite (G' u' q I1 I2). f_equal. apply (Hs u' u q); [now right|now left|now apply Pi|exact P].
    + intros u' k' z Hz. apply L'. now apply Pl.
Qed.

(** ** Which layers are found *)

Lemma text_field c : In c layer_classes -> c = cls_Text \/ aget (s "text") (all_fields c) = None.
Proof.
  unfold layer_classes. cbn [In]. intros H. repeat (destruct H as [<-|H]; [first [right; vm_compute; reflexivity|left; reflexivity]|]). destruct H.
Qed.
Lemma says_string F w y x : says F w y x -> exists q t, called F w y (s "text") q VString t /\ string_val t = x.
Proof. intros (_ & q & t & C & G). exists q, t. split; [exact C|]. specialize (G None). cbn [get_value] in G. congruence. Qed.
Lemma matches_says st F w n y c x0 x : usual F -> depicts F w -> fget 1 F = Some n -> In y (idesc n) -> is_layer y = true -> layer_class y = Ok c -> texts_said F w n ->
  any_match st F y c [(s "text", WVal (PStr x0))] = Ok (if pstr_eqb (c_name c) (s "Text") then match any_match st F y c [(s "text", WVal (PStr x0))] with Ok b => b | Err _ => false end else false) /\
  (says F w y x -> any_match st F y c [(s "text", WVal (PStr x0))] = Ok (pstr_eqb x x0)).
Proof.
  intros U D Hn Hy Hl Hc Ht. pose proof (fget_In _ _ _ Hn) as (Hd & _). pose proof (fget_desc F y (us_wf F U) (desc_trans F n y Hd Hy)) as Hu.
  assert (R : forall x, says F w y x -> c = cls_Text /\ any_match st F y c [(s "text", WVal (PStr x0))] = Ok (pstr_eqb x x0)).
  { intros x1 Hx. assert (Ec : c = cls_Text) by (destruct Hx as ((_ & Hc') & _); congruence). split; [exact Ec|]. destruct (says_string _ _ _ _ Hx) as (q & t & (P & Q & C) & E).
    destruct (read_value F (snd (fst w)) (iuid y) (s "text") q t (us_wf F U) (proj2 (proj1 D)) P Q) as (n' & v & Hu' & Ev & _ & Hg). rewrite Hu in Hu'. injection Hu' as <-. rewrite C in Hg. cbn [bind] in Hg.
    cbn [any_match]. unfold read_for_match, field_get. subst c. replace (aget (s "text") (all_fields cls_Text)) with (aget (s "text") (c_fields cls_Text)) by reflexivity.
    match goal with |- context [aget ?a ?b] => let z := eval vm_compute in (aget a b) in replace (aget a b) with z by (vm_compute; reflexivity) end.
    unfold param_field. rewrite Hg. cbn [bind snd fst inst]. unfold as_value. cbn [fst snd]. rewrite Ev. change (inst VString VString) with true. subst x1. cbv iota beta. cbn [bind]. unfold py_str.
    destruct (is_animated t); cbn [bind field_eq value_eq]; destruct (pstr_eqb (string_val t) x0); reflexivity. }
  split; [|intros Hx; now destruct (R x Hx)].
  destruct (text_field c (layer_class_in y c Hc)) as [->|E].
  - destruct (Ht y Hy (conj Hl Hc)) as (x1 & Hx). destruct (R x1 Hx) as [_ E]. rewrite E. reflexivity.
  - assert (X : any_match st F y c [(s "text", WVal (PStr x0))] = Ok false).
    { cbn [any_match]. unfold read_for_match, field_get. rewrite E. reflexivity. }
    rewrite X. now destruct (pstr_eqb (c_name c) (s "Text")).
Qed.
Lemma map_filter_nodup {A B} (f : A -> B) p l : NoDup (map f l) -> NoDup (map f (filter p l)).
Proof.
  induction l as [|a l IH]; cbn [map filter]; [auto|]. inversion_clear 1 as [|? ? Hn Hd]. destruct (p a); [|auto]. cbn [map]. constructor; [|auto].
  intros Hi. apply Hn. apply in_map_iff in Hi as (b & <- & Hb). apply filter_In in Hb as [Hb _]. now apply in_map.
Qed.
Lemma nodup_filter_uids F n p : In n (fdesc F) -> wf F -> NoDup (map iuid (filter p (idesc n))).
Proof.
  intros Hi W. pose proof (NoDup_inside F n W Hi) as Hu. apply map_filter_nodup. destruct n as [|u nm a k]; [constructor|]. rewrite idesc_IE. rewrite uids_IE in Hu. inversion Hu as [|? ? _ Hk]; subst.
  now rewrite <- uids_desc in Hk.
Qed.
Lemma find_texts st F w n x : usual F -> depicts F w -> fget 1 F = Some n -> texts_said F w n ->
  exists l, layer_find_all st F n [] true [(s "text", WVal (PStr x))] None = Ok l /\ NoDup (map iuid l) /\ forall y, In y l <-> In y (idesc n) /\ says F w y x.
Proof.
  intros U D Hn Ht. pose proof (fget_In _ _ _ Hn) as (Hd & _).
  assert (HK : all_known (idesc n)). { apply Forall_forall. intros y Hy Hl. apply (us_known F U (iuid y) y); [|exact Hl]. apply (fget_desc F y (us_wf F U) (desc_trans F n y Hd Hy)). }
  set (p := fun y => match layer_class y with Ok c => match any_match st F y c [(s "text", WVal (PStr x))] with Ok b => b | Err _ => false end | Err _ => false end).
  exists (filter (fun y => is_layer y && p y) (idesc n)). split; [|split].
  - apply find_exact; [exact HK|intros E; discriminate E|]. intros y c Hy Hl Hc. destruct (matches_says st F w n y c x x U D Hn Hy Hl Hc Ht) as [E _]. unfold p. rewrite Hc.
    destruct (any_match st F y c [(s "text", WVal (PStr x))]) as [b|e]; [reflexivity|discriminate E].
  - apply (nodup_filter_uids F n); auto. apply U.
  - intros y. rewrite filter_In. split.
    + intros [Hy H]. split; [exact Hy|]. apply andb_prop in H as [Hl Hp]. unfold p in Hp. destruct (layer_class y) as [c|] eqn:Hc; [|discriminate].
      destruct (matches_says st F w n y c x x U D Hn Hy Hl Hc Ht) as [E _]. destruct (text_field c (layer_class_in y c Hc)) as [->|En].
      * destruct (Ht y Hy (conj Hl Hc)) as (x1 & Hx). destruct (matches_says st F w n y cls_Text x x1 U D Hn Hy Hl Hc Ht) as [_ E1]. rewrite (E1 Hx) in Hp. apply pstr_eqb_spec in Hp. now subst x1.
      * cbn [any_match] in Hp. unfold read_for_match, field_get in Hp. rewrite En in Hp. discriminate Hp.
    + intros [Hy Hx]. split; [exact Hy|]. pose proof Hx as ((Hl & Hc) & _). rewrite Hl. unfold p. rewrite Hc. cbn [andb].
      destruct (matches_says st F w n y cls_Text x x U D Hn Hy Hl Hc Ht) as [_ E]. rewrite (E Hx). apply pstr_eqb_refl.
Qed.
