(** Setting attributes of the animation *)
From Coq Require Import Lia.
From Verif Require AnimProofs2 TlSpec.
From Verif Require Import XpSpec SerModel SavSpec SavProofs SavSpec2 SavProofs2 SavProofs3 SavProofs4 WrProofs2 WrProofs3 WrProofs4 WrProofs5 EndSpec.
From Verif Require Import XpSpec AnimModel AnimSpec AnimProofs3 AnimProofs5 LayModel DocProofs DocProofs2 LaySpec LayProofs LayProofs2 LayProofs3 LayProofs4 LayProofs5 LayProofs6 LayProofs7 VarSpec VarProofs LoopModel MovSpec MovProofs MovProofs2 MixSpec MixProofs WrSpec ClsProofs PrmSpec PrmProofs PrmProofs2 PrmProofs3 WldSpec WldProofs WldProofs2 EndProofs PgmSpec.
Local Open Scope N_scope.

(** ** One assignment *)

Lemma is_in_spec k l : is_in k l = true <-> In k l.
Proof. unfold is_in. rewrite existsb_exists. split; [intros (x & Hx & E); apply pstr_eqb_spec in E; now subst|intros H; exists k; split; [exact H|apply pstr_eqb_spec; reflexivity]]. Qed.
(** What the code does, in terms of the lists of names *)
Definition act_of (k : pstr) : option atype + exn :=
  if is_in k int_names then inl (Some TIntA) else if is_in k float_names then inl (Some TFloatA) else if is_in k str_names then inl (Some TStrA) else inr (if is_in k fixed_names then AttributeError else NotImplementedError).
Lemma anim_set_is F n k v : settable k = true -> anim_set F n k v = match act_of k with inl (Some ty) => attr_set F (iuid n) k (set_conv ty v) | inl None => (F, Ok tt) | inr e => (F, Err e) end.
Proof.
  intros H. unfold settable in H. apply is_in_spec in H. revert H. unfold int_names, float_names, str_names, fixed_names, todo_names. cbn [app In]. intros H.
  repeat (destruct H as [<-|H]; [reflexivity|]). destruct H.
Qed.
Lemma assign_is a k v : anim_assign a k v = match act_of k with inl (Some ty) => put_attr k (set_conv ty v) a | inl None => (a, Ok tt) | inr e => (a, Err e) end.
Proof. unfold anim_assign, act_of. repeat match goal with |- context [is_in k ?l] => destruct (is_in k l); try reflexivity end. Qed.
Lemma settable_other k : settable k = true -> forall (v : aval) a k', In k' [s "type"; s "name"] -> forall ty, act_of k = inl (Some ty) -> aget k' (aset k v a) = aget k' a.
Proof.
  intros _ v a k' Hk' ty Ht. apply AnimProofs2.aget_aset_other. intros ->. destruct Hk' as [<-|[<-|[]]]; vm_compute in Ht; discriminate Ht.
Qed.
Lemma root_bulky F r : usual F -> fget 1 F = Some r -> bulky r = true /\ is_layer r = false.
Proof.
  intros U Hr. destruct (us_root F U) as (r' & Hr' & Hc). assert (r' = r) by congruence. subst r'. split; [unfold bulky; rewrite Hc; apply orb_true_r|].
  destruct (is_layer r) eqn:E; [|reflexivity]. unfold is_layer, named in *. apply andb_prop in E as [_ E]. apply andb_prop in Hc as [_ Hc]. apply pstr_eqb_spec in E, Hc. rewrite E in Hc. discriminate.
Qed.
Lemma root_attr F w g : usual F -> portrays F w -> (forall a k', In k' [s "type"; s "name"] -> aget k' (g a) = aget k' a) ->
  let G := fat 1 (with_iattrs g) F in usual G /\ portrays G (fst w, g (snd w)).
Proof.
  intros U [[[D1 D2] D3] (r & Hr & Ha)] Hg G0. destruct (root_bulky F r U Hr) as [Hb Hl]. change G0 with (G F 1 g). split; [exact (G_usual F U 1 r Hr Hb g Hg)|]. split; [split; [split|]|]; cbn [fst snd].
  - exact (G_shows F U 1 r Hr Hb g Hg _ D1).
  - exact (G_holds F U 1 r Hr Hb g Hg _ D2).
  - exact (G_tells_rest F U 1 r Hr Hb g Hg _ Hl D3).
  - exists (fi 1 g r). rewrite (G_get F U 1 r Hr Hb g Hg), Hr. split; [reflexivity|]. pose proof (fget_In _ _ _ Hr) as (_ & Eu & Et). destruct r as [|v nm b k]; [discriminate|]. cbn [iuid iattrs] in *. subst v b. reflexivity.
Qed.
(** *** Copies *)

Lemma short_plain c k up : In c layer_classes -> aget k (all_fields c) = Some (FShort up) -> plain_name k = true.
Proof.
  intros Hc H. assert (X : forallb (fun c => forallb (fun kf => match snd kf with FShort _ => plain_name (fst kf) | _ => true end) (all_fields c)) layer_classes = true) by (vm_compute; reflexivity).
  rewrite forallb_forall in X. specialize (X c Hc). rewrite forallb_forall in X. apply aget_In_any in H. exact (X _ H).
Qed.
Lemma desc_no_field c : In c layer_classes -> aget (s "desc") (all_fields c) = None.
Proof.
  intros Hc. assert (X : forallb (fun c => match aget (s "desc") (all_fields c) with None => true | Some _ => false end) layer_classes = true) by (vm_compute; reflexivity).
  rewrite forallb_forall in X. specialize (X c Hc). destruct (aget (s "desc") (all_fields c)); [discriminate|reflexivity].
Qed.
(** The copy is an assignment of a value that is in the document. *)
Lemma copy_is F w u k u2 k2 q part q2 cx : usual F -> portrays F w -> pact_means F w (PCopy u k u2 k2) (LpCopy q part q2 cx) ->
  exists x t, holder_of F q2 x /\ forget x = t /\ snd (fst (fst w)) q2 = Some t /\
    match from_tag t with
    | Err e => do_pact F (PCopy u k u2 k2) = (F, Err e) /\ list_pact w (LpCopy q part q2 cx) = (w, Err e)
    | Ok c => let v := PVal c t cx in
        do_pact F (PCopy u k u2 k2) = do_pact F (PLayer (WField u k v)) /\ list_pact w (LpCopy q part q2 cx) = list_pact w (LpLayer (LwAct (LAs q ByField (copied part v)))) /\
        pact_means F w (PLayer (WField u k v)) (LpLayer (LwAct (LAs q ByField (copied part v))))
    end.
Proof.
  intros U D (Hp & Hf & Hn & Hq & Hq2 & ->). destruct (snd (fst (fst w)) q2) as [t|] eqn:Et; [|now destruct Hq2]. destruct D as [[[_ V] _] _]. destruct (V q2 t Et) as (x & Hh & Ex). pose proof (us_wf F U) as W.
  destruct (place_value F u2 k2 q2 x Hp Hh W) as (n2 & Hu2 & _ & Hg). destruct (holder_site _ _ _ Hh) as (p & S & _ & Fx & Hb). destruct (ctx_value F q2 p x W S Fx) as [Ec _]. destruct (site_w _ _ _ _ W S) as (_ & Hxt & _).
  exists x, t. split; [exact Hh|]. split; [exact Ex|]. split; [reflexivity|]. cbn [do_pact list_pact pact_means wact_means]. rewrite Hu2, Hg, Et, Ex. destruct (from_tag t) as [c|e]; cbn [bind]; [|split; reflexivity]. rewrite Ec, Ex. split; [reflexivity|]. split; [reflexivity|].
  destruct Hf as (n & c0 & Hu & Hl & Hc & Hm). exists n, c0. split; [exact Hu|]. split; [exact Hl|]. split; [exact Hc|].
  assert (B : bare_val (PVal c t (ctx_of F q2))) by (rewrite <- Ex; split; [exact Hb|now destruct x]).
  destruct (aget k (all_fields c0)) as [[| |up]|] eqn:Ek; try contradiction; destruct Hm as [Hm ->]; exists q.
  - split; [exact Hm|]. split; [exact Hq|]. split; [exact B|reflexivity].
  - split; [exact Hm|]. split; [exact Hq|]. split; [|reflexivity]. split; [|split; [exact B|exact I]]. apply (short_plain c0 k up); [|exact Ek]. now apply (layer_class_in n).
Qed.
Definition right_pstep (F : forest) (w : pworld) (x : pact) (x' : lpact) : Prop :=
  snd (do_pact F x) = snd (list_pact w x') /\ usual (fst (do_pact F x)) /\ portrays (fst (do_pact F x)) (fst (list_pact w x')).
Lemma pact_step0 F w x x' : usual F -> portrays F w -> (forall u k u2 k2, x <> PCopy u k u2 k2) -> pact_means F w x x' -> right_pstep F w x x'.
Proof.
  intros U D Nc M. destruct x as [x|k v|u k u2 k2], x' as [x'|k' v'|q part q2 cx]; cbn [pact_means] in M; try contradiction; try (exfalso; now apply (Nc u k u2 k2)); clear Nc; unfold right_pstep; cbn [do_pact list_pact].
  - destruct D as [D T]. destruct (wact_step F (fst w) x x' U D M) as (A & B & C). pose proof (wact_topped (snd w) F (fst w) x x' U D M T) as T'. destruct (list_wact (fst w) x') as [w1 r]. cbn [fst snd] in *. split; [exact A|]. split; [exact B|]. split; [exact C|exact T'].
  - destruct M as (-> & -> & Hk). destruct D as [D T]. pose proof T as (r & Hr & Ha). rewrite Hr, (anim_set_is F r k v Hk), assign_is. pose proof (fget_uid _ _ _ Hr) as Eu. rewrite Eu.
    destruct (act_of k) as [[ty|]|e] eqn:Ea; cbn [fst snd].
    + destruct (set_conv ty v) as [y|e]; cbn [attr_set put_attr fst snd]; [|split; [reflexivity|split; [exact U|split; [exact D|exact T]]]].
      destruct (root_attr F w (aset k y) U (conj D T)) as [A B]; [intros a k' Hi; now apply (settable_other k Hk y a k' Hi ty)|]. split; [reflexivity|]. split; [exact A|exact B].
    + split; [reflexivity|split; [exact U|split; [exact D|exact T]]].
    + split; [reflexivity|split; [exact U|split; [exact D|exact T]]].
Qed.
Lemma pact_step F w x x' : usual F -> portrays F w -> pact_means F w x x' -> right_pstep F w x x'.
Proof.
  intros U D M. destruct x as [x|k v|u k u2 k2]; [apply (pact_step0 F w _ x' U D); [discriminate|exact M]|apply (pact_step0 F w _ x' U D); [discriminate|exact M]|].
  destruct x' as [x'|k' v'|q part q2 cx]; [contradiction|contradiction|]. destruct (copy_is F w u k u2 k2 q part q2 cx U D M) as (x & t & _ & _ & _ & X). unfold right_pstep. destruct (from_tag t) as [c|e].
  - cbv zeta in X. destruct X as (-> & -> & X). apply (pact_step0 F w _ _ U D); [discriminate|exact X].
  - destruct X as [-> ->]. split; [reflexivity|]. split; [exact U|exact D].
Qed.
Theorem pacts_right l : forall l' F w, usual F -> portrays F w -> pacts_mean F w l l' ->
  snd (pacts F l) = snd (list_pacts w l') /\ usual (fst (pacts F l)) /\ portrays (fst (pacts F l)) (fst (list_pacts w l')).
Proof.
  induction l as [|x l IH]; intros [|x' l'] F w U D H; cbn [pacts_mean] in H; try contradiction; [auto|]. destruct H as [H1 H2]. destruct (pact_step F w x x' U D H1) as (A & B & C).
  cbn [pacts list_pacts]. destruct (do_pact F x) as [F1 r]. destruct (list_pact w x') as [w1 r']. cbn [fst snd] in *. subst r'. destruct (IH l' F1 w1 B C H2) as (A2 & B2 & C2). destruct (pacts F1 l) as [F2 rs]. destruct (list_pacts w1 l') as [w2 rs']. cbn [fst snd] in *. split; [congruence|auto].
Qed.

(** ** As edits *)

Lemma pact_edits F w x x' : inv cnv F -> usual F -> portrays F w -> fgood F -> ftidy F -> pact_means F w x x' -> sound_pact x -> exists es, fst (do_pact F x) = edits F es /\ fine es.
Proof.
  intros Iv U D Gf Tf M S. destruct x as [x|k v|u k u2 k2], x' as [x'|k' v'|q part q2 cx]; try contradiction; [exact (wact_edits F (fst w) x x' Iv M S)| |].
  - destruct S as (S1 & S2 & S3 & _). exists [EAnim 1 k v]. split.
    + unfold edits. cbn [fold_left apply_edit do_pact]. unfold on_tag. destruct (fget 1 F); reflexivity.
    + apply fine_one; [discriminate|exact S1|split; [exact S2|intros _; exact S3]].
  - destruct (copy_is F w u k u2 k2 q part q2 cx U D M) as (x & t & Hh & Ex & _ & X). destruct (from_tag t) as [c|e]; [|destruct X as [-> _]; exists []; split; [reflexivity|apply fine_nil]].
    cbv zeta in X. destruct X as (-> & _ & X). apply (wact_edits F (fst w) _ _ Iv X).
    destruct (holder_site _ _ _ Hh) as (p & Si & _). destruct (site_w _ _ _ _ (us_wf F U) Si) as (_ & Hxt & Hxf & _ & Hxp & _).
    assert (Hx0 : iuid x <> 0).
    { intros E. pose proof (below cnv F q2 p x Iv (st_p _ _ _ _ Si)) as Hb. rewrite E in Hb. assert (Hq : q2 <> 0); [|specialize (Hb Hq Hxp); lia]. intros ->. clear Hb E. pose proof (st_p _ _ _ _ Si) as Hp. pose proof (st_P _ _ _ _ Si) as HP.
      destruct Iv as [Wf (a & kk & ra & rk & Hd & _)]. assert (Hi : In (IE 0 dname a kk) (fdesc F)) by (unfold fdesc; apply in_flat_map; eexists; split; [exact Hd|now left]). pose proof (fget_desc F _ Wf Hi) as Y. cbn [iuid] in Y. rewrite Y in Hp. injection Hp as <-. discriminate HP. }
    assert (G1 : good_val (PVal c t cx)) by (rewrite <- Ex; split; [now apply (fget_good (iuid x) F x Gf Hx0)|now destruct x]).
    assert (T1 : tidy_val (PVal c t cx)) by (rewrite <- Ex; split; [now apply (fget_tidy (iuid x) F x Tf Hx0)|now destruct x]).
    split; [exact G1|]. split; [exact T1|]. intros ->. exfalso. destruct M as (_ & (n & c0 & _ & _ & Hc & Hm) & _). rewrite (desc_no_field c0 (layer_class_in n c0 Hc)) in Hm. exact Hm.
Qed.
Lemma pacts_edits l : forall l' F w, inv cnv F -> usual F -> portrays F w -> fgood F -> ftidy F -> pacts_mean F w l l' -> Forall sound_pact l -> exists es, fst (pacts F l) = edits F es /\ fine es.
Proof.
  induction l as [|x l IH]; intros [|x' l'] F w Iv U D Gf Tf M S; cbn [pacts_mean] in M; try contradiction; [exists []; split; [reflexivity|apply fine_nil]|]. destruct M as [M1 M2]. inversion_clear S as [|? ? S1 S2].
  destruct (pact_edits F w x x' Iv U D Gf Tf M1 S1) as (e1 & E1 & F1). destruct (pact_step F w x x' U D M1) as (_ & B & C). cbn [pacts].
  assert (I1 : inv cnv (fst (do_pact F x))) by (rewrite E1; apply edits_inv; [apply F1|exact Iv]).
  assert (G1 : fgood (fst (do_pact F x))) by (rewrite E1; apply edits_good; [exact Gf|apply F1|apply F1]). assert (T1 : ftidy (fst (do_pact F x))) by (rewrite E1; apply edits_tidy; [exact Tf|apply F1|apply F1]).
  destruct (IH l' _ _ I1 B C G1 T1 M2 S2) as (e2 & E2 & F2). exists (e1 ++ e2). rewrite edits_app, <- E1. destruct (do_pact F x) as [Fx rx]. cbn [fst] in *. destruct (pacts Fx l) as [Fl rl]. cbn [fst] in *. split; [exact E2|].
  destruct F1 as (A1 & A2 & A3), F2 as (B1 & B2 & B3). repeat split; apply Forall_app; auto.
Qed.

(** ** The frame rate *)

Definition fps_ok (a : attrs) : Prop := match aget (s "fps") a with Some (AFlo q) => PyFloat.is_dbl q | Some (AStr _) | None => True | Some _ => False end.
Lemma copy_snd w q part q2 cx : snd (fst (list_pact w (LpCopy q part q2 cx))) = snd w.
Proof. cbn [list_pact]. destruct (snd (fst (fst w)) q2) as [t|]; [|reflexivity]. destruct (from_tag t); [|reflexivity]. destruct (list_wact (fst w) _). reflexivity. Qed.
Lemma pact_fps F w x x' : pact_means F w x x' -> sound_pact x -> fps_ok (snd w) -> fps_ok (snd (fst (list_pact w x'))).
Proof.
  intros M S P. destruct x as [x|k v|u k u2 k2], x' as [x'|k' v'|q part q2 cx]; cbn [pact_means sound_pact] in *; try contradiction; [cbn [list_pact]| |now rewrite copy_snd]; [destruct (list_wact (fst w) x'); exact P|].
  destruct M as (-> & -> & Hk). destruct S as (_ & _ & _ & Sq). cbn [list_pact]. rewrite assign_is. destruct (act_of k) as [[ty|]|e] eqn:Ea; [|exact P|exact P]. destruct (set_conv ty v) as [y|e] eqn:Ey; [|exact P]. cbn [put_attr fst snd].
  destruct (pstr_eqb k (s "fps")) eqn:Ek.
  - apply pstr_eqb_spec in Ek. subst k. vm_compute in Ea. injection Ea as <-. cbn [set_conv] in Ey. destruct (py_float v) as [q|e] eqn:Eq; [|discriminate]. cbn [bind] in Ey. injection Ey as <-. unfold fps_ok. rewrite AnimProofs2.aget_aset_same. exact (Sq eq_refl q eq_refl).
  - unfold fps_ok. rewrite AnimProofs2.aget_aset_other; [exact P|]. intros E. rewrite <- E in Ek. discriminate Ek.
Qed.
Lemma pacts_fps l : forall l' F w, pacts_mean F w l l' -> Forall sound_pact l -> fps_ok (snd w) -> fps_ok (snd (fst (list_pacts w l'))).
Proof.
  induction l as [|x l IH]; intros [|x' l'] F w M S P; cbn [pacts_mean] in M; try contradiction; [exact P|]. destruct M as [M1 M2]. inversion_clear S as [|? ? S1 S2]. pose proof (pact_fps F w x x' M1 S1 P) as P1. cbn [list_pacts].
  specialize (IH l' _ _ M2 S2 P1). destruct (list_pact w x') as [w1 r]. cbn [fst] in *. destruct (list_pacts w1 l') as [w2 rs]. exact IH.
Qed.

(** ** What was assigned last *)

Definition assigns (k : pstr) (x : lpact) : bool := match x with LpAnim k' _ => pstr_eqb k' k | _ => false end.
Lemma anim_assign_other a k v j : j <> k -> aget j (fst (anim_assign a k v)) = aget j a.
Proof.
  intros Hn. rewrite assign_is. destruct (act_of k) as [[ty|]|e]; try reflexivity. destruct (set_conv ty v); [|reflexivity]. cbn [put_attr fst]. now apply AnimProofs2.aget_aset_other.
Qed.
Lemma pacts_other k l : forall w, existsb (assigns k) l = false -> aget k (snd (fst (list_pacts w l))) = aget k (snd w).
Proof.
  induction l as [|x l IH]; intros w H; [reflexivity|]. cbn [existsb] in H. apply orb_false_elim in H as [H1 H2]. cbn [list_pacts]. specialize (IH (fst (list_pact w x)) H2).
  assert (E : aget k (snd (fst (list_pact w x))) = aget k (snd w)).
  { destruct x as [x|j v|q part q2 cx]; [cbn [list_pact]; destruct (list_wact (fst w) x); reflexivity| |now rewrite copy_snd]. cbn [list_pact]. cbn [assigns] in H1. rewrite <- (anim_assign_other (snd w) j v k) by (intros ->; rewrite pstr_eqb_refl in H1; discriminate). destruct (anim_assign (snd w) j v). reflexivity. }
  destruct (list_pact w x) as [w1 r]. cbn [fst] in *. destruct (list_pacts w1 l) as [w2 rs]. cbn [fst] in *. now rewrite IH.
Qed.
Lemma list_pacts_fst l1 : forall w l2, fst (list_pacts w (l1 ++ l2)) = fst (list_pacts (fst (list_pacts w l1)) l2).
Proof. induction l1 as [|x l1 IH]; intros w l2; [reflexivity|]. cbn [app list_pacts]. destruct (list_pact w x) as [w1 r]. specialize (IH w1 l2). destruct (list_pacts w1 (l1 ++ l2)). destruct (list_pacts w1 l1) as [w2 rs]. exact IH. Qed.
