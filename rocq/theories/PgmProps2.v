(** C161: what is copied from one layer to another is a copy: what is done to one of them afterwards does not show in the other. *)
From Coq Require Import Lia.
From Verif Require AnimProofs2 AnimProofs4 TlSpec PyFmtProofs ValSpec ValProofs ValProps CpyProps.
From Verif Require Import XpSpec SerModel SerProofs SavSpec SavProofs SavSpec2 SavProofs2 SavProofs3 SavProofs4 SavProps2 WrProofs2 WrProofs3 WrProofs4 WrProofs5 EndSpec.
From Verif Require Import XpSpec AnimModel AnimSpec AnimProofs3 AnimProofs5 AnimProps LayModel DocProofs DocProofs2 LaySpec LayProofs LayProofs2 LayProofs3 LayProofs4 LayProofs5 LayProofs6 LayProofs7 VarSpec VarProofs LoopModel MovSpec MovProofs MovProofs2 MovProps MixSpec MixProofs WrSpec ClsProofs PrmSpec PrmProofs PrmProofs2 PrmProofs3 PrmProps WldSpec WldProofs WldProofs2 WldProps EndProofs EndProofs2 EndProps PgmSpec PgmProofs PgmProps.
Local Open Scope N_scope.

(** The step assigns to the parameter q, or to what is in it. *)
Definition works_on (q : N) (x : lpact) : Prop :=
  match x with
  | LpLayer (LwAct (LAs q' _ _)) | LpLayer (LwAct (LEd q' _ _)) | LpCopy q' _ _ _ => q' = q
  | _ => False
  end.
(** What [layer['k']] gives, for every layer and name by which the parameter q is found *)
Definition reads (F : forest) (q : N) (t : node) : Prop :=
  forall u k, place F u k = Some q -> exists n x, fget u F = Some n /\ forget x = t /\ layer_getitem n k = (let* c := from_tag t in Ok (x, c)).

Lemma on_var_other st q f q' : q' <> q -> fst (on_var st q f) q' = st q'.
Proof. intros H. unfold on_var. destruct (st q) as [t|]; [|reflexivity]. destruct (f t) as [t' r]. cbn [fst]. unfold vput. destruct (N.eqb_spec q' q); [contradiction|reflexivity]. Qed.
Lemma step_other F w x x' q : usual F -> portrays F w -> pact_means F w x x' -> snd (fst (fst w)) q <> None -> ~ works_on q x' -> snd (fst (fst (fst (list_pact w x')))) q = snd (fst (fst w)) q.
Proof.
  intros U D M Hq Hn. destruct x' as [[y|b t|u k v|r]|k v|q' part q2 cx]; cbn [list_pact list_wact].
  - destruct w as [[[h st] as_] aa]. cbn [fst snd] in *. destruct y as [m|q' how v|q' cx e]; cbn [list_act works_on] in *.
    + destruct (list_move h m). reflexivity.
    + pose proof (on_var_other st q' (fun t => val_assign t how v) q ltac:(congruence)) as X. destruct (on_var st q' _). exact X.
    + pose proof (on_var_other st q' (fun t => val_edit t cx e) q ltac:(congruence)) as X. destruct (on_var st q' _). exact X.
  - destruct x as [x|k v|]; [|contradiction|contradiction]. cbn [pact_means] in M. destruct x as [y|c|u k v]; cbn [wact_means] in M; [contradiction| |].
    + destruct M as (_ & _ & ->). cbn [fst snd birth]. destruct (existsb _ _) eqn:E; [|reflexivity]. exfalso. apply existsb_exists in E as (z & Hz & Ez). apply N.eqb_eq in Ez. subst z.
      apply label_fresh in Hz. apply Hz. destruct D as [[[_ V] _] _]. destruct (snd (fst (fst w)) q) as [t0|] eqn:Et; [|now destruct Hq]. destruct (V q t0 Et) as (x & (p & Hp & _) & _). now apply fget_uids in Hp.
    + destruct M as (n & c & _ & _ & _ & M). destruct (aget k (all_fields c)) as [[| |]|]; [destruct M as (? & _ & _ & _ & M); discriminate M|discriminate M|destruct M as (? & _ & _ & _ & M); discriminate M|destruct M as [(_ & _ & M)|[_ M]]; discriminate M].
  - destruct (snd (fst w) u) as [a|]; [|reflexivity]. destruct (attr_assign a k v). reflexivity.
  - reflexivity.
  - destruct (anim_assign (snd w) k v). reflexivity.
  - cbn [works_on] in Hn. destruct (snd (fst (fst w)) q2) as [t|]; [|reflexivity]. destruct (from_tag t) as [c|e]; [|reflexivity]. destruct w as [[[h st] as_] aa]. cbn [fst snd list_wact list_act] in *.
    pose proof (on_var_other st q' (fun t0 => val_assign t0 ByField (copied part (PVal c t cx))) q ltac:(congruence)) as X. destruct (on_var st q' _). exact X.
Qed.
Lemma steps_other q l : forall l' F w, usual F -> portrays F w -> pacts_mean F w l l' -> snd (fst (fst w)) q <> None -> (forall x', In x' l' -> ~ works_on q x') ->
  snd (fst (fst (fst (list_pacts w l')))) q = snd (fst (fst w)) q.
Proof.
  induction l as [|x l IH]; intros [|x' l'] F w U D M Hq Hn; cbn [pacts_mean] in M; try contradiction; [reflexivity|]. destruct M as [M1 M2]. destruct (pact_step F w x x' U D M1) as (_ & B & C).
  pose proof (step_other F w x x' q U D M1 Hq (Hn x' (or_introl eq_refl))) as E. cbn [list_pacts]. specialize (IH l' _ _ B C M2). destruct (list_pact w x') as [w1 r]. cbn [fst] in *. rewrite E in IH. specialize (IH Hq (fun y Hy => Hn y (or_intror Hy))). destruct (list_pacts w1 l'). exact IH.
Qed.
Lemma reads_it F w q t : usual F -> portrays F w -> snd (fst (fst w)) q = Some t -> reads F q t.
Proof.
  intros U [[[_ V] _] _] E u k Hp. destruct (V q t E) as (x & Hh & Ex). destruct (place_value F u k q x Hp Hh (us_wf F U)) as (n & Hu & _ & Hg). exists n, x. rewrite Ex in Hg. auto.
Qed.

(** Whatever a program does to other parameters, to layers and to the animation, wherever it moves them: a parameter that it does not assign to is read as
    before, by every layer and name that it then has. *)
Theorem C161_untouched : forall F w l l' q t, usual F -> portrays F w -> pacts_mean F w l l' -> snd (fst (fst w)) q = Some t -> (forall x', In x' l' -> ~ works_on q x') ->
  reads F q t /\ reads (fst (pacts F l)) q t.
Proof.
  intros F w l l' q t U D M Hq Hn. destruct (pacts_right l l' F w U D M) as (_ & U' & D'). split; [now apply (reads_it F w)|]. apply (reads_it _ _ _ _ U' D'). rewrite (steps_other q l l' F w U D M); [exact Hq|congruence|exact Hn].
Qed.
Print Assumptions C161_untouched.

(** So for copies. After [layer.k = layer2['k2']], the first parameter is what the assignment made of it, and the second one is what it was; and they are
    that for as long as nothing is assigned to the one or to the other. *)
Theorem C161_independent : forall F w u k u2 k2 q part q2 cx t t2 c2, usual F -> portrays F w -> pact_means F w (PCopy u k u2 k2) (LpCopy q part q2 cx) ->
  snd (fst (fst w)) q = Some t -> snd (fst (fst w)) q2 = Some t2 -> from_tag t2 = Ok c2 ->
  let R := val_assign t ByField (copied part (PVal c2 t2 cx)) in let F1 := fst (do_pact F (PCopy u k u2 k2)) in let w1 := fst (list_pact w (LpCopy q part q2 cx)) in
  snd (do_pact F (PCopy u k u2 k2)) = snd R /\
  forall l l', pacts_mean F1 w1 l l' -> ((forall x', In x' l' -> ~ works_on q x') -> reads (fst (pacts F1 l)) q (fst R)) /\ ((forall x', In x' l' -> ~ works_on q2 x') -> reads (fst (pacts F1 l)) q2 t2).
Proof.
  intros F w u k u2 k2 q part q2 cx t t2 c2 U D M Hq Hq2 Hc R F1 w1. destruct (pact_step F w _ _ U D M) as (A & B & C).
  assert (Hne : q <> q2) by (destruct M as (_ & _ & H & _); exact H).
  assert (E : snd (list_pact w (LpCopy q part q2 cx)) = snd R /\ snd (fst (fst w1)) q = Some (fst R) /\ snd (fst (fst w1)) q2 = Some t2).
  { unfold w1. cbn [list_pact]. rewrite Hq2, Hc. destruct w as [[[h st] as_] aa]. cbn [fst snd list_wact list_act] in *. unfold on_var. rewrite Hq. fold R. destruct R as [m r]. cbn [fst snd]. unfold vput. rewrite N.eqb_refl. destruct (N.eqb_spec q2 q); [congruence|]. auto. }
  destruct E as (E1 & E2 & E3). fold F1 in B, C. fold w1 in C. split; [now rewrite A|]. intros l l' Ml. split; intros Hn.
  - exact (proj2 (C161_untouched F1 w1 l l' q _ B C Ml E2 Hn)).
  - exact (proj2 (C161_untouched F1 w1 l l' q2 _ B C Ml E3 Hn)).
Qed.
Print Assumptions C161_independent.
(** Colours, texts and truth values arrive: the colours to six decimals. *)
Theorem C161_arrives_partial : forall t t2 cx c, from_tag t = Ok c -> is_animated t2 = false ->
  (forall l, c = VColor -> color_tuple t2 = Ok l -> exists m, val_assign t ByField (PVal VColor t2 cx) = (m, Ok tt) /\ from_tag m = Ok VColor /\ color_tuple m = Ok (ValSpec.six_decimals l)) /\
  (c = VString -> exists m, val_assign t ByField (PVal VString t2 cx) = (m, Ok tt) /\ forall cy, get_value VString m cy = get_value VString t2 cx) /\
  (forall b, c = VBool -> get_value VBool t2 cx = Ok (PBool b) -> exists m, val_assign t ByField (PVal VBool t2 cx) = (m, Ok tt) /\ from_tag m = Ok VBool /\ forall cy, get_value VBool m cy = Ok (PBool b)).
Proof.
  intros t t2 cx c Hc An. unfold val_assign. rewrite Hc. split; [|split].
  - intros l -> Hl. pose proof (mapM_length _ _ _ Hl) as HL. destruct l as [|q1 [|q2 [|q3 [|q4 [|? ?]]]]]; try discriminate. exists (color_node [] [q1; q2; q3; q4]). cbn [set_value]. unfold color_set. cbn [color_conv]. rewrite Hl. split; [reflexivity|]. split; [reflexivity|]. now rewrite ValProofs.color_tuple_node.
  - intros ->. destruct (CpyProps.C71_strings t t2 cx None An) as (m & E & _). exists m. split; [exact E|]. intros cy. destruct (CpyProps.C71_strings t t2 cx cy An) as (m' & E' & G). assert (m' = m) by congruence. now subst.
  - intros b -> Hb. destruct (ValProps.C71_bools_copy_partial t t2 cx b Hb) as (m & E & G). exists m. split; [exact E|]. split; [apply (G None)|]. intros cy. apply (G cy).
Qed.
Print Assumptions C161_arrives_partial.
(** Numbers and angles don't. The layer keeps the value that it had. *)
Theorem C161_numbers_refuted : forall F w u k u2 k2 q q2 cx t t2 c, usual F -> portrays F w -> pact_means F w (PCopy u k u2 k2) (LpCopy q None q2 cx) ->
  snd (fst (fst w)) q = Some t -> snd (fst (fst w)) q2 = Some t2 -> from_tag t = Ok c -> from_tag t2 = Ok c -> In c [VReal; VInteger; VAngle] ->
  snd (do_pact F (PCopy u k u2 k2)) = Err TypeError /\ reads (fst (do_pact F (PCopy u k u2 k2))) q t.
Proof.
  intros F w u k u2 k2 q q2 cx t t2 c U D M Hq Hq2 Hc Hc2 Hi. destruct (C161_independent F w u k u2 k2 q None q2 cx t t2 c U D M Hq Hq2 Hc2) as [A B].
  assert (E : val_assign t ByField (PVal c t2 cx) = (t, Err TypeError)) by (unfold val_assign; rewrite Hc; now apply ValProps.C71_numbers_refuted). cbn [copied] in A, B. rewrite E in A, B. split; [exact A|].
  destruct (B [] [] I) as [B1 _]. apply B1. intros x' [].
Qed.
Print Assumptions C161_numbers_refuted.

(** Two circles. The first one is made red, and the second one gets its colour; then the first one is made blue. Its radius can't be copied. *)
Definition red : pyval := PTuple [PFlo 1; PFlo 0; PFlo 0; PFlo 1].
Definition blue : pyval := PTuple [PFlo 0; PFlo 0; PFlo 1; PFlo 1].
Definition cprogram : list pact :=
  [PLayer (WNew cls_Circle); PLayer (WNew cls_Circle); PLayer (WField 20 (s "color") red); PCopy 43 (s "color") 20 (s "color"); PLayer (WField 20 (s "color") blue); PCopy 43 (s "radius") 20 (s "radius")].
Definition clprogram : list lpact :=
  [LpLayer (LwNew 20 (tag_of cls_Circle)); LpLayer (LwNew 43 (tag_of cls_Circle)); LpLayer (LwAct (LAs 27 ByField red)); LpCopy 50 None 27 None; LpLayer (LwAct (LAs 27 ByField blue)); LpCopy 56 None 33 None].
Lemma field_found F u k q n c vc d : fget u F = Some n -> is_layer n = true -> layer_class n = Ok c -> aget k (all_fields c) = Some (FParam vc d) -> place F u k = Some q -> field_is F u k q None.
Proof. intros H1 H2 H3 H4 H5. exists n, c. split; [exact H1|]. split; [exact H2|]. split; [exact H3|]. rewrite H4. split; [exact H5|reflexivity]. Qed.
Definition circle_in (F : forest) (u : N) : inode := match fget u F with Some n => n | None => IT [] end.
Lemma color_found F u q : fget u F = Some (circle_in F u) -> is_layer (circle_in F u) = true -> layer_class (circle_in F u) = Ok cls_Circle -> place F u (s "color") = Some q -> field_is F u (s "color") q None.
Proof. intros H1 H2 H3 H4. eapply field_found; [exact H1|exact H2|exact H3| |exact H4]. reflexivity. Qed.
Lemma radius_found F u q : fget u F = Some (circle_in F u) -> is_layer (circle_in F u) = true -> layer_class (circle_in F u) = Ok cls_Circle -> place F u (s "radius") = Some q -> field_is F u (s "radius") q None.
Proof. intros H1 H2 H3 H4. eapply field_found; [exact H1|exact H2|exact H3| |exact H4]. reflexivity. Qed.
Lemma cprogram_means : pacts_mean (doc_forest xblank) pworld0 cprogram clprogram.
Proof.
  unfold cprogram, clprogram. cbn [pacts_mean pact_means wact_means]. do 3 (split; [pmeans|]). split; [|split; [pmeans|split; [|exact I]]].
  - split; [vm_compute; reflexivity|]. split; [apply color_found; vm_compute; reflexivity|]. split; [discriminate|]. split; [vm_compute; discriminate|]. split; [vm_compute; discriminate|vm_compute; reflexivity].
  - split; [vm_compute; reflexivity|]. split; [apply radius_found; vm_compute; reflexivity|]. split; [discriminate|]. split; [vm_compute; discriminate|]. split; [vm_compute; discriminate|vm_compute; reflexivity].
Qed.
(** What is raised, and the colours in the end *)
Example C161_nonvacuous : usual (doc_forest xblank) /\ portrays (doc_forest xblank) pworld0 /\ pacts_mean (doc_forest xblank) pworld0 cprogram clprogram /\
  snd (pacts (doc_forest xblank) cprogram) = [Ok tt; Ok tt; Ok tt; Ok tt; Ok tt; Err TypeError] /\
  let F := fst (pacts (doc_forest xblank) cprogram) in let st := snd (fst (fst (fst (list_pacts pworld0 clprogram)))) in
  place F 20 (s "color") = Some 27 /\ place F 43 (s "color") = Some 50 /\ match st 27 with Some t => color_tuple t | None => Err EUnmodelled end = Ok [0; 0; 1; 1]%Q /\ match st 50 with Some t => color_tuple t | None => Err EUnmodelled end = Ok [1; 0; 0; 1]%Q /\
  (forall x', In x' [LpLayer (LwAct (LAs 27 ByField blue)); LpCopy 56 None 33 None] -> ~ works_on 50 x').
Proof.
  split; [exact eforest_usual|]. split; [split; [exact eforest_depicts|eexists; split; vm_compute; reflexivity]|]. split; [exact cprogram_means|]. split; [vm_compute; reflexivity|].
  split; [vm_compute; reflexivity|]. split; [vm_compute; reflexivity|]. split; [vm_compute; reflexivity|]. split; [vm_compute; reflexivity|]. intros x' [<-|[<-|[]]]; cbn [works_on]; discriminate.
Qed.
