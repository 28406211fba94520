(** C160: programs that also say what the animation is like, what they leave behind, and what is read after saving and loading. *)
From Coq Require Import Lia.
From Verif Require AnimProofs2 AnimProofs4 TlSpec PyFmtProofs.
From Verif Require Import XpSpec SerModel SerProofs SavSpec SavProofs SavSpec2 SavProofs2 SavProofs3 SavProofs4 SavProps2 WrProofs2 WrProofs3 WrProofs4 WrProofs5 EndSpec.
From Verif Require Import XpSpec AnimModel AnimSpec AnimProofs3 AnimProofs5 AnimProps LayModel DocProofs DocProofs2 LaySpec LayProofs LayProofs2 LayProofs3 LayProofs4 LayProofs5 LayProofs6 LayProofs7 VarSpec VarProofs LoopModel MovSpec MovProofs MovProofs2 MovProps MixSpec MixProofs WrSpec ClsProofs PrmSpec PrmProofs PrmProofs2 PrmProofs3 PrmProps WldSpec WldProofs WldProofs2 WldProps EndProofs EndProofs2 EndProps PgmSpec PgmProofs.
Local Open Scope N_scope.

(** Whatever a program does, it raises the exceptions that the lists, variables and dictionaries say, and leaves behind what they say: setting what the
    animation is like changes nothing in layers, and nothing done to layers changes what the animation is like. *)
Theorem C160_program : forall F w l l', usual F -> portrays F w -> pacts_mean F w l l' ->
  snd (pacts F l) = snd (list_pacts w l') /\ usual (fst (pacts F l)) /\ portrays (fst (pacts F l)) (fst (list_pacts w l')).
Proof. intros F w l l' U D M. exact (pacts_right l l' F w U D M). Qed.
Print Assumptions C160_program.
(** Times in it are read with the frame rate that was assigned last. *)
Theorem C160_times : forall F w r v, usual F -> portrays F w -> root_of F r -> iuid r = 1 -> inside v r -> ctx_of F (iuid v) = Some (snd w).
Proof.
  intros F w r v U [_ (r' & Hr' & <-)] Hr Eu Hv. pose proof (us_wf F U) as W. assert (Hrd : fget 1 F = Some r) by (destruct (root_anc F r W Hr) as (d & _ & E & _); now rewrite <- Eu).
  assert (r' = r) by congruence. subst r'. apply (ctx_in_doc F r v W Hr); [|right; now apply AnimProofs4.desc_inside]. destruct (us_root F U) as (r2 & Hr2 & Hc). assert (r2 = r) by congruence. subst r2. unfold named in Hc. apply andb_prop in Hc as [_ Hc]. now apply pstr_eqb_spec.
Qed.
Print Assumptions C160_times.

Lemma pacts_split F w l1 : forall l' k v l2, usual F -> portrays F w -> pacts_mean F w (l1 ++ PAnim k v :: l2) l' ->
  exists l1' l2', l' = l1' ++ LpAnim k v :: l2' /\ settable k = true /\ snd (do_pact (fst (pacts F l1)) (PAnim k v)) = snd (list_pact (fst (list_pacts w l1')) (LpAnim k v)) /\
    ((forall v', ~ In (PAnim k v') l2) -> existsb (assigns k) l2' = false).
Proof.
  revert F w. induction l1 as [|x l1 IH]; intros F w [|x' l'] k v l2 U D M; cbn [app pacts_mean] in M; try contradiction; destruct M as [M1 M2]; destruct (pact_step F w _ _ U D M1) as (A & B & C).
  - exists [], l'. destruct x' as [|k' v'|]; [contradiction| |contradiction]. destruct M1 as (-> & -> & Hk). split; [reflexivity|]. split; [exact Hk|]. split; [exact A|]. clear A B C U D. intros Hn. set (F1 := fst (do_pact F (PAnim k v))) in *. set (w1 := fst (list_pact w (LpAnim k v))) in *. clearbody F1 w1. clear F w. revert l' F1 w1 M2 Hn. induction l2 as [|y l2 IH]; intros [|y' l'] F w M Hn; cbn [pacts_mean] in M; try contradiction; [reflexivity|]. destruct M as [N1 N2]. cbn [existsb].
    rewrite (IH l' _ _ N2) by (intros v' Hi; apply (Hn v'); now right). rewrite orb_false_r. destruct y as [y|j u|], y' as [y'|j' u'|]; cbn [pact_means] in N1; try contradiction; [reflexivity| |reflexivity]. destruct N1 as (-> & -> & _). cbn [assigns]. destruct (pstr_eqb j k) eqn:E; [|reflexivity]. apply pstr_eqb_spec in E. subst j. exfalso. apply (Hn u). now left.
  - destruct (IH _ _ l' k v l2 B C M2) as (l1' & l2' & -> & Hk & E & Hn). exists (x' :: l1'), l2'. split; [reflexivity|]. split; [exact Hk|]. split; [|exact Hn]. cbn [pacts list_pacts]. destruct (do_pact F x) as [Fx rx]. destruct (list_pact w x') as [wx rx']. cbn [fst] in *. destruct (pacts Fx l1). destruct (list_pacts wx l1'). exact E.
Qed.
Lemma said_anim st G r2 k v a0 cx : settable k = true -> snd (anim_assign a0 k v) = Ok tt -> (forall q, py_float v = Ok q -> is_dbl q) -> same_times cx (ctx_of G (iuid r2)) ->
  aget k (iattrs r2) = option_map (fun v => AStr (aval_str v)) (aget k (fst (anim_assign a0 k v))) -> anim_get st G r2 k = anim_said k v cx.
Proof.
  intros Hk Hr Hq Ht Ha. rewrite assign_is in *. unfold act_of, anim_said in *.
  destruct (is_in k int_names) eqn:E1; [|destruct (is_in k float_names) eqn:E2; [|destruct (is_in k str_names) eqn:E3; [|discriminate]]]; cbn [set_conv] in *.
  - destruct (py_int v) as [z|e]; [|discriminate]. cbn [bind put_attr fst] in *. rewrite AnimProofs2.aget_aset_same in Ha. cbn [option_map aval_str] in Ha. apply is_in_spec in E1.
    assert (X : exists d, anim_get st G r2 k = attr_get k TIntA d r2) by (destruct E1 as [<-|[<-|[<-|[]]]]; eexists; reflexivity). destruct X as (d & ->). unfold attr_get. rewrite Ha. cbn [attr_conv]. now rewrite PyFmtProofs.parse_int_dec.
  - destruct (py_float v) as [q|e] eqn:Eq; [|discriminate]. cbn [bind put_attr fst] in *. rewrite AnimProofs2.aget_aset_same in Ha. cbn [option_map aval_str] in Ha. apply is_in_spec in E2.
    assert (X : exists d, anim_get st G r2 k = attr_get k TFloatA d r2) by (destruct E2 as [<-|[<-|[<-|[<-|[<-|[<-|[<-|[]]]]]]]]; eexists; reflexivity). destruct X as (d & ->). unfold attr_get. rewrite Ha. cbn [attr_conv float_of_aval]. rewrite PyFmtProofs2.parse_repr by now apply Hq. reflexivity.
  - destruct (py_str v) as [x|e]; [|discriminate]. cbn [bind put_attr fst] in *. rewrite AnimProofs2.aget_aset_same in Ha. cbn [option_map aval_str] in Ha. apply is_in_spec in E3. destruct E3 as [<-|[<-|[<-|[]]]].
    + change (pstr_eqb (s "view_box") (s "end_time")) with false. cbn iota. rewrite (anim_get_attr st G r2 (s "view_box") TStrA (snd (match aget (s "view_box") anim_attrs with Some x => x | None => (TStrA, PNone) end))) by reflexivity. unfold attr_get. now rewrite Ha.
    + change (pstr_eqb (s "bgcolor") (s "end_time")) with false. cbn iota. rewrite (anim_get_attr st G r2 (s "bgcolor") TStrA (snd (match aget (s "bgcolor") anim_attrs with Some x => x | None => (TStrA, PNone) end))) by reflexivity. unfold attr_get. now rewrite Ha.
    + change (pstr_eqb (s "end_time") (s "end_time")) with true. cbn iota. change (anim_get st G r2 (s "end_time")) with (let* t := end_time G r2 in Ok (PT t)). unfold end_time, time_of_str. rewrite Ha. cbn [aval_str]. now rewrite (Ht x).
Qed.

(** The animation is new or was loaded. After the program, it is saved, and the file is loaded. All layers are then as the lists, variables and
    dictionaries say; what the animation is like is what its dictionary says; and each field of it gives what was assigned to it last, as long as that
    is a number of Python. Times are what they mean at the frame rate assigned last. *)
Theorem C160_saved : forall void can a fs w l l' name x kd, starts a -> usual (doc_forest (am_root a)) -> depicts (doc_forest (am_root a)) w ->
  let w0 := (w, tag_attrs (am_root a)) in
  pacts_mean (doc_forest (am_root a)) w0 l l' -> Forall sound_pact l -> (forall n, target_of (mkAnim n (am_kind a) (am_file a)) name x kd) -> can x = true ->
  let F := fst (pacts (doc_forest (am_root a)) l) in let w' := fst (list_pacts w0 l') in
  exists r fs' a2 r2 ch, fget 1 F = Some r /\ save void can fs (mkAnim (forget r) (am_kind a) (am_file a)) name = (fs', mkAnim (forget r) kd (Some x), Ok tt) /\
    load fs' x = Ok a2 /\ doc_top (doc_forest (am_root a2)) = Some r2 /\ children KAnim r2 = Ok ch /\
    (forall k, aget k (iattrs r2) = option_map (fun v => AStr (aval_str v)) (aget k (snd w'))) /\
    (forall st l1 k v l2, l = l1 ++ PAnim k v :: l2 -> snd (do_pact (fst (pacts (doc_forest (am_root a)) l1)) (PAnim k v)) = Ok tt -> (forall v', ~ In (PAnim k v') l2) ->
       (forall q, py_float v = Ok q -> is_dbl q) -> anim_get st (doc_forest (am_root a2)) r2 k = anim_said k v (Some (snd w'))) /\
    Forall2 (told (fst w') (place F) (Some (snd w')) (doc_forest (am_root a2))) (fst (fst (fst w')) 1) ch.
Proof.
  intros void can a fs w l l' name x kd St U D w0 M So Tg C F w'.
  assert (X : writable (am_root a) /\ tidy (am_root a) /\ is_tag (am_root a) = true).
  { destruct St as [L|(T & fs0 & file & L)].
    - assert (Ea : am_root a = xblank) by (unfold xblank; now rewrite L). destruct xblank_ok as (W & _ & Ht). rewrite <- Ea in W, Ht. split; [exact W|]. split; [|exact Ht]. rewrite Ea. apply tidyb_ok. vm_compute. reflexivity.
    - apply AnimProofs2.load_is in L as (_ & W & _ & Ht & _). auto. }
  destruct X as (W & T & Ht). assert (X : exists at_ k, am_root a = El (s "canvas") at_ k).
  { destruct (am_root a) as [|nm at_ k]; [discriminate|]. destruct (us_root _ U) as (r & Hr & Hc). destruct (root_there nm _ (doc_inv nm at_ k)) as (ra & rk & E). rewrite E in Hr. injection Hr as <-. unfold named in Hc. cbn [itag iname andb] in Hc. apply pstr_eqb_spec in Hc. subst nm. eauto. }
  destruct X as (at_ & k & Ea). assert (Iv : inv (s "canvas") (doc_forest (am_root a))) by (rewrite Ea; apply doc_inv).
  assert (T0 : topped (tag_attrs (am_root a)) (doc_forest (am_root a))).
  { rewrite Ea. destruct (AnimProofs5.doc_forest_top (s "canvas") at_ k) as (k' & -> & _ & Hw). exists (IE 1 (s "canvas") at_ k'). split; [|reflexivity]. apply (fget_desc _ (IE 1 (s "canvas") at_ k') Hw). rewrite fdesc_IE. right. apply in_or_app. left. rewrite fdesc_IE. now left. }
  assert (Po : portrays (doc_forest (am_root a)) w0) by (split; [exact D|exact T0]).
  destruct (pacts_edits l l' _ w0 Iv U Po (doc_good _ W) (doc_tidy _ T) M So) as (es & Ees & M1 & M2 & M3). fold F in Ees. destruct (pacts_right l l' _ w0 U Po M) as (_ & U' & D' & T'). fold F in U', D', T'. fold w' in D', T'.
  destruct T' as (r & Hr & Hra).
  assert (Pf : plain_fps r).
  { unfold plain_fps. rewrite Hra. apply (pacts_fps l l' _ w0 M So). assert (Tr0 : exists r0, iattrs r0 = tag_attrs (am_root a)) by (exists (IE 0 [] (tag_attrs (am_root a)) []); reflexivity). destruct Tr0 as (r0 & E0). pose proof (starts_fps a r0 St E0) as X. unfold plain_fps in X. rewrite E0 in X. exact X. }
  pose proof (edits_good es _ (doc_good _ W) M1 M2) as Gf. pose proof (edits_tidy es _ (doc_tidy _ T) M1 M3) as Tf. pose proof (edits_inv _ es _ M1 Iv) as Iv'. rewrite <- Ees in Gf, Tf, Iv'.
  assert (W2 : writable (forget r)) by (apply (fget_good 1 _ _ Gf); [discriminate|exact Hr]). assert (T2 : tidy (forget r)) by (apply (fget_tidy 1 _ _ Tf); [discriminate|exact Hr]).
  assert (Eu : iuid r = 1 /\ itag r = true) by (apply fget_In in Hr as (_ & E1 & E2); auto). destruct Eu as [Eu Er].
  assert (Tr : is_tag (forget r) = true) by (destruct r; [discriminate|reflexivity]).
  destruct (saved_loads void can fs (mkAnim (forget r) (am_kind a) (am_file a)) name x kd (Tg _) C W2 Tr) as (fs' & S1 & _ & S2). cbn [am_root] in *. set (a2 := mkAnim (reload (forget r)) kd (Some x)) in *.
  assert (Ta : is_tag (am_root a2) = true) by (cbn [a2 am_root]; rewrite SerProofs.reload_is_tag; exact Tr).
  assert (X : exists r2, doc_top (doc_forest (am_root a2)) = Some r2) by (destruct (am_root a2) as [|nm b k2]; [discriminate|]; destruct (AnimProofs5.doc_forest_top nm b k2) as (k' & -> & _); cbn [doc_top]; now eexists).
  destruct X as (r2 & S3). destruct (doc_forest_root _ _ Ta S3) as (WG & RG & FG & _). destruct (root_anc _ _ WG RG) as (d2 & AG & GG & _).
  assert (Im : image r r2) by (unfold image; now rewrite FG). pose proof (tidy_clean r T2) as Cl.
  destruct (told_top F (fst w') U' D' r Hr (doc_forest (am_root a2)) r2 d2 WG GG AG Im Cl Pf) as (ch & Ech & Ht2). exists r, fs', a2, r2, ch. split; [exact Hr|]. split; [exact S1|]. split; [exact S2|]. split; [exact S3|]. split; [exact Ech|].
  assert (At : forall k0, aget k0 (iattrs r2) = option_map (fun v => AStr (aval_str v)) (aget k0 (snd w'))) by (intros k0; destruct (image_tag r r2 Im) as (_ & _ & ->); rewrite <- Hra; apply clean_get; now apply clean_own). split; [exact At|]. split.
  - intros st l1 k0 v l2 -> Hok Hlast Hq. destruct (pacts_split _ w0 l1 l' k0 v l2 U Po M) as (l1' & l2' & El & Hk & E & Hn). specialize (Hn Hlast). rewrite Hok in E. symmetry in E.
    set (a0 := snd (fst (list_pacts w0 l1'))). assert (E' : snd (anim_assign a0 k0 v) = Ok tt) by (unfold a0; cbn [list_pact] in E; destruct (anim_assign (snd (fst (list_pacts w0 l1'))) k0 v); exact E).
    apply (said_anim st _ r2 k0 v a0); [exact Hk|exact E'|exact Hq| |].
    + assert (Nr : iname r = s "canvas") by (destruct (us_root F U') as (r' & Hr' & Hc); assert (r' = r) by congruence; subst r'; unfold named in Hc; apply andb_prop in Hc as [_ Hc]; now apply pstr_eqb_spec).
      assert (N2 : iname r2 = s "canvas") by (destruct (image_tag r r2 Im) as (_ & -> & _); exact Nr). rewrite (ctx_in_doc _ r2 r2 WG RG N2) by now left. rewrite <- Hra. now apply same_fps.
    + rewrite At. f_equal. unfold w'. rewrite El, list_pacts_fst. cbn [list_pacts]. unfold a0. cbn [list_pact]. destruct (anim_assign (snd (fst (list_pacts w0 l1'))) k0 v) as [b rb]. cbn [fst snd].
      pose proof (pacts_other k0 l2' (fst (fst (list_pacts w0 l1')), b) Hn) as X. destruct (list_pacts (fst (fst (list_pacts w0 l1')), b) l2'). exact X.
  - rewrite <- Hra. exact Ht2.
Qed.
Print Assumptions C160_saved.

(** The frame rate and the size are set before and after layers are made and animated; the size is set twice. *)
Definition pprogram : list pact :=
  [PAnim (s "width") (PInt 320); PLayer (WNew cls_Circle); PAnim (s "fps") (PInt 12); PLayer (WAct (AMove (MAppend KAnim 1 20))); PLayer (WField 20 (s "radius") (PFlo (5#2)));
   PAnim (s "size") (PTuple [PInt 320; PInt 200]); PLayer (WAct (AEdit 20 (s "amount") (VTlSet (KeyStr (s "2s")) (AVal (PFlo 3))))); PAnim (s "width") (PInt 640); PAnim (s "end_time") (PStr (s "3s")); PAnim (s "grid_show") (PBool true); PAnim (s "height") PNone].
Definition plprogram : list lpact :=
  [LpAnim (s "width") (PInt 320); LpLayer (LwNew 20 (tag_of cls_Circle)); LpAnim (s "fps") (PInt 12); LpLayer (LwAct (LMv (MAppend KAnim 1 20))); LpLayer (LwAct (LAs 33 ByField (PFlo (5#2))));
   LpAnim (s "size") (PTuple [PInt 320; PInt 200]);
   LpLayer (LwAct (LEd 23 (Some (aset (s "fps") (AFlo 12) (aset (s "width") (AInt 320) (tag_attrs xblank)))) (VTlSet (KeyStr (s "2s")) (AVal (PFlo 3))))); LpAnim (s "width") (PInt 640); LpAnim (s "end_time") (PStr (s "3s")); LpAnim (s "grid_show") (PBool true); LpAnim (s "height") PNone].
Definition pworld0 : pworld := (eworld, tag_attrs xblank).
Ltac pmeans :=
  lazymatch goal with
  | |- _ = _ /\ _ = _ /\ settable _ = true => split; [reflexivity|split; reflexivity]
  | _ => emeans
  end.
Lemma pprogram_means : pacts_mean (doc_forest xblank) pworld0 pprogram plprogram.
Proof. unfold pprogram, plprogram. cbn [pacts_mean pact_means wact_means]. do 11 (split; [pmeans|]). exact I. Qed.
Lemma pprogram_sound : Forall sound_pact pprogram.
Proof.
  assert (L : forall x, forallb (fun c => 32 <=? c) x = true -> line_of (PStr x)) by (intros x H y [= <-]; now apply line_check).
  assert (Z : forall z, (0 <= z < 1000)%Z -> line_of (PInt z)).
  { intros z Hz y Hy. cbn [py_str] in Hy. injection Hy as <-. apply line_check. revert z Hz. assert (X : forall n, (n < 1000)%nat -> forallb (fun c => 32 <=? c) (PyFmt.dec_Z (Z.of_nat n)) = true).
    { assert (Y : forallb (fun n => forallb (fun c => 32 <=? c) (PyFmt.dec_Z (Z.of_nat n))) (seq 0 1000) = true) by (vm_compute; reflexivity). intros n Hn. rewrite forallb_forall in Y. apply (Y n). apply in_seq. lia. }
    intros z Hz. replace z with (Z.of_nat (Z.to_nat z)) by lia. apply X. lia. }
  unfold pprogram.
  apply Forall_cons; [split; [exact I|split; [exact I|split; [apply Z; lia|intros E; discriminate E]]]|]. apply Forall_cons; [exact I|].
  apply Forall_cons; [split; [exact I|split; [exact I|split; [apply Z; lia|intros _ q Hq; vm_compute in Hq; injection Hq as <-; vm_compute; reflexivity]]]|]. apply Forall_cons; [exact I|].
  apply Forall_cons; [split; [exact I|split; [exact I|intros E; discriminate E]]|].
  apply Forall_cons; [split; [split; [exact I|split; exact I]|split; [split; [exact I|split; exact I]|split; [intros y Hy; vm_compute in Hy; discriminate Hy|intros E; discriminate E]]]|].
  apply Forall_cons; [split; [discriminate|split; exact I]|].
  apply Forall_cons; [split; [exact I|split; [exact I|split; [apply Z; lia|intros E; discriminate E]]]|].
  apply Forall_cons; [split; [repeat constructor|split; [exact I|split; [apply L; reflexivity|intros E; discriminate E]]]|].
  apply Forall_cons; [split; [exact I|split; [exact I|split; [intros y Hy; vm_compute in Hy; injection Hy as <-; now apply line_check|intros E; discriminate E]]]|].
  apply Forall_cons; [split; [exact I|split; [exact I|split; [intros y Hy; vm_compute in Hy; injection Hy as <-; now apply line_check|intros E; discriminate E]]]|]. apply Forall_nil.
Qed.
(** The program is one of those; what is raised, and what the animation says at the end. Two seconds are 24 frames, and three seconds are 36. *)
Example C160_nonvacuous : exists w', starts (mkAnim xblank FBlank None) /\ usual (doc_forest xblank) /\ portrays (doc_forest xblank) pworld0 /\ pacts_mean (doc_forest xblank) pworld0 pprogram plprogram /\ Forall sound_pact pprogram /\
  (forall n, target_of (mkAnim n FBlank None) (Some xsifz) xsifz FSifz) /\ w' = fst (list_pacts pworld0 plprogram) /\ fst (fst (fst w')) 1 = [20] /\
  snd (pacts (doc_forest xblank) pprogram) = [Ok tt; Ok tt; Ok tt; Ok tt; Ok tt; Err AttributeError; Ok tt; Ok tt; Ok tt; Err NotImplementedError; Err TypeError] /\
  anim_said (s "width") (PInt 640) (Some (snd w')) = Ok (PInt 640) /\ anim_said (s "end_time") (PStr (s "3s")) (Some (snd w')) = Ok (PT (mkT 36 (Some 12%Q))) /\
  (exists t n, snd (fst (fst w')) 23 = Some t /\ tl_values t (Some (snd w')) = Ok [mkW (mkT 24 (Some 12%Q)) (s "clamped") (s "clamped") VReal n]) /\
  (forall q, py_float (PInt 640) = Ok q -> is_dbl q) /\ (forall q, py_float (PStr (s "3s")) = Ok q -> is_dbl q).
Proof.
  exists (fst (list_pacts pworld0 plprogram)). split; [left; vm_compute; reflexivity|]. split; [exact eforest_usual|]. split; [split; [exact eforest_depicts|eexists; split; vm_compute; reflexivity]|]. split; [exact pprogram_means|]. split; [exact pprogram_sound|]. split; [intros n; split; [reflexivity|apply xsifz_name]|].
  split; [reflexivity|]. split; [vm_compute; reflexivity|]. split; [vm_compute; reflexivity|]. split; [vm_compute; reflexivity|]. split; [vm_compute; reflexivity|]. split; [|split; [intros q H; vm_compute in H; injection H as <-; vm_compute; reflexivity|intros q H; vm_compute in H; discriminate H]].
  exists (match snd (fst (fst (fst (list_pacts pworld0 plprogram)))) 23 with Some t => t | None => Txt [] end), (El (s "real") [(s "value", AStr (s "3.0000000000"))] []). split; vm_compute; reflexivity.
Qed.
