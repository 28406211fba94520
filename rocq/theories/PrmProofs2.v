(** Acts on a document and on its lists and variables *)
From Coq Require Import Lia.
From Verif Require Import AnimModel LayModel DocProofs DocProofs2 LaySpec LayProofs LayProofs2 LayProofs3 LayProofs4 LayProofs5 LayProofs6 LayProofs7 TlProofs3 ValProofs VarSpec VarProofs LoopModel MovSpec MovProofs MovProofs2 MixSpec MixProofs WrSpec PrmSpec PrmProofs.
Local Open Scope N_scope.

Lemma holder_site F q w : holder_of F q w -> exists p, site F q p w /\ aget (s "name") (iattrs p) <> None /\ flat_value (forget w) = true /\ bare (forget w) = true.
Proof. intros (p & A & B & C & D & E). destruct (bare_flat _ E) as [E1 E2]. exists p. split; [now split|auto]. Qed.
Lemma site_holder F q p w : site F q p w -> aget (s "name") (iattrs p) <> None -> bare (forget w) = true -> holder_of F q w.
Proof. intros [A B C D] H1 H2. exists p. auto 6. Qed.
Lemma place_value F u k q w : place F u k = Some q -> holder_of F q w -> wf F ->
  exists n, fget u F = Some n /\ param_get F n k = (let* c := from_tag (forget w) in Ok (w, c)) /\ layer_getitem n k = (let* c := from_tag (forget w) in Ok (w, c)).
Proof.
  intros Hp V W. unfold place in Hp. destruct (fget u F) as [n|] eqn:Hu; [|discriminate]. destruct (ifind (is_param k) n) as [p|] eqn:Hf; [|discriminate]. cbn [option_map] in Hp. injection Hp as Hq.
  destruct V as (p' & A & B & C & D & _). pose proof (ifind_In _ _ _ Hf) as [Hpn _]. pose proof (fget_In _ _ _ Hu) as (Hd & _).
  assert (p' = p) by (pose proof (fget_desc F p W (desc_trans F n p Hd Hpn)) as Hg; rewrite Hq in Hg; congruence). subst p'.
  exists n. split; [reflexivity|]. unfold param_get, layer_getitem, value_of. rewrite Hf, D. destruct (aget (s "name") (iattrs p)); [auto|congruence].
Qed.

(** ** Moves *)

Definition holds_in (st : vstore) (F : forest) : Prop := holds F st.
Lemma text_holds st F g kd n c i x : usual F -> canv F g kd n c -> holds_in st F -> holds_in st (fat (iuid c) (ins i (IT x)) F).
Proof.
  intros U C A. intros q t Hq. destruct (A q t Hq) as (w & V & E). exists w. split; [|exact E]. destruct (holder_site _ _ _ V) as (p & S & Hn & Fw & Hbw).
  pose proof (us_wf F U) as W. destruct (site_w _ _ _ _ W S) as (Hwk & Hwt & Hwf & Hwd & Hwp & Hpd). destruct S as [S1 S2 S3 S4]. destruct (canv_in _ _ _ _ _ U C) as (_ & _ & Hcf & _).
  assert (Hcw : ~ In (iuid c) (uids w)) by (apply (flat_out F w (iuid c) c W Hwd); [exact Fw|exact Hcf|unfold bulky; rewrite (canvas_bulky _ _ _ _ _ U C); now rewrite orb_true_r]).
  set (f := ins i (IT x)) in *. pose proof (iat_shallow (iuid c) f (ins_shallow i (IT x)) p) as (A1 & A2 & A3 & A4).
  assert (Hpc : iuid p <> iuid c) by (intros Z; assert (p = c) by (pose proof (fget_desc F p W Hpd) as Hp; rewrite Z in Hp; congruence); subst c; pose proof (canvas_bulky _ _ _ _ _ U C) as Z2; pose proof (param_flat p S2) as Z3; unfold bulky in Z3; rewrite Z2, orb_true_r in Z3; discriminate).
  assert (S' : site (fat (iuid c) f F) q (iat (iuid c) f p) w).
  { split; [|unfold isP, named in *; now rewrite A1, A3| |exact S4].
    - pose proof (tx_get F g kd n c i x U C q) as G. rewrite S1 in G. exact G.
    - rewrite iat_kids_other by exact Hpc. assert (X : filter itag (fat (iuid c) f (ikids p)) = map (iat (iuid c) f) (filter itag (ikids p))).
      { generalize (ikids p). intros kk. induction kk as [|y kk IH]; [reflexivity|]. change (fat (iuid c) f (y :: kk)) with (iat (iuid c) f y :: fat (iuid c) f kk). cbn [filter]. rewrite IH. destruct (iat_shallow (iuid c) f (ins_shallow i (IT x)) y) as (-> & _). now destruct (itag y). }
      rewrite X, S3. cbn [map]. now rewrite iat_notin. }
  apply (site_holder _ _ _ _ S'); auto. rewrite A4. exact Hn.
Qed.
Lemma move_holds st F g kd n c l t i : usual F -> canv F g kd n c -> fget l F = Some t -> is_layer t = true -> ~ In g (uids t) -> holds_in st F -> holds_in st (fat (iuid c) (ins i t) (fdel l F)).
Proof.
  intros U C Hl Htl Ho A. intros q v Hq. destruct (A q v Hq) as (w & V & E). exists w. split; [|exact E]. destruct (holder_site _ _ _ V) as (p & S & Hn & Fw & Hbw).
  pose proof (us_wf F U) as W. destruct (site_w _ _ _ _ W S) as (Hwk & Hwt & Hwf & Hwd & Hwp & Hpd). destruct S as [S1 S2 S3 S4]. destruct (canv_in _ _ _ _ _ U C) as (_ & _ & Hcf & _).
  destruct (in_dec N.eq_dec q (uids t)) as [Hi|Hi].
  { assert (S' : site (fat (iuid c) (ins i t) (fdel l F)) q p w) by (split; auto; rewrite (mg_same F g kd n c l t i U C Hl Htl Ho q Hi); exact S1). now apply (site_holder _ _ _ _ S'). }
  assert (Hcw : ~ In (iuid c) (uids w)) by (apply (flat_out F w (iuid c) c W Hwd Fw Hcf); unfold bulky; rewrite (canvas_bulky _ _ _ _ _ U C); now rewrite orb_true_r).
  assert (Hlw : ~ In l (uids w)) by (apply (flat_out F w l t W Hwd Fw Hl); unfold bulky; now rewrite Htl).
  set (f := ins i t) in *. pose proof (iat_shallow (iuid c) f (ins_shallow i t) (idel l p)) as (A1 & A2 & A3 & A4).
  assert (Hpc : iuid p <> iuid c) by (intros Z; assert (p = c) by (pose proof (fget_desc F p W Hpd) as Hp; rewrite Z in Hp; congruence); subst c; pose proof (canvas_bulky _ _ _ _ _ U C) as Z2; pose proof (param_flat p S2) as Z3; unfold bulky in Z3; rewrite Z2, orb_true_r in Z3; discriminate).
  assert (Hwl : idel l w = w) by (apply idel_notin; intros Z; apply Hlw; destruct w; [destruct Z|]; rewrite uids_IE; now right).
  assert (S' : site (fat (iuid c) f (fdel l F)) q (iat (iuid c) f (idel l p)) w).
  { split; [|unfold isP, named in *; now rewrite A1, A3, idel_tag, idel_name| |exact S4].
    - pose proof (mg_get F g kd n c l t i U C Hl Htl Ho q Hi) as G. rewrite S1 in G. exact G.
    - rewrite iat_kids_other by (rewrite idel_uid; exact Hpc). assert (X : forall kk, filter itag (fat (iuid c) f kk) = map (iat (iuid c) f) (filter itag kk)).
      { intros kk. induction kk as [|y kk IH]; [reflexivity|]. change (fat (iuid c) f (y :: kk)) with (iat (iuid c) f y :: fat (iuid c) f kk). cbn [filter]. rewrite IH. destruct (iat_shallow (iuid c) f (ins_shallow i t) y) as (-> & _). now destruct (itag y). }
      rewrite X, idel_kids. assert (Y : filter itag (fdel l (ikids p)) = [w]).
      { assert (Q : forall kk, (forall y, In y kk -> is_ l y = true -> False) -> filter itag (fdel l kk) = map (idel l) (filter itag kk)).
        { induction kk as [|y kk IH]; intros H; [reflexivity|]. rewrite fdel_map in *. cbn [filter]. destruct (is_ l y) eqn:El; [elim (H y); [now left|exact El]|]. cbn [negb map filter]. rewrite idel_tag, IH by (intros z Hz; apply H; now right). now destruct (itag y). }
        rewrite Q, S3; [cbn [map]; now rewrite Hwl|]. intros y Hy El. apply is_spec in El as [Ety El]. assert (In y (filter itag (ikids p))) by (apply filter_In; auto). rewrite S3 in H. destruct H as [<-|[]]. apply Hlw. rewrite <- El. now apply tag_uid. }
      rewrite Y. cbn [map]. now rewrite iat_notin. }
  apply (site_holder _ _ _ _ S'); auto. rewrite A4, idel_attrs. exact Hn.
Qed.
Lemma moves_holds st F m : usual F -> fits F m -> holds_in st F -> holds_in st (do_move F m).
Proof. intros U Hf. apply (move_part (holds_in st)); auto; intros; [now apply text_holds with (g := g) (kd := kd) (n := n)|now apply move_holds with (g := g) (kd := kd) (n := n)]. Qed.


(** ** One value is replaced *)

Lemma write_is F w m : wf F -> fget (iuid w) F = Some w -> is_tag m = true ->
  exists w', iuid w' = iuid w /\ forget w' = m /\ (forall y, In y (fuids (ikids w')) -> ~ In y (fuids F)) /\ write_tag F (iuid w) m = fput (iuid w) w' F /\ wf (fput (iuid w) w' F).
Proof.
  intros W Hw Hm. pose proof (wr_tag F (iuid w) w m Hw Hm) as (T1 & T2 & T3 & T4 & T5). exists (written F m w). repeat (split; [now auto|]).
  assert (EF : fat (iuid w) (written F m) F = fput (iuid w) (written F m w) F) by now apply fat_fput.
  split; [exact EF|]. rewrite <- EF. now apply wr_wf with (x := w).
Qed.
(** The value of the param q is m now. *)
Definition replaced (F G : forest) (q : N) (m : node) : Prop :=
  exists p w t, site F q p w /\ itag t = true /\ forget t = m /\ (forall z, In z (uids t) -> z = iuid w \/ ~ In z (fuids F)) /\
    (G = fput (iuid w) t F \/ G = fput (iuid w) t F ++ [w]) /\ wf G.
Lemma write_replaced F q p w m : wf F -> site F q p w -> is_tag m = true -> replaced F (write_tag F (iuid w) m) q m.
Proof.
  intros W S Hm. destruct (site_w _ _ _ _ W S) as (_ & _ & Hw & _). destruct (write_is F w m W Hw Hm) as (w' & A1 & A2 & A3 & A4 & A5). exists p, w, w'.
  assert (Hwt' : itag w' = true) by (destruct w'; [cbn [forget] in A2; subst m; discriminate|reflexivity]).
  repeat (split; [assumption|]). split; [|split; [now left|now rewrite A4]].
  intros z Hz. destruct w' as [|u' n' a' k']; [discriminate|]. rewrite uids_IE in Hz. destruct Hz as [<-|Hz]; [now left|]. right. apply A3. exact Hz.
Qed.
Lemma btag_w w : itag w = true -> bare (forget w) = true -> btag (forget w).
Proof. intros H B. split; [exact B|]. now destruct w. Qed.
Lemma assign_is F st a q t : wf F -> holds F st -> place F (as_layer_ a) (as_name a) = Some q -> st q = Some t -> bare_val (as_value_ a) ->
  let R := val_assign t (as_how a) (as_value_ a) in
  snd (do_assign F a) = snd R /\ btag (fst R) /\ (replaced F (fst (do_assign F a)) q (fst R) \/ fst (do_assign F a) = F /\ fst R = t).
Proof.
  intros W A Hp Hq V R. subst R. destruct a as [how u k v]. cbn [as_layer_ as_name as_how as_value_] in *. destruct (A q t Hq) as (w & H & Et). destruct (place_value F u k q w Hp H W) as (n & Hu & Hg & Hgi).
  destruct (holder_site _ _ _ H) as (p & S & Hn & Fw & Hb). destruct (site_w _ _ _ _ W S) as (_ & Hwt & Hwf & _). pose proof (btag_w w Hwt Hb) as G. rewrite Et in G. pose proof (val_assign_bare t how v G V) as GR.
  unfold do_assign, val_assign in *. cbn [as_layer_ as_name as_how as_value_]. rewrite Hu. rewrite Et in *. destruct (from_tag t) as [c|x] eqn:Ec; cbn [bind] in Hg, Hgi.
  - destruct how.
    + unfold param_set. rewrite Hg, Et. destruct (set_value c t v) as [m r]. cbn [fst snd] in *. split; [reflexivity|]. split; [exact GR|]. left. apply (write_replaced F q p w m W S). apply GR.
    + destruct (new_value c v) as [m|e] eqn:Ev; cbn [fst snd] in *.
      * destruct (set_plain F u n k w c v m W Hu Hgi Ev (proj2 GR)) as (t' & A1 & A2 & A3 & A4 & _). rewrite A3. cbn [fst snd]. split; [reflexivity|]. split; [exact GR|]. left. exists p, w, t'.
        assert (Ht' : itag t' = true) by (destruct t'; [cbn [forget] in A1; subst m; destruct GR; discriminate|reflexivity]). repeat (split; [assumption|]). split; [auto|]. split; [now right|exact A4].
      * destruct (set_errors F u n k w c Hu) as [_ He]. destruct (He Hgi) as [_ He']. rewrite (He' v e Ev). cbn [fst snd]. split; [reflexivity|]. split; [exact GR|]. now right.
  - destruct how.
    + unfold param_set. rewrite Hg. cbn [fst snd]. auto.
    + unfold layer_setitem. rewrite Hu, Hgi. cbn [fst snd]. auto.
Qed.
(** The context of a param is that of its value. *)
Lemma ctx_value F q p w : wf F -> site F q p w -> flat_value (forget w) = true -> ctx_of F (iuid w) = ctx_of F q /\ fparent (iuid w) F = Some p.
Proof.
  intros W S Fw. destruct (site_w _ _ _ _ W S) as (Hwk & Hwt & Hwf & _). pose proof (st_p _ _ _ _ S) as Hp. destruct (child_anc F q p w W Hp Hwk Hwt) as (r & E1 & E2).
  split; [|unfold fparent; now rewrite E2]. unfold ctx_of. rewrite Hwf, E2, Hp, E1. cbn [map].
  assert (N1 : pstr_eqb (tag_name (forget p)) (s "canvas") = false).
  { pose proof (param_flat p (st_P _ _ _ _ S)) as B. apply fget_In in Hp as (_ & _ & Hpt). unfold bulky, named in B. rewrite Hpt in B. apply orb_false_iff in B as [_ B]. destruct p; [discriminate|exact B]. }
  assert (N2 : pstr_eqb (tag_name (forget w)) (s "canvas") = false).
  { pose proof (flat_self w Hwt Fw w (or_introl eq_refl)) as B. unfold bulky, named in B. rewrite Hwt in B. apply orb_false_iff in B as [_ B]. destruct w; [discriminate|exact B]. }
  unfold canvas_root. destruct r as [|a [|b r]]; cbn [map length Nat.sub nth_error]; [now rewrite N2|now rewrite N1|]. rewrite Nat.sub_0_r. reflexivity.
Qed.
Lemma edit_is F st u k e q t : wf F -> holds F st -> place F u k = Some q -> st q = Some t -> bare_vedit e ->
  let R := val_edit t (ctx_of F q) e in
  snd (do_edit F u k e) = snd R /\ btag (fst R) /\ (replaced F (fst (do_edit F u k e)) q (fst R) \/ fst (do_edit F u k e) = F /\ fst R = t).
Proof.
  intros W A Hp Hq V R. subst R. destruct (A q t Hq) as (w & H & Et). destruct (place_value F u k q w Hp H W) as (n & Hu & Hg & Hgi).
  destruct (holder_site _ _ _ H) as (p & S & Hn & Fw & Hb). destruct (site_w _ _ _ _ W S) as (_ & Hwt & Hwf & _). pose proof (btag_w w Hwt Hb) as G. rewrite Et in G. pose proof (val_edit_bare t (ctx_of F q) e G V) as GR.
  unfold do_edit, val_edit in *. rewrite Hu, Hgi. rewrite Et. destruct (from_tag t) as [c|x] eqn:Ec; cbn [bind fst snd] in *; [|auto].
  destruct (ctx_value F q p w W S Fw) as [Ex Ep]. cbn [apply_edit]. unfold on_tag. rewrite Hwf, Ex, Ep, Et. destruct (vapply c t (ctx_of F q) true e) as [m r]. cbn [fst snd] in *. split; [reflexivity|]. split; [exact GR|]. left. apply (write_replaced F q p w m W S). apply GR.
Qed.
(** Everything else stays. *)
Lemma replaced_mirrors F G h st q m : usual F -> mirrors F (h, st) -> st q <> None -> btag m -> replaced F G q m ->
  usual G /\ mirrors G (h, vput st q m) /\ (forall u k z, place F u k = Some z -> place G u k = Some z) /\ (forall u, single F u -> single G u).
Proof.
  intros U [M1 M2] Hq [Gb Gt] (p & w & t & S & Tt & <- & Fr & HG & WG). pose proof (us_wf F U) as W. cbn [fst snd] in *. destruct (st q) as [t0|] eqn:Eq; [|congruence].
  destruct (bare_flat _ Gb) as [Tn Tf]. assert (Fw : flat_value (forget w) = true).
  { destruct (M2 q t0 Eq) as (w' & V & _). destruct (holder_site _ _ _ V) as (p' & S' & _ & Fw & _). assert (p' = p) by (pose proof (st_p _ _ _ _ S); pose proof (st_p _ _ _ _ S'); congruence). subst p'.
    assert (w' = w) by (pose proof (st_k _ _ _ _ S); pose proof (st_k _ _ _ _ S'); congruence). now subst w'. }
  split; [exact (p2_usual F U q p w S Fw t Tt Tn Tf _ eq_refl G HG WG Fr)|]. split; [split; cbn [fst snd]; [exact (p2_shows F U q p w S Fw t Tt Tn Tf _ eq_refl G HG WG Fr h M1)|]|split].
  - intros z t' Hz. unfold vput in Hz. destruct (N.eqb_spec z q) as [->|Hne].
    + injection Hz as <-. exists t. split; [|reflexivity]. pose proof (put_site F W q p w S t Tt Tn _ eq_refl G HG q p w Fr S) as S'. rewrite N.eqb_refl in S'.
      apply (site_holder _ _ _ _ S'); [|exact Gb]. destruct (iput_look (iuid w) t p) as (_ & _ & _ & ->). destruct (M2 q t0 Eq) as (w' & V & _). destruct (holder_site _ _ _ V) as (p' & S2 & Hn & _).
      assert (p' = p) by (pose proof (st_p _ _ _ _ S); pose proof (st_p _ _ _ _ S2); congruence). now subst p'.
    + destruct (M2 z t' Hz) as (w' & V & E). destruct (holder_site _ _ _ V) as (p' & S2 & B1 & B2 & B3). exists w'. split; [|exact E].
      pose proof (put_site F W q p w S t Tt Tn _ eq_refl G HG z p' w' Fr S2) as S'. destruct (N.eqb_spec z q) as [E'|_]; [contradiction|].
      apply (site_holder _ _ _ _ S'); auto. destruct (iput_look (iuid w) t p') as (_ & _ & _ & ->). exact B1.
  - intros u k z. now apply (put_place F W q p w S t Tt Tn _ eq_refl G HG).
  - intros u. exact (p2_single F U q p w S Fw t Tt Tn Tf _ eq_refl G HG WG Fr u).
Qed.
Definition vdom (st st' : vstore) : Prop := forall z, st z <> None <-> st' z <> None.
Lemma vput_dom st q m : st q <> None -> vdom st (vput st q m).
Proof. intros H z. unfold vput. destruct (N.eqb_spec z q) as [->|_]; [|reflexivity]. split; [discriminate|auto]. Qed.
Lemma vput_same F h st q t : mirrors F (h, st) -> st q = Some t -> mirrors F (h, vput st q t).
Proof. intros [A B] H. split; [exact A|]. cbn [snd] in *. intros z y. unfold vput. destruct (N.eqb_spec z q) as [->|_]; [intros [= <-]; auto|auto]. Qed.

(** ** Steps *)

Lemma value_step F h st q t f G r : usual F -> mirrors F (h, st) -> st q = Some t -> r = snd (f t) -> btag (fst (f t)) -> (replaced F G q (fst (f t)) \/ G = F /\ fst (f t) = t) ->
  let R := on_var st q f in
  r = snd R /\ usual G /\ mirrors G (h, fst R) /\ vdom st (fst R) /\ (forall u k z, place F u k = Some z -> place G u k = Some z) /\ (forall u, single F u -> single G u).
Proof.
  intros U M Hq Er Gt H R. subst R. unfold on_var. rewrite Hq. destruct (f t) as [m r']. cbn [fst snd] in *. split; [exact Er|]. destruct H as [H|[-> ->]].
  - destruct (replaced_mirrors F G h st q m U M ltac:(congruence) Gt H) as (A & B & C & D). split; [exact A|]. split; [exact B|]. split; [apply vput_dom; congruence|auto].
  - split; [exact U|]. split; [now apply vput_same|]. split; [apply vput_dom; congruence|auto].
Qed.
Lemma move_step F h st m : usual F -> mirrors F (h, st) -> fits F m ->
  snd (try_move F m) = snd (list_move h m) /\ usual (do_move F m) /\ mirrors (do_move F m) (fst (list_move h m), st) /\
  (forall u k z, single F u -> place F u k = Some z -> place (do_move F m) u k = Some z) /\ (forall u, single F u -> single (do_move F m) u).
Proof.
  intros U [R1 R2] Hf. cbn [fst snd] in *. assert (R : right_move F h m) by (destruct m; [now apply append_right|now apply insert_right]). destruct R as (U' & S' & E). split; [exact E|]. split; [exact U'|].
  split; [split; [exact S'|exact (moves_holds st F m U Hf R2)]|].
  assert (X : forall u n, alone u n F -> alone u n (do_move F m)) by (intros u n; now apply alone_moves). split.
  - intros u k z (n & Hn) Hp. unfold place in *. destruct (X u n Hn) as [-> _]. destruct Hn as [Hn _]. now rewrite Hn in Hp.
  - intros u (n & Hn). exists n. apply (X u n Hn).
Qed.
Lemma acts_dom st st' l : vdom st st' -> forall F l', acts_mean F st l l' -> acts_mean F st' l l'.
Proof.
  intros D. induction l as [|[m|a|u k e] l IH]; intros F [|[m'|q how v|q cx e'] l']; cbn [acts_mean]; auto.
  - intros (A & B & C). auto.
  - intros (A & B & C & E & H & H'). repeat (split; [first [assumption|now apply D]|]). auto.
  - intros (A & B & C & E & H & H'). repeat (split; [first [assumption|now apply D]|]). auto.
Qed.
Lemma acts_right l : forall l' F h st, usual F -> mirrors F (h, st) -> acts_mean F st l l' ->
  snd (acts F l) = snd (list_acts (h, st) l') /\ usual (fst (acts F l)) /\ mirrors (fst (acts F l)) (fst (list_acts (h, st) l')).
Proof.
  induction l as [|[m|a|u k e] l IH]; intros [|[m'|q how v|q cx e'] l'] F h st U R H; cbn [acts_mean] in H; try contradiction; [auto| | |].
  - destruct H as (-> & Hf & H). destruct (move_step F h st m U R Hf) as (E & U' & R' & _). cbn [acts do_act list_acts list_act]. unfold do_move in *. destruct (try_move F m) as [F1 r]. destruct (list_move h m) as [h1 r1]. cbn [fst snd] in *. subst r1.
    destruct (IH l' F1 h1 st U' R' H) as (E2 & U2 & R2). destruct (acts F1 l) as [F2 rs]. destruct (list_acts (h1, st) l') as [hs2 rs2]. cbn [fst snd] in *. split; [congruence|auto].
  - destruct H as (Hp & Hq & -> & -> & Hv & H). destruct (st q) as [t|] eqn:Eq; [|congruence]. destruct (assign_is F st a q t (us_wf F U) (proj2 R) Hp Eq Hv) as (E1 & E2 & E3).
    destruct (value_step F h st q t (fun t => val_assign t (as_how a) (as_value_ a)) _ _ U R Eq E1 E2 E3) as (E & U' & R' & D & _).
    cbn [acts do_act list_acts list_act]. destruct (do_assign F a) as [F1 r]. destruct (on_var st q _) as [st1 r1]. cbn [fst snd] in *. subst r1.
    destruct (IH l' F1 h st1 U' R' (acts_dom st st1 l D F1 l' H)) as (X2 & U2 & R2). destruct (acts F1 l) as [F2 rs]. destruct (list_acts (h, st1) l') as [hs2 rs2]. cbn [fst snd] in *. split; [congruence|auto].
  - destruct H as (Hp & Hq & -> & -> & Hv & H). destruct (st q) as [t|] eqn:Eq; [|congruence]. destruct (edit_is F st u k e q t (us_wf F U) (proj2 R) Hp Eq Hv) as (E1 & E2 & E3).
    destruct (value_step F h st q t (fun t => val_edit t (ctx_of F q) e) _ _ U R Eq E1 E2 E3) as (E & U' & R' & D & _).
    cbn [acts do_act list_acts list_act]. destruct (do_edit F u k e) as [F1 r]. destruct (on_var st q _) as [st1 r1]. cbn [fst snd] in *. subst r1.
    destruct (IH l' F1 h st1 U' R' (acts_dom st st1 l D F1 l' H)) as (X2 & U2 & R2). destruct (acts F1 l) as [F2 rs]. destruct (list_acts (h, st1) l') as [hs2 rs2]. cbn [fst snd] in *. split; [congruence|auto].
Qed.
