(** The groups that are found, and adjust as a whole. *)
From Coq Require Import Lqa ZifyBool ZifyN ZifyNat Permutation Sorting.Sorted.
From Verif Require Import DocProofs LaySpec LayProofs LayProofs5 LayProofs6 AnimSpec TlSpec PyFloatProofs SerProofs.
From Verif Require Import BywModel BywSpec BywProofs BywProofs2 BywProofs3 BywProofs4 BywProofs5 BywProofs6 BywProofs7.
Local Open Scope N_scope.

Lemma make_texts_objs k l : forall i r, make_texts k i l = Ok r -> forall t, In t r -> fst (bt_obj t) = k /\ (i <= snd (bt_obj t))%nat.
Proof.
  induction l as [|n l IH]; intros i r H t Ht; cbn [make_texts] in H; [injection H as <-; contradiction|].
  unfold make_text in H. destruct (attr_get (s "desc") TStrA PNone n) as [d|]; [|discriminate]. cbn [bind] in H. destruct d; try discriminate.
  cbn [bind] in H. destruct (make_texts k (S i) l) as [r'|] eqn:E; [|discriminate]. cbn [bind] in H. injection H as <-.
  destruct Ht as [<-|Ht]; [split; [reflexivity|cbn; lia]|]. destruct (IH _ _ E t Ht). split; [assumption|lia].
Qed.
Lemma make_texts_nodup k l : forall i r, make_texts k i l = Ok r -> NoDup (map bt_obj r).
Proof.
  induction l as [|n l IH]; intros i r H; cbn [make_texts] in H; [injection H as <-; constructor|].
  unfold make_text in H. destruct (attr_get (s "desc") TStrA PNone n) as [d|]; [|discriminate]. cbn [bind] in H. destruct d; try discriminate.
  cbn [bind] in H. destruct (make_texts k (S i) l) as [r'|] eqn:E; [|discriminate]. cbn [bind] in H. injection H as <-.
  cbn [map bt_obj]. constructor; [|now apply (IH (S i))]. intros Hin. apply in_map_iff in Hin as (t & Et & Ht).
  destruct (make_texts_objs k l _ _ E t Ht) as [_ H]. rewrite Et in H. cbn in H. lia.
Qed.
Lemma make_texts_layers k l : forall i r, make_texts k i l = Ok r -> map bt_layer r = map iuid l.
Proof.
  induction l as [|n l IH]; intros i r H; cbn [make_texts] in H; [injection H as <-; reflexivity|].
  unfold make_text in H. destruct (attr_get (s "desc") TStrA PNone n) as [d|]; [|discriminate]. cbn [bind] in H. destruct d; try discriminate.
  cbn [bind] in H. destruct (make_texts k (S i) l) as [r'|] eqn:E; [|discriminate]. cbn [bind] in H. injection H as <-.
  cbn [map bt_layer]. f_equal. now apply (IH (S i)).
Qed.

Lemma find_all_inside st F n pos kw at_ l : layer_find_all st F n pos true kw at_ = Ok l -> forall x, In x l -> In x (idesc n).
Proof.
  unfold layer_find_all. destruct (criterion_of pos kw at_) as [cr|]; [|discriminate]. cbn [bind].
  destruct (filterM _ (idesc n)) as [r|] eqn:E; [|discriminate]. cbn [bind]. intros H x Hx.
  destruct (mapM_In_rev _ _ _ H x Hx) as (y & Hy & Ey). unfold as_layer in Ey. destruct (layer_class y); [|discriminate]. injection Ey as <-.
  now apply (filterM_In _ _ _ E) in Hy as [Hy _].
Qed.

Definition in_tag (root : inode) (t : btext) : Prop := exists n, In n (idesc root) /\ iuid n = bt_layer t.

Lemma idesc_trans n x y : In x (idesc n) -> In y (idesc x) -> In y (idesc n).
Proof. destruct n as [|u nm a k]; [intros []|]. rewrite idesc_IE. apply desc_trans. Qed.

Lemma make_groups_texts st F root l : forall k gs, make_groups st F k l = Ok gs -> (forall n, In n l -> In n (idesc root)) ->
  NoDup (map bt_obj (all_texts gs)) /\ (forall t, In t (all_texts gs) -> (k <= fst (bt_obj t))%nat /\ in_tag root t).
Proof.
  induction l as [|n l IH]; intros k gs H Hi; cbn [make_groups] in H; [injection H as <-; split; [constructor|intros ? []]|].
  destruct (attr_get (s "desc") TStrA PNone n) as [d|]; [|discriminate]. cbn [bind] in H.
  assert (G : forall k gs, make_groups st F k l = Ok gs -> NoDup (map bt_obj (all_texts gs)) /\ (forall t, In t (all_texts gs) -> (k <= fst (bt_obj t))%nat /\ in_tag root t)).
  { intros k' gs' H'. apply IH; auto. intros; apply Hi. now right. }
  destruct d; try (now apply G). destruct (starts_with _ _); [|now apply G].
  unfold make_group in H. destruct (layer_find_all st F n _ true [] None) as [r|] eqn:Ef; [|discriminate]. cbn [bind] in H.
  destruct (make_texts k 0 (rev r)) as [ts|] eqn:Et; [|discriminate]. cbn [bind] in H.
  destruct (make_groups st F (S k) l) as [gs'|] eqn:Eg; [|discriminate]. cbn [bind] in H. injection H as <-.
  destruct (G _ _ Eg) as [G1 G2]. unfold all_texts. cbn [flat_map bg_texts]. rewrite map_app. split.
  - pose proof (make_texts_nodup _ _ _ _ Et) as N1. pose proof (make_texts_objs _ _ _ _ Et) as O1.
    clear -N1 O1 G1 G2. induction ts as [|t ts IHt]; [exact G1|]. cbn [map app] in *. inversion N1; subst. constructor.
    + intros Hin. apply in_app_or in Hin as [Hin|Hin]; [contradiction|]. apply in_map_iff in Hin as (t' & E & Ht'). destruct (G2 t' Ht') as [G3 _].
      destruct (O1 t ltac:(now left)) as [O2 _]. rewrite E in G3. lia.
    + apply IHt; auto. intros; apply O1. now right.
  - intros t Ht. apply in_app_or in Ht as [Ht|Ht].
    + destruct (make_texts_objs _ _ _ _ Et t Ht) as [O1 _]. split; [lia|].
      assert (Hl : In (bt_layer t) (map iuid (rev r))) by (rewrite <- (make_texts_layers _ _ _ _ Et); now apply in_map).
      apply in_map_iff in Hl as (z & Ez & Hz). rewrite <- in_rev in Hz. exists z. split; [|exact Ez].
      apply (idesc_trans root n); [apply Hi; now left|]. now apply (find_all_inside _ _ _ _ _ _ _ Ef).
    + destruct (G2 t Ht) as [G3 G4]. split; [lia|exact G4].
Qed.

Lemma perm_flat {A B} (g : A -> list B) l l' : Permutation l l' -> Permutation (flat_map g l) (flat_map g l').
Proof. intros P. now apply Permutation_flat_map. Qed.
Lemma bywords_groups_texts st F root gs : bywords_groups st F root = Ok gs ->
  NoDup (map bt_obj (all_texts gs)) /\ forall t, In t (all_texts gs) -> in_tag root t.
Proof.
  unfold bywords_groups. destruct (layer_find_all st F root _ true [] None) as [l|] eqn:Ef; [|discriminate]. cbn [bind].
  destruct (make_groups st F 0 l) as [gs0|] eqn:Eg; [|discriminate]. cbn [bind]. intros [= <-].
  destruct (make_groups_texts st F root l _ _ Eg (find_all_inside _ _ _ _ _ _ _ Ef)) as [H1 H2].
  assert (P : Permutation (all_texts (sort_groups gs0)) (all_texts gs0)) by (apply perm_flat; apply (sort_perm _)).
  split.
  - apply (Permutation_NoDup (l := map bt_obj (all_texts gs0))); [|exact H1]. apply Permutation_map. now symmetry.
  - intros t Ht. apply (H2 t). now apply (Permutation_in t P).
Qed.

(** ** The objects of the words *)

Lemma obj_eqb_eq a b : obj_eqb a b = true <-> a = b.
Proof.
  unfold obj_eqb. destruct a as [a1 a2], b as [b1 b2]. cbn [fst snd]. rewrite Bool.andb_true_iff, !Nat.eqb_eq. split; [intros [-> ->]; auto|intros [= -> ->]; auto].
Qed.
(** Each word is of one of these texts. *)
Definition of_texts (ts : list btext) (w : word) : Prop := exists t, In t ts /\ wd_obj w = bt_obj t /\ wd_layer w = bt_layer t.
Lemma text_unique {B} (g : btext -> B) ts a b : NoDup (map g ts) -> In a ts -> In b ts -> g a = g b -> a = b.
Proof.
  induction ts as [|t ts IH]; [intros _ []|]. cbn [map]. intros N. inversion N; subst. intros [<-|Ha] [<-|Hb] E; auto.
  - exfalso. apply H1. rewrite E. now apply in_map.
  - exfalso. apply H1. rewrite <- E. now apply in_map.
Qed.
Lemma objs_In l o u : In (o, u) (objs_of l) -> exists w, In w l /\ wd_obj w = o /\ wd_layer w = u.
Proof.
  induction l as [|w l IH]; [intros []|]. cbn [objs_of]. intros [[= <- <-]|H]; [exists w; split; [now left|auto]|].
  apply filter_In in H as [H _]. destruct (IH H) as (v & Hv & E). exists v. split; [now right|auto].
Qed.
Lemma objs_of_In l w : In w l -> exists u, In (wd_obj w, u) (objs_of l).
Proof.
  induction l as [|v l IH]; [intros []|]. intros H. cbn [objs_of]. destruct (obj_eqb (wd_obj w) (wd_obj v)) eqn:E.
  - apply obj_eqb_eq in E. exists (wd_layer v). left. now rewrite E.
  - destruct H as [<-|H]; [rewrite (proj2 (obj_eqb_eq _ _) eq_refl) in E; discriminate|]. destruct (IH H) as (u & Hu). exists u. right. apply filter_In. split; [exact Hu|]. cbn [fst]. now rewrite E.
Qed.
Lemma objs_nodup l : NoDup (map fst (objs_of l)).
Proof.
  induction l as [|w l IH]; [constructor|]. cbn [objs_of map fst]. constructor.
  - intros H. apply in_map_iff in H as ([o u] & E & H). cbn [fst] in E. subst o. apply filter_In in H as [_ H]. cbn [fst] in H. rewrite (proj2 (obj_eqb_eq _ _) eq_refl) in H. discriminate.
  - clear -IH. induction (objs_of l) as [|[o u] r IHr]; [constructor|]. cbn [map fst filter] in *. inversion IH; subst. destruct (negb _); [|auto]. cbn [map fst]. constructor; [|auto].
    intros Hin. apply H1. apply in_map_iff in Hin as (x & E & Hx). apply filter_In in Hx as [Hx _]. apply in_map_iff. eauto.
Qed.
Lemma objs_layers ts l : NoDup (map bt_obj ts) -> NoDup (map bt_layer ts) -> Forall (of_texts ts) l -> NoDup (map snd (objs_of l)).
Proof.
  intros N1 N2 Hl. pose proof (objs_nodup l) as N.
  assert (X : forall o u, In (o, u) (objs_of l) -> exists t, In t ts /\ o = bt_obj t /\ u = bt_layer t).
  { intros o u H. destruct (objs_In _ _ _ H) as (w & Hw & <- & <-). rewrite Forall_forall in Hl. exact (Hl w Hw). }
  clear Hl. induction (objs_of l) as [|[o u] r IH]; [constructor|]. cbn [map fst snd] in *. inversion N; subst. constructor.
  - intros Hin. apply in_map_iff in Hin as ([o' u'] & E & Hin). cbn [snd] in E. subst u'.
    destruct (X o u ltac:(now left)) as (t & Ht & -> & Et). destruct (X o' u ltac:(now right)) as (t' & Ht' & -> & Et').
    rewrite (text_unique bt_layer ts t t' N2 Ht Ht' ltac:(congruence)) in H1. apply H1. apply in_map_iff. exists (bt_obj t', u). auto.
  - apply IH; auto. intros o' u' H. apply X. now right.
Qed.

Lemma set_times_dbl ms : forall l time, Forall (fun w => is_dbl (wd_time w)) (set_times ms time l).
Proof. induction l as [|w l IH]; intros time; cbn [set_times]; constructor; [|apply IH]. cbn [wd_time]. apply rnd64_idem. Qed.
Lemma set_times_of ms ts : forall l time, Forall (of_texts ts) l -> Forall (of_texts ts) (set_times ms time l).
Proof. induction l as [|w l IH]; intros time H; cbn [set_times]; constructor; apply Forall_cons_iff in H as [H1 H2]; [exact H1|now apply IH]. Qed.
Lemma shown_of letter g : Forall (of_texts (bg_texts g)) (shown letter g).
Proof.
  apply Forall_forall. intros w Hw. unfold shown in Hw. apply in_flat_map in Hw as (t & Ht & Hw). unfold text_words in Hw. apply in_map_iff in Hw as (x & <- & _).
  exists t. auto.
Qed.
Lemma line_words_of letter gs line : Forall (fun w => is_dbl (wd_time w) /\ exists g, group_for gs (snd line) = Some g /\ of_texts (bg_texts g) w) (line_words letter gs line).
Proof.
  destruct line as [[a b] x]. unfold line_words. cbn [snd]. destruct (group_for gs x) as [g|]; [|constructor]. unfold timed. destruct (letters _ =? 0)%Z; [constructor|].
  pose proof (set_times_dbl (rnd64 (inject_Z b / inject_Z (letters (shown letter g)))) (shown letter g) (inject_Z a)) as D.
  pose proof (set_times_of (rnd64 (inject_Z b / inject_Z (letters (shown letter g)))) (bg_texts g) (shown letter g) (inject_Z a) (shown_of letter g)) as O.
  rewrite Forall_forall in *. intros w Hw. split; [now apply D|]. exists g. split; [reflexivity|now apply O].
Qed.
Lemma group_for_In gs x g : group_for gs x = Some g -> In g gs.
Proof. unfold group_for. intros H. now apply find_some in H. Qed.

(** ** adjust *)

Section Adjust.
  Context (st : lcls) (letter : bool) (F : forest) (root : inode) (srt : list (Z * Z * pstr)) (gs : list bgroup) (f : Q) (val : N -> N) (old calm : N -> node).
  Let lines := map tidy_line srt.
  Let us := map bt_layer (all_texts gs).
  Context (W : wf F) (R : root_of F root) (C : iname root = s "canvas") (Hf : ctx_fps (Some (iattrs root)) = Ok (Some f)) (Hf0 : (0 <= f)%Q)
    (G : bywords_groups st F root = Ok gs)
    (Nu : NoDup us) (At : forall u, In u us -> text_at F u (val u) (old u)) (Ap : forall u u', In u us -> In u' us -> u <> u' -> apart F u u')
    (St : forall u, In u us -> still (Some (iattrs root)) f (old u) (calm u))
    (Lt : forall line g, In line lines -> group_for gs (snd line) = Some g -> letters (shown letter g) <> 0%Z)
    (Pt : forall line w, In line lines -> In w (line_words letter gs line) -> plain_time (wd_time w)).

  Lemma start_texts : texts (iattrs root) us val F old.
  Proof.
    split; auto. exists root. split; [exact R|]. split; [exact C|]. split; [reflexivity|]. intros v Hv. apply in_map_iff in Hv as (u & <- & Hu).
    pose proof (At u Hu) as H. destruct (text_at_desc F u (val u) (old u) W H) as (n & x & Hn & Hx & _ & Hxn & _).
    pose proof (fget_In _ _ _ Hx) as (_ & Hxv & _). unfold us in Hu. apply in_map_iff in Hu as (t & Et & Ht). destruct (bywords_groups_texts _ _ _ _ G) as [_ H2].
    destruct (H2 t Ht) as (n' & Hn' & En'). assert (n' = n) as ->.
    { assert (In root (fdesc F)). { destruct R as (d & Hd & Hdt & Hdk & Hrt). apply in_split in Hd as (F1 & F2 & ->). destruct d as [|du dn da dk]; [discriminate|]. cbn [ikids] in Hdk. subst dk.
        rewrite fdesc_app, fdesc_IE. apply in_or_app. right. right. apply in_or_app. left. destruct root; [discriminate|]. rewrite fdesc_IE. now left. }
      pose proof (desc_trans F root n' H0 Hn') as Hd. pose proof (fget_desc F n' W Hd) as E. rewrite En', Et, Hn in E. now injection E. }
    pose proof (idesc_trans root n x Hn' Hxn) as Hxr. destruct root as [|ru rn ra rk]; [contradiction|]. rewrite idesc_IE in Hxr. cbn [ikids]. rewrite <- Hxv, <- uids_desc. now apply in_map.
  Qed.
  Lemma matched_us : incl (matched gs lines) us.
  Proof.
    intros u Hu. unfold matched in Hu. apply in_flat_map in Hu as (line & _ & Hu). destruct (group_for gs (snd line)) as [g|] eqn:E; [|contradiction].
    apply group_for_In in E. apply in_map_iff in Hu as (t & <- & Ht). apply in_map. unfold all_texts. apply in_flat_map. eauto.
  Qed.

  Lemma adjust_is order : (forall l, Permutation (order l) l) ->
    exists F' words no new, bywords st letter F root srt = (F', Ok (words, no)) /\
    exists F'', adjust order st letter F root srt = (F'', Ok tt) /\ wf F'' /\ map (hollow (map val (matched gs lines))) F'' = map (hollow (map val (matched gs lines))) F /\
      texts (iattrs root) us val F'' new /\
      (forall u, new u = if mem u (matched gs lines)
                         then match filter (fun w => wd_layer w =? u) words with [] => calm u | ws => animated_string (showing f ws) end
                         else old u).
  Proof.
    intros Ho. set (V := map val (matched gs lines)).
    destruct (run_lines_run (iattrs root) f us val letter gs calm V lines F old [] [] start_texts St Lt matched_us (incl_refl _)) as (F1 & d & no & E1 & T1 & B1).
    destruct (run_lines_ok letter gs lines F [] [] F1 d no E1) as [Ed _].
    destruct (bywords_groups_texts _ _ _ _ G) as [No _].
    assert (EB : bywords st letter F root srt = (F1, Ok (sort_words d, no))) by (unfold bywords; rewrite G; fold lines; now rewrite E1).
    exists F1, (sort_words d), no. set (words := sort_words d) in *.
    assert (Pw : Permutation words d) by apply (sort_perm _).
    assert (Wd : forall w, In w words -> exists line, In line lines /\ In w (line_words letter gs line)).
    { intros w Hw. apply (Permutation_in w Pw) in Hw. rewrite Ed in Hw. apply put_words_In in Hw; [|constructor]. destruct Hw as [(l1 & l2 & E & _)|[[] _]].
      apply in_flat_map. rewrite E. apply in_or_app. right. now left. }
    assert (Ww : Forall (of_texts (all_texts gs)) words /\ Forall fine words /\ forall w, In w words -> In (wd_layer w) (matched gs lines)).
    { split; [|split]; [apply Forall_forall|apply Forall_forall|]; intros w Hw; destruct (Wd w Hw) as (line & Hl & Hlw); pose proof (line_words_of letter gs line) as O; rewrite Forall_forall in O; destruct (O w Hlw) as (O1 & g & O2 & t & O3 & O4 & O5).
      - exists t. split; [|auto]. unfold all_texts. apply in_flat_map. exists g. split; [now apply (group_for_In gs (snd line))|exact O3].
      - split; [exact O1|]. now apply (Pt line).
      - unfold matched. apply in_flat_map. exists line. split; [exact Hl|]. rewrite O2, O5. now apply in_map. }
    destruct Ww as (Ww1 & Ww2 & Ww3).
    pose proof (objs_layers (all_texts gs) words No Nu Ww1) as Nl.
    assert (Pm : Permutation (map snd (order (objs_of words))) (map snd (objs_of words))) by (apply Permutation_map, Ho).
    assert (Lm : forall u, In u (map snd (order (objs_of words))) -> In u (matched gs lines)).
    { intros u Hu. apply (Permutation_in u Pm) in Hu. apply in_map_iff in Hu as ([o u'] & E & Hu). cbn [snd] in E. subst u'. destruct (objs_In _ _ _ Hu) as (w & Hw & _ & <-). now apply Ww3. }
    destruct (adjust_all_is (iattrs root) f us val Hf Hf0 V words (order (objs_of words)) F1 _ T1) as (F2 & st2 & E2 & T2 & B2 & X1 & X2).
    { intros u Hu. apply matched_us. now apply Lm. } { intros v Hv. apply in_map_iff in Hv as (u & <- & Hu). unfold V. apply in_map. now apply Lm. }
    { apply (Permutation_NoDup (l := map snd (objs_of words))); [now symmetry|exact Nl]. }
    { intros u Hu. apply Lm in Hu. unfold calmed. rewrite (proj2 (mem_In u (matched gs lines)) Hu). destruct (still_is _ _ _ _ (St u (matched_us u Hu))) as (_ & _ & H3 & H4 & H5 & _). auto. }
    { exact Ww2. }
    exists st2. split; [exact EB|]. exists F2. unfold adjust. rewrite EB. split; [exact E2|]. split; [apply T2|]. split; [now apply (same_but_trans V F F1 F2)|]. split; [exact T2|].
    intros u. destruct (filter (fun w => wd_layer w =? u) words) as [|w0 r] eqn:Ef.
    - assert (Hnu : ~ In u (map snd (order (objs_of words)))).
      { intros Hu. apply (Permutation_in u Pm) in Hu. apply in_map_iff in Hu as ([o u'] & E & Hu). cbn [snd] in E. subst u'. destruct (objs_In _ _ _ Hu) as (w & Hw & _ & <-).
        assert (In w []) as []. rewrite <- Ef. apply filter_In. split; [exact Hw|apply N.eqb_refl]. }
      rewrite (X2 u Hnu). unfold calmed. destruct (mem u (matched gs lines)); reflexivity.
    - assert (Hw0 : In w0 words /\ wd_layer w0 = u) by (assert (Hi : In w0 (w0 :: r)) by (now left); rewrite <- Ef in Hi; apply filter_In in Hi as [Hi1 Hi2]; apply N.eqb_eq in Hi2; auto).
      destruct Hw0 as [Hw0 <-]. rewrite (proj2 (mem_In _ _) (Ww3 w0 Hw0)). rewrite <- Ef.
      destruct (objs_of_In words w0 Hw0) as (u' & Hu'). destruct (objs_In _ _ _ Hu') as (w1 & Hw1 & Eo & El).
      rewrite Forall_forall in Ww1. destruct (Ww1 w0 Hw0) as (t0 & Ht0 & A0 & B0). destruct (Ww1 w1 Hw1) as (t1 & Ht1 & A1 & B3).
      assert (t0 = t1) as <- by (apply (text_unique bt_obj (all_texts gs)); auto; congruence).
      assert (u' = wd_layer w0) as -> by congruence.
      rewrite (X1 (wd_obj w0) (wd_layer w0)).
      + do 2 f_equal. apply filter_ext_in. intros w Hw. destruct (Ww1 w Hw) as (t & Ht & A2 & B4). rewrite A2, B4, A0, B0. 
        destruct (N.eqb_spec (bt_layer t) (bt_layer t0)) as [E|E].
        * apply obj_eqb_eq. f_equal. now apply (text_unique bt_layer (all_texts gs)).
        * destruct (obj_eqb (bt_obj t) (bt_obj t0)) eqn:Eo'; [|reflexivity]. apply obj_eqb_eq in Eo'. exfalso. apply E. f_equal. now apply (text_unique bt_obj (all_texts gs)).
      + apply (Permutation_in (l := objs_of words)); [symmetry; apply Ho|exact Hu'].
  Qed.
End Adjust.
