(** Adjusting the words of a document twice. *)
From Coq Require Import Lqa ZifyBool ZifyN ZifyNat Permutation Sorting.Sorted.
From Verif Require Import DocProofs LaySpec LayProofs LayProofs5 LayProofs6 AnimSpec TlSpec TlProofs PyFloatProofs SerProofs.
From Verif Require Import BywModel BywSpec BywProofs BywProofs2 BywProofs3 BywProofs4 BywProofs5 BywProofs6 BywProofs7 BywProofs8 BywProofs9 BywProofs10.
Local Open Scope N_scope.

(** ** Layers of documents that are the same apart from some tags *)

Lemma tag_names_forest (F : forest) : flat_map tag_names (map forget F) = map iname (fdesc F).
Proof.
  induction F as [|x F IH|u nm a k F IHk IH] using forest_ind; [reflexivity|exact IH|]. rewrite fdesc_IE. cbn [map flat_map forget tag_names iname app]. f_equal.
  rewrite map_app. now rewrite IHk, IH.
Qed.
Lemma inert_desc u nm a k : inert (forget (IE u nm a k)) -> forall x, In x (IE u nm a k :: fdesc k) -> iname x <> s "layer" /\ iname x <> s "param".
Proof.
  cbn [forget]. unfold inert. cbn [tag_names]. rewrite tag_names_forest. intros [H1 H2] x Hx.
  split; intros E; [apply H1|apply H2]; (destruct Hx as [<-|Hx]; [left; exact E|right; rewrite <- E; now apply in_map]).
Qed.

(** A layer or a field of one *)
Definition seen (n : inode) : bool := pstr_eqb (iname n) (s "layer") || pstr_eqb (iname n) (s "param").
Lemma seen_not n : iname n <> s "layer" /\ iname n <> s "param" -> seen n = false.
Proof.
  intros [H1 H2]. unfold seen. destruct (pstr_eqb (iname n) (s "layer")) eqn:E1; [apply pstr_eqb_spec in E1; contradiction|].
  destruct (pstr_eqb (iname n) (s "param")) eqn:E2; [apply pstr_eqb_spec in E2; contradiction|reflexivity].
Qed.
Lemma filter_none {A} (p : A -> bool) l : (forall x, In x l -> p x = false) -> filter p l = [].
Proof. induction l as [|x l IH]; intros H; [reflexivity|]. cbn [filter]. rewrite (H x) by (now left). apply IH. intros y Hy. apply H. now right. Qed.

Definition alike (V : list N) (a b : inode) : Prop := hollow V a = hollow V b /\ ~ In (iuid a) V /\ itag a = true.
Lemma alike_facts V a b : alike V a b -> itag b = true /\ iuid a = iuid b /\ iname a = iname b /\ iattrs a = iattrs b /\ map (hollow V) (ikids a) = map (hollow V) (ikids b).
Proof.
  intros (E & Hu & Ht). destruct a as [|u nm at_ k]; [discriminate|]. cbn [hollow iuid] in *. destruct (existsb (N.eqb u) V) eqn:E1.
  { apply existsb_exists in E1 as (v & Hv & Ev). apply N.eqb_eq in Ev. subst v. contradiction. }
  destruct b as [|u' nm' at' k']; [discriminate|]. cbn [hollow] in E. destruct (existsb (N.eqb u') V) eqn:E2.
  - injection E as -> _ _ _. congruence.
  - injection E as -> -> -> Ek. cbn. auto.
Qed.
Lemma corresponding V (F : forest) : forall F' : forest, map (hollow V) F = map (hollow V) F' ->
  (forall x, In x (fdesc F) -> In (iuid x) V -> inert (forget x)) -> (forall x, In x (fdesc F') -> In (iuid x) V -> inert (forget x)) ->
  Forall2 (alike V) (filter seen (fdesc F)) (filter seen (fdesc F')).
Proof.
  induction F as [|x F IH|u nm a k F IHk IH] using forest_ind; intros F' E H H'.
  - destruct F'; [constructor|discriminate].
  - destruct F' as [|[x'|u' nm' a' k'] F']; cbn [map hollow] in E; [discriminate| |destruct (existsb _ V); discriminate].
    injection E as <- E. exact (IH F' E H H').
  - destruct F' as [|[x'|u' nm' a' k'] F']; cbn [map] in E; [discriminate|cbn [hollow] in E; destruct (existsb _ V); discriminate|].
    injection E as E1 E2.
    assert (Ht : Forall2 (alike V) (filter seen (fdesc F)) (filter seen (fdesc F'))).
    { apply IH; [exact E2| |]; intros x Hx; [apply H|apply H']; rewrite fdesc_IE; right; apply in_or_app; now right. }
    rewrite !fdesc_IE. cbn [hollow] in E1. destruct (existsb (N.eqb u) V) eqn:Ev.
    + assert (u' = u) as -> by (destruct (existsb (N.eqb u') V); now injection E1).
      apply existsb_exists in Ev as (v & Hv & Eu). apply N.eqb_eq in Eu. subst v.
      rewrite !app_comm_cons, !filter_app, !(filter_none seen (_ :: fdesc _)); [exact Ht| |]; intros x Hx; apply seen_not.
      * apply (inert_desc u nm' a' k'); [apply H'; [rewrite fdesc_IE; now left|exact Hv]|exact Hx].
      * apply (inert_desc u nm a k); [apply H; [rewrite fdesc_IE; now left|exact Hv]|exact Hx].
    + destruct (existsb (N.eqb u') V) eqn:Ev'; [injection E1 as -> _ _ _; congruence|]. injection E1 as <- <- <- Ek.
      assert (Hk : Forall2 (alike V) (filter seen (fdesc k)) (filter seen (fdesc k'))).
      { apply IHk; [exact Ek| |]; intros x Hx; [apply H|apply H']; rewrite fdesc_IE; right; apply in_or_app; now left. }
      cbn [filter]. change (seen (IE u nm a k')) with (seen (IE u nm a k)). rewrite !filter_app. destruct (seen (IE u nm a k)); [|now apply Forall2_app].
      constructor; [|now apply Forall2_app]. split; [cbn [hollow]; rewrite Ev; f_equal; exact Ek|]. split; [|reflexivity]. cbn [iuid]. intros Hi. assert (existsb (N.eqb u) V = true); [|congruence].
      apply existsb_exists. exists u. split; [exact Hi|apply N.eqb_refl].
Qed.

Lemma filter_filter {A} (p q : A -> bool) l : (forall x, p x = true -> q x = true) -> filter p (filter q l) = filter p l.
Proof.
  intros H. induction l as [|x l IH]; [reflexivity|]. cbn [filter]. destruct (q x) eqn:Eq; cbn [filter]; [now rewrite IH|].
  destruct (p x) eqn:Ep; [|exact IH]. apply H in Ep. congruence.
Qed.
Lemma Forall2_filter {A} (R : A -> A -> Prop) (p : A -> bool) l l' : (forall a b, R a b -> p a = p b) -> Forall2 R l l' -> Forall2 R (filter p l) (filter p l').
Proof. intros H. induction 1 as [|a b l l' Hab _ IH]; [constructor|]. cbn [filter]. rewrite (H a b Hab). destruct (p b); [now constructor|exact IH]. Qed.
Lemma Forall2_In {A B} (R : A -> B -> Prop) l l' y : Forall2 R l l' -> In y l' -> exists x, In x l /\ R x y.
Proof. induction 1 as [|a b l l' Hab _ IH]; intros Hy; [contradiction|]. destruct Hy as [<-|Hy]; [exists a; split; [now left|exact Hab]|]. destruct (IH Hy) as (x & Hx & HR). exists x. split; [now right|exact HR]. Qed.

Lemma typed_alike V x a b : alike V a b -> typed x a = typed x b.
Proof. intros H. destruct (alike_facts V a b H) as (Tb & _ & En & Ea & _). destruct H as (_ & _ & Ta). unfold typed, is_layer, named, layer_class. now rewrite Ta, Tb, En, Ea. Qed.
Lemma typed_seen x n : typed x n = true -> seen n = true.
Proof.
  unfold typed, is_layer, named, seen. intros H. apply andb_prop in H as [H _]. apply andb_prop in H as [H _]. apply andb_prop in H as [_ H]. now rewrite H.
Qed.

Lemma idesc_kids_any n : idesc n = fdesc (ikids n).
Proof. destruct n; reflexivity. Qed.
Lemma plainly_in n m : plainly n -> In m (idesc n) -> plainly m.
Proof.
  intros [H1 H2] Hm. split; [|intros z Hz; apply H2; eapply idesc_trans; eauto]. unfold all_known in *. rewrite Forall_forall in *. intros y Hy. apply H1. eapply idesc_trans; eauto.
Qed.

Section Alike.
  Context (V : list N).
  Definition quiet (n : inode) : Prop := forall x, In x (idesc n) -> In (iuid x) V -> inert (forget x).

  Lemma quiet_in n m : quiet n -> In m (idesc n) -> quiet m.
  Proof. intros H Hm x Hx. apply H. eapply idesc_trans; eauto. Qed.
  Lemma alike_seen n n' : alike V n n' -> quiet n -> quiet n' -> Forall2 (alike V) (filter seen (idesc n)) (filter seen (idesc n')).
  Proof. intros H Q Q'. destruct (alike_facts V n n' H) as (_ & _ & _ & _ & Ek). unfold quiet in *. rewrite !idesc_kids_any in *. now apply corresponding. Qed.
  Lemma alike_plainly n n' : alike V n n' -> quiet n -> quiet n' -> plainly n -> plainly n'.
  Proof.
    intros H Q Q' [P1 P2]. pose proof (alike_seen n n' H Q Q') as C. unfold all_known in *. rewrite Forall_forall in *. split.
    - apply Forall_forall. intros y Hy Hl. destruct (Forall2_In _ _ _ y C) as (x & Hx & Hxy); [apply filter_In; split; [exact Hy|]; unfold is_layer, named in Hl; unfold seen; apply andb_prop in Hl as [_ ->]; reflexivity|].
      apply filter_In in Hx as [Hx _]. destruct (alike_facts V x y Hxy) as (Ty & _ & En & Ea & _). destruct Hxy as (_ & _ & Tx). destruct (P1 x Hx) as (c & Hc).
      + unfold is_layer, named in *. rewrite Ty in Hl. rewrite Tx, En. exact Hl.
      + exists c. unfold layer_class in *. now rewrite <- Ea.
    - intros z Hz. destruct (is_param (s "type_") z) eqn:E; [|reflexivity]. destruct (Forall2_In _ _ _ z C) as (x & Hx & Hxy).
      + apply filter_In. split; [exact Hz|]. unfold is_param, has_name_attr in E. unfold seen. apply andb_prop in E as [_ E]. apply andb_prop in E as [E _]. unfold has_name in E. cbn [is_tag tag_name andb] in E. rewrite E. apply Bool.orb_true_r.
      + apply filter_In in Hx as [Hx _]. destruct (alike_facts V x z Hxy) as (Ty & _ & En & Ea & _). destruct Hxy as (_ & _ & Tx). specialize (P2 x Hx). unfold is_param in *. rewrite Tx, En, Ea in P2. rewrite Ty in E. exact (eq_trans (eq_sym E) P2).
  Qed.
  Lemma alike_typed x n n' : alike V n n' -> quiet n -> quiet n' -> Forall2 (alike V) (filter (typed x) (idesc n)) (filter (typed x) (idesc n')).
  Proof.
    intros H Q Q'. rewrite <- (filter_filter (typed x) seen (idesc n)) by apply typed_seen. rewrite <- (filter_filter (typed x) seen (idesc n')) by apply typed_seen. apply Forall2_filter; [apply typed_alike|]. now apply alike_seen.
  Qed.

  Lemma alike_texts k l l' : Forall2 (alike V) l l' -> forall i, make_texts k i l = make_texts k i l'.
  Proof.
    induction 1 as [|a b l l' Hab _ IH]; intros i; [reflexivity|]. cbn [make_texts]. rewrite IH. destruct (alike_facts V a b Hab) as (_ & Eu & _ & Ea & _).
    unfold make_text, attr_get. now rewrite Eu, Ea.
  Qed.
  Lemma Forall2_rev' {A} (R : A -> A -> Prop) l l' : Forall2 R l l' -> Forall2 R (rev l) (rev l').
  Proof. induction 1; [constructor|]. cbn [rev]. apply Forall2_app; [assumption|]. repeat constructor. assumption. Qed.
  Lemma alike_group st F F' k d n n' : alike V n n' -> quiet n -> quiet n' -> plainly n -> make_group st F k d n = make_group st F' k d n'.
  Proof.
    intros H Q Q' P. pose proof (alike_plainly n n' H Q Q' P) as P'. destruct P as [P1 P2], P' as [P1' P2']. unfold make_group. rewrite !find_type by assumption. cbn [bind].
    rewrite (alike_texts k _ (rev (filter (typed (normalise (s "text"))) (idesc n')))); [reflexivity|]. apply Forall2_rev'. now apply alike_typed.
  Qed.
  Lemma alike_groups st F F' l l' : Forall2 (alike V) l l' -> Forall quiet l -> Forall quiet l' -> Forall plainly l -> forall k, make_groups st F k l = make_groups st F' k l'.
  Proof.
    induction 1 as [|a b l l' Hab _ IH]; intros Q Q' P k; [reflexivity|]. apply Forall_cons_iff in Q as [Qa Q]. apply Forall_cons_iff in Q' as [Qb Q']. apply Forall_cons_iff in P as [Pa P].
    cbn [make_groups]. destruct (alike_facts V a b Hab) as (_ & _ & _ & Ea & _). unfold attr_get. rewrite Ea. destruct (match aget _ (iattrs b) with Some v => attr_conv TStrA v | None => Ok PNone end) as [d|e]; [|reflexivity]. cbn [bind].
    destruct d; try (now apply IH). destruct (starts_with _ _); [|now apply IH]. rewrite (alike_group st F F' k _ a b Hab Qa Qb Pa), (IH Q Q' P). reflexivity.
  Qed.
  Lemma find_groups st F n : layer_find_all st F n [PaCls cls_Group] true [] None = layer_find_all st F n [PaStr (s "group")] true [] None.
  Proof. unfold layer_find_all. assert (criterion_of [PaCls cls_Group] [] None = criterion_of [PaStr (s "group")] [] None) as -> by (vm_compute; reflexivity). reflexivity. Qed.
  Lemma alike_bywords st F F' n n' : alike V n n' -> quiet n -> quiet n' -> plainly n -> bywords_groups st F n = bywords_groups st F' n'.
  Proof.
    intros H Q Q' P. pose proof (alike_plainly n n' H Q Q' P) as P'. unfold bywords_groups. rewrite !find_groups. pose proof P as [P1 P2]. pose proof P' as [P1' P2']. rewrite !find_type by assumption. cbn [bind].
    rewrite (alike_groups st F F' _ (filter (typed (normalise (s "group"))) (idesc n'))); [reflexivity|now apply alike_typed| | |];
      apply Forall_forall; intros x Hx; apply filter_In in Hx as [Hx _]; [now apply (quiet_in n)|now apply (quiet_in n')|now apply (plainly_in n)].
  Qed.
End Alike.

(** ** The root afterwards *)

Lemma root_alike V (F F' : forest) root : wf F -> root_of F root -> (forall v, In v V -> In v (fuids (ikids root))) -> map (hollow V) F' = map (hollow V) F ->
  exists root', root_of F' root' /\ alike V root root'.
Proof.
  intros W (d & Hd & Hdt & Hdk & Hrt) HV E. destruct d as [|du dn da dk]; [discriminate|]. cbn [ikids] in Hdk. subst dk. destruct root as [|ru rn ra rk]; [discriminate|]. cbn [ikids] in HV.
  assert (N : ~ In du V /\ ~ In ru V).
  { apply in_split in Hd as (F1 & F2 & EF). unfold wf in W. rewrite EF, fuids_app, fuids_IE in W. apply NoDup_app_parts in W as (_ & W & _). apply NoDup_cons_iff in W as [Wd W].
    apply NoDup_app_parts in W as (W & _ & _). assert (Ei : fuids [IE ru rn ra rk] = ru :: fuids rk) by (rewrite fuids_IE; cbn; now rewrite app_nil_r). rewrite Ei in W. apply NoDup_cons_iff in W as [Wr W].
    split; intros Hi; apply HV in Hi; [apply Wd, in_or_app; left; rewrite Ei; now right|contradiction]. }
  destruct N as [Nd Nr]. assert (Hh : In (hollow V (IE du dn da [IE ru rn ra rk])) (map (hollow V) F')) by (rewrite E; now apply in_map).
  apply in_map_iff in Hh as (d' & Ed & Hd'). assert (A : alike V (IE du dn da [IE ru rn ra rk]) d') by (split; [now symmetry|]; split; [exact Nd|reflexivity]).
  destruct (alike_facts _ _ _ A) as (Td & _ & _ & _ & Ek). cbn [ikids map] in Ek. destruct (ikids d') as [|r' [|]] eqn:Ekd; try discriminate. cbn [map] in Ek. injection Ek as Ek.
  assert (A' : alike V (IE ru rn ra rk) r') by (split; [exact Ek|]; split; [exact Nr|reflexivity]). exists r'. split; [|exact A']. exists d'. split; [exact Hd'|]. split; [exact Td|]. split; [exact Ekd|].
  now destruct (alike_facts _ _ _ A').
Qed.

(** ** Twice *)

Lemma bywords_words st letter F root srt gs F1 words no : bywords_groups st F root = Ok gs -> bywords st letter F root srt = (F1, Ok (words, no)) ->
  words = sort_words (put_words (flat_map (line_words letter gs) (map tidy_line srt)) []).
Proof.
  intros G H. unfold bywords in H. rewrite G in H. destruct (run_lines letter F gs (map tidy_line srt) [] []) as [F2 [[d n]|]] eqn:E; [|discriminate]. injection H as _ <- _.
  now apply run_lines_ok in E as [-> _].
Qed.
Lemma put_all_some l : forall l0, l0 <> [] -> put_all l l0 <> [].
Proof.
  induction l as [|w l IH]; intros l0 H; [exact H|]. cbn [put_all fold_left]. apply (IH (put_wp w l0)). intros E. assert (In w (put_wp w l0)) as Hi by (apply put_members; now left).
  rewrite E in Hi. contradiction.
Qed.
Lemma showing_good f ws : (0 <= f)%Q -> Forall (fun w => plain_time (wd_time w)) ws -> good_wps f (showing f ws) /\ showing f ws <> [].
Proof.
  intros Hf H. split; [|rewrite showing_first; apply put_all_some; discriminate]. unfold showing.
  change (shows f 0 [] :: _) with (const_of f (0%Q, []) :: map (fun w => const_of f (rnd64 (wd_time w * f), wd_text w)) ws).
  rewrite <- (map_map (fun w => (rnd64 (wd_time w * f), wd_text w)) (const_of f)). change (const_of f (0%Q, []) :: map (const_of f) ?l) with (map (const_of f) ((0%Q, []) :: l)).
  apply good_const.
  - split; [exact I|]. split; constructor.
  - constructor; [apply Qle_refl|]. rewrite Forall_map. eapply Forall_impl; [|exact H]. intros w Hw. cbn [fst]. apply rnd64_nonneg, Qmult_le_0_compat; auto using plain_nonneg.
Qed.
Lemma inert_animated f ws : inert (animated_string (showing f ws)).
Proof.
  assert (H : Forall (fun w => w_val w = string_node (match w_val w with El _ _ [Txt x] => x | _ => [] end)) (showing f ws)).
  { assert (G : forall l l0, Forall (fun w => exists x, w_val w = string_node x) l -> Forall (fun w => exists x, w_val w = string_node x) l0 -> Forall (fun w => exists x, w_val w = string_node x) (put_all l l0)).
    { induction l as [|w l IH]; intros l0 Hl H0; [exact H0|]. apply Forall_cons_iff in Hl as [Hw Hl]. cbn [put_all fold_left]. apply IH; [exact Hl|]. rewrite Forall_forall in *. intros v Hv. apply put_members in Hv as [->|[Hv _]]; auto. }
    eapply Forall_impl; [|apply (G _ [])].
    - intros w (x & E). rewrite E. reflexivity.
    - constructor; [now exists []|]. rewrite Forall_map. apply Forall_forall. intros w _. now exists (wd_text w).
    - constructor. }
  assert (N : forall x, In x (tag_names (animated_string (showing f ws))) -> In x [s "animated"; s "waypoint"; s "string"]).
  { intros x Hx. unfold animated_string in Hx. cbn [tag_names] in Hx. destruct Hx as [<-|Hx]; [now left|]. rewrite flat_map_concat_map, map_map, <- flat_map_concat_map in Hx.
    apply in_flat_map in Hx as (w & Hw & Hx). rewrite Forall_forall in H. specialize (H w Hw). unfold wp_tag in Hx. rewrite H in Hx. cbn [tag_names flat_map string_node app] in Hx.
    destruct Hx as [<-|[<-|[]]]; [right; now left|right; right; now left]. }
  split; intros Hx; apply N in Hx; destruct Hx as [E|[E|[E|[]]]]; discriminate E.
Qed.

Section Twice.
  Context (st : lcls) (letter : bool) (F : forest) (root : inode) (srt : list (Z * Z * pstr)) (gs : list bgroup) (f : Q) (val : N -> N) (old calm : N -> node).
  Let lines := map tidy_line srt.
  Let V := map val (matched gs lines).
  Context (Su : suits st F root gs f val old calm) (T : timely letter gs lines) (P : plainly root)
    (I : forall t, In t (all_texts gs) -> inert (old (bt_layer t)) /\ inert (calm (bt_layer t))).

  Lemma adjust_twice order order' : (forall l, Permutation (order l) l) -> (forall l, Permutation (order' l) l) ->
    exists F2 root2 F4, adjust order st letter F root srt = (F2, Ok tt) /\ root_of F2 root2 /\ iuid root2 = iuid root /\
      adjust order' st letter F2 root2 srt = (F4, Ok tt) /\ map forget F4 = map forget F2.
  Proof.
    intros O O'. destruct (suits_adjust st letter F root srt gs f val old calm Su order T O) as (F1 & words & no & new & B & F2 & A & W & H & X & Y). fold lines V in H, Y.
    pose proof (bywords_words _ _ _ _ _ _ _ _ _ (su_groups _ _ _ _ _ _ _ _ Su) B) as Ew. fold lines in Ew.
    assert (Pw : Forall (fun w => plain_time (wd_time w)) words).
    { apply Forall_forall. intros w Hw. rewrite Ew in Hw. apply (Permutation_in w (sort_perm _ _)) in Hw. apply put_words_In in Hw; [|constructor]. destruct Hw as [(l1 & l2 & E & _)|[[] _]].
      assert (Hi : In w (flat_map (line_words letter gs) lines)) by (rewrite E; apply in_or_app; right; now left). apply in_flat_map in Hi as (line & Hl & Hi). now apply (proj2 T line). }
    assert (HV : forall u, In u (map bt_layer (all_texts gs)) -> In (val u) (fuids (ikids root))).
    { intros u Hu. destruct (layer_text gs u Hu) as (t & Ht & <-). pose proof (su_text _ _ _ _ _ _ _ _ Su t Ht) as At. pose proof (su_wf _ _ _ _ _ _ _ _ Su) as Wf.
        destruct (text_at_desc _ _ _ _ Wf At) as (n & x & Hn & Hx & _ & Hxn & _). pose proof (fget_In _ _ _ Hx) as (_ & Hxv & _).
        destruct (bywords_groups_texts _ _ _ _ (su_groups _ _ _ _ _ _ _ _ Su)) as [_ H2]. destruct (H2 t Ht) as (n' & Hn' & En').
        assert (n' = n) as ->.
        { assert (Hr : In root (fdesc F)). { destruct (su_root _ _ _ _ _ _ _ _ Su) as (d & Hd & Hdt & Hdk & Hrt). apply in_split in Hd as (Fa & Fb & ->). destruct d as [|du dn da dk]; [discriminate|]. cbn [ikids] in Hdk. subst dk.
            rewrite fdesc_app, fdesc_IE. apply in_or_app. right. right. apply in_or_app. left. destruct root; [discriminate|]. rewrite fdesc_IE. now left. }
          pose proof (desc_trans F root n' Hr Hn') as Hd. pose proof (fget_desc F n' Wf Hd) as E. rewrite En', Hn in E. now injection E. }
        pose proof (idesc_trans root n x Hn' Hxn) as Hxr. rewrite idesc_kids_any in Hxr. rewrite <- Hxv, <- uids_desc. now apply in_map. }
    assert (HVV : forall v, In v V -> exists t, In t (all_texts gs) /\ v = val (bt_layer t)).
    { intros v Hv. unfold V in Hv. apply in_map_iff in Hv as (u & <- & Hu). apply matched_layers in Hu. destruct (layer_text gs u Hu) as (t & Ht & <-). eauto. }
    destruct (root_alike V F F2 root (su_wf _ _ _ _ _ _ _ _ Su) (su_root _ _ _ _ _ _ _ _ Su)) as (root2 & R2 & A2); [|exact H|].
    { intros v Hv. destruct (HVV v Hv) as (t & Ht & ->). apply HV. now apply in_map. }
    destruct (alike_facts _ _ _ A2) as (_ & Eu & En & Ea & _).
    assert (InR : forall (G : forest) r, root_of G r -> forall x, In x (idesc r) -> In x (fdesc G)).
    { intros G r (d & Hd & Hdt & Hdk & Hrt) x Hx. apply in_split in Hd as (Fa & Fb & ->). destruct d as [|du dn da dk]; [discriminate|]. cbn [ikids] in Hdk. subst dk.
      rewrite fdesc_app, fdesc_IE. apply in_or_app. right. right. apply in_or_app. left. destruct r as [|ru rn ra rk]; [discriminate|]. rewrite fdesc_IE. right. apply in_or_app. left. exact Hx. }
    assert (In2 : forall t, In t (all_texts gs) -> inert (new (bt_layer t))).
    { intros t Ht. rewrite Y. destruct (I t Ht) as [I1 I2]. destruct (mem _ _); [|exact I1]. destruct (filter _ words); [exact I2|apply inert_animated]. }
    assert (Q1 : quiet V root).
    { intros x Hx Hv. destruct (HVV _ Hv) as (t & Ht & Et). destruct (text_at_desc _ _ _ _ (su_wf _ _ _ _ _ _ _ _ Su) (su_text _ _ _ _ _ _ _ _ Su t Ht)) as (n & y & _ & Hy & Ey & _).
      pose proof (fget_desc F x (su_wf _ _ _ _ _ _ _ _ Su) (InR F root (su_root _ _ _ _ _ _ _ _ Su) x Hx)) as G. rewrite Et, Hy in G. injection G as <-. rewrite Ey. now apply I. }
    assert (Q2 : quiet V root2).
    { intros x Hx Hv. destruct (HVV _ Hv) as (t & Ht & Et). destruct (text_at_desc _ _ _ _ W (tx_at _ _ _ _ _ X (bt_layer t) (in_map _ _ _ Ht))) as (n & y & _ & Hy & Ey & _).
      pose proof (fget_desc F2 x W (InR F2 root2 R2 x Hx)) as G. rewrite Et, Hy in G. injection G as <-. rewrite Ey. now apply In2. }
    pose proof (alike_bywords V st F F2 root root2 A2 Q1 Q2 P) as G2. rewrite (su_groups _ _ _ _ _ _ _ _ Su) in G2. symmetry in G2.
    set (calm2 := fun u => if mem u (matched gs lines) then match filter (fun w => wd_layer w =? u) words with [] => calm u | ws => match showing f ws with w :: _ => w_val w | [] => calm u end end else calm u).
    assert (S2 : suits st F2 root2 gs f val new calm2).
    { destruct Su as [s1 s2 s3 s4 s5 s6 s7 s8 s9 s10]. split; auto.
      - now rewrite <- En.
      - now rewrite <- Ea.
      - intros t Ht. apply (tx_at _ _ _ _ _ X). now apply in_map.
      - intros t t' Ht Ht' Hne. apply (tx_apart _ _ _ _ _ X); auto using in_map.
      - intros t Ht. rewrite <- Ea, Y. unfold calm2. destruct (mem _ _); [|now apply s10]. destruct (filter (fun w => wd_layer w =? bt_layer t) words) as [|w ws] eqn:Ef.
        + destruct (still_is _ _ _ _ (s10 t Ht)) as (_ & _ & _ & Hm1 & Hm2 & _). now apply still_static.
        + destruct (showing_good f (w :: ws) s5) as [G1 G3]; [rewrite <- Ef; now apply filter_forall|]. destruct (showing f (w :: ws)) as [|v l] eqn:Es; [contradiction|].
          destruct (animated_is (Some (iattrs root)) f (v :: l) s4 G1) as (K1 & K2 & K3). now apply still_animated with (l := l). }
    destruct (suits_adjust st letter F2 root2 srt gs f val new calm2 S2 order' T O') as (F3 & words2 & no2 & new2 & B2 & F4 & A4 & W4 & H4 & X4 & Y4). fold lines V in H4, Y4.
    pose proof (bywords_words _ _ _ _ _ _ _ _ _ G2 B2) as Ew2. fold lines in Ew2. assert (words2 = words) as -> by congruence.
    exists F2, root2, F4. split; [exact A|]. split; [exact R2|]. split; [now symmetry|]. split; [exact A4|]. apply (hollow_forgets V); [exact H4|].
    intros v x x' Hv Hx Hx' Ex Ex'. destruct (HVV v Hv) as (t & Ht & ->).
    destruct (text_at_desc _ _ _ _ W4 (tx_at _ _ _ _ _ X4 (bt_layer t) (in_map _ _ _ Ht))) as (n & y & _ & Hy & Fy & _).
    destruct (text_at_desc _ _ _ _ W (tx_at _ _ _ _ _ X (bt_layer t) (in_map _ _ _ Ht))) as (n' & y' & _ & Hy' & Fy' & _).
    pose proof (fget_desc _ _ W4 Hx) as G. rewrite Ex, Hy in G. injection G as ->. pose proof (fget_desc _ _ W Hx') as G. rewrite Ex', Hy' in G. injection G as ->.
    rewrite Fy, Fy', Y4, Y. unfold calm2. destruct (mem (bt_layer t) (matched gs lines)); [|reflexivity]. destruct (filter (fun w => wd_layer w =? bt_layer t) words); reflexivity.
  Qed.
End Twice.
