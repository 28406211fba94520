(** What bywords writes can be saved. *)
From Coq Require Import Lia Lqa Permutation Sorting.Sorted.
From Verif Require Import DocProofs LaySpec LayProofs LayProofs5 AnimSpec XpSpec XpProofs AnimProofs2 AnimProofs3 AnimProofs5 TlSpec TlProofs LayProofs6 PyFmtProofs SerProofs.
From Verif Require Import BywModel BywSpec BywProofs BywProofs2 BywProofs3 BywProofs6 BywProofs8 BywProofs10 BywProofs11 BywProofs12 BywProofs13.
Local Open Scope N_scope.

(** ** Times *)

Lemma num_good x : all_num x -> good_text x.
Proof. apply Forall_impl. intros c H. apply numchar_cases in H. unfold xml_char. lia. Qed.
Lemma good_app x y : good_text x -> good_text y -> good_text (x ++ y).
Proof. intros. now apply Forall_app. Qed.
Lemma join_good sep l : good_text sep -> Forall good_text l -> good_text (join sep l).
Proof.
  intros Hs H. induction H as [|x l Hx Hl IH]; [constructor|]. cbn [join]. destruct l; [exact Hx|]. apply good_app; [exact Hx|]. now apply good_app.
Qed.
Lemma time_good t : good_text (T_str t).
Proof.
  unfold T_str. destruct (fps t) as [f|]; [|apply good_app; [apply num_good, fmt_g_num|now apply good_textb]].
  assert (U : forall us st, Forall (fun u => xml_char (fst u) = true) us -> Forall good_text (fst st) -> Forall good_text (fst (fold_left str_unit us st))).
  { induction us as [|u us IH]; intros [out sec] Hu H; [exact H|]. inversion_clear Hu. cbn [fold_left]. apply IH; [assumption|]. unfold str_unit. destruct (Qle_bool _ sec); [|exact H]. cbn [fst] in *.
    apply Forall_app. split; [exact H|]. constructor; [|constructor]. apply good_app; [apply num_good, dec_Z_num|]. constructor; [assumption|constructor]. }
  specialize (U unit_sizes ([], Qabs (fdiv (frames t) f))). destruct (fold_left str_unit unit_sizes ([], Qabs (fdiv (frames t) f))) as [out rest]. cbn [fst] in U.
  assert (Ho : Forall good_text out) by (apply U; [repeat constructor|constructor]). apply good_app; [destruct (Qlt_bool (frames t) 0); now apply good_textb|].
  apply join_good; [now apply good_textb|]. destruct (_ || _); [|exact Ho]. apply Forall_app. split; [exact Ho|]. constructor; [|constructor]. apply good_app; [apply num_good, fmt_g_num|now apply good_textb].
Qed.

(** ** Parts of a document *)

Lemma writable_desc n : writable (forget n) -> forall x, In x (idesc n) -> writable (forget x).
Proof.
  induction n as [y|u nm a k IH] using inode_ind'; [intros _ x []|]. cbn [forget]. rewrite writable_El. intros (_ & _ & W) x Hx. unfold all_writable in W. rewrite Forall_map, Forall_forall in W.
  rewrite Forall_forall in IH. change (In x (fdesc k)) in Hx. unfold fdesc in Hx. apply in_flat_map in Hx as (c & Hc & Hx). destruct c as [y|u' nm' a' k']; [destruct Hx|].
  destruct Hx as [<-|Hx]; [now apply W|]. now apply (IH _ Hc (W _ Hc)).
Qed.
Lemma writable_forest (F : forest) x : Forall writable (map forget F) -> In x (fdesc F) -> writable (forget x).
Proof.
  intros W Hx. rewrite Forall_map, Forall_forall in W. unfold fdesc in Hx. apply in_flat_map in Hx as (c & Hc & Hx). destruct c as [y|u nm a k]; [destruct Hx|].
  destruct Hx as [<-|Hx]; [now apply W|]. now apply (writable_desc _ (W _ Hc)).
Qed.
Lemma writable_attr n k v : writable (forget n) -> aget k (iattrs n) = Some v -> good_text (aval_str v).
Proof.
  destruct n as [|u nm a ks]; [discriminate|]. cbn [forget iattrs]. rewrite writable_El. intros (_ & (_ & A) & _) H. apply (aget_Forall (fun kv => good_name (fst kv) /\ good_text (aval_str (snd kv))) a k v) in H; [apply H|exact A].
Qed.

Lemma hollow_writable V (F : forest) : forall F' : forest, map (hollow V) F' = map (hollow V) F -> Forall writable (map forget F) ->
  (forall x', In x' (fdesc F') -> In (iuid x') V -> writable (forget x')) -> Forall writable (map forget F').
Proof.
  induction F as [|x F IH|u nm a k F IHk IH] using forest_ind; intros F' E W H.
  - destruct F'; [constructor|discriminate].
  - destruct F' as [|[x'|u' nm' a' k'] F']; cbn [map hollow] in E; [discriminate| |destruct (existsb _ V); discriminate].
    injection E as -> E. cbn [map forget] in *. inversion_clear W. constructor; [assumption|]. now apply IH.
  - destruct F' as [|[x'|u' nm' a' k'] F']; cbn [map hollow] in E; [discriminate|destruct (existsb _ V); discriminate|].
    injection E as E1 E2. assert (u' = u) as -> by (destruct (existsb (N.eqb u) V), (existsb (N.eqb u') V); now injection E1).
    cbn [map] in W |- *. inversion_clear W as [|? ? W1 W2]. constructor.
    + destruct (existsb (N.eqb u) V) eqn:Ev.
      * apply H; [rewrite fdesc_IE; now left|]. apply existsb_exists in Ev as (v & Hv & Eu). apply N.eqb_eq in Eu. cbn [iuid]. now rewrite Eu.
      * injection E1 as -> -> Ek. cbn [forget] in *. rewrite writable_El in *. destruct W1 as (A & B & C). split; [exact A|]. split; [exact B|]. apply IHk; [exact Ek|exact C|].
        intros x' Hx'. apply H. rewrite fdesc_IE. right. apply in_or_app. now left.
    + apply IH; [exact E2|exact W2|]. intros x' Hx'. apply H. rewrite fdesc_IE. right. apply in_or_app. now right.
Qed.

(** ** Values *)

Lemma tset_sub k w : forall d d', tset k w d = Ok d' -> forall v, In v (map snd d') -> v = w \/ In v (map snd d).
Proof.
  induction d as [|[k' v'] d IH]; intros d' H v Hv; cbn [tset] in H; [injection H as <-; destruct Hv as [<-|[]]; now left|].
  destruct (tmatch k k') as [[|]|]; cbn [bind] in H; [| |discriminate].
  - injection H as <-. destruct Hv as [<-|Hv]; [now left|]. right. now right.
  - destruct (tset k w d) as [r|]; [|discriminate]. cbn [bind] in H. injection H as <-. destruct Hv as [<-|Hv]; [right; now left|]. destruct (IH r eq_refl v Hv) as [->|Hd]; [now left|right; now right].
Qed.
Lemma tsets_sub : forall ws d d', tsets ws d = Ok d' -> forall v, In v (map snd d') -> In v ws \/ In v (map snd d).
Proof.
  induction ws as [|w ws IH]; intros d d' H v Hv; cbn [tsets] in H; [injection H as <-; now right|]. destruct (tset (w_time w) w d) as [d1|] eqn:E; [|discriminate]. cbn [bind] in H.
  destruct (IH _ _ H v Hv) as [Hw|Hd]; [left; now right|]. destruct (tset_sub _ _ _ _ E v Hd) as [->|Hd']; [left; now left|now right].
Qed.
Lemma child_writable n c : writable n -> In c (child_tags n) -> writable c.
Proof.
  destruct n as [|nm a k]; [intros _ []|]. rewrite writable_El. intros (_ & _ & W) Hc. unfold child_tags in Hc. cbn [tag_kids] in Hc. apply filter_In in Hc as [Hc _]. unfold all_writable in W. rewrite Forall_forall in W. auto.
Qed.
Lemma waypoint_writable n cx l w : writable n -> tl_values n cx = Ok l -> In w l -> writable (w_val w).
Proof.
  intros W H Hw. unfold tl_values in H. destruct (waypoints n cx) as [d|] eqn:E; [|discriminate]. cbn [bind] in H. injection H as <-. unfold waypoints in E.
  destruct (waypoint_tags n) as [|t ts] eqn:Et; [injection E as <-; destruct Hw|]. rewrite <- Et in E. destruct (aget (s "type") (tag_attrs n)) as [ty|]; [|discriminate].
  assert (E' : (let* ws := mapM (fun w => wp_from_tag w ty cx) (waypoint_tags n) in tsets ws []) = Ok d) by (rewrite Et in E |- *; exact E). clear E.
  destruct (mapM (fun w => wp_from_tag w ty cx) (waypoint_tags n)) as [ws|] eqn:Em; [|discriminate]. cbn [bind] in E'.
  destruct (tsets_sub _ _ _ E' w Hw) as [Hi|[]]. destruct (mapM_In_rev _ _ _ Em w Hi) as (y & Hy & Ey). 
  assert (Wy : writable y). { unfold waypoint_tags in Hy. destruct (is_animated n); [|destruct Hy]. now apply (child_writable n). }
  unfold wp_from_tag in Ey. destruct (negb _); [discriminate|]. destruct (aget (s "time") (tag_attrs y)); [|discriminate]. destruct (T_init _ _); [|discriminate]. cbn [bind] in Ey.
  destruct (child_tags y) as [|v [|]] eqn:Ec; try discriminate. destruct (is_animated v); [discriminate|]. destruct (negb _); [discriminate|]. destruct (from_tag v); [|discriminate]. cbn [bind] in Ey.
  destruct (aget (s "before") _) as [b1|]; [|discriminate]. destruct (aget (s "after") _) as [b2|]; [|discriminate]. destruct (aval_interp b1); [|discriminate]. cbn [bind] in Ey.
  destruct (aval_interp b2); [|discriminate]. cbn [bind] in Ey. injection Ey as <-. cbn [w_val]. apply (child_writable y); [exact Wy|]. rewrite Ec. now left.
Qed.
Lemma still_writable cx f n m : still cx f n m -> writable n -> writable m.
Proof. intros [n' Ht Hn|n' w l Ha (_ & _ & Hv & _) Hy] W; [exact W|]. apply (waypoint_writable n' cx (w :: l)); auto. now left. Qed.

Lemma put_sub ws : forall l v, In v (put_all ws l) -> In v ws \/ In v l.
Proof.
  induction ws as [|w ws IH]; intros l v H; [now right|]. cbn [put_all fold_left] in H. destruct (IH _ _ H) as [Hw|Hl]; [left; now right|]. unfold put_wp in Hl. apply in_app_or in Hl as [Hl|[<-|Hl]].
  - apply filter_In in Hl. now right.
  - left; now left.
  - apply filter_In in Hl. now right.
Qed.
Ltac good_by_check := first [apply good_nameb; [discriminate|vm_compute; reflexivity]|apply good_textb; vm_compute; reflexivity].
Lemma shows_writable f q x : good_text x -> writable (wp_tag (shows f q x)).
Proof.
  intros Hx. unfold wp_tag, shows. cbn [w_time w_before w_after w_val]. rewrite writable_El. split; [good_by_check|]. split.
  - split; [repeat constructor; cbn; intuition discriminate|]. constructor; [split; [good_by_check|cbn [snd aval_str]; apply time_good]|]. constructor; [split; good_by_check|]. constructor; [split; good_by_check|constructor].
  - constructor; [|constructor]. unfold string_node. rewrite writable_El. split; [good_by_check|]. split; [split; constructor|]. constructor; [exact Hx|constructor].
Qed.
Lemma showing_writable f ws : Forall (fun w => good_text (wd_text w)) ws -> writable (animated_string (showing f ws)).
Proof.
  intros H. unfold animated_string. rewrite writable_El. split; [good_by_check|]. split.
  - split; [repeat constructor; intros []|]. constructor; [split; good_by_check|constructor].
  - unfold all_writable. rewrite Forall_map. apply Forall_forall. intros v Hv. unfold showing in Hv. apply put_sub in Hv as [[<-|Hv]|[]]; [apply shows_writable; constructor|].
    apply in_map_iff in Hv as (w & <- & Hw). apply shows_writable. rewrite Forall_forall in H. auto.
Qed.

(** ** The words *)

Lemma texts_found st F root gs : bywords_groups st F root = Ok gs -> forall t, In t (all_texts gs) -> exists n, In n (idesc root) /\ is_text n t.
Proof.
  unfold bywords_groups. destruct (layer_find_all st F root _ true [] None) as [l|] eqn:Ef; [|discriminate]. cbn [bind]. pose proof (find_all_inside _ _ _ _ _ _ _ Ef) as Hl. clear Ef.
  destruct (make_groups st F 0 l) as [gs0|] eqn:Em; [|discriminate]. cbn [bind]. intros [= <-] t Ht.
  assert (Ht0 : In t (all_texts gs0)).
  { unfold all_texts in *. apply in_flat_map in Ht as (g & Hg & Ht). apply in_flat_map. exists g. split; [|exact Ht]. exact (Permutation_in _ (SerProofs.sort_perm _ _) Hg). }
  clear Ht. revert gs0 Em Ht0. generalize 0%nat. induction l as [|n l IH]; intros k gs0 H Ht; cbn [make_groups] in H; [injection H as <-; destruct Ht|].
  assert (IH' : forall k gs0, make_groups st F k l = Ok gs0 -> In t (all_texts gs0) -> exists n, In n (idesc root) /\ is_text n t) by (intros k' gs1; apply IH; intros x Hx; apply Hl; now right). clear IH.
  destruct (attr_get (s "desc") TStrA PNone n) as [d|]; [|discriminate]. cbn [bind] in H. destruct d; try (now apply (IH' _ _ H)). destruct (starts_with _ _); [|now apply (IH' _ _ H)].
  unfold make_group in H. destruct (layer_find_all st F n [PaStr (s "text")] true [] None) as [l'|] eqn:Ef; [|discriminate]. cbn [bind] in H.
  destruct (make_texts k 0 (rev l')) as [ts|] eqn:Et; [|discriminate]. cbn [bind] in H. destruct (make_groups st F (S k) l) as [r|] eqn:Er; [|discriminate]. cbn [bind] in H. injection H as <-.
  unfold all_texts in Ht. cbn [flat_map bg_texts] in Ht. apply in_app_or in Ht as [Ht|Ht]; [|now apply (IH' _ _ Er)].
  apply make_texts_are in Et. assert (X : exists m, In m (rev l') /\ is_text m t).
  { clear -Et Ht. induction Et as [|m t' l1 l2 Hm _ IH]; [destruct Ht|]. destruct Ht as [<-|Ht]; [exists m; split; [now left|exact Hm]|]. destruct (IH Ht) as (m' & A & B). exists m'. split; [now right|exact B]. }
  destruct X as (m & Hm & T). exists m. split; [|exact T]. apply in_rev in Hm. apply (find_all_inside _ _ _ _ _ _ _ Ef) in Hm. apply (idesc_trans root n m); [|exact Hm]. apply Hl. now left.
Qed.

Lemma prefix_good p x : prefix p x -> good_text x -> good_text p.
Proof. intros (r & ->) H. now apply Forall_app in H. Qed.
Lemma words_good st letter F root srt gs F1 words no : bywords_groups st F root = Ok gs -> bywords st letter F root srt = (F1, Ok (words, no)) ->
  (forall x, In x (idesc root) -> writable (forget x)) -> Forall (fun w => good_text (wd_text w)) words.
Proof.
  intros G B W. apply Forall_forall. intros w Hw. destruct (bywords_ok _ _ _ _ _ _ _ _ B) as (gs' & G' & _ & H & K). rewrite G in G'. injection G' as <-.
  apply K in Hw as (l1 & l2 & E & _). assert (Hi : In w (flat_map (line_words letter gs) (map tidy_line srt))) by (rewrite E; apply in_or_app; right; now left).
  apply in_flat_map in Hi as (line & _ & Hi). destruct line as [[a b] x]. unfold line_words in Hi. destruct (group_for gs x) as [g|] eqn:Eg; [|contradiction].
  destruct (timed a b (shown letter g)) as [r|] eqn:Et; [|contradiction]. destruct (BywProofs9.timed_facts _ _ _ _ Et) as [Ex _].
  assert (Hx : In (wd_text w) (map wd_text (shown letter g))) by (rewrite <- Ex; now apply in_map). apply in_map_iff in Hx as (v & Ev & Hv). unfold shown in Hv. apply in_flat_map in Hv as (t & Ht & Hv).
  unfold text_words in Hv. apply in_map_iff in Hv as (p & <- & Hp). cbn [wd_text] in Ev. rewrite <- Ev.
  destruct (texts_found _ _ _ _ G t) as (n & Hn & _ & Hd). { unfold all_texts. apply in_flat_map. exists g. split; [now apply group_for_In in Eg|exact Ht]. }
  unfold desc_of in Hd. destruct (aget (s "desc") (iattrs n)) as [d|] eqn:Ed; [|discriminate]. injection Hd as Hd.
  pose proof (writable_attr n _ _ (W n Hn) Ed) as Gd. rewrite Hd in Gd. revert Gd. apply prefix_good.
  now apply (word_texts_prefix letter).
Qed.

Section Saved.
  Context (st : lcls) (letter : bool) (F : forest) (root : inode) (srt : list (Z * Z * pstr)) (gs : list bgroup) (f : Q) (val : N -> N) (old calm : N -> node).
  Let lines := map tidy_line srt.
  Let V := map val (matched gs lines).
  Context (Su : suits st F root gs f val old calm) (T : timely letter gs lines) (W0 : writable (forget root)).

  Lemma root_in (G : forest) r : root_of G r -> In r (fdesc G) /\ forall x, In x (idesc r) -> In x (fdesc G).
  Proof.
    intros (d & Hd & Hdt & Hdk & Hrt). apply in_split in Hd as (Fa & Fb & ->). destruct d as [|du dn da dk]; [discriminate|]. cbn [ikids] in Hdk. subst dk.
    rewrite fdesc_app, fdesc_IE. destruct r as [|ru rn ra rk]; [discriminate|]. split.
    - apply in_or_app. right. right. apply in_or_app. left. rewrite fdesc_IE. now left.
    - intros x Hx. apply in_or_app. right. right. apply in_or_app. left. rewrite fdesc_IE. right. apply in_or_app. left. exact Hx.
  Qed.
  Lemma val_in u : In u (map bt_layer (all_texts gs)) -> In (val u) (fuids (ikids root)) /\ exists x, In x (idesc root) /\ iuid x = val u /\ forget x = old u.
  Proof.
    intros Hu. destruct (layer_text gs u Hu) as (t & Ht & <-). pose proof (su_text _ _ _ _ _ _ _ _ Su t Ht) as At. pose proof (su_wf _ _ _ _ _ _ _ _ Su) as Wf.
    destruct (text_at_desc _ _ _ _ Wf At) as (n & x & Hn & Hx & Ex & Hxn & _). pose proof (fget_In _ _ _ Hx) as (_ & Hxv & _).
    destruct (bywords_groups_texts _ _ _ _ (su_groups _ _ _ _ _ _ _ _ Su)) as [_ H2]. destruct (H2 t Ht) as (n' & Hn' & En').
    assert (n' = n) as ->.
    { destruct (root_in F root (su_root _ _ _ _ _ _ _ _ Su)) as [Hr _].
      pose proof (desc_trans F root n' Hr Hn') as Hd. pose proof (fget_desc F n' Wf Hd) as E. rewrite En', Hn in E. now injection E. }
    pose proof (idesc_trans root n x Hn' Hxn) as Hxr. split; [|exists x; auto]. rewrite idesc_kids_any in Hxr. rewrite <- Hxv, <- uids_desc. now apply in_map.
  Qed.

  Lemma adjust_writable order : (forall l, Permutation (order l) l) ->
    exists F2 root2, adjust order st letter F root srt = (F2, Ok tt) /\ wf F2 /\ root_of F2 root2 /\ iuid root2 = iuid root /\ map (hollow V) F2 = map (hollow V) F /\ writable (forget root2).
  Proof.
    intros O. destruct (suits_adjust st letter F root srt gs f val old calm Su order T O) as (F1 & words & no & new & B & F2 & A & W & H & X & Y). fold lines V in H, Y.
    destruct (root_alike V F F2 root (su_wf _ _ _ _ _ _ _ _ Su) (su_root _ _ _ _ _ _ _ _ Su)) as (root2 & R2 & A2); [|exact H|].
    { intros v Hv. unfold V in Hv. apply in_map_iff in Hv as (u & <- & Hu). apply matched_layers in Hu. now apply val_in. }
    destruct (alike_facts _ _ _ A2) as (_ & Eu & _). exists F2, root2. split; [exact A|]. split; [exact W|]. split; [exact R2|]. split; [now symmetry|]. split; [exact H|].
    assert (Z : Forall writable (map forget [root2])); [|now inversion Z].
    apply (hollow_writable V [root]); [cbn [map]; f_equal; symmetry; apply A2|constructor; [exact W0|constructor]|].
    destruct (root_in F2 root2 R2) as [R3 R4]. intros x Hx Hv. unfold V in Hv. apply in_map_iff in Hv as (u & Ev & Hu). apply matched_layers in Hu as Hl.
    assert (Hx2 : In x (fdesc F2)). { destruct root2 as [|ru rn ra rk]; [destruct Hx|]. rewrite fdesc_IE in Hx. destruct Hx as [<-|Hx]; [exact R3|]. apply R4. apply in_app_or in Hx as [Hx|[]]. exact Hx. }
    destruct (text_at_desc _ _ _ _ W (tx_at _ _ _ _ _ X u Hl)) as (n & y & _ & Hy & Ey & _). pose proof (fget_desc F2 x W Hx2) as G. rewrite <- Ev, Hy in G. injection G as ->. rewrite Ey, Y.
    destruct (layer_text gs u Hl) as (t & Ht & <-). destruct (val_in _ Hl) as (_ & z & Hz & _ & Ez). pose proof (writable_desc root W0 z Hz) as Wz. rewrite Ez in Wz.
    destruct (BywProofs7.mem _ _); [|exact Wz]. pose proof (words_good _ _ _ _ _ _ _ _ _ (su_groups _ _ _ _ _ _ _ _ Su) B (writable_desc root W0)) as Gw.
    destruct (filter (fun w => wd_layer w =? bt_layer t) words) as [|w ws] eqn:Ef; [exact (still_writable _ _ _ _ (su_still _ _ _ _ _ _ _ _ Su t Ht) Wz)|].
    apply showing_writable. rewrite <- Ef. apply Forall_forall. intros v Hv. apply filter_In in Hv as [Hv _]. rewrite Forall_forall in Gw. auto.
  Qed.
End Saved.
