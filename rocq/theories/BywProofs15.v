(** Nothing outside of the layers that match is touched, whatever the document is. *)
From Coq Require Import Permutation.
From Verif Require Import DocProofs DocProofs2 LaySpec LayProofs LayProofs2 LayProofs5 LayProofs6 AnimSpec TlSpec.
From Verif Require Import BywModel BywSpec BywProofs BywProofs6.
Local Open Scope N_scope.

(** The document is still in order, and differs only inside the tags M. *)
Definition keeps (M : list N) (F F' : forest) : Prop := wf F' /\ map (hollow M) F' = map (hollow M) F.
Lemma keeps_refl M F : wf F -> keeps M F F. Proof. now split. Qed.
Lemma keeps_trans M F F1 F2 : keeps M F F1 -> keeps M F1 F2 -> keeps M F F2.
Proof. intros [_ H1] [W H2]. split; [exact W|congruence]. Qed.

(** The tag v is inside the tag u. *)
Definition inside (F : forest) (u v : N) : Prop := exists n x, fget u F = Some n /\ fget v F = Some x /\ In x (idesc n).

Lemma mem_V u V : In u V -> existsb (N.eqb u) V = true.
Proof. intros H. apply existsb_exists. exists u. split; [exact H|apply N.eqb_refl]. Qed.

Lemma hollow_fat V u v g K : tagpres g -> In u V -> NoDup (fuids K) -> forall n, fget u K = Some n -> In v (uids n) -> map (hollow V) (fat v g K) = map (hollow V) K.
Proof.
  intros Hg Hu. induction K as [|y F IH|w nm a k F IHk IH] using forest_ind; intros Nd n Hn Hv.
  - reflexivity.
  - rewrite fat_IT. cbn [map]. f_equal. now apply (IH Nd n).
  - pose proof (NoDup_kids _ _ _ _ _ Nd) as (H1 & H2 & H3 & H4 & H5). rewrite fget_IE in Hn. destruct (N.eqb_spec u w) as [->|Hne].
    + injection Hn as <-. change (fat v g (IE w nm a k :: F)) with (iat v g (IE w nm a k) :: fat v g F). rewrite fat_notin.
      * cbn [map]. f_equal. pose proof (iat_tag v g (IE w nm a k) Hg) as T. pose proof (iat_uid v g (IE w nm a k) Hg) as U.
        destruct (iat v g (IE w nm a k)) as [|w' nm' a' k']; [discriminate|]. cbn [iuid] in U. subst w'. cbn [hollow]. now rewrite (mem_V w V Hu).
      * rewrite uids_IE in Hv. destruct Hv as [<-|Hv]; [exact H2|]. intros C. now apply (H5 v).
    + destruct (fget u k) as [x|] eqn:E.
      * injection Hn as ->. assert (Hvk : In v (fuids k)) by (pose proof (fget_In _ _ _ E) as (Hd & _); now apply (desc_uids k n)).
        change (fat v g (IE w nm a k :: F)) with (iat v g (IE w nm a k) :: fat v g F). rewrite (fat_notin v g F) by (intros C; now apply (H5 v)). cbn [map]. f_equal.
        cbn [iat]. destruct (N.eqb_spec v w) as [->|]; [contradiction|]. cbn [hollow]. destruct (existsb (N.eqb w) V); [reflexivity|]. f_equal. exact (IHk H3 n eq_refl Hv).
      * assert (HvF : In v (fuids F)) by (pose proof (fget_In _ _ _ Hn) as (Hd & _); now apply (desc_uids F n)).
        change (fat v g (IE w nm a k :: F)) with (iat v g (IE w nm a k) :: fat v g F). cbn [map]. f_equal; [|exact (IH H4 n Hn Hv)].
        rewrite iat_notin; [reflexivity|]. rewrite uids_IE. intros [C|C]; [subst; contradiction|]. now apply (H5 v).
Qed.

Lemma in_idesc_uids x n : In x (idesc n) -> incl (uids x) (uids n).
Proof. destruct n as [|nu nn na nk]; [contradiction|]. rewrite idesc_IE. intros H y Hy. rewrite uids_IE. right. now apply (desc_uids nk x). Qed.

Lemma write_Txt F v x : write_tag F v (Txt x) = F.
Proof.
  unfold write_tag, fat. rewrite <- (map_id F) at 2. apply map_ext. intros n. induction n as [y|u nm a k IH] using inode_ind'; [reflexivity|].
  cbn [iat]. destruct (v =? u); [reflexivity|]. f_equal. rewrite <- (map_id k) at 2. apply map_ext_in. now apply Forall_forall.
Qed.

Lemma write_inside M F u v m : wf F -> In u M -> inside F u v -> keeps M F (write_tag F v m) /\ inside (write_tag F v m) u v.
Proof.
  intros W Hu I. pose proof I as (n & x & Hn & Hx & Hxn). destruct m as [y|nm a k]; [rewrite write_Txt; split; [now apply keeps_refl|exact I]|].
  assert (Nn : NoDup (uids n)) by (pose proof (fget_In _ _ _ Hn) as (Hd & _); now apply (NoDup_inside F)).
  assert (Hux : ~ In u (uids x)) by (rewrite <- (fget_uid _ _ _ Hn); now apply idesc_not_self).
  pose proof (fget_In _ _ _ Hx) as (Hxd & Hxu & Hxt). assert (Hvx : In v (uids x)) by (rewrite <- Hxu; now apply tag_uid).
  assert (Huv : u <> v) by (intros ->; contradiction). set (m := El nm a k).
  split; [split|].
  - exact (wr_wf F v x m W Hx eq_refl).
  - apply (hollow_fat M u v (written F m) F (written_pres F m) Hu W n Hn). now apply (in_idesc_uids x n).
  - exists (iat v (written F m) n), (written F m x). split; [exact (wr_get F v x m W Hx eq_refl u n Hn Huv Hux)|].
    destruct (wr_tag F v x m Hx eq_refl) as (T1 & T2 & T3 & T4 & T5).
    assert (G : In (written F m x) (idesc (iat v (written F m) n))).
    { pose proof (fget_tag _ _ _ Hn) as Ht. destruct n as [|nu nn na nk]; [discriminate|]. pose proof (fget_uid _ _ _ Hn) as E. cbn [iuid] in E. subst nu.
      cbn [iat]. destruct (N.eqb_spec v u) as [C|_]; [symmetry in C; contradiction|]. rewrite idesc_IE. rewrite uids_IE in Nn. apply NoDup_cons_iff in Nn as [_ Nk].
      rewrite idesc_IE in Hxn. pose proof (fget_desc nk x Nk Hxn) as Gx. rewrite Hxu in Gx.
      destruct (fdesc_fat v (written F m) nk x (written_pres F m) Nk Gx) as (pre & post & _ & E2 & _). change (map (iat v (written F m)) nk) with (fat v (written F m) nk). rewrite E2.
      apply in_or_app. right. now left. }
    split; [|exact G]. assert (Gd : In (written F m x) (fdesc (write_tag F v m))).
    { pose proof (wr_get F v x m W Hx eq_refl u n Hn Huv Hux) as Gn. apply fget_In in Gn as (Gd & _). exact (desc_trans _ _ _ Gd G). }
    pose proof (fget_desc _ _ (wr_wf F v x m W Hx eq_refl) Gd) as E. rewrite T2 in E. exact E.
Qed.

Lemma text_value_inside F u v c : wf F -> text_value F u = Ok (v, c) -> inside F u (iuid v).
Proof.
  unfold text_value. intros W. destruct (fget u F) as [n|] eqn:En; [|discriminate]. unfold layer_getitem. destruct (ifind (is_param (s "text")) n) as [p|] eqn:Ep; [|discriminate].
  unfold value_of. destruct (aget (s "name") (iattrs p)); [|discriminate]. destruct (filter itag (ikids p)) as [|x [|]] eqn:Ek; try discriminate.
  destruct (from_tag (forget x)) as [c'|]; [|discriminate]. intros [= <- <-]. apply ifind_In in Ep as [Hp _].
  assert (Hx : In x (ikids p) /\ itag x = true) by (apply filter_In; rewrite Ek; now left). destruct Hx as [Hx Ht].
  assert (Hxn : In x (idesc n)) by (destruct n as [|nu nn na nk]; [contradiction|]; rewrite idesc_IE in *; now apply (kid_desc nk p)).
  exists n, x. split; [exact En|]. split; [|exact Hxn]. apply fget_desc; [exact W|]. pose proof (fget_In _ _ _ En) as (Hd & _). exact (desc_trans _ _ _ Hd Hxn).
Qed.

Lemma text_unanimate_keeps M F u F' r : wf F -> In u M -> text_unanimate F u = (F', r) -> keeps M F F'.
Proof.
  intros W Hu. unfold text_unanimate. destruct (text_value F u) as [[v c]|e] eqn:Ev; [|intros [= <- <-]; now apply keeps_refl].
  destruct (is_animated (forget v)); [|intros [= <- <-]; now apply keeps_refl].
  destruct (set_is_animated c (forget v) (ctx_of F (iuid v)) true false) as [m r0]. intros [= <- <-]. now apply (write_inside M F u (iuid v) m W Hu), (text_value_inside F u v c).
Qed.
Lemma unanimate_all_keeps M l : forall F F' r, wf F -> incl (map bt_layer l) M -> unanimate_all F l = (F', r) -> keeps M F F'.
Proof.
  induction l as [|t l IH]; intros F F' r W I; cbn [unanimate_all]; [intros [= <- <-]; now apply keeps_refl|].
  destruct (text_unanimate F (bt_layer t)) as [F1 [[]|e]] eqn:E; cbn [andthen].
  - intros H. pose proof (text_unanimate_keeps M F (bt_layer t) F1 _ W ltac:(apply I; now left) E) as K. apply (keeps_trans M F F1 F' K). apply (IH F1 F' r); auto; [apply K|]. intros y Hy. apply I. now right.
  - intros [= <- <-]. apply (text_unanimate_keeps M F (bt_layer t) F1 _ W ltac:(apply I; now left) E).
Qed.

Lemma set_times_layers ms l : forall t, map wd_layer (set_times ms t l) = map wd_layer l.
Proof. induction l as [|w l IH]; intros t; [reflexivity|]. cbn [set_times map wd_layer]. now rewrite IH. Qed.
Lemma timed_layers a b l ws : timed a b l = Ok ws -> map wd_layer ws = map wd_layer l /\ ws <> [].
Proof.
  unfold timed. destruct (letters l =? 0)%Z eqn:E; [discriminate|]. intros [= <-]. split; [apply set_times_layers|]. destruct l; [discriminate E|]. cbn [set_times]. discriminate.
Qed.
Lemma texts_layers letter l : incl (map wd_layer (flat_map (text_words letter) l)) (map bt_layer l).
Proof.
  intros y Hy. apply in_map_iff in Hy as (w & <- & Hw). apply in_flat_map in Hw as (t & Ht & Hw). unfold text_words in Hw. apply in_map_iff in Hw as (x & <- & _). cbn [wd_layer]. now apply in_map.
Qed.

Definition layers_in (M : list N) (ws : list word) : Prop := incl (map wd_layer ws) M.
Lemma try_groups_keeps letter M gs line : forall F F' r, wf F -> incl (matched gs [line]) M -> try_groups letter F gs line = (F', r) ->
  keeps M F F' /\ (forall ws, r = Ok ws -> layers_in M ws).
Proof.
  destruct line as [[a b] x]. induction gs as [|g gs IH]; intros F F' r W I; cbn [try_groups].
  - intros [= <- <-]. split; [now apply keeps_refl|]. intros ws [= <-]. intros y [].
  - unfold matched, group_for in I. cbn [flat_map find snd app] in I. unfold group_matches. destruct (pstr_eqb x (full_text g)) eqn:Ex; cbn [negb].
    + rewrite app_nil_r in I. destruct (unanimate_all F (bg_texts g)) as [F1 [[]|e]] eqn:Eu.
      * pose proof (unanimate_all_keeps M _ F F1 _ W I Eu) as K. destruct (timed a b (flat_map (text_words letter) (bg_texts g))) as [ws|e] eqn:Et.
        -- destruct (timed_layers _ _ _ _ Et) as [E1 E2]. destruct ws as [|w ws]; [contradiction|]. intros [= <- <-]. split; [exact K|]. intros ws0 [= <-]. unfold layers_in. rewrite E1.
           intros y Hy. now apply I, (texts_layers letter).
        -- intros [= <- <-]. split; [exact K|]. intros ws [=].
      * intros [= <- <-]. split; [exact (unanimate_all_keeps M _ F F1 _ W I Eu)|]. intros ws [=].
    + intros H. apply (IH F F' r W); [|exact H]. unfold matched, group_for. cbn [flat_map snd]. exact I.
Qed.
Lemma put_word_layers M w d : In (wd_layer w) M -> layers_in M d -> layers_in M (put_word w d).
Proof.
  intros Hw. induction d as [|v d IH]; intros I; cbn [put_word]; [intros y [<-|[]]; exact Hw|]. destruct (Qeq_bool (wd_time v) (wd_time w)).
  - intros y [<-|Hy]; [exact Hw|]. apply I. now right.
  - intros y [<-|Hy]; [apply I; now left|]. apply IH; [|exact Hy]. intros z Hz. apply I. now right.
Qed.
Lemma put_words_layers M ws : forall d, layers_in M ws -> layers_in M d -> layers_in M (put_words ws d).
Proof.
  unfold put_words. induction ws as [|w ws IH]; intros d I1 I2; [exact I2|]. cbn [fold_left]. apply IH; [intros y Hy; apply I1; now right|]. apply put_word_layers; [apply I1; now left|exact I2].
Qed.
Lemma matched_cons gs line lines : matched gs (line :: lines) = matched gs [line] ++ matched gs lines.
Proof. unfold matched. cbn [flat_map]. now rewrite app_nil_r. Qed.
Lemma run_lines_keeps letter M gs lines : forall F d no F' r, wf F -> incl (matched gs lines) M -> layers_in M d -> run_lines letter F gs lines d no = (F', r) ->
  keeps M F F' /\ (forall ws no', r = Ok (ws, no') -> layers_in M ws).
Proof.
  induction lines as [|line lines IH]; intros F d no F' r W I D; cbn [run_lines].
  - intros [= <- <-]. split; [now apply keeps_refl|]. now intros ws no' [= <- <-].
  - rewrite matched_cons in I. assert (I1 : incl (matched gs [line]) M) by (intros y Hy; apply I, in_or_app; now left). assert (I2 : incl (matched gs lines) M) by (intros y Hy; apply I, in_or_app; now right).
    destruct (try_groups letter F gs line) as [F1 r1] eqn:E. destruct (try_groups_keeps letter M gs line F F1 r1 W I1 E) as [K L]. destruct r1 as [[|w ws]|e].
    + intros H. destruct (IH F1 d (no ++ [snd line]) F' r (proj1 K) I2 D H) as [K2 L2]. split; [exact (keeps_trans M F F1 F' K K2)|exact L2].
    + intros H. destruct (IH F1 (put_words (w :: ws) d) no F' r (proj1 K) I2) as [K2 L2]; [apply put_words_layers; [now apply L|exact D]|exact H|]. split; [exact (keeps_trans M F F1 F' K K2)|exact L2].
    + intros [= <- <-]. split; [exact K|]. intros ws no' [=].
Qed.

Lemma set_waypoints_keeps M u v c l : forall F F' r, wf F -> In u M -> inside F u v -> set_waypoints_of F v c l = (F', r) -> keeps M F F'.
Proof.
  induction l as [|[x text] l IH]; intros F F' r W Hu I; cbn [set_waypoints_of]; [intros [= <- <-]; now apply keeps_refl|].
  unfold set_constant_waypoint. destruct (fget v F) as [n|] eqn:En; [|intros [= <- <-]; now apply keeps_refl].
  destruct (constant_waypoint (ctx_of F v) x text) as [w|e]; [|intros [= <- <-]; now apply keeps_refl].
  destruct (tl_add c (forget n) (ctx_of F v) true [w] true) as [m r0]. destruct (write_inside M F u v m W Hu I) as [K I2]. destruct r0 as [[]|e]; cbn [andthen].
  - intros H. apply (keeps_trans M F _ F' K). apply (IH _ F' r (proj1 K) Hu I2 H).
  - intros [= <- <-]. exact K.
Qed.
Lemma adjust_all_keeps M words objs : forall F F' r, wf F -> incl (map snd objs) M -> adjust_all words F objs = (F', r) -> keeps M F F'.
Proof.
  induction objs as [|[o u] objs IH]; intros F F' r W I; cbn [adjust_all]; [intros [= <- <-]; now apply keeps_refl|].
  assert (Hu : In u M) by (apply I; now left). assert (G : forall F1 r1, adjust_one words F (o, u) = (F1, r1) -> keeps M F F1).
  { intros F1 r1. unfold adjust_one. cbn [snd]. destruct (text_value F u) as [[v c]|e] eqn:Ev; [|intros [= <- <-]; now apply keeps_refl].
    intros H. exact (set_waypoints_keeps M u (iuid v) c _ F F1 r1 W Hu (text_value_inside F u v c W Ev) H). }
  destruct (adjust_one words F (o, u)) as [F1 [[]|e]] eqn:E1; cbn [andthen].
  - intros H. pose proof (G F1 _ eq_refl) as K. apply (keeps_trans M F F1 F' K). apply (IH F1 F' r (proj1 K)); [|exact H]. intros y Hy. apply I. now right.
  - intros [= <- <-]. exact (G F1 _ eq_refl).
Qed.
Lemma objs_layers_in M l : layers_in M l -> incl (map snd (objs_of l)) M.
Proof.
  induction l as [|w l IH]; intros I; [intros y []|]. cbn [objs_of map snd]. intros y [<-|Hy]; [apply I; now left|]. apply IH; [intros z Hz; apply I; now right|].
  apply in_map_iff in Hy as (o & <- & Ho). apply filter_In in Ho as [Ho _]. now apply in_map.
Qed.
Lemma sort_In {A} (le : A -> A -> bool) l x : In x (sort le l) -> In x l.
Proof. intros H. apply (Permutation_in x (SerProofs.sort_perm le l)). exact H. Qed.

Lemma adjust_keeps order st letter F root srt F' r : wf F -> (forall l, Permutation (order l) l) -> adjust order st letter F root srt = (F', r) ->
  (exists gs, bywords_groups st F root = Ok gs /\ keeps (matched gs (map tidy_line srt)) F F') \/ (exists e, bywords_groups st F root = Err e /\ F' = F /\ r = Err e).
Proof.
  intros W O. unfold adjust, bywords. destruct (bywords_groups st F root) as [gs|e]; [|intros [= <- <-]; right; eauto].
  intros H. left. exists gs. split; [reflexivity|]. set (M := matched gs (map tidy_line srt)).
  destruct (run_lines letter F gs (map tidy_line srt) [] []) as [F1 r1] eqn:E. destruct (run_lines_keeps letter M gs _ F [] [] F1 r1 W (fun y H => H) ltac:(intros y []) E) as [K L].
  destruct r1 as [[d no]|e].
  - apply (keeps_trans M F F1 F' K). apply (adjust_all_keeps M (sort_words d) (order (objs_of (sort_words d))) F1 F' r (proj1 K)); [|exact H].
    intros y Hy. apply (objs_layers_in M (sort_words d)).
    + intros z Hz. apply (L d no eq_refl). apply in_map_iff in Hz as (w & <- & Hw). apply in_map. exact (sort_In _ _ _ Hw).
    + apply in_map_iff in Hy as (o & <- & Ho). apply in_map. exact (Permutation_in o (O _) Ho).
  - injection H as <- <-. exact K.
Qed.
