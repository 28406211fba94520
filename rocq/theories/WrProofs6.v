(** What a call isn't about stays as it is, and where it is. *)
From Coq Require Import Lia.
From Verif Require Import ValModel TlModel DocProofs DocProofs2 LaySpec LayProofs LayProofs2 LayProofs3 LayProofs4 LayProofs5 LayProofs6 LayProofs7.
From Verif Require Import WrProofs LayModel AnimModel AnimProofs5 AnimProofs6 ClsProofs BywProofs15 WrSpec WrProofs3 WrProofs4 WrSpec2.
Local Open Scope N_scope.

(** The node n is at the top of the forest, or is directly in the tag p. *)
Definition at_ (F : forest) (q : option N) (n : inode) : Prop :=
  match q with None => In n F | Some p => exists m, In m (fdesc F) /\ iuid m = p /\ In n (ikids m) end.

Lemma at_IE w nm a k F p n : at_ (IE w nm a k :: F) (Some p) n <-> (p = w /\ In n k) \/ at_ k (Some p) n \/ at_ F (Some p) n.
Proof.
  cbn [at_]. rewrite fdesc_IE. split.
  - intros (m & [<-|Hm] & E & Hn); [left; split; [now symmetry|exact Hn]|]. apply in_app_or in Hm as [Hm|Hm]; right; [left|right]; exists m; auto.
  - intros [[-> Hn]|[(m & Hm & E & Hn)|(m & Hm & E & Hn)]].
    + exists (IE w nm a k). repeat split; auto. now left.
    + exists m. repeat split; auto. right. apply in_or_app. now left.
    + exists m. repeat split; auto. right. apply in_or_app. now right.
Qed.
Lemma at_IT x F p n : at_ (IT x :: F) (Some p) n <-> at_ F (Some p) n.
Proof. reflexivity. Qed.
Lemma at_app F G q n : at_ (F ++ G) q n <-> at_ F q n \/ at_ G q n.
Proof.
  destruct q as [p|]; cbn [at_]; [|apply in_app_iff]. rewrite fdesc_app. split.
  - intros (m & Hm & H). apply in_app_or in Hm as [Hm|Hm]; [left|right]; exists m; auto.
  - intros [(m & Hm & H)|(m & Hm & H)]; exists m; (split; [apply in_or_app; auto|exact H]).
Qed.
Lemma at_desc F q n : itag n = true -> at_ F q n -> In n (fdesc F).
Proof.
  intros T. destruct q as [p|]; cbn [at_].
  - intros (m & Hm & _ & Hn). apply (desc_trans F m n Hm). destruct m as [|u nm a k]; [destruct Hn|]. rewrite idesc_IE. unfold fdesc. apply in_flat_map. exists n. split; [exact Hn|]. destruct n; [discriminate|now left].
  - intros H. unfold fdesc. apply in_flat_map. exists n. split; [exact H|]. destruct n; [discriminate|now left].
Qed.
Lemma at_ex F n : In n (fdesc F) -> exists q, at_ F q n.
Proof.
  induction F as [|x F IH|u nm a k F IHk IH] using forest_ind; intros H; [destruct H| |].
  - destruct (IH H) as [[p|] Hq]; [exists (Some p); exact Hq|exists None; now right].
  - rewrite fdesc_IE in H. destruct H as [<-|H]; [exists None; now left|]. apply in_app_or in H as [H|H].
    + destruct (IHk H) as [[p|] Hq]; [exists (Some p); apply at_IE; auto|exists (Some u); apply at_IE; auto].
    + destruct (IH H) as [[p|] Hq]; [exists (Some p); apply at_IE; auto|exists None; now right].
Qed.
Lemma at_inside F m q n : itag m = true -> In m (fdesc F) -> at_ (ikids m) q n -> at_ F (Some (match q with Some p => p | None => iuid m end)) n.
Proof.
  intros T Hm H. destruct q as [p|].
  - destruct H as (x & Hx & E & Hn). exists x. repeat split; auto. apply (desc_trans F m x Hm). destruct m as [|u nm a k]; [discriminate|]. now rewrite idesc_IE.
  - exists m. auto.
Qed.

(** ** The parent *)

Lemma fanc_IE u v nm a k F : fanc u (IE v nm a k :: F) =
  if u =? v then Some [] else match fanc u k with Some l => Some (l ++ [IE v nm a k]) | None => fanc u F end.
Proof. unfold fanc. cbn [first_some ianc]. destruct (u =? v); [reflexivity|]. destruct (first_some (ianc u) k); reflexivity. Qed.
Lemma fanc_none u F : ~ In u (fuids F) -> fanc u F = None.
Proof.
  induction F as [|x F IH|v nm a k F IHk IH] using forest_ind; intros H; [reflexivity|now apply IH|]. rewrite fanc_IE. rewrite fuids_IE in H.
  destruct (N.eqb_spec u v) as [->|_]; [exfalso; apply H; now left|]. rewrite IHk, IH; [reflexivity| |]; intros C; apply H; right; apply in_or_app; auto.
Qed.
Lemma at_parent F q n : wf F -> itag n = true -> at_ F q n -> option_map iuid (fparent (iuid n) F) = q.
Proof.
  intros W T. assert (G : forall l, fanc (iuid n) F = Some l -> match l with [] => None | p :: _ => Some (iuid p) end = q -> option_map iuid (fparent (iuid n) F) = q)
    by (intros l E1 E2; unfold fparent; rewrite E1; destruct l; exact E2).
  intros H. assert (X : exists l, fanc (iuid n) F = Some l /\ match l with [] => None | p :: _ => Some (iuid p) end = q); [|destruct X as (l & X1 & X2); now apply (G l)].
  clear G. revert q W H. induction F as [|x F IH|u nm a k F IHk IH] using forest_ind; intros q W H.
  - destruct q as [p|]; [destruct H as (m & [] & _)|destruct H].
  - unfold fanc. cbn [first_some ianc]. apply IH; [exact W|]. destruct q as [p|]; [exact H|]. destruct H as [<-|H]; [discriminate|exact H].
  - pose proof (NoDup_kids _ _ _ _ _ W) as (W1 & W2 & W3 & W4 & W5). rewrite fanc_IE.
    assert (Hd : forall K q', at_ K q' n -> In (iuid n) (fuids K)) by (intros K q' HK; apply (at_desc K q' n T) in HK; apply desc_uids in HK; apply HK, tag_uid, T).
    assert (Wk : wf k) by exact W3. assert (WF : wf F) by exact W4.
    assert (Hk : forall q', at_ k q' n -> exists l, (if iuid n =? u then Some [] else match fanc (iuid n) k with Some l => Some (l ++ [IE u nm a k]) | None => fanc (iuid n) F end) = Some l /\
       match l with [] => None | p :: _ => Some (iuid p) end = Some (match q' with Some p => p | None => u end)).
    { intros q' H'. destruct (N.eqb_spec (iuid n) u) as [E|_]; [exfalso; apply W1; rewrite <- E; now apply (Hd k q')|]. destruct (IHk q' Wk H') as (l & -> & El). exists (l ++ [IE u nm a k]). split; [reflexivity|].
      destruct l as [|y l]; cbn [app]; subst q'; reflexivity. }
    assert (HF : forall q', at_ F q' n -> exists l, (if iuid n =? u then Some [] else match fanc (iuid n) k with Some l => Some (l ++ [IE u nm a k]) | None => fanc (iuid n) F end) = Some l /\
       match l with [] => None | p :: _ => Some (iuid p) end = q').
    { intros q' H'. destruct (N.eqb_spec (iuid n) u) as [E|_]; [exfalso; apply W2; rewrite <- E; now apply (Hd F q')|]. rewrite fanc_none; [now apply IH|]. intros C. apply (W5 (iuid n) C). now apply (Hd F q'). }
    destruct q as [p|].
    + apply at_IE in H as [[-> H]|[H|H]]; [exact (Hk None H)|exact (Hk (Some p) H)|exact (HF (Some p) H)].
    + destruct H as [<-|H]; [|exact (HF None H)]. cbn [iuid]. rewrite N.eqb_refl. exists []. auto.
Qed.
Lemma parent_at F b pn : wf F -> fparent b F = Some pn -> exists x, fget b F = Some x /\ at_ F (Some (iuid pn)) x.
Proof.
  intros W H. destruct (fget b F) as [x|] eqn:E.
  - exists x. split; [reflexivity|]. pose proof E as E'. apply fget_In in E' as (Hx & Eb & T). destruct (at_ex F x Hx) as (q & Hq). pose proof (at_parent F q x W T Hq) as P. rewrite Eb, H in P. cbn in P. now subst q.
  - apply fget_None in E. unfold fparent in H. rewrite fanc_none in H by exact E. discriminate.
Qed.

(** ** Changing one tag *)

Lemma at_fat u g n : tagpres g -> itag n = true -> ~ In u (uids n) -> forall F q, wf F ->
  (forall m q', fget u F = Some m -> at_ (ikids m) q' n -> at_ (ikids (g m)) q' n) -> at_ F q n -> at_ (fat u g F) q n.
Proof.
  intros Hg T Hu. induction F as [|x F IH|w nm a k F IHk IH] using forest_ind; intros q W Hm H.
  - exact H.
  - rewrite fat_IT. destruct q as [p|]; [exact (IH (Some p) W Hm H)|]. destruct H as [<-|H]; [discriminate|]. right. exact (IH None W Hm H).
  - pose proof (NoDup_kids _ _ _ _ _ W) as (W1 & W2 & W3 & W4 & W5).
    assert (HF : forall q', at_ F q' n -> at_ (fat u g F) q' n).
    { intros q' H'. apply IH; auto. intros m q'' Em. apply Hm. rewrite fget_IE. pose proof (fget_uids _ _ _ Em) as X.
      destruct (N.eqb_spec u w) as [->|_]; [contradiction|]. destruct (fget u k) as [y|] eqn:Ey; [|exact Em]. apply fget_uids in Ey. exfalso. now apply (W5 u). }
    rewrite fat_IE. destruct (N.eqb_spec u w) as [->|Hne].
    + destruct (Hg (IE w nm a k)) as [G1 G2].
      assert (Hk : forall q', at_ k q' n -> at_ (ikids (g (IE w nm a k))) q' n) by (intros q'; apply (Hm (IE w nm a k)); rewrite fget_IE, N.eqb_refl; reflexivity).
      destruct (g (IE w nm a k)) as [|w' nm' a' k']; [discriminate|]. cbn [iuid ikids] in *. subst w'. cbn [ikids] in Hk.
      destruct q as [p|]; [|destruct H as [<-|H]; [exfalso; apply Hu; rewrite uids_IE; now left|right; now apply (HF None)]].
      apply at_IE. apply at_IE in H as [[-> H]|[H|H]]; [left; split; [reflexivity|now apply (Hk None)]|right; left; now apply Hk|right; right; now apply HF].
    + assert (Hk : forall q', at_ k q' n -> at_ (fat u g k) q' n).
      { intros q' H'. apply IHk; auto. intros m q'' Em. apply Hm. rewrite fget_IE. destruct (N.eqb_spec u w); [contradiction|]. now rewrite Em. }
      destruct q as [p|].
      * apply at_IE. apply at_IE in H as [[-> H]|[H|H]]; [left; split; [reflexivity|now apply (Hk None)]|right; left; now apply Hk|right; right; now apply HF].
      * destruct H as [<-|H]; [left|right; now apply (HF None)]. f_equal. apply (fat_notin u g k). intros C. apply Hu. rewrite uids_IE. now right.
Qed.
Lemma at_attrs u g n F q : itag n = true -> ~ In u (uids n) -> wf F -> at_ F q n -> at_ (fat u (with_iattrs g) F) q n.
Proof. intros T Hu W. apply at_fat; auto; [intros [|]; split; reflexivity|]. intros [|] q' _ H; exact H. Qed.
Lemma at_more k i x q n : at_ k q n -> at_ (insert_nth i x k) q n.
Proof.
  destruct q as [p|]; cbn [at_]; [|intros H; apply insert_nth_In; now right]. intros (m & Hm & H). exists m. split; [|exact H]. unfold fdesc in *. apply in_flat_map in Hm as (y & Hy & Hm). apply in_flat_map. exists y. split; [|exact Hm]. apply insert_nth_In. now right.
Qed.
Lemma at_ins u i x n F q : itag n = true -> ~ In u (uids n) -> wf F -> at_ F q n -> at_ (fat u (with_ikids (insert_nth i x)) F) q n.
Proof. intros T Hu W. apply at_fat; auto; [intros [|]; split; reflexivity|]. intros [|v nm a k] q' _ H; [exact H|]. cbn [with_ikids ikids] in *. now apply at_more. Qed.
Lemma at_lost u g n m F q : tagpres g -> itag n = true -> ~ In u (uids n) -> fget u F = Some m -> ~ In (iuid n) (uids m) -> wf F -> at_ F q n -> at_ (fat u g F) q n.
Proof.
  intros Hg T Hu Em Hm W. apply at_fat; auto. intros m' q' Em' H. rewrite Em in Em'. injection Em' as <-. exfalso. apply Hm. apply (at_desc _ _ _ T) in H. apply desc_uids in H.
  destruct m as [|v nm a k]; [destruct (H (iuid n)); now apply tag_uid|]. rewrite uids_IE. right. apply H, tag_uid, T.
Qed.

(** ** Taking a tag out *)

Lemma at_del l n : itag n = true -> ~ In l (uids n) -> forall F q, at_ F q n -> at_ (fdel l F) q n \/ exists m p, q = Some p /\ In m (fdesc F) /\ is_ l m = true /\ at_ [m] (Some p) n.
Proof.
  intros T Hl. induction F as [|x F IH|u nm a k F IHk IH] using forest_ind; intros q H.
  - left. exact H.
  - rewrite fdel_IT. destruct q as [p|].
    + destruct (IH (Some p) H) as [A|(m & p' & A)]; [left; exact A|right; exists m, p'; exact A].
    + destruct H as [<-|H]; [discriminate|]. destruct (IH None H) as [A|(m & p' & A & _)]; [left; now right|discriminate].
  - rewrite fdel_IE. assert (HF : forall q', at_ F q' n -> at_ (fdel l F) q' n \/ exists m p, q' = Some p /\ In m (fdesc (IE u nm a k :: F)) /\ is_ l m = true /\ at_ [m] (Some p) n).
    { intros q' H'. destruct (IH q' H') as [A|(m & p & A1 & A2 & A3)]; [now left|]. right. exists m, p. split; [exact A1|]. split; [|exact A3]. rewrite fdesc_IE. right. apply in_or_app. now right. }
    destruct q as [p|].
    + assert (Z : at_ k (Some p) n \/ p = u /\ In n k \/ at_ F (Some p) n) by (apply at_IE in H; tauto).
      destruct (N.eqb_spec l u) as [->|Hne].
      { assert (S : (p = u /\ In n k) \/ at_ k (Some p) n -> exists m p0, Some p = Some p0 /\ In m (fdesc (IE u nm a k :: F)) /\ is_ u m = true /\ at_ [m] (Some p0) n).
        { intros S. exists (IE u nm a k), p. split; [reflexivity|]. split; [rewrite fdesc_IE; now left|]. split; [cbn [is_]; apply N.eqb_refl|]. apply at_IE. tauto. }
        destruct Z as [Z|[Z|Z]]; [right; auto|right; auto|exact (HF (Some p) Z)]. }
      assert (Hk : forall q', at_ k q' n -> at_ (fdel l k) q' n \/ exists m p, q' = Some p /\ In m (fdesc (IE u nm a k :: F)) /\ is_ l m = true /\ at_ [m] (Some p) n).
      { intros q' H'. destruct (IHk q' H') as [A|(m & p' & A1 & A2 & A3)]; [now left|]. right. exists m, p'. split; [exact A1|]. split; [|exact A3]. rewrite fdesc_IE. right. apply in_or_app. now left. }
      destruct Z as [Z|[[-> Z]|Z]].
      * destruct (Hk (Some p) Z) as [A|A]; [left; apply at_IE; auto|now right].
      * destruct (Hk None Z) as [A|(m & p' & A & _)]; [left; apply at_IE; auto|discriminate].
      * destruct (HF (Some p) Z) as [A|A]; [left; apply at_IE; auto|now right].
    + destruct H as [<-|H].
      * left. destruct (N.eqb_spec l u) as [->|Hne]; [exfalso; apply Hl; rewrite uids_IE; now left|]. rewrite fdel_notin; [now left|]. intros C. apply Hl. rewrite uids_IE. now right.
      * destruct (HF None H) as [A|(m & p & A & _)]; [left|discriminate]. destruct (l =? u); [exact A|now right].
Qed.
Lemma at_put F0 F p i x q n : itag n = true -> ~ In p (uids n) -> wf F -> at_ F0 q n ->
  (at_ F q n \/ exists p', q = Some p' /\ at_ [x] (Some p') n) -> at_ (fst (put_in F0 F p i x)) q n.
Proof.
  intros T Hp W H0 H. unfold put_in. destruct (fget p F) as [pn|] eqn:E; [|exact H0]. cbn [fst]. destruct H as [H|(p' & -> & m & Hm & Em & Hn)]; [now apply at_ins|].
  exists m. split; [|auto]. pose proof E as E'. apply fget_In in E' as (Hd & Eu & Tp). set (g := with_ikids (insert_nth i x)).
  assert (Hg : tagpres g) by (intros [|]; split; reflexivity).
  assert (G : In (g pn) (fdesc (fat p g F))) by (pose proof (fdesc_fat p g F pn Hg W E) as (pre & post & _ & E2 & _); rewrite E2; apply in_or_app; right; now left).
  apply (desc_trans _ (g pn) m G). destruct pn as [|v nm a k]; [discriminate|]. unfold g. cbn [with_ikids]. rewrite idesc_IE. unfold fdesc in *. cbn [flat_map] in Hm. rewrite app_nil_r in Hm. apply in_flat_map. exists x. split; [|exact Hm]. apply insert_nth_In. now left.
Qed.
Lemma at_move F u x q n : wf F -> fget u F = Some x -> itag n = true -> ~ In u (uids n) -> at_ F q n -> at_ (fdel u F) q n \/ exists p', q = Some p' /\ at_ [x] (Some p') n.
Proof.
  intros W E T Hu H. destruct (at_del u n T Hu F q H) as [A|(m & p & A1 & A2 & A3 & A4)]; [now left|]. right. exists p. split; [exact A1|].
  pose proof (fget_desc F m W A2) as G. apply is_spec in A3 as [_ A3]. rewrite A3, E in G. now injection G as ->.
Qed.
Lemma at_insert F p i u q n : wf F -> itag n = true -> ~ In u (uids n) -> ~ In p (uids n) -> at_ F q n -> at_ (fst (tag_insert F p i u)) q n.
Proof.
  intros W T Hu Hp H. unfold tag_insert. destruct (u =? p); [exact H|]. destruct (fget u F) as [x|] eqn:E; [|exact H]. destruct (fget p F); [|exact H].
  apply at_put; auto; [now apply fdel_NoDup|now apply (at_move F u x)].
Qed.
Lemma at_append F p u q n : wf F -> itag n = true -> ~ In u (uids n) -> ~ In p (uids n) -> at_ F q n -> at_ (fst (tag_append F p u)) q n.
Proof. intros W T Hu Hp H. unfold tag_append. destruct (fget p F); [now apply at_insert|exact H]. Qed.
Lemma at_beside off F b u q n : wf F -> itag n = true -> ~ In u (uids n) -> (forall pn, fparent b F = Some pn -> ~ In (iuid pn) (uids n)) -> at_ F q n -> at_ (fst (insert_beside off F b u)) q n.
Proof.
  intros W T Hu Hp H. unfold insert_beside. destruct (fparent b F) as [[|p nm a k]|]; try exact H. specialize (Hp _ eq_refl). cbn [iuid] in Hp. destruct (u =? b); [exact H|]. destruct (fget u F) as [x|] eqn:E; [|exact H].
  destruct (fget p (fdel u F)) as [pn|]; [|exact H]. destruct (index_of b (ikids pn)); [|exact H]. apply at_put; auto; [now apply fdel_NoDup|now apply (at_move F u x)].
Qed.
Lemma at_text F b x q n : wf F -> itag n = true -> (forall pn, fparent b F = Some pn -> ~ In (iuid pn) (uids n)) -> at_ F q n -> at_ (fst (insert_text_after F b x)) q n.
Proof.
  intros W T Hp H. unfold insert_text_after. destruct (fparent b F) as [pn|]; [|exact H]. specialize (Hp _ eq_refl). destruct (index_of b (ikids pn)); [|exact H]. destruct pn as [|p nm a k]; [exact H|]. apply at_put; auto.
Qed.
(** A tag whose child isn't in n isn't in n. *)
Lemma parent_out F b pn n : wf F -> In n (fdesc F) -> fparent b F = Some pn -> ~ In b (uids n) -> ~ In (iuid pn) (uids n).
Proof.
  intros W Hn P Hb C. apply Hb. destruct (parent_at F b pn W P) as (x & Ex & (m & Hm & Em & Hx)). pose proof (desc_tags _ _ Hn) as T. destruct n as [|v nm a k]; [discriminate|].
  assert (Tx : itag x = true) by now apply fget_tag in Ex. assert (Ux : iuid x = b) by now apply fget_uid in Ex. rewrite <- Em in C. pose proof (fget_desc F m W Hm) as G.
  assert (K : In b (fuids (ikids m))) by (unfold fuids; apply in_flat_map; exists x; split; [exact Hx|]; rewrite <- Ux; now apply tag_uid).
  assert (M : In b (uids m)) by (destruct m as [|w mn ma mk]; [destruct Hx|]; rewrite uids_IE; right; exact K).
  rewrite (fget_inside F (IE v nm a k) (iuid m) W Hn C) in G. apply fget_In in G as (G & _). apply (desc_uids [IE v nm a k] m) in G. specialize (G b M). unfold fuids in G. cbn [flat_map] in G. now rewrite app_nil_r in G.
Qed.
Lemma at_replace F o u q n : wf F -> itag n = true -> ~ In u (uids n) -> ~ In o (uids n) -> at_ F q n -> at_ (fst (replace_with F o u)) q n.
Proof.
  intros W T Hu Ho H. unfold replace_with. destruct (fparent o F) as [[|p nm a k]|] eqn:P; try exact H. destruct (o =? u); [exact H|]. destruct (u =? p); [exact H|]. destruct (index_of o k) as [j|]; [|exact H].
  destruct (fget o F) as [x|] eqn:E; [|exact H]. apply at_insert; auto.
  - unfold wf, fuids. rewrite flat_map_app. cbn [flat_map]. rewrite app_nil_r. apply nodup_both; [now apply fdel_NoDup| |].
    + apply fget_In in E as (E & _). now apply (NoDup_inside F).
    + intros y Hy. now apply (fdel_disjoint o F x y W E).
  - exact (parent_out F o _ n W (at_desc F q n T H) P Ho).
  - apply at_app. destruct (at_move F o x q n W E T Ho H) as [A|(p' & -> & A)]; [now left|now right].
Qed.
Lemma at_write F u m x q n : wf F -> itag n = true -> fget u F = Some x -> ~ In u (uids n) -> ~ In (iuid n) (uids x) -> at_ F q n -> at_ (write_tag F u m) q n.
Proof. intros W T E Hu Hx H. exact (at_lost u (written F m) n x F q (written_pres F m) T Hu E Hx W H). Qed.

(** ** Calls *)

Lemma not_within F v n t : fget v F = Some n -> ~ within F v t -> ~ In t (uids n).
Proof. intros E H C. apply H. now exists n. Qed.
Lemma apart_out F v n w x : fget v F = Some n -> fget w F = Some x -> apart F v w -> ~ In w (uids n) /\ ~ In (iuid n) (uids x).
Proof. intros E Ex [H1 H2]. split; [exact (not_within F v n w E H1)|]. intros C. apply H2. exists x. rewrite (fget_uid _ _ _ E) in C. auto. Qed.

Lemma at_attr_set F u k r q n : wf F -> itag n = true -> ~ In u (uids n) -> at_ F q n -> at_ (fst (attr_set F u k r)) q n.
Proof. intros W T Hu H. destruct r; [now apply at_attrs|exact H]. Qed.
Lemma at_param F v u m n f x q : wf F -> fget v F = Some n -> fget u F = Some m ->
  (forall w d, param_get F m f = Ok (w, d) -> apart F v (iuid w)) -> at_ F q n -> at_ (fst (param_set F m f x)) q n.
Proof.
  intros W En Em A H. unfold param_set. destruct (param_get F m f) as [[w c]|] eqn:Eg; [|exact H]. specialize (A w c eq_refl). apply param_below in Eg. pose proof (below_get F u m w W Em Eg) as Ew.
  destruct (set_value c (forget w) x) as [t r]. cbn [fst]. destruct (apart_out F v n (iuid w) w En Ew A) as [A1 A2]. apply (at_write F (iuid w) t w); auto. now apply fget_tag in En.
Qed.
Lemma at_field F v u m n c k x q : wf F -> fget v F = Some n -> fget u F = Some m -> ~ within F v u -> field_away F v u c k -> at_ F q n -> at_ (fst (field_set F u m c k x)) q n.
Proof.
  intros W En Em Hu A H. pose proof (fget_tag _ _ _ En) as T. apply (not_within F v n u En) in Hu. unfold field_set. unfold field_away, param_name in A. destruct (aget k (all_fields c)) as [[d vc| |up]|]; try exact H.
  - apply (at_param F v u); auto. intros w d' Ew. exact (A m k w d' Em eq_refl Ew).
  - apply (at_param F v u); auto. intros w d' Ew. exact (A m up w d' Em eq_refl Ew).
  - repeat match goal with |- context[if ?b then _ else _] => destruct b end; try exact H; try now apply at_attr_set. now apply at_attrs.
Qed.
Lemma at_anim F v u m n k x q : wf F -> fget v F = Some n -> fget u F = Some m -> away F v (EAnim u k x) -> at_ F q n -> at_ (fst (anim_set F m k x)) q n.
Proof.
  cbn [away]. intros W En Em (Hu & A & D) H. pose proof (fget_tag _ _ _ En) as T. pose proof (fget_uid _ _ _ Em) as Um. pose proof (not_within F v n u En Hu) as Hu'. unfold anim_set. destruct (aget k anim_attrs) as [[ty d]|]; rewrite ?Um; [now apply at_attr_set|].
  destruct (pstr_eqb k (s "end_time")); [now apply at_attr_set|]. destruct (existsb (pstr_eqb k) _); [exact H|]. destruct (existsb (pstr_eqb k) anim_metadata); [exact H|].
  destruct (pstr_eqb k (s "desc")) eqn:Ek; [|now apply (at_field F v)]. apply pstr_eqb_spec in Ek. destruct (ifind (named (s "desc")) m) as [t|] eqn:Et; [|exact H]. destruct x; try exact H. cbn [fst].
  specialize (D m t Em Ek Et). apply WrProofs3.ifind_In in Et. pose proof (below_get F u m t W Em Et) as Ft. destruct (apart_out F v n (iuid t) t En Ft D) as [D1 D2].
  unfold set_string. apply (at_lost (iuid t) _ n t); auto. intros [|]; split; reflexivity.
Qed.
Lemma canvas_below kd m c : itag m = true -> canvas_of kd m = Ok c -> c = m \/ In c (idesc m).
Proof.
  intros T. assert (G : match ifind (is_param (s "canvas")) m with None => Err ValueError | Some p => match ifind (named (s "canvas")) p with None => Err AttributeError | Some c => Ok c end end = Ok c -> c = m \/ In c (idesc m)).
  { destruct (ifind (is_param (s "canvas")) m) as [p|] eqn:Ep; [|discriminate]. destruct (ifind (named (s "canvas")) p) as [x|] eqn:Ex; [|discriminate]. intros [= <-]. right.
    apply WrProofs3.ifind_In in Ep, Ex. exact (LayProofs.idesc_trans p x m Ep Ex). }
  unfold canvas_of. destruct kd; [intros [= <-]; now left|exact G|exact G].
Qed.
Lemma index_kid kd m i b : group_index kd m i = Ok b -> exists c, canvas_of kd m = Ok c /\ In b (ikids c) /\ is_layer b = true.
Proof.
  unfold group_index. intros H. apply bind_ok in H as (ch & Hc & H). assert (Hb : In b ch).
  { unfold py_index in H. destruct (_ <? 0)%Z; [discriminate|]. destruct (nth_error ch _) as [y|] eqn:E; [|discriminate]. injection H as <-. now apply nth_error_In in E. }
  destruct kd; [| |cbn in Hc; injection Hc as <-; destruct Hb].
  all: apply children_canvas in Hc as (c & Ec & -> & _); [|discriminate]; exists c; split; [exact Ec|]; unfold layers_in in Hb; apply in_rev in Hb; now apply filter_In in Hb.
Qed.
Lemma kid_parent F g m kd c b : wf F -> fget g F = Some m -> canvas_of kd m = Ok c -> In b (ikids c) -> itag b = true -> option_map iuid (fparent (iuid b) F) = Some (iuid c).
Proof.
  intros W Em Ec Hb T. apply at_parent; auto. exists c. split; [|auto]. apply fget_In in Em as (Hm & _ & Tm). destruct (canvas_below kd m c Tm Ec) as [->|Hc]; [exact Hm|exact (desc_trans F m c Hm Hc)].
Qed.
(** What goes beside b goes where b is, and b stays there. *)
Lemma ins_parent F p i x pn b : wf F -> wf (fat p (with_ikids (insert_nth i x)) F) -> fget p F = Some pn -> (exists y, In y (ikids pn) /\ is_ b y = true) ->
  option_map iuid (fparent b (fat p (with_ikids (insert_nth i x)) F)) = Some p.
Proof.
  intros W W' E (y & Hy & Eb). apply is_spec in Eb as [Ty Eb]. rewrite <- Eb. apply at_parent; auto. set (g := with_ikids (insert_nth i x)) in *. assert (Hg : tagpres g) by (intros [|]; split; reflexivity).
  exists (g pn). split; [|split].
  - pose proof (fdesc_fat p g F pn Hg W E) as (pre & post & _ & E2 & _). rewrite E2. apply in_or_app. right. now left.
  - rewrite (proj2 (Hg pn)). now apply fget_uid in E.
  - destruct pn as [|w nm a k]; [destruct Hy|]. unfold g. cbn [with_ikids ikids]. apply insert_nth_In. now right.
Qed.
Lemma beside_parent off F b u : wf F -> option_map iuid (fparent b (fst (insert_beside off F b u))) = option_map iuid (fparent b F).
Proof.
  intros W. pose proof (proj1 (keeps_beside off F b u W)) as W'. unfold insert_beside in *. destruct (fparent b F) as [[|p nm a k]|] eqn:P; try now rewrite <- P. destruct (u =? b); [now rewrite <- P|]. destruct (fget u F) as [x|] eqn:E; [|now rewrite <- P].
  destruct (fget p (fdel u F)) as [pn|] eqn:Ep; [|now rewrite <- P]. destruct (index_of b (ikids pn)) as [j|] eqn:Ej; [|now rewrite <- P]. unfold put_in in *. rewrite Ep in *. cbn [fst] in *.
  destruct (index_of_split _ _ _ Ej) as (k1 & y & k2 & E1 & E2 & _). apply (ins_parent (fdel u F) p (off + j) x pn b); auto; [now apply fdel_NoDup|]. exists y. split; [|exact E2]. rewrite E1. apply in_or_app. right. now left.
Qed.
Lemma text_parent F b x : wf F -> option_map iuid (fparent b (fst (insert_text_after F b x))) = option_map iuid (fparent b F).
Proof.
  intros W. pose proof (proj1 (keeps_text_after F b x W)) as W'. unfold insert_text_after in *. destruct (fparent b F) as [pn|] eqn:P; [|now rewrite <- P]. destruct (index_of b (ikids pn)) as [j|] eqn:Ej; [|now rewrite <- P].
  destruct pn as [|p nm a k]; [now rewrite <- P|]. unfold put_in in *. destruct (fget p F) as [pn|] eqn:Ep; [|now rewrite <- P]. cbn [fst] in *. destruct (parent_at F b _ W P) as (y & Ey & (m & Hm & Em & Hy)). cbn [iuid] in Em.
  pose proof (fget_desc F m W Hm) as G. rewrite Em, Ep in G. injection G as ->. apply (ins_parent F p (S j) (IT x) m b); auto. exists y. split; [exact Hy|]. apply is_spec. now apply fget_In in Ey.
Qed.
Lemma at_group_append F v kd g l n q : wf F -> fget v F = Some n -> away F v (EAppend kd g l) -> at_ F q n -> at_ (fst (group_append F kd g l)) q n.
Proof.
  cbn [away]. intros W En (Hl & A) H. pose proof (fget_tag _ _ _ En) as T. apply (not_within F v n l En) in Hl. unfold group_append. destruct kd; [| |exact H].
  all: destruct (fget g F) as [m|] eqn:Em; [|exact H]; match goal with |- context[canvas_of ?k ?m] => destruct (canvas_of k m) as [c|] eqn:Ec; [|exact H] end.
  all: specialize (A m c eq_refl Ec); apply (not_within F v n _ En) in A; destruct (find is_layer (ikids c)) as [b|] eqn:Ef; [|now apply at_append].
  all: apply find_some in Ef as [Hb Lb]; apply at_beside; auto; intros pn P.
  all: match type of Ec with canvas_of ?k _ = _ => pose proof (kid_parent F g m k c b W Em Ec Hb (is_layer_tag b Lb)) as K end; rewrite P in K; cbn in K; injection K as ->; exact A.
Qed.
Lemma at_group_insert F v kd g i l n q : wf F -> fget v F = Some n -> away F v (EInsert kd g i l) -> at_ F q n -> at_ (fst (group_insert F kd g i l)) q n.
Proof.
  cbn [away]. intros W En (Hl & A) H. pose proof (fget_tag _ _ _ En) as T. apply (not_within F v n l En) in Hl. unfold group_insert.
  assert (S : forall m b, fget g F = Some m -> group_index kd m i = Ok b -> at_ (fst (andthen (insert_text_after F (iuid b) nl) (fun F1 => andthen (insert_after F1 (iuid b) l) (fun F2 => insert_text_after F2 (iuid b) nl)))) q n).
  { intros m b Em Eb. destruct (index_kid kd m i b Eb) as (c & Ec & Hb & Lb). specialize (A m c Em Ec). apply (not_within F v n _ En) in A.
    pose proof (kid_parent F g m kd c b W Em Ec Hb (is_layer_tag b Lb)) as K.
    assert (K' : forall G, option_map iuid (fparent (iuid b) G) = Some (iuid c) -> forall pn, fparent (iuid b) G = Some pn -> ~ In (iuid pn) (uids n)) by (intros G KG pn P; rewrite P in KG; cbn in KG; injection KG as ->; exact A).
    pose proof (proj1 (keeps_text_after F (iuid b) nl W)) as W1. pose proof (text_parent F (iuid b) nl W) as P1. rewrite K in P1. pose proof (at_text F (iuid b) nl q n W T (K' F K) H) as H1.
    destruct (insert_text_after F (iuid b) nl) as [F1 [[]|e]]; cbn [andthen fst] in *; [|exact H1].
    pose proof (proj1 (keeps_beside 1 F1 (iuid b) l W1)) as W2. pose proof (beside_parent 1 F1 (iuid b) l W1) as P2. rewrite P1 in P2. pose proof (at_beside 1 F1 (iuid b) l q n W1 T Hl (K' F1 P1) H1) as H2. unfold insert_after.
    destruct (insert_beside 1 F1 (iuid b) l) as [F2 [[]|e]]; cbn [andthen fst] in *; [|exact H2]. exact (at_text F2 (iuid b) nl q n W2 T (K' F2 P2) H2). }
  destruct kd; [| |exact H]; (destruct (fget g F) as [m|] eqn:Em; [|exact H]); match goal with |- context[group_index ?k ?x ?j] => destruct (group_index k x j) as [b|] eqn:Eb; [|exact H] end; now apply (S m b).
Qed.
Lemma fresh_out F n : In n (fdesc F) -> ~ In (DocModel.fresh F) (uids n).
Proof. intros H C. apply (desc_uids F n H) in C. apply fresh_new in C. lia. Qed.
Lemma at_setitem F v u f x n q : wf F -> fget v F = Some n -> away F v (EItem u f x) -> at_ F q n -> at_ (fst (layer_setitem F u f x)) q n.
Proof.
  cbn [away]. intros W En (A & Hw) H. pose proof (fget_tag _ _ _ En) as T. unfold layer_setitem. destruct (fget u F) as [m|] eqn:Em; [|exact H]. destruct (layer_getitem m f) as [[old c]|] eqn:Eg; [|exact H].
  specialize (A m old c eq_refl Eg). apply (not_within F v n _ En) in A. destruct x as [w c'|x].
  - destruct (inst c c'); [|exact H]. apply (not_within F v n w En) in Hw. now apply at_replace.
  - destruct (new_value c x) as [t|] eqn:Et; [|exact H]. destruct (label_ok t (DocModel.fresh F)) as (_ & _ & N1 & _ & _ & Eu). apply at_replace; auto.
    + unfold wf, fuids. rewrite flat_map_app. cbn [flat_map]. rewrite app_nil_r. apply nodup_both; [exact W|exact N1|apply label_fresh].
    + rewrite Eu by now apply (new_value_tag c x). apply fresh_out. now apply fget_In in En.
    + apply at_app. now left.
Qed.
Lemma at_new F c n q : at_ F q n -> at_ (fst (new_layer F c)) q n.
Proof. intros H. unfold new_layer. destruct (new_tag c); [apply at_app; now left|exact H]. Qed.
Lemma at_new_text F x v n q : wf F -> fget v F = Some n -> at_ F q n -> at_ (fst (new_text F x)) q n.
Proof.
  intros W En H. pose proof En as En'. apply fget_In in En' as (Hn & Ev & T). unfold new_text, new_layer. destruct (new_tag cls_Text) as [t|] eqn:Et; [|exact H]. set (u := DocModel.fresh F). set (G := F ++ [fst (label u t)]).
  assert (HG : at_ G q n) by (apply at_app; now left). destruct (label_ok t u) as (_ & _ & N1 & _ & _ & Eu).
  assert (WG : wf G) by (unfold wf, G, fuids; rewrite flat_map_app; cbn [flat_map]; rewrite app_nil_r; apply nodup_both; [exact W|exact N1|apply label_fresh]).
  destruct (fget u G) as [m|] eqn:Em; [|exact HG]. assert (EG : fget v G = Some n) by (rewrite <- Ev; apply fget_desc; [exact WG|now apply (at_desc G q n T)]).
  assert (Mu : forall y, In y (uids m) -> ~ In y (fuids F)).
  { intros y Hy. assert (Hm : In m (fdesc [fst (label u t)])).
    { pose proof Em as Em'. apply fget_In in Em' as (Hm & Um & _). unfold G in Hm. rewrite fdesc_app in Hm. apply in_app_or in Hm as [Hm|Hm]; [|exact Hm]. exfalso. apply (desc_uids F m Hm), fresh_new in Hy.
      assert (X : In u (fuids F)) by (rewrite <- Um, <- uids_desc; now apply in_map). apply fresh_new in X. unfold u in X. lia. }
    apply (desc_uids _ m Hm) in Hy. unfold fuids in Hy. cbn [flat_map] in Hy. rewrite app_nil_r in Hy. now apply (label_fresh F t). }
  assert (Nn : forall y, In y (uids n) -> In y (fuids F)) by (intros y Hy; now apply (desc_uids F n Hn)).
  pose proof (at_field G v u m n cls_Text (s "text") (PStr x) q WG EG Em) as K. destruct (field_set G u m cls_Text (s "text") (PStr x)) as [F2 r]. cbn [fst] in *. apply K; auto.
  - intros (n' & E' & C). rewrite EG in E'. injection E' as <-. apply Nn, fresh_new in C. unfold u in C. lia.
  - intros m' f w d Em' _ Ep. rewrite Em in Em'. injection Em' as <-. apply param_below in Ep. pose proof (below_get G u m w WG Em Ep) as Ew.
    assert (Hw : incl (uids w) (uids m)) by now apply in_idesc_uids. pose proof (fget_tag _ _ _ Ew) as Tw. split; intros (y & Ey & C).
    + rewrite EG in Ey. injection Ey as <-. apply (Mu (iuid w)); [apply Hw, tag_uid, Tw|now apply Nn].
    + rewrite Ew in Ey. injection Ey as <-. apply (Mu v); [now apply Hw|]. apply Nn. rewrite <- Ev. now apply tag_uid.
Qed.

Lemma apply_away F v e n q : wf F -> fget v F = Some n -> away F v e -> at_ F q n -> at_ (fst (apply_edit F e)) q n.
Proof.
  intros W En A H. pose proof (fget_tag _ _ _ En) as T. destruct e as [c|x|u f x|u c k x|u k x|kd g l|kd g i l|w c e]; cbn [apply_edit]; unfold on_tag, fst_unit.
  - pose proof (at_new F c n q H) as K. destruct (new_layer F c). exact K.
  - pose proof (at_new_text F x v n q W En H) as K. destruct (new_text F x). exact K.
  - now apply (at_setitem F v).
  - destruct (fget u F) as [m|] eqn:E; [|exact H]. destruct A. now apply (at_field F v).
  - destruct (fget u F) as [m|] eqn:E; [|exact H]. now apply (at_anim F v u).
  - now apply (at_group_append F v).
  - now apply (at_group_insert F v).
  - cbn [away] in A. destruct (fget w F) as [m|] eqn:E; [|exact H]. match goal with |- context[vapply c (forget m) ?cx ?p e] => destruct (vapply c (forget m) cx p e) as [t r] end. cbn [fst].
    destruct (apart_out F v n w m En E A). now apply (at_write F w t m).
Qed.
Lemma edits_away rn v n q es : forall F, inv rn F -> Forall meant es -> fget v F = Some n -> all_away F v es -> at_ F q n ->
  fget v (edits F es) = Some n /\ at_ (edits F es) q n.
Proof.
  induction es as [|e es IH]; intros F I M En A H; [auto|]. inversion_clear M as [|? ? M1 M2]. destruct A as [A1 A2]. cbn [edits fold_left]. pose proof (apply_inv rn F e M1 I) as I'. pose proof (apply_away F v e n q (proj1 I) En A1 H) as H'.
  apply IH; auto. rewrite <- (fget_uid _ _ _ En). apply fget_desc; [exact (proj1 I')|]. apply (at_desc _ q n); [now apply fget_tag in En|exact H'].
Qed.

(** Calls that only name other tags are away. *)
Lemma overlap x n m : forall F, wf F -> In n (fdesc F) -> In m (fdesc F) -> In x (uids n) -> In x (uids m) -> ~ In (iuid m) (uids n) -> In (iuid n) (uids m).
Proof.
  induction F as [|y F IH|u nm a k F IHk IH] using forest_ind; intros W Hn Hm Xn Xm Hmn; [destruct Hn|now apply IH|]. pose proof (NoDup_kids _ _ _ _ _ W) as (W1 & W2 & W3 & W4 & W5).
  pose proof (desc_tags _ _ Hn) as Tn. pose proof (desc_tags _ _ Hm) as Tm.
  assert (Dk : forall z y, In z (fdesc k) -> In y (uids z) -> In y (fuids k)) by (intros z y Hz; now apply (desc_uids k z)).
  assert (DF : forall z y, In z (fdesc F) -> In y (uids z) -> In y (fuids F)) by (intros z y Hz; now apply (desc_uids F z)).
  rewrite fdesc_IE in Hn, Hm. destruct Hn as [<-|Hn]; destruct Hm as [<-|Hm]; try (exfalso; apply Hmn; now apply tag_uid).
  - exfalso. apply in_app_or in Hm as [Hm|Hm].
    + apply Hmn. rewrite uids_IE. right. apply (Dk m); [exact Hm|now apply tag_uid].
    + rewrite uids_IE in Xn. destruct Xn as [<-|Xn]; [apply W2; now apply (DF m)|apply (W5 x Xn); now apply (DF m)].
  - apply in_app_or in Hn as [Hn|Hn].
    + rewrite uids_IE. right. apply (Dk n); [exact Hn|now apply tag_uid].
    + exfalso. rewrite uids_IE in Xm. destruct Xm as [<-|Xm]; [apply W2; now apply (DF n)|apply (W5 x Xm); now apply (DF n)].
  - apply in_app_or in Hn as [Hn|Hn]; apply in_app_or in Hm as [Hm|Hm].
    + now apply IHk.
    + exfalso. apply (W5 x); [now apply (Dk n)|now apply (DF m)].
    + exfalso. apply (W5 x); [now apply (Dk m)|now apply (DF n)].
    + now apply IH.
Qed.
Lemma apart_below F v u m w : wf F -> fget u F = Some m -> In w (idesc m) -> apart F v u -> apart F v (iuid w).
Proof.
  intros W Em Hw [A1 A2]. pose proof (below_get F u m w W Em Hw) as Ew. split.
  - intros (n & En & C). apply A1. exists n. split; [exact En|]. pose proof (fget_tag _ _ _ Ew) as Tw. pose proof En as En'. apply fget_In in En' as (Hn & _ & Tn).
    (* w is below u and below v: one of these is below the other *)
    destruct (N.eq_dec u v) as [->|Hne]; [exfalso; apply A2; exists n; split; [exact En|]; rewrite <- (fget_uid _ _ _ En); now apply tag_uid|].
    destruct (in_dec N.eq_dec u (uids n)) as [|Hu]; [assumption|]. exfalso. apply A2. exists m. split; [exact Em|]. pose proof Em as Em'. apply fget_In in Em' as (Hm & Um & Tm).
    assert (Hwm : In (iuid w) (uids m)) by (apply (in_idesc_uids w m Hw), tag_uid, Tw). rewrite <- (fget_uid _ _ _ En). exact (overlap (iuid w) n m F W Hn Hm C Hwm ltac:(now rewrite Um)).
  - intros (y & Ey & C). apply A2. exists m. split; [exact Em|]. rewrite Ew in Ey. injection Ey as <-. now apply (in_idesc_uids w m Hw).
Qed.
Lemma names_away F v e : wf F -> (forall t, In t (names e) -> apart F v t) -> away F v e.
Proof.
  intros W A. assert (FA : forall u c k, apart F v u -> field_away F v u c k) by (intros u c k Au n f w d En _ Ep; apply param_below in Ep; now apply (apart_below F v u n w)).
  assert (CA : forall g kd n c, apart F v g -> fget g F = Some n -> canvas_of kd n = Ok c -> ~ within F v (iuid c)).
  { intros g kd n c Ag En Ec. pose proof (fget_tag _ _ _ En) as T. destruct (canvas_below kd n c T Ec) as [->|Hc]; [rewrite (fget_uid _ _ _ En); apply Ag|apply (apart_below F v g n c W En Hc Ag)]. }
  destruct e as [c|x|u f x|u c k x|u k x|kd g l|kd g i l|w c e]; cbn [names away] in *; auto.
  - assert (Au : apart F v u) by (apply A; now left). split.
    + intros n old c En Eg. apply getitem_below in Eg. apply (apart_below F v u n old W En Eg Au).
    + destruct x as [w c|]; [|exact I]. apply A. right. now left.
  - assert (Au : apart F v u) by (apply A; now left). split; [apply Au|now apply FA].
  - assert (Au : apart F v u) by (apply A; now left). split; [apply Au|]. split; [now apply FA|]. intros n t En _ Et. apply WrProofs3.ifind_In in Et. now apply (apart_below F v u n t).
  - split; [apply A; right; now left|]. intros n c En Ec. apply (CA g kd n c); auto. apply A. now left.
  - split; [apply A; right; now left|]. intros n c En Ec. apply (CA g kd n c); auto. apply A. now left.
  - apply A. now left.
Qed.
Lemma all_names_away rn v es : forall F, inv rn F -> Forall meant es -> all_apart F v es -> all_away F v es.
Proof.
  induction es as [|e es IH]; intros F I M A; [exact Logic.I|]. inversion_clear M as [|? ? M1 M2]. destruct A as [A1 A2]. split; [apply names_away; [apply I|exact A1]|]. apply IH; auto. now apply apply_inv.
Qed.
