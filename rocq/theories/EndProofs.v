(** Programs as edits; the attributes of the animation; reading what was saved *)
From Coq Require Import Lia.
From Verif Require AnimProofs2 TlSpec.
From Verif Require Import XpSpec SerModel SavSpec SavProofs SavSpec2 SavProofs2 SavProofs3 SavProofs4 WrProofs2 WrProofs3 WrProofs4 WrProofs5 EndSpec.
From Verif Require Import XpSpec AnimModel AnimSpec AnimProofs3 AnimProofs5 LayModel DocProofs DocProofs2 LaySpec LayProofs LayProofs2 LayProofs3 LayProofs4 LayProofs5 LayProofs6 LayProofs7 VarSpec VarProofs LoopModel MovSpec MovProofs MovProofs2 MixSpec MixProofs WrSpec ClsProofs PrmSpec PrmProofs PrmProofs2 PrmProofs3 WldSpec WldProofs WldProofs2.
Local Open Scope N_scope.

Notation cnv := (s "canvas").

(** ** Programs as edits *)

Definition fine (es : list edit) : Prop := Forall meant es /\ Forall good_edit es /\ Forall tidy_edit es.
Lemma fine_one e : meant e -> good_edit e -> tidy_edit e -> fine [e].
Proof. intros. repeat split; constructor; auto. Qed.
Lemma fine_nil : fine []. Proof. repeat split; constructor. Qed.
Lemma layer_more F u n : inv cnv F -> fget u F = Some n -> is_layer n = true -> 1 < u.
Proof.
  intros Iv Hu Hl. assert (H1 : u <> 1) by (intros ->; destruct (root_there cnv F Iv) as (ra & rk & E); rewrite E in Hu; injection Hu as <-; discriminate).
  assert (H0 : u <> 0); [|lia]. intros ->. destruct Iv as [W (a & k & ra & rk & Hd & _)]. assert (Hi : In (IE 0 dname a k) (fdesc F)) by (unfold fdesc; apply in_flat_map; eexists; split; [exact Hd|now left]).
  pose proof (fget_desc F _ W Hi) as X. cbn [iuid] in X. rewrite X in Hu. injection Hu as <-. discriminate.
Qed.
Lemma move_edits F m : inv cnv F -> fits F m -> exists es, do_move F m = edits F es /\ fine es.
Proof.
  intros Iv Hf. assert (X : forall kd g l, (exists n, holder F g kd n) /\ (exists t, fget l F = Some t /\ is_layer t = true /\ ~ In g (uids t)) -> g <> 0 /\ 1 < l).
  { intros kd g l ((n & Hn & Hk) & t & Ht & Hl & _). split; [|now apply (layer_more F l t)]. destruct Hk as [[-> _]|(_ & Hg & _)]; [discriminate|]. pose proof (layer_more F g n Iv Hn Hg). lia. }
  destruct m as [kd g l|kd g i l]; cbn [fits] in Hf; apply X in Hf.
  - exists [EAppend kd g l]. split; [reflexivity|now apply fine_one].
  - exists [EInsert kd g i l]. split; [reflexivity|now apply fine_one].
Qed.
Lemma assign_edits F a : inv cnv F -> sound_act (AAssign a) -> exists es, fst (do_assign F a) = edits F es /\ fine es.
Proof.
  intros Iv (H0 & Hg & Ht). destruct a as [how u k v]. cbn [as_layer_ as_value_] in *. unfold do_assign. cbn [as_layer_ as_value_ as_how as_name]. destruct (fget u F) as [n|] eqn:Hu; [|exists []; split; [reflexivity|apply fine_nil]]. destruct how.
  - unfold param_set. destruct (param_get F n k) as [[w c]|e] eqn:Ep; [|exists []; split; [reflexivity|apply fine_nil]]. pose proof (param_below F n k w c Ep) as Hb. exists [EValue (iuid w) c (VSet v)]. split.
    + cbn [edits fold_left apply_edit]. unfold on_tag. rewrite (below_get F u n w (proj1 Iv) Hu Hb). cbn [vapply]. destruct (set_value c (forget w) v). reflexivity.
    + apply fine_one; [|exact Hg|exact Ht]. exact (below cnv F u n w Iv Hu H0 Hb).
  - exists [EItem u k (SPlain v)]. split; [reflexivity|]. apply fine_one; [split; [exact H0|exact I]|exact Hg|exact Ht].
Qed.
Lemma edit_edits F u k e : inv cnv F -> sound_act (AEdit u k e) -> exists es, fst (do_edit F u k e) = edits F es /\ fine es.
Proof.
  intros Iv (H0 & Hg & Ht). unfold do_edit. destruct (fget u F) as [n|] eqn:Hu; [|exists []; split; [reflexivity|apply fine_nil]]. destruct (layer_getitem n k) as [[w c]|x] eqn:Eg; [|exists []; split; [reflexivity|apply fine_nil]].
  exists [EValue (iuid w) c e]. split; [reflexivity|]. apply fine_one; [|exact Hg|exact Ht]. exact (below cnv F u n w Iv Hu H0 (getitem_below n k w c Eg)).
Qed.
Lemma wact_edits F w x x' : inv cnv F -> wact_means F w x x' -> sound_wact x -> exists es, fst (do_wact F x) = edits F es /\ fine es.
Proof.
  intros Iv M S. destruct x as [x|c|u k v]; cbn [wact_means sound_wact do_wact] in *.
  - destruct x' as [x'| | |]; try contradiction. unfold act_means in M. destruct x as [m|a|u k e], x' as [m'|q how v|q cx e']; cbn [acts_mean do_act] in *; try contradiction.
    + destruct M as (_ & Hf & _). now apply move_edits.
    + now apply assign_edits.
    + now apply edit_edits.
  - destruct x' as [|b t| |r]; try contradiction.
    + destruct M as (Hc & _). exists [ENew c]. split; [reflexivity|]. apply fine_one; [exact Hc|exact I|exact I].
    + destruct M as (e & He & _). exists []. split; [|apply fine_nil]. cbn [apply_edit]. unfold fst_unit, new_layer. now rewrite He.
  - destruct M as (n & c & Hu & Hl & Hc & _). destruct S as (S1 & S2 & S3). exists [EField u c k v]. rewrite Hu, Hc. split; [reflexivity|].
    apply fine_one; [split; [pose proof (layer_more F u n Iv Hu Hl); lia|now apply (layer_class_in n)]|exact S1|split; [exact S2|exact S3]].
Qed.
Lemma edits_app F l m : edits F (l ++ m) = edits (edits F l) m.
Proof. unfold edits. apply fold_left_app. Qed.
Lemma wacts_edits l : forall l' F w, inv cnv F -> usual F -> depicts F w -> wacts_mean F w l l' -> Forall sound_wact l -> exists es, fst (wacts F l) = edits F es /\ fine es.
Proof.
  induction l as [|x l IH]; intros [|x' l'] F w Iv U D M S; cbn [wacts_mean] in M; try contradiction; [exists []; split; [reflexivity|apply fine_nil]|]. destruct M as [M1 M2]. inversion_clear S as [|? ? S1 S2].
  destruct (wact_edits F w x x' Iv M1 S1) as (e1 & E1 & F1). destruct (wact_step F w x x' U D M1) as (_ & B & C). cbn [wacts].
  assert (I1 : inv cnv (fst (do_wact F x))) by (rewrite E1; apply edits_inv; [apply F1|exact Iv]).
  destruct (IH l' _ _ I1 B C M2 S2) as (e2 & E2 & F2). exists (e1 ++ e2). rewrite edits_app, <- E1. destruct (do_wact F x) as [Fx rx]. cbn [fst] in *. destruct (wacts Fx l) as [Fl rl]. cbn [fst] in *. split; [exact E2|].
  destruct F1 as (A1 & A2 & A3), F2 as (B1 & B2 & B3). repeat split; apply Forall_app; auto.
Qed.

(** ** The attributes of the animation *)

Lemma keeps_topped a F F' : wf F -> keeps F F' -> topped a F -> topped a F'.
Proof. intros W K (r & Hr & Ha). destruct (K W) as (_ & _ & X). destruct (X 1 r Hr) as (n' & A & B & C). exists n'. split; [exact A|congruence]. Qed.
Lemma moves_topped a F m : usual F -> fits F m -> topped a F -> topped a (do_move F m).
Proof.
  intros U Hf. apply (move_part (topped a)); auto.
  - intros F0 g kd n c i x U0 C. apply keeps_topped; [apply (us_wf F0 U0)|]. now apply (tx_keeps F0 g kd n).
  - intros F0 g kd n c l t i U0 C Hl Htl Ho. apply keeps_topped; [apply (us_wf F0 U0)|]. now apply (mg_keeps F0 g kd n c l t i U0 C Hl).
Qed.
Lemma replaced_topped a F G h st q m : usual F -> mirrors F (h, st) -> st q <> None -> btag m -> replaced F G q m -> topped a F -> topped a G.
Proof.
  intros U [M1 M2] Hq [Gb Gt] (p & w & t & S & Tt & <- & Fr & HG & WG) (r & Hr & Ha). cbn [fst snd] in *. destruct (st q) as [t0|] eqn:Eq; [|congruence].
  assert (Fw : flat_value (forget w) = true).
  { destruct (M2 q t0 Eq) as (w' & V & _). destruct (holder_site _ _ _ V) as (p' & S' & _ & Fw & _). assert (p' = p) by (pose proof (st_p _ _ _ _ S); pose proof (st_p _ _ _ _ S'); congruence). subst p'.
    assert (w' = w) by (pose proof (st_k _ _ _ _ S); pose proof (st_k _ _ _ _ S'); congruence). now subst w'. }
  exists (iput (iuid w) t r). split.
  - apply (p2_get F U q p w S Fw t Tt (iuid w) eq_refl G HG WG Fr 1 r Hr). destruct (us_root F U) as (r' & Hr' & Hc). assert (r' = r) by congruence. subst r'. unfold bulky. rewrite Hc. apply orb_true_r.
  - destruct (iput_look (iuid w) t r) as (_ & _ & _ & C). congruence.
Qed.
Lemma act_topped a F w x x' : usual F -> depicts F w -> act_means F (snd (fst w)) x x' -> topped a F -> topped a (fst (do_act F x)).
Proof.
  destruct w as [[h st] at_]. intros U [M _] H T. cbn [fst snd] in *.
  unfold act_means in H. destruct x as [m|b|u k e], x' as [m'|q how v|q cx e']; cbn [acts_mean do_act] in *; try contradiction.
  - destruct H as (-> & Hf & _). now apply moves_topped.
  - destruct H as (Hp & Hq & -> & -> & Hv & _). destruct (st q) as [t|] eqn:Eq; [|congruence]. destruct (assign_is F st b q t (us_wf F U) (proj2 M) Hp Eq Hv) as (_ & E2 & [E3|[E3 _]]); [|now rewrite E3].
    apply (replaced_topped a F _ h st q _ U M) with (2 := E2) (3 := E3); [congruence|exact T].
  - destruct H as (Hp & Hq & -> & -> & Hv & _). destruct (st q) as [t|] eqn:Eq; [|congruence]. destruct (edit_is F st u k e q t (us_wf F U) (proj2 M) Hp Eq Hv) as (_ & E2 & [E3|[E3 _]]); [|now rewrite E3].
    apply (replaced_topped a F _ h st q _ U M) with (2 := E2) (3 := E3); [congruence|exact T].
Qed.
Lemma fat_topped a F u n g : usual F -> fget u F = Some n -> is_layer n = true -> (forall a k', In k' [s "type"; s "name"] -> aget k' (g a) = aget k' a) -> topped a F -> topped a (fat u (with_iattrs g) F).
Proof.
  intros U Hu Hl Hg (r & Hr & Ha). destruct (us_root F U) as (r' & Hr' & Hc). assert (r' = r) by congruence. subst r'. assert (Hn : u <> 1) by (intros ->; assert (n = r) by congruence; subst n; unfold is_layer, named in *; apply andb_prop in Hl as [_ Hl]; apply andb_prop in Hc as [_ Hc]; apply pstr_eqb_spec in Hl, Hc; rewrite Hl in Hc; discriminate).
  exists (fi u g r). change (fat u (with_iattrs g) F) with (G F u g). rewrite (G_get F U u n Hu (layer_bulky n Hl) g Hg), Hr. split; [reflexivity|]. destruct (fi_look F u n Hu g Hg r) as (_ & _ & _ & _ & X). rewrite X; [exact Ha|]. rewrite (fget_uid _ _ _ Hr). congruence.
Qed.
Lemma field_topped a F w u k v x' : usual F -> depicts F w -> field_means F w u k v x' -> topped a F -> topped a (fst (do_wact F (WField u k v))).
Proof.
  intros U D (n & c & Hu & Hl & Hc & H) T. assert (E : do_wact F (WField u k v) = field_set F u n c k v) by (cbn [do_wact]; rewrite Hu, Hc; cbn [apply_edit]; unfold on_tag; now rewrite Hu). unfold field_set in E. destruct (aget k (all_fields c)) as [[ty d| |up]|] eqn:Ek.
  - destruct H as (q & Hp & Hq & Hv & ->). assert (M : act_means F (snd (fst w)) (AAssign (assign ByField u k v)) (LAs q ByField v)) by (unfold act_means; cbn [acts_mean as_layer_ as_name as_how as_value_]; auto 8).
    pose proof (act_topped a F w _ _ U D M T) as R. cbn [do_act] in R. unfold do_assign in R. cbn [as_layer_ as_name as_how as_value_] in R. rewrite Hu in R. now rewrite E.
  - rewrite E. exact T.
  - destruct H as (q & Hp & Hq & Hv & ->). assert (M : act_means F (snd (fst w)) (AAssign (assign ByField u up (PDict [(k, v)]))) (LAs q ByField (PDict [(k, v)]))) by (unfold act_means; cbn [acts_mean as_layer_ as_name as_how as_value_]; auto 8).
    pose proof (act_topped a F w _ _ U D M T) as R. cbn [do_act] in R. unfold do_assign in R. cbn [as_layer_ as_name as_how as_value_] in R. rewrite Hu in R. now rewrite E.
  - rewrite E. clear E Ek. destruct H as [(Hin & _)|[-> _]]; [|exact T].
    assert (S : forall r, topped a (fst (attr_set F u k r))) by (intros [y|e]; cbn [attr_set fst]; [apply (fat_topped a F u n); auto; apply (other_attr (aset k y) k Hin); intros b k'; apply AnimProofs2.aget_aset_other|exact T]).
    repeat match goal with |- topped a (fst (if ?b then _ else _)) => destruct b end; try exact T; try apply S. apply (fat_topped a F u n); auto. apply (other_attr (adel k) k Hin). intros b k' Hne. now apply aget_adel_other.
Qed.
Lemma wact_topped a F w x x' : usual F -> depicts F w -> wact_means F w x x' -> topped a F -> topped a (fst (do_wact F x)).
Proof.
  intros U D H T. destruct x as [x|c|u k v]; cbn [wact_means] in H; [| |now apply (field_topped a F w u k v x')].
  - destruct x' as [x'| | |]; try contradiction. now apply (act_topped a F w x x').
  - cbn [do_wact apply_edit]. unfold fst_unit, new_layer. destruct (new_tag c); cbn [fst]; [|exact T]. destruct T as (r & Hr & Ha). exists r. split; [|exact Ha]. rewrite fget_app. now rewrite Hr.
Qed.
Lemma wacts_topped a l : forall l' F w, usual F -> depicts F w -> wacts_mean F w l l' -> topped a F -> topped a (fst (wacts F l)).
Proof.
  induction l as [|x l IH]; intros [|x' l'] F w U D M T; cbn [wacts_mean] in M; try contradiction; [exact T|]. destruct M as [M1 M2]. destruct (wact_step F w x x' U D M1) as (_ & B & C).
  pose proof (IH l' _ _ B C M2 (wact_topped a F w x x' U D M1 T)) as R. cbn [wacts]. destruct (do_wact F x) as [Fx rx]. cbn [fst] in *. destruct (wacts Fx l) as [Fl rl]. exact R.
Qed.

(** ** Reading *)

Lemma desc_len k x : In x (fdesc k) -> (length (idesc x) < length (fdesc k))%nat.
Proof.
  induction k as [|y F IH|u nm a k F IHk IH] using forest_ind; intros H; [destruct H|now apply IH|]. rewrite fdesc_IE in *. cbn [length]. rewrite app_length. destruct H as [<-|H]; [rewrite idesc_IE; lia|]. apply in_app_or in H as [H|H]; [apply IHk in H|apply IH in H]; lia.
Qed.
Lemma desc_less n x : In x (idesc n) -> (length (idesc x) < length (idesc n))%nat.
Proof. destruct n as [|u nm a k]; [intros []|]. rewrite idesc_IE. apply desc_len. Qed.
