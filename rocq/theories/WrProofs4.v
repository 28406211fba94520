(** Whatever is done to a document, it stays a tree, and the animation stays at the top of it. *)
From Coq Require Import Lia Permutation.
From Verif Require Import ValModel TlModel XpSpec DocProofs DocProofs2 LaySpec LayProofs LayProofs2 LayProofs3 LayProofs4 LayProofs5 AnimProofs5 AnimProofs6 ClsProofs.
From Verif Require Import LayProofs6 LayProofs7 LayModel AnimModel BywProofs15 WrSpec WrProofs WrProofs2 WrProofs3.
Local Open Scope N_scope.

(** The document (0) is not in another tag, has the name bs4 gives it, and the tag of the animation (1), called rn, is in it. *)
Definition dname : pstr := s "[document]".
Definition rooted (rn : pstr) (F : forest) : Prop := exists a k ra rk, In (IE 0 dname a k) F /\ In (IE 1 rn ra rk) k.
Definition inv (rn : pstr) (F : forest) : Prop := wf F /\ rooted rn F.

(** Nothing below another tag is the document; and only the document has the animation below it. *)
Lemma below rn F u n x : inv rn F -> fget u F = Some n -> u <> 0 -> In x (idesc n) -> 1 < iuid x.
Proof.
  intros [W (a & k & ra & rk & Hd & Hr)] Hn Hu Hx. apply fget_In in Hn as (Hn & En & Tn).
  apply in_split in Hd as (F1 & F2 & ->). apply in_split in Hr as (k1 & k2 & ->). unfold wf in W.
  assert (S : forall G, In n (fdesc G) -> In (iuid x) (fuids G)) by (intros G HG; rewrite <- uids_desc; apply in_map; now apply (desc_trans G n)).
  rewrite fuids_app, fuids_IE, fuids_app, fuids_IE in W. rewrite fdesc_app in Hn. apply in_app_or in Hn.
  assert (Hc : iuid x <> 0 /\ iuid x <> 1); [|lia].
  assert (D : iuid x = 0 \/ iuid x = 1 -> False); [|split; intros E; apply D; auto].
  apply NoDup_app_parts in W as (W1 & W2 & W3). apply NoDup_cons_iff in W2 as [W2 W4]. apply NoDup_app_parts in W4 as (W5 & W6 & W7).
  apply NoDup_app_parts in W5 as (W8 & W9 & W10). apply NoDup_cons_iff in W9 as [W11 W12].
  assert (D0 : In 0 (0 :: (fuids k1 ++ 1 :: fuids rk ++ fuids k2) ++ fuids F2)) by now left.
  assert (D1 : In 1 (0 :: (fuids k1 ++ 1 :: fuids rk ++ fuids k2) ++ fuids F2)) by (right; apply in_or_app; left; apply in_or_app; right; now left).
  assert (D2 : In 1 (fuids k1 ++ 1 :: fuids rk ++ fuids k2)) by (apply in_or_app; right; now left).
  destruct Hn as [Hn|Hn]; [intros [E|E]; apply S in Hn; rewrite E in Hn; exact (W3 _ Hn ltac:(assumption))|].
  rewrite fdesc_IE in Hn. destruct Hn as [<-|Hn]; [now destruct Hu|]. apply in_app_or in Hn as [Hn|Hn].
  - assert (K : In (iuid x) (fuids (k1 ++ IE 1 rn ra rk :: k2))) by now apply S. rewrite fuids_app, fuids_IE in K. intros [E|E].
    + rewrite E in K. apply W2. apply in_or_app. now left.
    + rewrite fdesc_app, fdesc_IE in Hn. apply in_app_or in Hn as [Hn|Hn]; [apply S in Hn; rewrite E in Hn; apply (W10 1 Hn); now left|].
      assert (Q : In 1 (fuids rk ++ fuids k2) -> False) by exact W11. destruct Hn as [<-|Hn].
      * rewrite idesc_IE in Hx. apply Q. apply in_or_app. left. rewrite <- E, <- uids_desc. now apply in_map.
      * apply in_app_or in Hn as [Hn|Hn]; apply S in Hn; rewrite E in Hn; apply Q, in_or_app; auto.
  - apply S in Hn. intros [E|E]; rewrite E in Hn; [apply W2; apply in_or_app; now right|exact (W7 1 D2 Hn)].
Qed.

(** ** Parts *)

Lemma rooted_fat rn u f F : 1 < u -> rooted rn F -> rooted rn (fat u f F).
Proof.
  intros U (a & k & ra & rk & Hd & Hr). exists a, (map (iat u f) k), ra, (map (iat u f) rk). split.
  - apply in_map_iff. exists (IE 0 dname a k). split; [|exact Hd]. cbn [iat]. destruct (u =? 0) eqn:E; [lia|reflexivity].
  - apply in_map_iff. exists (IE 1 rn ra rk). split; [|exact Hr]. cbn [iat]. destruct (u =? 1) eqn:E; [lia|reflexivity].
Qed.
Lemma rooted_attrs rn u g F : rooted rn F -> rooted rn (fat u (with_iattrs g) F).
Proof.
  intros (a & k & ra & rk & Hd & Hr). destruct (u =? 0) eqn:E0; [|destruct (u =? 1) eqn:E1; [|apply rooted_fat; [lia|now exists a, k, ra, rk]]].
  - exists (g a), k, ra, rk. split; [|exact Hr]. apply in_map_iff. exists (IE 0 dname a k). split; [|exact Hd]. cbn [iat]. rewrite E0. reflexivity.
  - exists a, (map (iat u (with_iattrs g)) k), (g ra), rk. split; apply in_map_iff; [exists (IE 0 dname a k)|exists (IE 1 rn ra rk)]; (split; [|assumption]); cbn [iat]; [rewrite E0|rewrite E1]; reflexivity.
Qed.
Lemma rooted_ins rn u i n F : rooted rn F -> rooted rn (fat u (with_ikids (insert_nth i n)) F).
Proof.
  intros (a & k & ra & rk & Hd & Hr). destruct (u =? 0) eqn:E0; [|destruct (u =? 1) eqn:E1; [|apply rooted_fat; [lia|now exists a, k, ra, rk]]].
  - exists a, (insert_nth i n k), ra, rk. split; [|apply insert_nth_In; now right]. apply in_map_iff. exists (IE 0 dname a k). split; [|exact Hd]. cbn [iat]. rewrite E0. reflexivity.
  - exists a, (map (iat u (with_ikids (insert_nth i n))) k), ra, (insert_nth i n rk). split; apply in_map_iff; [exists (IE 0 dname a k)|exists (IE 1 rn ra rk)]; (split; [|assumption]); cbn [iat]; [rewrite E0|rewrite E1]; reflexivity.
Qed.
Lemma rooted_del rn u F : 1 < u -> rooted rn F -> rooted rn (fdel u F).
Proof.
  intros U (a & k & ra & rk & Hd & Hr). exists a, (fdel u k), ra, (fdel u rk). split.
  - rewrite (fdel_map u F). apply in_map_iff. exists (IE 0 dname a k). split; [reflexivity|]. apply filter_In. split; [exact Hd|]. cbn [is_]. destruct (u =? 0) eqn:E; [lia|reflexivity].
  - rewrite (fdel_map u k). apply in_map_iff. exists (IE 1 rn ra rk). split; [reflexivity|]. apply filter_In. split; [exact Hr|]. cbn [is_]. destruct (u =? 1) eqn:E; [lia|reflexivity].
Qed.
Lemma rooted_app rn F G : rooted rn F -> rooted rn (F ++ G).
Proof. intros (a & k & ra & rk & Hd & Hr). exists a, k, ra, rk. split; [apply in_or_app; now left|exact Hr]. Qed.

Lemma rooted_put rn F0 F p i n : rooted rn F0 -> rooted rn F -> rooted rn (fst (put_in F0 F p i n)).
Proof. intros R0 R. unfold put_in. destruct (fget p F); [now apply rooted_ins|exact R0]. Qed.
Lemma rooted_insert rn F p i u : 1 < u -> rooted rn F -> rooted rn (fst (tag_insert F p i u)).
Proof. intros U R. unfold tag_insert. destruct (u =? p); [exact R|]. destruct (fget u F); [|exact R]. destruct (fget p F); [|exact R]. apply rooted_put; [exact R|now apply rooted_del]. Qed.
Lemma rooted_beside rn off F b u : 1 < u -> rooted rn F -> rooted rn (fst (insert_beside off F b u)).
Proof.
  intros U R. unfold insert_beside. destruct (fparent b F) as [[|p nm a k]|]; try exact R. destruct (u =? b); [exact R|]. destruct (fget u F) as [n|]; [|exact R].
  destruct (fget p (fdel u F)) as [pn|]; [|exact R]. destruct (index_of b (ikids pn)); [|exact R]. apply rooted_put; [exact R|now apply rooted_del].
Qed.
Lemma rooted_text rn F b x : rooted rn F -> rooted rn (fst (insert_text_after F b x)).
Proof. intros R. unfold insert_text_after. destruct (fparent b F) as [pn|]; [|exact R]. destruct (index_of b (ikids pn)); [|exact R]. destruct pn; [exact R|]. now apply rooted_put. Qed.

Lemma inv_insert rn F p i u : 1 < u -> inv rn F -> inv rn (fst (tag_insert F p i u)).
Proof. intros U [W R]. split; [exact (proj1 (keeps_tag_insert F p i u W))|now apply rooted_insert]. Qed.
Lemma inv_append rn F p u : 1 < u -> inv rn F -> inv rn (fst (tag_append F p u)).
Proof. intros U I. unfold tag_append. destruct (fget p F); [now apply inv_insert|exact I]. Qed.
Lemma inv_beside rn off F b u : 1 < u -> inv rn F -> inv rn (fst (insert_beside off F b u)).
Proof. intros U [W R]. split; [exact (proj1 (keeps_beside off F b u W))|now apply rooted_beside]. Qed.
Lemma inv_text rn F b x : inv rn F -> inv rn (fst (insert_text_after F b x)).
Proof. intros [W R]. split; [exact (proj1 (keeps_text_after F b x W))|now apply rooted_text]. Qed.
Lemma inv_andthen rn c k : inv rn (fst c) -> (forall F, inv rn F -> inv rn (fst (k F))) -> inv rn (fst (andthen c k)).
Proof. intros G H. destruct c as [F [x|e]]; cbn [andthen fst] in *; [now apply H|exact G]. Qed.
Lemma inv_replace rn F o u : 1 < u -> 1 < o -> inv rn F -> inv rn (fst (replace_with F o u)).
Proof.
  intros U O [W R]. unfold replace_with. destruct (fparent o F) as [[|p nm a k]|]; try now split. destruct (o =? u); [now split|]. destruct (u =? p); [now split|]. destruct (index_of o k) as [j|]; [|now split].
  destruct (fget o F) as [n|] eqn:E; [|now split]. apply inv_insert; [exact U|]. split; [|now apply rooted_app, rooted_del].
  unfold wf, fuids. rewrite flat_map_app. cbn [flat_map]. rewrite app_nil_r. apply nodup_both.
  - now apply fdel_NoDup.
  - apply fget_In in E as (E & _). now apply (NoDup_inside F).
  - intros x Hx. now apply (fdel_disjoint o F n x W E).
Qed.
Lemma inv_write rn F w m : 1 < w -> (exists n, fget w F = Some n) -> inv rn F -> inv rn (write_tag F w m).
Proof.
  intros Hw [n Hn] [W R]. split; [|now apply rooted_fat]. destruct m as [x|nm a k]; [now rewrite write_Txt|]. exact (wr_wf F w n (El nm a k) W Hn eq_refl).
Qed.
Lemma inv_attrs rn F u g : inv rn F -> inv rn (fat u (with_iattrs g) F).
Proof. intros [W R]. split; [now apply wf_attr|now apply rooted_attrs]. Qed.
Lemma inv_string rn F u t x : 1 < u -> fget u F = Some t -> inv rn F -> inv rn (set_string F u x).
Proof.
  intros U Ht I. pose proof I as [W R]. assert (E : set_string F u x = write_tag F u (El (iname t) (iattrs t) [Txt x])); [|rewrite E; apply inv_write; [exact U|now exists t|exact I]].
  unfold set_string, write_tag. rewrite !(fat_fput u _ F t) by assumption. destruct t as [|v nm a k]; [apply fget_tag in Ht; discriminate|]. reflexivity.
Qed.

(** ** Calls *)

Lemma inv_group_append rn F kd g l : 1 < l -> inv rn F -> inv rn (fst (group_append F kd g l)).
Proof.
  intros L I. unfold group_append. destruct kd; try exact I.
  all: destruct (fget g F) as [n|]; [|exact I]; match goal with |- context[canvas_of ?k ?m] => destruct (canvas_of k m) as [c|]; [|exact I] end.
  all: destruct (find is_layer (ikids c)); [now apply inv_beside|now apply inv_append].
Qed.
Lemma inv_group_insert rn F kd g i l : 1 < l -> inv rn F -> inv rn (fst (group_insert F kd g i l)).
Proof.
  intros L I. unfold group_insert. destruct kd; try exact I.
  all: destruct (fget g F) as [n|]; [|exact I]; match goal with |- context[group_index ?k ?m ?j] => destruct (group_index k m j) as [b|]; [|exact I] end.
  all: apply inv_andthen; [now apply inv_text|]; intros F1 I1; apply inv_andthen; [now apply inv_beside|]; intros F2 I2; now apply inv_text.
Qed.
Lemma only_kid p x k : filter itag (ikids p) = x :: k -> In x (idesc p) /\ itag x = true.
Proof.
  intros E. assert (Hx : In x (filter itag (ikids p))) by (rewrite E; now left). apply filter_In in Hx as [Hx Ht]. split; [|exact Ht]. destruct p as [|v nm a ks]; [destruct Hx|]. rewrite idesc_IE. cbn [ikids] in Hx.
  unfold fdesc. apply in_flat_map. exists x. split; [exact Hx|]. destruct x; [discriminate|now left].
Qed.
Lemma param_of n k p : ifind (is_param k) n = Some p -> In p (idesc n).
Proof. apply WrProofs3.ifind_In. Qed.
Lemma getitem_below n f old c : layer_getitem n f = Ok (old, c) -> In old (idesc n).
Proof.
  unfold layer_getitem, value_of. destruct (ifind (is_param f) n) as [p|] eqn:E; [|discriminate]. destruct (aget (s "name") (iattrs p)); [|discriminate]. destruct (filter itag (ikids p)) as [|x [|]] eqn:Ef; try discriminate.
  intros H. apply bind_ok in H as (c' & _ & H). injection H as <- _. apply param_of in E. apply (LayProofs.idesc_trans p x n E). now apply (only_kid p x []).
Qed.
Lemma param_below F n k w c : param_get F n k = Ok (w, c) -> In w (idesc n).
Proof.
  unfold param_get. destruct (ifind (is_param k) n) as [p|] eqn:E; [|discriminate]. destruct (filter itag (ikids p)) as [|x [|]] eqn:Ef; try discriminate.
  intros H. apply bind_ok in H as (c' & _ & H). injection H as <- _. apply param_of in E. apply (LayProofs.idesc_trans p x n E). now apply (only_kid p x []).
Qed.
Lemma below_get F u n x : wf F -> fget u F = Some n -> In x (idesc n) -> fget (iuid x) F = Some x.
Proof. intros W Hn Hx. apply fget_desc; [exact W|]. apply fget_In in Hn as (Hn & _). now apply (desc_trans F n). Qed.
Lemma fresh_more rn F : inv rn F -> 1 < DocModel.fresh F.
Proof.
  intros [W (a & k & ra & rk & Hd & Hr)]. assert (H : In 1 (fuids F)).
  { unfold fuids. apply in_flat_map. exists (IE 0 dname a k). split; [exact Hd|]. rewrite uids_IE. right. unfold fuids. apply in_flat_map. exists (IE 1 rn ra rk). split; [exact Hr|]. rewrite uids_IE. now left. }
  apply fresh_new in H. exact H.
Qed.
Lemma inv_add rn F t : inv rn F -> inv rn (F ++ [fst (label (DocModel.fresh F) t)]).
Proof.
  intros [W R]. split; [|now apply rooted_app]. unfold wf, fuids. rewrite flat_map_app. cbn [flat_map]. rewrite app_nil_r. apply nodup_both; [exact W| |apply label_fresh]. now destruct (label_ok t (DocModel.fresh F)) as (_ & _ & H & _).
Qed.

Lemma inv_setitem rn F u f v : u <> 0 -> match v with SValue w _ => 1 < w | SPlain _ => True end -> inv rn F -> inv rn (fst (layer_setitem F u f v)).
Proof.
  intros U M I. unfold layer_setitem. destruct (fget u F) as [n|] eqn:En; [|exact I]. destruct (layer_getitem n f) as [[old c]|] eqn:Eg; [|exact I].
  pose proof (below rn F u n old I En U (getitem_below n f old c Eg)) as Ho. destruct v as [w c'|x]; [destruct (inst c c'); [now apply inv_replace|exact I]|].
  - destruct (new_value c x) as [t|] eqn:Et; [|exact I]. apply inv_replace; [|exact Ho|now apply inv_add].
    destruct (label_ok t (DocModel.fresh F)) as (_ & _ & _ & _ & _ & H). rewrite H by now apply (new_value_tag c x). now apply (fresh_more rn).
Qed.
Lemma inv_param rn F u n k v : u <> 0 -> fget u F = Some n -> inv rn F -> inv rn (fst (param_set F n k v)).
Proof.
  intros U En I. unfold param_set. destruct (param_get F n k) as [[w c]|] eqn:Eg; [|exact I]. apply param_below in Eg. destruct (set_value c (forget w) v) as [m r]. cbn [fst].
  apply inv_write; [now apply (below rn F u n)| |exact I]. exists w. now apply (below_get F u n w (proj1 I)).
Qed.
Lemma inv_attr_set rn F u k r : inv rn F -> inv rn (fst (attr_set F u k r)).
Proof. intros I. destruct r; [now apply inv_attrs|exact I]. Qed.
Lemma inv_field rn F u n c k v : u <> 0 -> fget u F = Some n -> inv rn F -> inv rn (fst (field_set F u n c k v)).
Proof.
  intros U En I. unfold field_set. destruct (aget k (all_fields c)) as [[d vc| |up]|]; try exact I; try (now apply (inv_param rn F u)).
  repeat match goal with |- context[if ?b then _ else _] => destruct b end; try exact I; try now apply inv_attr_set. now apply inv_attrs.
Qed.
Lemma inv_anim rn F u n k v : u <> 0 -> fget u F = Some n -> inv rn F -> inv rn (fst (anim_set F n k v)).
Proof.
  intros U En I. pose proof En as En'. apply fget_In in En' as (Hn & Hu & _). unfold anim_set. destruct (aget k anim_attrs) as [[ty d]|]; [now apply inv_attr_set|]. rewrite Hu.
  repeat match goal with |- context[if ?b then _ else _] => destruct b end; try exact I; try now apply inv_attr_set.
  - destruct (ifind (named (s "desc")) n) as [t|] eqn:E; [|exact I]. apply WrProofs3.ifind_In in E. destruct v; try exact I. apply (inv_string rn F (iuid t) t); [now apply (below rn F u n)|now apply (below_get F u n t (proj1 I))|exact I].
  - now apply inv_field.
Qed.
Lemma inv_new rn F c : inv rn F -> inv rn (fst (new_layer F c)).
Proof. intros I. unfold new_layer. destruct (new_tag c); [now apply inv_add|exact I]. Qed.
Lemma inv_new_text rn F x : inv rn F -> inv rn (fst (new_text F x)).
Proof.
  intros I. pose proof (fresh_more rn F I) as Hf. pose proof (inv_new rn F cls_Text I) as H1. unfold new_text, new_layer in *. destruct (new_tag cls_Text) as [t|]; [|exact I]. cbn [fst] in H1.
  assert (Hz : DocModel.fresh F <> 0) by (intros Z; rewrite Z in Hf; lia).
  destruct (fget (DocModel.fresh F) (F ++ [fst (label (DocModel.fresh F) t)])) as [n|] eqn:E; [|exact H1]. pose proof (inv_field rn _ _ n cls_Text (s "text") (PStr x) Hz E H1) as H2. destruct (field_set _ _ n cls_Text (s "text") (PStr x)) as [F2 r]. exact H2.
Qed.

Lemma apply_inv rn F e : meant e -> inv rn F -> inv rn (fst (apply_edit F e)).
Proof.
  intros M I. destruct e as [c|x|u f v|u c k v|u k v|kd g l|kd g i l|w c e]; cbn [apply_edit meant] in *; unfold on_tag, fst_unit.
  - pose proof (inv_new rn F c I) as H. destruct (new_layer F c). exact H.
  - pose proof (inv_new_text rn F x I) as H. destruct (new_text F x). exact H.
  - destruct M. now apply inv_setitem.
  - destruct M. destruct (fget u F) as [n|] eqn:E; [now apply inv_field|exact I].
  - destruct (fget u F) as [n|] eqn:E; [now apply (inv_anim rn F u)|exact I].
  - now apply inv_group_append.
  - now apply inv_group_insert.
  - destruct (fget w F) as [n|] eqn:E; [|exact I]. match goal with |- context[vapply c (forget n) ?cx ?p e] => destruct (vapply c (forget n) cx p e) as [m r] end. cbn [fst]. apply inv_write; [exact M|now exists n|exact I].
Qed.
Lemma edits_inv rn l : forall F, Forall meant l -> inv rn F -> inv rn (edits F l).
Proof. induction l as [|e l IH]; intros F M I; [exact I|]. inversion_clear M. cbn [edits fold_left]. apply IH; [assumption|now apply apply_inv]. Qed.

Lemma doc_inv nm a k : inv nm (doc_forest (El nm a k)).
Proof.
  split.
  - unfold wf, doc_forest, fuids. cbn [flat_map]. rewrite app_nil_r. now destruct (label_ok (El (s "[document]") [] [El nm a k]) 0) as (_ & _ & H & _).
  - unfold doc_forest. cbn [label]. destruct ((fix go (u : N) (l : list node) : list inode * N := match l with [] => ([], u) | c :: l' => let (c', u1) := label u c in let (r, u2) := go u1 l' in (c' :: r, u2) end) (N.succ (N.succ 0)) k) as [k' u'].
    exists [], [IE 1 nm a k'], a, k'. split; [now left|now left].
Qed.
Lemma root_there rn F : inv rn F -> exists ra rk, fget 1 F = Some (IE 1 rn ra rk).
Proof.
  intros [W (a & k & ra & rk & Hd & Hr)]. exists ra, rk.
  assert (A : In (IE 0 dname a k) (fdesc F)) by (unfold fdesc; apply in_flat_map; exists (IE 0 dname a k); split; [exact Hd|now left]).
  apply (fget_desc F (IE 1 rn ra rk) W). apply (desc_trans F (IE 0 dname a k)); [exact A|]. rewrite idesc_IE. unfold fdesc. apply in_flat_map. exists (IE 1 rn ra rk). split; [exact Hr|now left].
Qed.
