(** Proofs about what any document is when loaded again, about keyframes, and the length in frames. *)
From Verif Require Import AnimModel AnimSpec XpSpec XpProofs SerProofs AnimProofs AnimProofs2 AnimProofs3 DocProofs DocProofs2 LaySpec LayProofs LayProofs3 TimeSpec TimeProofs TimeProofs2.
From Coq Require Import Lia ZifyN ZifyBool Permutation.
Local Open Scope N_scope.

(** ** Any document, up to white space *)

Lemma dark_app x y : dark (x ++ y) = dark x ++ dark y. Proof. apply filter_app. Qed.
Lemma dark_white x : forallb ascii_space x = true <-> dark x = [].
Proof.
  unfold dark. induction x as [|c x IH]; [split; reflexivity|]. cbn [forallb filter].
  destruct (ascii_space c) eqn:E.
  - assert (H : existsb (N.eqb c) [9; 10; 12; 13; 32] = true) by (unfold ascii_space in E; cbn [existsb]; lia). rewrite H. exact IH.
  - assert (H : existsb (N.eqb c) [9; 10; 12; 13; 32] = false) by (unfold ascii_space in E; cbn [existsb]; lia). rewrite H. split; discriminate.
Qed.
Lemma norm_dark x : Forall (fun c => c <> 13) x -> dark (norm_text x) = dark x /\ (dark x <> [] -> norm_text x = x).
Proof.
  intros H. unfold norm_text. rewrite norm_eol_id by auto. unfold norm_blank.
  destruct (forallb ascii_space x) eqn:E; [|split; auto]. apply dark_white in E. rewrite E. split; [|congruence].
  destruct (existsb (N.eqb 10) x); reflexivity.
Qed.
Lemma own_text_app k l : own_text (k ++ l) = own_text k ++ own_text l. Proof. apply flat_map_app. Qed.
Lemma merge_own k : own_text (merge_texts k) = own_text k /\ filter is_tag (merge_texts k) = filter is_tag k /\
  (filter is_tag k = [] -> merge_texts k = match own_text k with [] => [] | x => [Txt x] end).
Proof.
  induction k as [|n k (I1 & I2 & I3)]; [repeat split; reflexivity|]. destruct n as [x|nm a j].
  - change (own_text (Txt x :: k)) with (x ++ own_text k). change (filter is_tag (Txt x :: k)) with (filter is_tag k).
    assert (G : own_text (merge_texts (Txt x :: k)) = x ++ own_text (merge_texts k) /\
      filter is_tag (merge_texts (Txt x :: k)) = filter is_tag (merge_texts k)).
    { cbn [merge_texts]. destruct (merge_texts k) as [|[y|nm a j] r]; destruct x; cbn [own_text flat_map filter is_tag app]; rewrite <- ?app_assoc; split; reflexivity. }
    destruct G as [G1 G2]. rewrite G1, G2, I1, I2. repeat split; auto. intros H. cbn [merge_texts]. rewrite (I3 H).
    destruct (own_text k) as [|c y]; [rewrite app_nil_r; destruct x; reflexivity|]. destruct x; reflexivity.
  - cbn [merge_texts filter is_tag own_text flat_map app]. fold (own_text k). fold (own_text (merge_texts k)). rewrite I1, I2. repeat split; auto. discriminate.
Qed.
Lemma own_text_reload k : own_text (map reload k) = own_text k.
Proof. induction k as [|[x|nm a j] k IH]; [reflexivity| |]; cbn [map reload own_text flat_map]; fold (own_text k); fold (own_text (map reload k)); now rewrite IH. Qed.
Lemma norm_own k : Forall no13 k -> dark (own_text (map norm_node k)) = dark (own_text k).
Proof.
  induction 1 as [|n k Hn _ IH]; [reflexivity|]. destruct n as [x|nm a j]; cbn [map norm_node own_text flat_map]; fold (own_text k); fold (own_text (map norm_node k)).
  - rewrite !dark_app, IH. now rewrite (proj1 (norm_dark x Hn)).
  - exact IH.
Qed.
Lemma norm_tags_same k : filter is_tag (map norm_node k) = filter is_tag k.
Proof. induction k as [|[x|nm a j] k IH]; [reflexivity| |]; cbn [map norm_node filter is_tag]; now rewrite IH. Qed.
Lemma reload_tags_filter k : filter is_tag (map reload k) = map reload (filter is_tag k).
Proof. induction k as [|[x|nm a j] k IH]; [reflexivity| |]; cbn [map reload filter is_tag]; now rewrite IH. Qed.
Lemma blank_read a : good_attrs a -> Permutation (blank_strings a) (attr_strings (reload_attrs a)).
Proof.
  intros [_ G]. rewrite reload_attrs_map. unfold attr_strings. rewrite map_map.
  assert (P : Permutation (sorted a) a) by apply sort_perm.
  etransitivity; [apply Permutation_sym; exact (Permutation_map (fun kv => (fst kv, blanks (aval_str (snd kv)))) P)|].
  assert (G' : Forall (fun kv => good_text (aval_str (snd kv))) (sorted a)).
  { apply Forall_forall. intros kv Hi. rewrite Forall_forall in G. apply (G kv). now apply (Permutation_in _ P). }
  apply Permutation_refl'. apply map_ext_in. intros kv Hi. rewrite Forall_forall in G'. unfold read_attr. cbn [fst snd aval_str]. rewrite norm_attr_sp by now apply G'. f_equal. unfold blanks. apply map_ext. intros c. unfold sp, space. destruct (c =? 32) eqn:E1, (c =? 9) eqn:E2, (c =? 10) eqn:E3; cbn [orb]; lia.
Qed.

Lemma merge_no13 k : Forall no13 k -> Forall no13 (merge_texts k).
Proof.
  induction 1 as [|n k Hn _ IH]; [constructor|]. destruct n as [x|nm a j]; cbn [merge_texts].
  - destruct (merge_texts k) as [|[y|nm a j] r].
    + destruct x; constructor; auto.
    + inversion IH; subst. constructor; auto. cbn [no13] in *. apply Forall_app. auto.
    + destruct x; auto.
  - constructor; auto.
Qed.
Lemma reload_no13 k : all_writable k -> Forall no13 (map reload k).
Proof.
  induction k as [|n k IH]; [constructor|]. intros W. inversion W as [|? ? H1 H2]; subst. constructor; [|now apply IH]. destruct n; [exact (writable_no13 _ H1)|exact I].
Qed.
Lemma reload_tags_same n : is_tag n = true -> writable n -> same_tags n (reload n).
Proof.
  revert n. fix IH 1. intros [x|nm a k]; [discriminate|]. intros _ W. rewrite writable_El in W. destruct W as (_ & Wa & Wk). cbn [reload].
  destruct (merge_own (map reload k)) as (M1 & M2 & M3). constructor.
  - now apply blank_read.
  - rewrite norm_tags_same, M2, reload_tags_filter. clear -IH Wk. induction k as [|c k IHk]; [constructor|]. inversion Wk as [|? ? Wc Wk']; subst. cbn [filter].
    destruct (is_tag c) eqn:E; [|now apply IHk]. cbn [map]. constructor; [now apply IH|now apply IHk].
  - rewrite norm_own by (apply merge_no13; now apply reload_no13). now rewrite M1, own_text_reload.
  - intros Hf Hd. rewrite reload_tags_filter, Hf in M3. rewrite (M3 eq_refl), own_text_reload.
    assert (N13 : Forall (fun c => c <> 13) (own_text k)).
    { clear -Wk. induction k as [|[x|nm a j] k IH]; [constructor| |]; inversion Wk as [|? ? W1 W2]; subst; cbn [own_text flat_map]; [|now apply IH].
      apply Forall_app. split; [now apply good_no13|now apply IH]. }
    destruct (norm_dark _ N13) as [_ G]. specialize (G Hd). destruct (own_text k) as [|c x] eqn:E; [now contradiction Hd|].
    cbn [map norm_node]. now rewrite G.
Qed.

(** ** Document order *)

Lemma inside_kids x (k : forest) : In x (fdesc k) -> exists y, In y k /\ (x = y /\ itag x = true \/ inside x y).
Proof.
  intros H. induction k as [|y k IH|u nm a j k IHj IHk] using forest_ind.
  - destruct H.
  - destruct (IH H) as (z & Hz & Hx). exists z. split; [now right|exact Hx].
  - rewrite fdesc_IE in H. destruct H as [<-|H]; [exists (IE u nm a j); split; [now left|now left]|].
    apply in_app_or in H as [H|H].
    + destruct (IHj H) as (z & Hz & [[-> Hx]|Hx]); exists (IE u nm a j); (split; [now left|right]); [now apply inside_kid|now apply inside_deep with z].
    + destruct (IHk H) as (z & Hz & Hx). exists z. split; [now right|exact Hx].
Qed.
Lemma inside_desc x n : In x (fdesc (ikids n)) -> inside x n.
Proof. intros H. destruct (inside_kids x _ H) as (y & Hy & [[-> Hx]|Hx]); [now apply inside_kid|now apply inside_deep with y]. Qed.
Lemma desc_inside x n : inside x n -> In x (fdesc (ikids n)).
Proof.
  induction 1 as [n Hi Ht|n y Hi _ IH].
  - apply in_split in Hi as (k1 & k2 & ->). rewrite fdesc_app. apply in_or_app. right. destruct x; [discriminate|]. rewrite fdesc_IE. now left.
  - apply in_split in Hi as (k1 & k2 & ->). rewrite fdesc_app. apply in_or_app. right. destruct y; [destruct IH|]. rewrite fdesc_IE. right. apply in_or_app. now left.
Qed.
Lemma inside_trans a b c : inside a b -> inside b c -> inside a c.
Proof. intros Hab Hbc. induction Hbc as [n Hi Ht|n y Hi _ IH]; [now apply inside_deep with b|now apply inside_deep with y]. Qed.

Lemma FOP_app {A} (R : A -> A -> Prop) l m : ForallOrdPairs R l -> ForallOrdPairs R m -> (forall x y, In x l -> In y m -> R x y) -> ForallOrdPairs R (l ++ m).
Proof.
  induction 1 as [|x l Hx _ IH]; intros Hm H; [exact Hm|]. cbn [app]. constructor.
  - apply Forall_app. split; [exact Hx|]. apply Forall_forall. intros y Hy. apply H; [now left|exact Hy].
  - apply IH; auto. intros; apply H; auto. now right.
Qed.
Lemma FOP_filter {A} (R : A -> A -> Prop) p l : ForallOrdPairs R l -> ForallOrdPairs R (filter p l).
Proof.
  induction 1 as [|x l Hx _ IH]; [constructor|]. cbn [filter]. destruct (p x); [|exact IH]. constructor; [|exact IH].
  apply Forall_forall. intros y Hy. apply filter_In in Hy as [Hy _]. rewrite Forall_forall in Hx. auto.
Qed.
Lemma FOP_impl {A} (R R' : A -> A -> Prop) l : (forall x y, In x l -> In y l -> R x y -> R' x y) -> ForallOrdPairs R l -> ForallOrdPairs R' l.
Proof.
  intros H. induction 1 as [|x l Hx _ IH]; [constructor|]. constructor.
  - apply Forall_forall. intros y Hy. rewrite Forall_forall in Hx. apply H; [now left|now right|auto].
  - apply IH. intros; apply H; auto; now right.
Qed.

Definition before_in (k : forest) (a b : inode) : Prop :=
  inside b a \/
  (exists k1 x k2 y k3, k = k1 ++ x :: k2 ++ y :: k3 /\ (a = x \/ inside a x) /\ (b = y \/ inside b y)) \/
  exists m k1 x k2 y k3, In m (fdesc k) /\ ikids m = k1 ++ x :: k2 ++ y :: k3 /\ (a = x \/ inside a x) /\ (b = y \/ inside b y).
Lemma before_cons n k a b : before_in k a b -> before_in (n :: k) a b.
Proof.
  intros [H|[(k1 & x & k2 & y & k3 & -> & H)|(m & k1 & x & k2 & y & k3 & Hm & H)]]; [now left| |]; right.
  - left. exists (n :: k1), x, k2, y, k3. auto.
  - right. exists m, k1, x, k2, y, k3. split; [|exact H]. change (n :: k) with ([n] ++ k). rewrite fdesc_app. apply in_or_app. now right.
Qed.
Lemma fdesc_kid x (k : forest) : In x (fdesc k) -> exists k1 y k2, k = k1 ++ y :: k2 /\ (x = y \/ inside x y).
Proof.
  intros H. pose proof (inside_desc x (IE 0 [] [] k) H) as I. inversion I as [n Hi Ht|n y Hi Hy]; subst; cbn [ikids] in Hi; apply in_split in Hi as (k1 & k2 & ->); eauto 7.
Qed.
Lemma desc_order (k : forest) : ForallOrdPairs (before_in k) (fdesc k).
Proof.
  induction k as [|y k IH|u nm a j k IHj IHk] using forest_ind.
  - constructor.
  - rewrite fdesc_IT. eapply FOP_impl; [|exact IH]. intros; now apply before_cons.
  - rewrite fdesc_IE. constructor.
    + apply Forall_app. split; apply Forall_forall; intros x Hx.
      * left. now apply inside_desc.
      * right. left. destruct (fdesc_kid x k Hx) as (k1 & z & k2 & -> & Hz). exists [], (IE u nm a j), k1, z, k2. auto.
    + apply FOP_app.
      * eapply FOP_impl; [|exact IHj]. intros x y Hx Hy [H|[(k1 & x' & k2 & y' & k3 & -> & H)|(m & k1 & x' & k2 & y' & k3 & Hm & H)]]; [now left| |]; right; right.
        -- exists (IE u nm a (k1 ++ x' :: k2 ++ y' :: k3)), k1, x', k2, y', k3. split; [rewrite fdesc_IE; now left|]. auto.
        -- exists m, k1, x', k2, y', k3. split; [|exact H]. rewrite fdesc_IE. right. apply in_or_app. now left.
      * eapply FOP_impl; [|exact IHk]. intros; now apply before_cons.
      * intros x y Hx Hy. right. left. destruct (fdesc_kid y k Hy) as (k1 & z & k2 & -> & Hz). exists [], (IE u nm a j), k1, z, k2. split; [reflexivity|]. split; [|exact Hz].
        right. now apply inside_desc.
Qed.
Lemma desc_precedes n : ForallOrdPairs (precedes n) (fdesc (ikids n)).
Proof.
  eapply FOP_impl; [|apply desc_order]. intros x y _ _ [H|[(k1 & x' & k2 & y' & k3 & E & H)|(m & k1 & x' & k2 & y' & k3 & Hm & H)]]; [now left| |]; right.
  - exists n, k1, x', k2, y', k3. auto.
  - exists m, k1, x', k2, y', k3. split; [right; now apply inside_desc|exact H].
Qed.

Lemma find_order p n : itag n = true -> ForallOrdPairs (precedes n) (ifind_all p n).
Proof. intros H. unfold ifind_all. rewrite idesc_kids by auto. apply FOP_filter, desc_precedes. Qed.
Lemma find_in p n x : itag n = true -> In x (ifind_all p n) <-> inside x n /\ p x = true.
Proof.
  intros H. unfold ifind_all. rewrite idesc_kids, filter_In by auto. split; intros [A B]; split; auto; [now apply inside_desc|now apply desc_inside].
Qed.
Lemma find_nodup p n : itag n = true -> NoDup (uids n) -> NoDup (map iuid (ifind_all p n)).
Proof.
  intros H Hu. destruct n as [|u nm a k]; [discriminate|]. unfold ifind_all. rewrite idesc_IE. rewrite uids_IE in Hu. inversion Hu as [|? ? _ Hk]; subst.
  rewrite <- uids_desc in Hk. clear -Hk. induction (fdesc k) as [|x l IH]; [constructor|]. cbn [map] in Hk. inversion Hk as [|? ? H1 H2]; subst. cbn [filter].
  destruct (p x); [|auto]. cbn [map]. constructor; [|auto]. intros Hi. apply H1. apply in_map_iff in Hi as (y & Ey & Hy). apply filter_In in Hy as [Hy _]. rewrite <- Ey. now apply in_map.
Qed.

(** ** Frames *)

Lemma framecount_is F n p le te lb tb : ctx_of F (iuid n) = Some (iattrs n) ->
  at_fps (inject_Z p) (Some (iattrs n)) -> (0 < p)%Z ->
  aget (s "end-time") (iattrs n) = Some (AStr (write le te)) -> wf_spec le te -> small p le -> (0 <= amount UF le)%Z ->
  aget (s "begin-time") (iattrs n) = Some (AStr (write lb tb)) -> wf_spec lb tb -> small p lb -> (0 <= amount UF lb)%Z ->
  (Z.abs (frames_of p le) <= 2 ^ 51)%Z -> (Z.abs (frames_of p lb) <= 2 ^ 51)%Z ->
  framecount F n = Ok (frames_of p le - frames_of p lb + 1)%Z.
Proof.
  intros Hc H1 H2 H3 H4 H5 H6 H7 H8 H9 H10 H11 H12. unfold framecount. rewrite Hc.
  change (-1)%Q with (inject_Z (- (1))). rewrite (T_negative p _ le te lb tb 1) by (auto; lia). cbn [bind].
  cbn [frames]. unfold trunc, inject_Z. cbn [Qnum Qden]. rewrite Z.quot_1_r. f_equal. lia.
Qed.
