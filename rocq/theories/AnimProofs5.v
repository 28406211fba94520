(** Proofs about the fields of animations, from setting them to loading the file again. *)
From Verif Require Import AnimModel AnimSpec XpSpec XpProofs SerProofs AnimProofs AnimProofs2 AnimProofs3 AnimProofs4 DocProofs DocProofs2 LaySpec LayProofs LayProofs5 LayProofs6 PyFloatProofs PyFmtProofs PyFmtProofs2 ValProofs ValProofs2.
From Coq Require Import Lia ZifyN ZifyBool Permutation.
Local Open Scope N_scope.

Lemma doc_forest_top nm a k : exists k', doc_forest (El nm a k) = [IE 0 (s "[document]") [] [IE 1 nm a k']] /\ map forget k' = k /\ wf (doc_forest (El nm a k)).
Proof.
  unfold doc_forest. pose proof (label_ok (El (s "[document]") [] [El nm a k]) 0) as (E1 & _ & E3 & _).
  assert (E : fst (label 0 (El (s "[document]") [] [El nm a k])) = IE 0 (s "[document]") [] [IE 1 nm a (fst (label_all 2 k))]).
  { rewrite label_El. cbn [fst]. change (N.succ 0) with 1. cbn [label_all]. rewrite label_El. cbn [fst snd]. change (N.succ 1) with 2. destruct (label_all (snd (label_all 2 k)) []) eqn:El; cbn in *; injection El as <- _. reflexivity. }
  rewrite E in *. exists (fst (label_all 2 k)). split; [reflexivity|]. split; [now destruct (label_all_ok k 2)|].
  unfold wf. change (fuids [?x]) with (uids x ++ []). now rewrite app_nil_r.
Qed.
Lemma doc_forest_root n r : is_tag n = true -> doc_top (doc_forest n) = Some r -> wf (doc_forest n) /\ root_of (doc_forest n) r /\ forget r = n /\ iuid r = 1.
Proof.
  destruct n as [|nm a k]; [discriminate|]. intros _. destruct (doc_forest_top nm a k) as (k' & -> & Ek & Hw). cbn [doc_top]. intros [= <-]. split; [exact Hw|].
  split; [exists (IE 0 (s "[document]") [] [IE 1 nm a k']); repeat split; now left|]. split; [cbn [forget]; f_equal; exact Ek|reflexivity].
Qed.

Lemma attr_names_good : Forall (fun kv => good_name (fst kv)) anim_attrs.
Proof. repeat constructor; vm_compute; try discriminate. Qed.
Lemma aget_Forall {V} (P : pstr * V -> Prop) d k v : Forall P d -> aget k d = Some v -> P (k, v).
Proof.
  induction 1 as [|[k' v'] d Hp _ IH]; [discriminate|]. cbn [aget]. destruct (pstr_eqb k k') eqn:E; [|exact IH]. apply pstr_eqb_spec in E. subst k'. intros [= <-]. exact Hp.
Qed.
Lemma aset_Forall {V} (P : pstr * V -> Prop) d k v : Forall P d -> P (k, v) -> Forall P (aset k v d).
Proof.
  induction 1 as [|[k' v'] d Hp H IH]; intros Hk; [constructor; auto|]. cbn [aset]. destruct (pstr_eqb k k') eqn:E; [|constructor; auto].
  apply pstr_eqb_spec in E. subst k'. constructor; auto.
Qed.
Lemma aset_nodup {V} (d : list (pstr * V)) k v : NoDup (map fst d) -> NoDup (map fst (aset k v d)).
Proof.
  induction d as [|[k' v'] d IH]; intros H; [repeat constructor; intros []|]. cbn [aset]. destruct (pstr_eqb k k') eqn:E.
  - apply pstr_eqb_spec in E. subst k'. exact H.
  - cbn [map fst] in *. inversion H as [|? ? H1 H2]; subst. constructor; [|now apply IH]. intros Hi. apply in_keys_aset in Hi as [->|Hi]; [rewrite pstr_eqb_refl in E; discriminate|contradiction].
Qed.

Lemma set_takes ty v w : takes ty v w -> exists av, set_conv ty v = Ok av /\ attr_conv ty av = Ok w /\ good_text (aval_str av) /\
  attr_conv ty (AStr (norm_attr (aval_str av))) = Ok w.
Proof.
  assert (NG : forall x, all_num x -> good_text x /\ norm_attr x = x).
  { intros x Hx. split; [|now apply norm_attr_id, num_no_ctrl]. revert Hx. apply Forall_impl. intros c Hc. apply numchar_cases in Hc. unfold xml_char. lia. }
  destruct 1 as [z|q Hq|z Hz|x Hg Hx]; cbn [set_conv].
  - exists (AInt z). cbn [py_int bind]. split; [reflexivity|]. split; [reflexivity|]. cbn [aval_str]. destruct (NG (dec_Z z) (dec_Z_num z)) as [G1 G2]. split; [exact G1|]. rewrite G2. cbn [attr_conv]. now rewrite parse_int_dec.
  - exists (AFlo q). cbn [py_float bind]. split; [reflexivity|]. split; [reflexivity|]. cbn [aval_str]. destruct (NG (repr_float q) (repr_float_num q)) as [G1 G2]. split; [exact G1|]. rewrite G2. cbn [attr_conv float_of_aval]. now rewrite parse_repr.
  - exists (AFlo (inject_Z z)). cbn [py_float bind]. rewrite f_of_Z_exact by auto. split; [reflexivity|]. split; [reflexivity|]. cbn [aval_str]. destruct (NG (repr_float (inject_Z z)) (repr_float_num _)) as [G1 G2]. split; [exact G1|]. rewrite G2. cbn [attr_conv float_of_aval].
    rewrite parse_repr; [reflexivity|]. unfold is_dbl. exact (f_of_Z_exact z Hz).
  - exists (AStr x). cbn [py_str bind]. split; [reflexivity|]. split; [reflexivity|]. cbn [aval_str]. split; [exact Hg|]. cbn [attr_conv aval_str]. do 2 f_equal. rewrite norm_attr_sp by auto.
    clear Hg. induction Hx as [|c x [H1 H2] _ IH]; [reflexivity|]. cbn [map]. rewrite IH. f_equal. unfold sp, space. destruct (c =? 32) eqn:E1, (c =? 9) eqn:E2, (c =? 10) eqn:E3; cbn [orb]; lia.
Qed.

Lemma aget_None_keys {V} k (l : list (pstr * V)) : aget k l = None -> ~ In k (map fst l).
Proof.
  induction l as [|[k' v] l IH]; [intros _ []|]. cbn [aget map fst]. destruct (pstr_eqb k k') eqn:E; [discriminate|]. intros H [->|Hi]; [rewrite pstr_eqb_refl in E; discriminate|now apply IH].
Qed.
Lemma anim_get_attr st F n k ty d : aget k anim_attrs = Some (ty, d) -> anim_get st F n k = attr_get k ty d n.
Proof. intros H. unfold anim_get. now rewrite H. Qed.
Lemma anim_set_attr F n k ty d v : aget k anim_attrs = Some (ty, d) -> anim_set F n k v = attr_set F (iuid n) k (set_conv ty v).
Proof. intros H. unfold anim_set. now rewrite H. Qed.

Lemma field_round_trip void can st fs a r k ty d v w x kd :
  is_tag (am_root a) = true -> writable (am_root a) -> doc_top (doc_forest (am_root a)) = Some r ->
  aget k anim_attrs = Some (ty, d) -> takes ty v w -> kind_named x kd -> can x = true ->
  exists F' r', anim_set (doc_forest (am_root a)) r k v = (F', Ok tt) /\ doc_top F' = Some r' /\ ikids r' = ikids r /\
    anim_get st F' r' k = Ok w /\
    (forall j, j <> k -> In j (map fst anim_attrs) -> anim_get st F' r' j = anim_get st (doc_forest (am_root a)) r j) /\
    exists fs' a' a2 r2, save void can fs (mkAnim (forget r') (am_kind a) (am_file a)) (Some x) = (fs', a', Ok tt) /\
      load fs' x = Ok a2 /\ doc_top (doc_forest (am_root a2)) = Some r2 /\ anim_get st (doc_forest (am_root a2)) r2 k = Ok w.
Proof.
  destruct (am_root a) as [|nm at0 ks] eqn:Er; [discriminate|]. intros _ W Hr Hk Ht Hn Hc.
  destruct (doc_forest_top nm at0 ks) as (k' & Ef & Ek & Hw). rewrite Ef in *. cbn [doc_top] in Hr. injection Hr as <-.
  destruct (set_takes ty v w Ht) as (av & S1 & S2 & S3 & S4).
  rewrite (anim_set_attr _ _ _ _ _ _ Hk), S1. cbn [attr_set iuid].
  exists [IE 0 (s "[document]") [] [IE 1 nm (aset k av at0) k']], (IE 1 nm (aset k av at0) k').
  split; [reflexivity|]. split; [reflexivity|]. split; [reflexivity|]. split.
  { rewrite (anim_get_attr _ _ _ _ _ _ Hk). unfold attr_get. cbn [iattrs]. now rewrite aget_aset_same. }
  split.
  { intros j Hj Hi. destruct (aget j anim_attrs) as [[ty' d']|] eqn:Ej; [|now apply aget_None_keys in Ej].
    rewrite !(anim_get_attr _ _ _ _ _ _ Ej). unfold attr_get. cbn [iattrs]. now rewrite aget_aset_other. }
  rewrite writable_El in W. destruct W as (W1 & [W2 W2'] & W3).
  assert (Wn : writable (El nm (aset k av at0) ks)).
  { rewrite writable_El. split; [exact W1|]. split; [|exact W3]. split; [now apply aset_nodup|]. apply aset_Forall; [exact W2'|]. cbn [fst snd]. split; [|exact S3].
    exact (aget_Forall _ _ _ _ attr_names_good Hk). }
  assert (Efg : forget (IE 1 nm (aset k av at0) k') = El nm (aset k av at0) ks) by (cbn [forget]; f_equal; exact Ek).
  rewrite Efg. destruct (saved_loads void can fs (mkAnim (El nm (aset k av at0) ks) (am_kind a) (am_file a)) (Some x) x kd) as (fs' & E1 & _ & E2); cbn [target_of am_root]; auto.
  cbn [am_root] in *. destruct (doc_forest_top nm (reload_attrs (aset k av at0)) (map norm_node (merge_texts (map reload ks)))) as (k2 & Ef2 & _).
  exists fs', (mkAnim (El nm (aset k av at0) ks) kd (Some x)), (mkAnim (reload (El nm (aset k av at0) ks)) kd (Some x)), (IE 1 nm (reload_attrs (aset k av at0)) k2).
  split; [exact E1|]. split; [exact E2|]. cbn [am_root reload]. rewrite Ef2. split; [reflexivity|].
  rewrite (anim_get_attr _ _ _ _ _ _ Hk). unfold attr_get. cbn [iattrs]. rewrite aget_reload by now apply aset_nodup. rewrite aget_aset_same. exact S4.
Qed.

Lemma value_ctx F root n k ty v : wf F -> root_of F root -> iname root = s "canvas" -> (n = root \/ inside n root) -> param_field F n k ty = Ok v ->
  exists c t, v = PVal c (forget t) (Some (iattrs root)) /\ inside t n /\ is_a c ty.
Proof.
  intros Hw Hr Hc Hn H. assert (Htr : itag root = true) by (destruct Hr as (? & ? & ? & ? & ?); auto).
  assert (Htn : itag n = true). { destruct Hn as [->|Hn]; auto. clear -Hn. induction Hn; auto. }
  unfold param_field in H. destruct (param_get F n k) as [[t c]|] eqn:E; [|discriminate]. cbn [bind snd] in H.
  unfold param_get in E. destruct (ifind (is_param k) n) as [p|] eqn:Ep; [|discriminate]. destruct (filter itag (ikids p)) as [|t' [|? ?]] eqn:Ek; try discriminate.
  destruct (from_tag (forget t')) as [c'|] eqn:Et; [|discriminate]. cbn [bind] in E. injection E as -> ->.
  assert (Hp : inside p n). { apply ifind_In in Ep as [Ep _]. rewrite idesc_kids in Ep by auto. now apply inside_desc. }
  assert (Ht : In t (ikids p) /\ itag t = true). { apply filter_In. rewrite Ek. now left. }
  assert (Htin : inside t n). { eapply inside_trans; [|exact Hp]. apply inside_kid; tauto. }
  destruct (inst ty c) eqn:Ei; [|now destruct (py_str (as_value F (t, c)))]. injection H as <-. exists c, t. unfold as_value. cbn [fst snd].
  rewrite (ctx_in_doc F root t Hw Hr Hc).
  - split; [reflexivity|]. split; [exact Htin|]. now apply inst_is_a.
  - right. apply desc_inside. destruct Hn as [->|Hn]; [exact Htin|]. eapply inside_trans; eauto.
Qed.

Lemma load_by_content fs x f : aget x fs = Some f ->
  (forall a, load fs x = Ok a -> am_file a = Some x /\
     match f with Raw b => am_kind a = FSif /\ exists b', b = s "<?" ++ b' | Gz _ => am_kind a = FSifz end) /\
  (forall b, f = Raw b -> firstn 2 b <> s "<?" -> exists e, load fs x = Err e).
Proof.
  intros H. unfold load. rewrite H. split.
  - intros a. destruct f as [b|b].
    + unfold kind_by_magic. change (magic (Raw b)) with (firstn 2 b). destruct (firstn 2 b) as [|c m] eqn:E; [discriminate|].
      destruct (pstr_eqb (c :: m) (s "<?")) eqn:E1.
      * cbn [bind main_file]. destruct (parse_bytes _ b) as [n|]; [|discriminate]. intros [= <-]. split; [reflexivity|]. split; [reflexivity|]. apply pstr_eqb_spec in E1. exists (skipn 2 b). rewrite <- E1, <- E. now rewrite firstn_skipn.
      * destruct (pstr_eqb (c :: m) gzip_magic); [discriminate|]. destruct (pstr_eqb (c :: m) (s "PK")); discriminate.
    + change (kind_by_magic (Gz b)) with (Ok FSifz). cbn [bind main_file]. destruct (parse_bytes _ b) as [n|]; [|discriminate]. intros [= <-]. split; reflexivity.
  - intros b -> Hb. unfold kind_by_magic. change (magic (Raw b)) with (firstn 2 b). destruct (firstn 2 b) as [|c m] eqn:E; [eexists; reflexivity|].
    destruct (pstr_eqb (c :: m) (s "<?")) eqn:E1; [apply pstr_eqb_spec in E1; contradiction|].
    destruct (pstr_eqb (c :: m) gzip_magic); [eexists; reflexivity|]. destruct (pstr_eqb (c :: m) (s "PK")); eexists; reflexivity.
Qed.

(** ** Checking that a document is writable *)

Lemma good_nameb x : x <> [] -> forallb (fun c => xml_char c && name_char c) x = true -> good_name x.
Proof. intros H1 H2. split; [exact H1|]. apply Forall_forall. intros c Hc. rewrite forallb_forall in H2. apply andb_prop. now apply H2. Qed.
Lemma good_textb x : forallb xml_char x = true -> good_text x.
Proof. intros H. apply Forall_forall. now apply forallb_forall. Qed.
