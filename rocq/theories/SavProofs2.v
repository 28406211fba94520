(** Whatever is assigned to a value or done to a timeline, all attributes are of one line. The proofs are those of WrProofs.v and
    WrProofs2.v, for another property of tags. *)
From Coq Require Import Lia Permutation.
From Verif Require Import ValModel TlModel XpSpec XpProofs AnimProofs5 SerProofs PyFmtProofs BywProofs14 PexProofs3.
From Verif Require Import LayProofs6 LayModel AnimModel WrSpec WrProofs WrProofs2 SavSpec SavSpec2.
Local Open Scope N_scope.

Lemma tidy_El nm a k : tidy (El nm a k) <-> one_line nm /\ clean_attrs a /\ Forall tidy k.
Proof.
  cbn [tidy]. enough (E : forall l, (fix all l := match l with [] => True | c :: l' => tidy c /\ all l' end) l <-> Forall tidy l) by now rewrite E.
  clear. induction l as [|c l IH]; [now split|]. rewrite IH. split; [now intros [A B]; constructor|now inversion 1].
Qed.
Lemma line_app x y : one_line x -> one_line y -> one_line (x ++ y).
Proof. intros. now apply Forall_app. Qed.
Lemma line_check x : forallb (fun c => 32 <=? c) x = true -> one_line x.
Proof. intros H. rewrite forallb_forall in H. apply Forall_forall. intros c I. apply N.leb_le. now apply H. Qed.
Lemma num_line x : all_num x -> one_line x.
Proof. apply Forall_impl. intros c H. apply numchar_cases in H. lia. Qed.
Ltac bx := apply line_check; vm_compute; reflexivity.
(** ** Arguments *)

Lemma tidy_list l : tidy_val (PTuple l) <-> Forall tidy_val l.
Proof. induction l as [|x l IH]; [now split|]. cbn [tidy_val] in *. rewrite IH. split; [now intros [A B]; constructor|now inversion 1]. Qed.
Definition tidy_kv (kv : pstr * pyval) : Prop := one_line (fst kv) /\ tidy_val (snd kv).
Lemma tidy_dict l : tidy_val (PDict l) <-> Forall tidy_kv l.
Proof. induction l as [|[k x] l IH]; [now split|]. cbn [tidy_val] in *. rewrite IH. unfold tidy_kv. split; [intros (A & B & C); now constructor|inversion 1; subst; tauto]. Qed.
Lemma tidy_dictf l : tidy_val (PDictF l) <-> Forall (fun kv => tidy_val (snd kv)) l.
Proof. induction l as [|[k x] l IH]; [now split|]. cbn [tidy_val] in *. rewrite IH. split; [intros (A & B); now constructor|inversion 1; subst; tauto]. Qed.

(** ** Strings *)

Lemma join_line sep l : one_line sep -> Forall one_line l -> one_line (join sep l).
Proof.
  intros Hs H. induction H as [|x l Hx Hl IH]; [constructor|]. cbn [join]. destruct l; [exact Hx|]. apply line_app; [exact Hx|]. now apply line_app.
Qed.
Lemma time_line t : one_line (T_str t).
Proof.
  unfold T_str. destruct (fps t) as [f|]; [|apply line_app; [apply num_line, fmt_g_num|bx]].
  assert (U : forall us st, Forall (fun u => 32 <= fst u) us -> Forall one_line (fst st) -> Forall one_line (fst (fold_left str_unit us st))).
  { induction us as [|u us IH]; intros [out sec] Hu H; [exact H|]. inversion_clear Hu. cbn [fold_left]. apply IH; [assumption|]. unfold str_unit. destruct (Qle_bool _ sec); [|exact H]. cbn [fst] in *.
    apply Forall_app. split; [exact H|]. constructor; [|constructor]. apply line_app; [apply num_line, dec_Z_num|]. constructor; [assumption|constructor]. }
  specialize (U unit_sizes ([], Qabs (fdiv (frames t) f))). destruct (fold_left str_unit unit_sizes ([], Qabs (fdiv (frames t) f))) as [out rest]. cbn [fst] in U.
  assert (Ho : Forall one_line out) by (apply U; [unfold unit_sizes; repeat (constructor; [cbn; lia|]); constructor|constructor]). apply line_app; [destruct (Qlt_bool (frames t) 0); bx|].
  apply join_line; [bx|]. destruct (_ || _); [|exact Ho]. apply Forall_app. split; [exact Ho|]. constructor; [|constructor]. apply line_app; [apply num_line, fmt_g_num|bx].
Qed.

(** ** Reading *)

Lemma child_tidy n c : tidy n -> In c (child_tags n) -> tidy c.
Proof.
  destruct n as [|nm a k]; [intros _ []|]. rewrite tidy_El. intros (_ & _ & W) Hc. unfold child_tags in Hc. cbn [tag_kids] in Hc. apply filter_In in Hc as [Hc _]. rewrite Forall_forall in W. auto.
Qed.
Lemma ttag_child n c : tidy n -> In c (child_tags n) -> tidy c /\ is_tag c = true.
Proof. intros W H. split; [now apply (child_tidy n)|]. unfold child_tags in H. now apply filter_In in H. Qed.
Lemma descendants_tidy n : tidy n -> forall c, In c (descendants n) -> tidy c /\ is_tag c = true.
Proof.
  induction n as [y|nm a k IH] using node_ind'; intros W c H; [destruct H|]. apply tidy_El in W as (_ & _ & W). cbn [descendants] in H. apply in_flat_map in H as (d & Hd & H).
  rewrite Forall_forall in *. destruct d as [|nm' a' k']; [destruct H|]. destruct H as [<-|H]; [split; [now apply W|reflexivity]|]. exact (IH _ Hd (W _ Hd) _ H).
Qed.
Lemma composite_tidy n cx l : tidy n -> composite_val n cx = Ok l -> Forall tidy_kv l.
Proof.
  unfold composite_val. intros W H. apply bind_ok in H as (l0 & E & H). destruct (same_keys _ _); [|discriminate]. injection H as <-. apply Forall_forall. intros kv Hk. apply in_adict in Hk.
  destruct (mapM_In_rev _ _ _ E kv Hk) as (f & Hf & Ef). destruct (ttag_child n f W Hf) as [Wf Tf]. unfold composite_field in Ef. destruct (pstr_eqb _ _); [discriminate|].
  destruct (child_tags f) as [|v [|]] eqn:Ec; try discriminate. apply bind_ok in Ef as (c & _ & Ef). injection Ef as <-. split; cbn [fst snd].
  - destruct f as [|nm a k]; [discriminate|]. now apply tidy_El in Wf.
  - apply (ttag_child f v Wf). rewrite Ec. now left.
Qed.
Lemma gradient_tidy n cx l : tidy n -> gradient_val n cx = Ok l -> Forall (fun kv => tidy_val (snd kv)) l.
Proof.
  unfold gradient_val. intros W. destruct (Z.ltb _ 2); [discriminate|]. intros H. apply bind_ok in H as (l0 & E & H). injection H as <-. apply Forall_forall. intros kv Hk. apply qdict_In in Hk.
  apply in_map_iff in Hk as (kv' & Ek & Hk). rewrite <- Ek. destruct (mapM_In_rev _ _ _ E kv' Hk) as (c & Hc & Ef). destruct (aget _ _); [|discriminate]. apply bind_ok in Ef as (q & _ & Ef). injection Ef as <-. cbn [snd tidy_val].
  unfold find_all in Hc. apply filter_In in Hc as [Hc _]. now apply (descendants_tidy n).
Qed.
Lemma get_value_tidy c n cx v : tidy n -> get_value c n cx = Ok v -> (match c with VCanvas => True | _ => tidy_val v end).
Proof.
  intros W H. destruct c; cbn [get_value] in H; try discriminate; try exact I;
    try (unfold simple_val in H; destruct (aget _ _) as [[]|]; try discriminate; try (apply bind_ok in H as (q & _ & H)); injection H as <-; exact I).
  - injection H as <-. exact I.
  - apply bind_ok in H as (x & E & H). injection H as <-. exact I.
  - injection H as <-. apply tidy_dict. rewrite Forall_map. apply Forall_forall. intros kv Hk. unfold vector_dict in Hk. apply in_adict in Hk. apply in_map_iff in Hk as (t & <- & Ht).
    destruct (ttag_child n t W Ht) as [Wt Tt]. split; cbn [fst snd].
    + destruct t as [|nm a k]; [discriminate|]. now apply tidy_El in Wt.
    + destruct (node_string t); exact I.
  - apply bind_ok in H as (d & E & H). injection H as <-. apply tidy_dict. now apply (composite_tidy n cx).
  - apply bind_ok in H as (d & E & H). injection H as <-. apply tidy_dictf. now apply (gradient_tidy n cx).
Qed.

(** ** Writing *)

Definition ttag (n : node) : Prop := tidy n /\ is_tag n = true.
Lemma ttag_El nm a k : ttag (El nm a k) <-> one_line nm /\ clean_attrs a /\ Forall tidy k.
Proof. unfold ttag. rewrite tidy_El. cbn [is_tag]. tauto. Qed.
Lemma ttag_parts n : ttag n -> one_line (tag_name n) /\ clean_attrs (tag_attrs n) /\ Forall tidy (tag_kids n).
Proof. intros [W T]. destruct n; [discriminate|]. now apply tidy_El in W. Qed.
Lemma no_attrs : clean_attrs [].
Proof. split; constructor. Qed.
Lemma one_attr k x : one_line x -> clean_attrs [(k, AStr x)].
Proof. intros A. split; [repeat constructor; intros []|]. constructor; [|constructor]. split; [exact A|intros _; now exists x]. Qed.
Lemma with_kids_tidy n k : ttag n -> Forall tidy k -> ttag (with_kids n k).
Proof. intros G K. apply ttag_El. destruct (ttag_parts n G) as (A & B & _). auto. Qed.
Lemma ttag_set_attr k x n : ttag n -> one_line x -> ttag (set_attr k (AStr x) n).
Proof.
  intros G Hv. destruct n as [|nm a ks]; [destruct G; discriminate|]. apply ttag_El in G as (A & [B1 B2] & C). cbn [set_attr]. apply ttag_El. split; [exact A|]. split; [|exact C]. split; [now apply aset_nodup|].
  apply aset_Forall; [exact B2|]. split; [exact Hv|intros _; now exists x].
Qed.

Lemma simple_tidy c n v : In c [VReal; VInteger; VBool; VAngle; VTime; VBlendMethod] -> ttag n -> ttag (fst (simple_set c n v)).
Proof.
  intros Hc G. unfold simple_set. destruct (simple_str c v) as [x|] eqn:E; [|exact G]. cbn [fst]. apply ttag_El. split; [destruct Hc as [<-|[<-|[<-|[<-|[<-|[<-|[]]]]]]]; bx|]. split; [|constructor].
  apply one_attr. unfold simple_str in E. apply bind_ok in E as (e & _ & E).
  destruct Hc as [<-|[<-|[<-|[<-|[<-|[<-|[]]]]]]]; apply bind_ok in E as (z & _ & E); injection E as <-;
    [apply num_line, fmt_f_num|apply num_line, dec_Z_num|destruct z; bx|apply num_line, repr_float_num|apply time_line|apply num_line, dec_Z_num].
Qed.
Lemma string_set_tidy n v : ttag n -> tidy_val v -> ttag (fst (string_set n v)).
Proof.
  intros G V. unfold string_set. destruct (py_str v) as [x|] eqn:E; [|exact G]. cbn [fst]. apply (with_kids_tidy n); [exact G|]. constructor; [exact I|constructor].
Qed.
Lemma color_set_tidy n v : ttag n -> ttag (fst (color_set n v)).
Proof.
  intros G. unfold color_set. destruct (color_conv v) as [l|] eqn:E; [|exact G]. cbn [fst]. unfold color_node. apply ttag_El. split; [bx|]. split; [apply no_attrs|].
  rewrite Forall_map. apply Forall_forall. intros [d q] Hd. apply in_combine_l in Hd. cbn [fst snd]. apply tidy_El. split.
  - destruct Hd as [<-|[<-|[<-|[<-|[]]]]]; bx.
  - split; [apply no_attrs|]. constructor; [exact I|constructor].
Qed.
Definition tidy_key (kv : pkey * pyval) : Prop := match fst kv with KS k => one_line k | KF _ => True end /\ tidy_val (snd kv).
Lemma vector_append_tidy l : forall acc, Forall tidy acc -> Forall tidy_key l -> Forall tidy (fst (vector_append acc l)).
Proof.
  induction l as [|[k v] l IH]; intros acc A H; [exact A|]. inversion_clear H as [|? ? [H1 H2] Hl]. cbn [fst snd] in *. cbn [vector_append]. destruct k as [k|q]; [|exact A].
  destruct (match v with PFlo q => Ok (fmt_f 10 q) | _ => py_str v end) as [z|] eqn:E; [|exact A]. apply IH; [|exact Hl]. apply Forall_app. split; [exact A|]. constructor; [|constructor].
  apply tidy_El. split; [exact H1|]. split; [apply no_attrs|]. constructor; [exact I|constructor].
Qed.
Lemma vector_items_tidy n l : tidy n -> vector_items n = Ok l -> Forall (fun kv => one_line (fst kv)) l.
Proof.
  intros W H. apply Forall_forall. intros kv Hk. destruct (mapM_In_rev _ _ _ H kv Hk) as (y & Hy & Ey). apply bind_ok in Ey as (q & _ & Ey). injection Ey as <-. cbn [fst].
  unfold vector_dict in Hy. apply in_adict in Hy. apply in_map_iff in Hy as (t & <- & Ht). cbn [fst]. destruct (ttag_child n t W Ht) as [Wt Tt]. destruct t; [discriminate|]. now apply tidy_El in Wt.
Qed.
Lemma py_items_tidy v l : tidy_val v -> py_items v = Some (Ok l) -> Forall tidy_key l.
Proof.
  intros G H. destruct v; cbn [py_items] in H; try discriminate.
  - injection H as <-. apply tidy_dict in G. rewrite Forall_map. apply (Forall_impl _ (P := tidy_kv)); [|exact G]. intros [k x]. exact (fun h => h).
  - injection H as <-. apply tidy_dictf in G. rewrite Forall_map. apply (Forall_impl _ (P := fun kv => tidy_val (snd kv))); [|exact G]. intros [k x] h. now split.
  - destruct G as [W _]. destruct c; try discriminate; injection H as H; apply bind_ok in H as (d & E & H); injection H as <-; rewrite Forall_map.
    + apply (Forall_impl _ (P := fun kv => one_line (fst kv))); [|now apply (vector_items_tidy n)]. intros [k x] h. now split.
    + apply (Forall_impl _ (P := tidy_kv)); [|now apply (composite_tidy n cx)]. intros [k x]. exact (fun h => h).
    + apply (Forall_impl _ (P := fun kv => tidy_val (snd kv))); [|now apply (gradient_tidy n cx)]. intros [k x] h. now split.
Qed.
Lemma vector_members_tidy v l : tidy_val v -> vector_members v = Ok l -> Forall tidy_key l.
Proof.
  intros G H. destruct v; cbn [vector_members py_items] in H; try discriminate; try (injection H as <-; constructor).
  - destruct l0 as [|a [|b [|]]]; try discriminate; [injection H as <-; constructor|]. destruct (_ && _); [|discriminate]. injection H as <-. apply tidy_list in G. inversion_clear G as [|? ? Ga G']. inversion_clear G' as [|? ? Gb _].
    constructor; [split; [cbn [fst]; bx|exact Ga]|]. constructor; [split; [cbn [fst]; bx|exact Gb]|constructor].
  - destruct c; try discriminate; injection H as <-; constructor.
Qed.
Lemma vector_set_tidy n v : ttag n -> tidy_val v -> ttag (fst (vector_set n v)).
Proof.
  intros G V. unfold vector_set. destruct (vector_members v) as [m|] eqn:Em; [|exact G]. destruct (ttag_parts n G) as (_ & _ & K).
  assert (X : forall k, Forall tidy k -> ttag (El (s "vector") [] k)) by (intros k Hk; apply ttag_El; split; [bx|split; [apply no_attrs|exact Hk]]).
  destruct (py_items v) as [[l|]|] eqn:Ei.
  - pose proof (vector_append_tidy l (tag_kids n) K (py_items_tidy v l V Ei)) as A. destruct (vector_append _ l) as [k r]. now apply X.
  - now apply X.
  - pose proof (vector_append_tidy m (tag_kids n) K (vector_members_tidy v m V Em)) as A. destruct (vector_append _ m) as [k r]. now apply X.
Qed.
Lemma canvas_set_tidy n v : ttag n -> ttag (fst (canvas_set n v)).
Proof.
  intros G. assert (C : ttag (El (tag_name n) (tag_attrs n) [])) by (apply (with_kids_tidy n); [exact G|constructor]).
  unfold canvas_set. destruct v; try exact C; match goal with |- context[match ?l with _ => _ end] => destruct l; exact C end.
Qed.
Lemma empty_tidy c : (forall x, c <> VTbd x) -> ttag (empty_tag c).
Proof.
  intros H. destruct c; cbn [empty_tag name_for_tag]; try (apply ttag_El; split; [bx|split; [apply no_attrs|constructor]]).
  - apply ttag_El. split; [bx|]. split; [|constructor]. apply one_attr. bx.
  - now destruct (H name).
Qed.
Lemma new_flat_tidy c v t : tidy_val v -> new_flat c v = Ok t -> ttag t.
Proof.
  intros V H. unfold new_flat in H. destruct c as [| | | | | | | | | | | |x]; try discriminate;
  match type of H with (let (n, r) := ?o in _) = _ => assert (G : ttag (fst o)) end;
  try (apply simple_tidy; [cbn [In]; tauto|apply empty_tidy; discriminate]);
  try (apply string_set_tidy; [apply empty_tidy; discriminate|exact V]);
  try (apply color_set_tidy, empty_tidy; discriminate);
  try (apply vector_set_tidy; [apply empty_tidy; discriminate|exact V]);
  try (apply canvas_set_tidy, empty_tidy; discriminate);
  match type of H with (let (n, r) := ?o in _) = _ => destruct o as [n r] end; cbn [fst] in G; apply bind_ok in H as (? & _ & H); injection H as <-; try exact G.
  destruct (ttag_parts n G) as (A & B & C). apply ttag_El. split; [bx|]. split; [|exact C]. destruct B as [B1 B2]. split; [now apply aset_nodup|]. apply aset_Forall; [exact B2|]. split; [bx|intros _; now eexists].
Qed.
Lemma composite_append_tidy l : forall acc, Forall tidy acc -> Forall tidy_kv l -> Forall tidy (fst (composite_append acc l)).
Proof.
  induction l as [|[k v] l IH]; intros acc A H; [exact A|]. inversion_clear H as [|? ? [H1 H2] Hl]. cbn [fst snd] in *. cbn [composite_append]. destruct (aget k transformation_keys) as [c|]; [|exact A].
  destruct (new_flat c v) as [t|] eqn:E; [|exact A]. apply IH; [|exact Hl]. apply Forall_app. split; [exact A|]. constructor; [|constructor]. apply tidy_El. split; [exact H1|]. split; [apply no_attrs|].
  constructor; [now apply (new_flat_tidy c v)|]. constructor; [exact I|constructor].
Qed.
Lemma str_keys_tidy l : forall l', str_keys l = Some l' -> Forall tidy_key l -> Forall tidy_kv l'.
Proof.
  induction l as [|[[k|q] v] l IH]; intros l' H G; cbn [str_keys] in H; try discriminate; [injection H as <-; constructor|]. destruct (str_keys l) as [r|]; [|discriminate]. injection H as <-.
  inversion_clear G. constructor; [assumption|]. now apply IH.
Qed.
Lemma composite_set_tidy n v : ttag n -> tidy_val v -> ttag (fst (composite_set n v)).
Proof.
  intros G V. unfold composite_set. destruct (py_items v) as [[l|]|] eqn:E; try exact G. destruct (str_keys l) as [l'|] eqn:Es; [|exact G]. destruct (forallb _ l'); [|exact G].
  pose proof (composite_append_tidy l' [] (Forall_nil _) (str_keys_tidy l l' Es (py_items_tidy v l V E))) as A. destruct (composite_append [] l') as [k r]. cbn [fst] in *. now apply (with_kids_tidy n).
Qed.
Lemma gradient_append_tidy l : forall acc, Forall tidy acc -> Forall (fun kv => tidy_val (snd kv)) l -> Forall tidy (fst (gradient_append acc l)).
Proof.
  induction l as [|[q v] l IH]; intros acc A H; [exact A|]. inversion_clear H as [|? ? H1 Hl]. cbn [snd] in H1. cbn [gradient_append]. destruct (new_flat VColor v) as [t|] eqn:E; [|exact A]. apply IH; [|exact Hl].
  apply Forall_app. split; [exact A|]. constructor; [|constructor]. apply ttag_set_attr; [now apply (new_flat_tidy VColor v)|]. apply num_line, fmt_g_num.
Qed.
Lemma gradient_dict_tidy n d : ttag n -> Forall (fun kv => tidy_val (snd kv)) d -> ttag (fst (gradient_set_dict n d)).
Proof.
  intros G D. unfold gradient_set_dict. destruct (Z.ltb _ 2); [exact G|]. assert (D' : Forall (fun kv => tidy_val (snd kv)) (sort key_le d)).
  { apply Forall_forall. intros kv Hk. rewrite Forall_forall in D. apply D. exact (Permutation_in _ (SerProofs.sort_perm _ _) Hk). }
  pose proof (gradient_append_tidy _ [] (Forall_nil _) D') as A. destruct (gradient_append [] _) as [k r]. cbn [fst] in *. now apply (with_kids_tidy n).
Qed.
Lemma gradient_set_tidy n v : ttag n -> tidy_val v -> ttag (fst (gradient_set n v)).
Proof.
  intros G V. unfold gradient_set. destruct v; try exact G.
  - destruct (Z.ltb _ 2); [exact G|]. cbn [fst]. apply (with_kids_tidy n); [exact G|constructor].
  - apply gradient_dict_tidy; [exact G|]. now apply tidy_dictf.
  - destruct c; try exact G. destruct (gradient_val n0 cx) as [d|] eqn:E; [|exact G]. apply gradient_dict_tidy; [exact G|]. apply (gradient_tidy n0 cx); [apply V|exact E].
Qed.
Lemma gradient_setitem_tidy n cx q v : ttag n -> tidy_val v -> ttag (fst (gradient_setitem n cx q v)).
Proof.
  intros G V. unfold gradient_setitem. destruct (gradient_val n cx) as [d|] eqn:E; [|exact G]. apply gradient_dict_tidy; [exact G|]. pose proof (gradient_tidy n cx d (proj1 G) E) as D.
  apply Forall_forall. intros kv Hk. apply qset_In in Hk as [->|Hk]; [exact V|]. apply in_map_iff in Hk as (y & <- & Hy). rewrite Forall_forall in D. now apply D.
Qed.
Lemma set_value_tidy c n v : ttag n -> tidy_val v -> ttag (fst (set_value c n v)).
Proof.
  intros G V. destruct c; cbn [set_value]; try (apply simple_tidy; [cbn [In]; tauto|exact G]).
  - now apply string_set_tidy.
  - now apply color_set_tidy.
  - now apply vector_set_tidy.
  - now apply composite_set_tidy.
  - now apply gradient_set_tidy.
  - now apply canvas_set_tidy.
  - exact G.
Qed.
Lemma new_value_tidy c v t : tidy_val v -> new_value c v = Ok t -> ttag t.
Proof.
  intros V H. destruct c; cbn [new_value] in H; try (now apply (new_flat_tidy _ _ _ V H)).
  all: match type of H with (let (n, r) := set_value ?c ?e ?w in _) = _ => pose proof (set_value_tidy c e w (empty_tidy c ltac:(discriminate)) V) as G; destruct (set_value c e w) as [n r] end.
  all: apply bind_ok in H as (? & _ & H); injection H as <-; exact G.
Qed.

(** ** Timelines *)

Lemma check_tidy x y : check_interpolation x = Ok y -> one_line y /\ check_interpolation y = Ok y.
Proof.
  unfold check_interpolation at 1. destruct (pstr_eqb x (s "undefined")); [discriminate|].
  destruct (existsb (pstr_eqb x) interpolation_types) eqn:E.
  - intros H. injection H as <-. apply existsb_exists in E as (z & Hz & E). apply pstr_eqb_spec in E as ->. destruct Hz as [<-|[<-|[<-|[<-|[<-|[]]]]]]; (split; [bx|vm_compute; reflexivity]).
  - destruct (aget x interpolation_synonyms) as [k|] eqn:Ek; [|discriminate]. intros H. injection H as <-.
    apply (aget_Forall (fun kv => one_line (snd kv) /\ check_interpolation (snd kv) = Ok (snd kv)) interpolation_synonyms x k) in Ek; [exact Ek|].
    repeat (constructor; [split; [cbn [snd]; bx|vm_compute; reflexivity]|]). constructor.
Qed.
Lemma wp_tag_tidy w : tidy_wp w -> ttag (wp_tag w).
Proof.
  intros (B & A & V). unfold wp_tag. apply ttag_El. split; [bx|]. split.
  - split; [repeat constructor; cbn; intuition discriminate|]. constructor; [split; [apply time_line|intros [X|[X|[]]]; discriminate X]|]. constructor; [split; [apply (check_tidy _ _ B)|intros _; eexists; reflexivity]|]. constructor; [split; [apply (check_tidy _ _ A)|intros _; eexists; reflexivity]|constructor].
  - constructor; [exact V|constructor].
Qed.
Lemma wp_from_tag_tidy y ty cx w : tidy y -> wp_from_tag y ty cx = Ok w -> tidy_wp w /\ ttag (w_val w).
Proof.
  intros Wy Ey. unfold wp_from_tag in Ey. destruct (negb _); [discriminate|]. destruct (aget (s "time") (tag_attrs y)) as [tv|]; [|discriminate]. apply bind_ok in Ey as (t & _ & Ey).
  destruct (child_tags y) as [|v [|]] eqn:Ec; try discriminate. destruct (is_animated v); [discriminate|]. destruct (negb _); [discriminate|]. apply bind_ok in Ey as (c & _ & Ey).
  destruct (aget (s "before") _) as [b1|]; [|discriminate]. destruct (aget (s "after") _) as [b2|]; [|discriminate]. apply bind_ok in Ey as (b & Eb & Ey). apply bind_ok in Ey as (a & Ea & Ey). injection Ey as <-.
  assert (G : ttag v) by (apply (ttag_child y); [exact Wy|rewrite Ec; now left]). split; [|exact G]. unfold tidy_wp. cbn [w_before w_after w_val].
  destruct b1; try discriminate. destruct b2; try discriminate. split; [apply (check_tidy _ _ Eb)|]. split; [apply (check_tidy _ _ Ea)|apply G].
Qed.
Lemma waypoints_tidy n cx d : tidy n -> waypoints n cx = Ok d -> forall w, In w (map snd d) -> tidy_wp w /\ ttag (w_val w).
Proof.
  intros W E w Hw. unfold waypoints in E. destruct (waypoint_tags n) as [|t ts] eqn:Et; [injection E as <-; destruct Hw|]. rewrite <- Et in E. destruct (aget (s "type") (tag_attrs n)) as [ty|]; [|discriminate].
  assert (E' : (let* ws := mapM (fun w => wp_from_tag w ty cx) (waypoint_tags n) in tsets ws []) = Ok d) by (rewrite Et in E |- *; exact E). clear E.
  apply bind_ok in E' as (ws & Em & E'). destruct (tsets_sub _ _ _ E' w Hw) as [Hi|[]]. destruct (mapM_In_rev _ _ _ Em w Hi) as (y & Hy & Ey). apply (wp_from_tag_tidy y ty cx); [|exact Ey].
  unfold waypoint_tags in Hy. destruct (is_animated n); [|destruct Hy]. now apply (child_tidy n).
Qed.
Lemma animated_tidy n k : ttag n -> Forall tidy k -> ttag (El (s "animated") [(s "type", AStr (tag_name n))] k).
Proof.
  intros G K. apply ttag_El. split; [bx|]. split; [|exact K]. apply one_attr. apply (ttag_parts n G).
Qed.
Lemma animated_tag_tidy n : ttag n -> ttag (animated_tag n).
Proof. intros G. apply animated_tidy; [exact G|]. apply (ttag_parts n G). Qed.
Lemma or_animated n : ttag n -> ttag (if is_animated n then n else animated_tag n).
Proof. intros G. destruct (is_animated n); [exact G|now apply animated_tag_tidy]. Qed.
Lemma newlines_tidy l : Forall tidy l -> Forall tidy (with_newlines l).
Proof.
  induction l as [|x l IH]; intros H; [constructor|]. inversion_clear H as [|? ? H1 H2]. cbn [with_newlines]. destruct l as [|y l]; [constructor; [exact H1|constructor]|].
  constructor; [exact H1|]. constructor; [exact I|]. now apply IH.
Qed.
Lemma sort_wps_tidy l l' : Forall tidy_wp l -> sort_wps l = Ok l' -> Forall tidy (map wp_tag l').
Proof.
  intros G H. unfold sort_wps in H. destruct (existsb _ l); [destruct (existsb _ l); discriminate|]. injection H as <-. rewrite Forall_map. apply Forall_forall. intros w Hw. apply wp_tag_tidy.
  rewrite Forall_forall in G. apply G. exact (Permutation_in _ (SerProofs.sort_perm _ _) Hw).
Qed.
Lemma unanimate_tidy n cx par : ttag n -> ttag (fst (unanimate n cx par)).
Proof.
  intros G. unfold unanimate. destruct (negb _); [exact G|]. destruct (tl_values n cx) as [[|w l]|] eqn:E; try exact G. apply bind_ok in E as (d & E & H). injection H as H.
  destruct (waypoints_tidy n cx d (proj1 G) E w) as [_ Gw]; [rewrite H; now left|]. destruct par; [exact Gw|]. cbn [fst]. apply with_kids_tidy; [exact G|constructor].
Qed.
Lemma set_waypoints_tidy n cx par l : ttag n -> Forall tidy_wp l -> ttag (fst (set_waypoints n cx par l)).
Proof.
  intros G L. unfold set_waypoints. destruct l as [|w l]; [now apply unanimate_tidy|]. cbv zeta. pose proof (or_animated n G) as G1.
  destruct (sort_wps (w :: l)) as [l'|] eqn:E; cbn [fst]; apply with_kids_tidy; try exact G1; [|constructor]. apply newlines_tidy. now apply (sort_wps_tidy (w :: l)).
Qed.
Lemma new_waypoint_tidy c t x w : tidy_tlarg x -> new_waypoint c t x = Ok w -> tidy_wp w.
Proof.
  intros G H. destruct x as [w'|v]; cbn [new_waypoint] in H.
  - injection H as <-. exact G.
  - cbn [tidy_tlarg] in G. assert (X : forall c' m, ttag m -> tidy_wp (mkW t (s "clamped") (s "clamped") c' m)) by (intros c' m Gm; split; [vm_compute; reflexivity|]; split; [vm_compute; reflexivity|apply Gm]).
    assert (Y : (let* m := new_value c v in Ok (mkW t (s "clamped") (s "clamped") c m)) = Ok w -> tidy_wp w) by (intros E; apply bind_ok in E as (m & E & Ew); injection Ew as <-; apply X; now apply (new_value_tidy c v)).
    cbv zeta in H. destruct v; try exact (Y H). destruct (inst c c0); [|exact (Y H)]. destruct (is_animated n); [discriminate|]. injection H as <-. apply X. exact G.
Qed.
Lemma Forall_wps n cx d : tidy n -> waypoints n cx = Ok d -> Forall tidy_wp (map snd d).
Proof. intros W H. apply Forall_forall. intros w Hw. now apply (waypoints_tidy n cx d W H). Qed.
Lemma tl_setitem_tidy c n cx par k x : ttag n -> tidy_tlarg x -> ttag (fst (tl_setitem c n cx par k x)).
Proof.
  intros G X. unfold tl_setitem. destruct (ensure_fps cx k) as [t|]; [|exact G]. destruct (new_waypoint c t x) as [w|] eqn:Ew; [|exact G]. cbv zeta.
  assert (G1 : ttag (if is_animated n then n else animated_tag (with_kids n []))) by (destruct (is_animated n); [exact G|]; apply animated_tag_tidy, with_kids_tidy; [exact G|constructor]).
  set (n1 := if is_animated n then n else animated_tag (with_kids n [])) in *. destruct (let* d := waypoints n1 cx in tset t w d) as [d|] eqn:E; [|exact G1]. apply bind_ok in E as (d0 & E0 & E).
  apply set_waypoints_tidy; [exact G1|]. apply Forall_forall. intros v Hv. apply (tset_sub _ _ _ _ E) in Hv as [->|Hv]; [now apply (new_waypoint_tidy c t x)|]. now apply (waypoints_tidy n1 cx d0 (proj1 G1) E0).
Qed.
Lemma tl_delitem_tidy n cx par k : ttag n -> ttag (fst (tl_delitem n cx par k)).
Proof.
  intros G. unfold tl_delitem. destruct (match k with KeyOther => _ | _ => _ end) as [t|]; [|exact G]. destruct (let* d := waypoints n cx in tdel t d) as [d|] eqn:E; [|exact G].
  apply bind_ok in E as (d0 & E0 & E). apply set_waypoints_tidy; [exact G|]. apply Forall_forall. intros v Hv. apply (tdel_sub _ _ _ E) in Hv. now apply (waypoints_tidy n cx d0 (proj1 G) E0).
Qed.
Lemma animate_tidy c n cx par : ttag n -> ttag (fst (animate c n cx par)).
Proof.
  intros G. unfold animate. destruct (is_animated n); [exact G|]. destruct (get_value c n cx) as [v|] eqn:E; [|exact G]. pose proof (get_value_tidy c n cx v (proj1 G) E) as V.
  assert (G1 : ttag (with_kids (animated_tag n) [])) by (apply with_kids_tidy; [now apply animated_tag_tidy|constructor]).
  assert (X : match c, v with VCanvas, PList (_ :: _) => true | _, _ => false end = false -> tidy_val v).
  { intros H. destruct c; try exact V. cbn [get_value] in E. destruct (forallb _ _); [|discriminate]. injection E as <-. destruct (child_tags n); [exact I|discriminate]. }
  destruct (match c, v with VCanvas, PList (_ :: _) => true | _, _ => false end); [exact G|]. apply tl_setitem_tidy; [exact G1|]. now apply X.
Qed.
Lemma is_animated_tidy c n cx par b : ttag n -> ttag (fst (set_is_animated c n cx par b)).
Proof. intros G. destruct b; [now apply animate_tidy|now apply unanimate_tidy]. Qed.
Lemma tl_add_tidy c n cx par ws o : ttag n -> Forall tidy_wp ws -> ttag (fst (tl_add c n cx par ws o)).
Proof.
  intros G Hw. unfold tl_add. match goal with |- context[match ?z with Ok d => _ | Err e => (n, Err e) end] => destruct z as [d|] eqn:E end; [|exact G].
  assert (D : forall v, In v (map snd d) -> tidy_wp v).
  { apply bind_ok in E as (d0 & E0 & E). apply bind_ok in E as (cl & _ & E). intros v Hv. apply (waypoints_tidy n cx d0 (proj1 G) E0). destruct o; [now apply (tdels_sub _ _ _ E)|]. destruct cl; [|discriminate]. now injection E as <-. }
  pose proof (is_animated_tidy c n cx par true G) as G1. destruct (set_is_animated c n cx par true) as [n1 [|]]; cbn [fst] in G1; [|exact G1]. destruct (tsets ws d) as [d'|] eqn:Et; [|exact G1].
  assert (D' : Forall tidy_wp (map snd d')). { apply Forall_forall. intros v Hv. apply (tsets_sub _ _ _ Et) in Hv as [Hv|Hv]; [|now apply D]. rewrite Forall_forall in Hw. now apply Hw. }
  destruct (sort_wps (map snd d')) as [l|] eqn:Es; cbn [fst]; apply with_kids_tidy; try exact G1; [now apply (sort_wps_tidy (map snd d'))|constructor].
Qed.
Lemma tl_assign_tidy n cx par v : ttag n -> match v with SList ws => Forall tidy_wp ws | _ => True end -> ttag (fst (tl_assign n cx par v)).
Proof.
  intros G V. destruct v; cbn [tl_assign]; [now apply set_waypoints_tidy| |exact G]. cbn [fst]. apply with_kids_tidy; [now apply or_animated|constructor].
Qed.
Lemma tl_iadd_tidy c n cx par ws : ttag n -> Forall tidy_wp ws -> ttag (fst (tl_iadd c n cx par ws)).
Proof. intros G H. unfold tl_iadd. pose proof (tl_add_tidy c n cx par ws true G H) as A. destruct (tl_add c n cx par ws true) as [n1 [|]]; exact A. Qed.
Lemma vapply_tidy c n cx par e : ttag n -> tidy_vedit e -> ttag (fst (vapply c n cx par e)).
Proof.
  intros G H. destruct e; cbn [vapply tidy_vedit] in *.
  - now apply set_value_tidy.
  - now apply gradient_setitem_tidy.
  - now apply is_animated_tidy.
  - now apply tl_setitem_tidy.
  - now apply tl_delitem_tidy.
  - now apply tl_add_tidy.
  - now apply tl_iadd_tidy.
  - now apply tl_assign_tidy.
Qed.
(** Waypoints made by the constructor and by its setters are good *)
Lemma waypoint_new_tidy k v b a cx w : tidy_val v -> waypoint_new k v b a cx = Ok w -> tidy_wp w.
Proof.
  intros V H. destruct v; try discriminate. cbn [waypoint_new] in H. destruct (is_animated n); [discriminate|]. apply bind_ok in H as (t & _ & H). apply bind_ok in H as (b' & Eb & H). apply bind_ok in H as (a' & Ea & H).
  injection H as <-. split; [apply (check_tidy _ _ Eb)|]. split; [apply (check_tidy _ _ Ea)|apply V].
Qed.
