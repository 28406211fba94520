(** Whatever is assigned to a value or done to a timeline, there are no layers in it afterwards. The proofs are those of SavProofs2.v, for another
    property of tags. *)
From Coq Require Import Lia Permutation.
From Verif Require Import ValModel TlModel AnimProofs2 XpSpec XpProofs AnimProofs5 SerProofs PyFmtProofs BywProofs14 PexProofs3.
From Verif Require Import LayProofs6 AnimModel LayModel WrSpec WrProofs WrProofs2 VarSpec MixSpec PrmSpec.
Local Open Scope N_scope.

Definition Plain (x : pstr) : Prop := plain_name x = true.
Definition Typed (a : attrs) : Prop := plain_type a = true.
Definition Bare (t : node) : Prop := bare t = true.
Lemma bare_El nm a k : Bare (El nm a k) <-> Plain nm /\ Typed a /\ Forall Bare k.
Proof. unfold Bare, Plain, Typed. cbn [bare]. rewrite !andb_true_iff, forallb_forall, Forall_forall. tauto. Qed.
Ltac bx := vm_compute; reflexivity.
Ltac ex := first [exact I|reflexivity].
(** ** Arguments *)

Lemma bare_list l : bare_val (PTuple l) <-> Forall bare_val l.
Proof. induction l as [|x l IH]; [now split|]. cbn [bare_val] in *. rewrite IH. split; [now intros [A B]; constructor|now inversion 1]. Qed.
Definition bare_kv (kv : pstr * pyval) : Prop := Plain (fst kv) /\ bare_val (snd kv).
Lemma bare_dict l : bare_val (PDict l) <-> Forall bare_kv l.
Proof. induction l as [|[k x] l IH]; [now split|]. cbn [bare_val] in *. rewrite IH. unfold bare_kv. split; [intros (A & B & C); now constructor|inversion 1; subst; tauto]. Qed.
Lemma bare_dictf l : bare_val (PDictF l) <-> Forall (fun kv => bare_val (snd kv)) l.
Proof. induction l as [|[k x] l IH]; [now split|]. cbn [bare_val] in *. rewrite IH. split; [intros (A & B); now constructor|inversion 1; subst; tauto]. Qed.

(** ** Reading *)

Lemma child_bare n c : Bare n -> In c (child_tags n) -> Bare c.
Proof.
  destruct n as [|nm a k]; [intros _ []|]. rewrite bare_El. intros (_ & _ & W) Hc. unfold child_tags in Hc. cbn [tag_kids] in Hc. apply filter_In in Hc as [Hc _]. rewrite Forall_forall in W. auto.
Qed.
Lemma btag_child n c : Bare n -> In c (child_tags n) -> Bare c /\ is_tag c = true.
Proof. intros W H. split; [now apply (child_bare n)|]. unfold child_tags in H. now apply filter_In in H. Qed.
Lemma descendants_bare n : Bare n -> forall c, In c (descendants n) -> Bare c /\ is_tag c = true.
Proof.
  induction n as [y|nm a k IH] using node_ind'; intros W c H; [destruct H|]. apply bare_El in W as (_ & _ & W). cbn [descendants] in H. apply in_flat_map in H as (d & Hd & H).
  rewrite Forall_forall in *. destruct d as [|nm' a' k']; [destruct H|]. destruct H as [<-|H]; [split; [now apply W|reflexivity]|]. exact (IH _ Hd (W _ Hd) _ H).
Qed.
Lemma composite_bare n cx l : Bare n -> composite_val n cx = Ok l -> Forall bare_kv l.
Proof.
  unfold composite_val. intros W H. apply bind_ok in H as (l0 & E & H). destruct (same_keys _ _); [|discriminate]. injection H as <-. apply Forall_forall. intros kv Hk. apply in_adict in Hk.
  destruct (mapM_In_rev _ _ _ E kv Hk) as (f & Hf & Ef). destruct (btag_child n f W Hf) as [Wf Tf]. unfold composite_field in Ef. destruct (pstr_eqb _ _); [discriminate|].
  destruct (child_tags f) as [|v [|]] eqn:Ec; try discriminate. apply bind_ok in Ef as (c & _ & Ef). injection Ef as <-. split; cbn [fst snd].
  - destruct f as [|nm a k]; [discriminate|]. now apply bare_El in Wf.
  - apply (btag_child f v Wf). rewrite Ec. now left.
Qed.
Lemma gradient_bare n cx l : Bare n -> gradient_val n cx = Ok l -> Forall (fun kv => bare_val (snd kv)) l.
Proof.
  unfold gradient_val. intros W. destruct (Z.ltb _ 2); [discriminate|]. intros H. apply bind_ok in H as (l0 & E & H). injection H as <-. apply Forall_forall. intros kv Hk. apply qdict_In in Hk.
  apply in_map_iff in Hk as (kv' & Ek & Hk). rewrite <- Ek. destruct (mapM_In_rev _ _ _ E kv' Hk) as (c & Hc & Ef). destruct (aget _ _); [|discriminate]. apply bind_ok in Ef as (q & _ & Ef). injection Ef as <-. cbn [snd bare_val].
  unfold find_all in Hc. apply filter_In in Hc as [Hc _]. now apply (descendants_bare n).
Qed.
Lemma get_value_bare c n cx v : Bare n -> get_value c n cx = Ok v -> (match c with VCanvas => True | _ => bare_val v end).
Proof.
  intros W H. destruct c; cbn [get_value] in H; try discriminate; try ex;
    try (unfold simple_val in H; destruct (aget _ _) as [[]|]; try discriminate; try (apply bind_ok in H as (q & _ & H)); injection H as <-; ex).
  - injection H as <-. ex.
  - apply bind_ok in H as (x & E & H). injection H as <-. ex.
  - injection H as <-. apply bare_dict. rewrite Forall_map. apply Forall_forall. intros kv Hk. unfold vector_dict in Hk. apply in_adict in Hk. apply in_map_iff in Hk as (t & <- & Ht).
    destruct (btag_child n t W Ht) as [Wt Tt]. split; cbn [fst snd].
    + destruct t as [|nm a k]; [discriminate|]. now apply bare_El in Wt.
    + destruct (node_string t); ex.
  - apply bind_ok in H as (d & E & H). injection H as <-. apply bare_dict. now apply (composite_bare n cx).
  - apply bind_ok in H as (d & E & H). injection H as <-. apply bare_dictf. now apply (gradient_bare n cx).
Qed.

(** ** Writing *)

Definition btag (n : node) : Prop := Bare n /\ is_tag n = true.
Lemma btag_El nm a k : btag (El nm a k) <-> Plain nm /\ Typed a /\ Forall Bare k.
Proof. unfold btag. rewrite bare_El. cbn [is_tag]. tauto. Qed.
Lemma btag_parts n : btag n -> Plain (tag_name n) /\ Typed (tag_attrs n) /\ Forall Bare (tag_kids n).
Proof. intros [W T]. destruct n; [discriminate|]. now apply bare_El in W. Qed.
Lemma no_attrs : Typed []. Proof. reflexivity. Qed.
Lemma one_attr k x : Plain x -> Typed [(k, AStr x)].
Proof. intros A. unfold Typed, plain_type. unfold aget. destruct (pstr_eqb _ _); [exact A|reflexivity]. Qed.
Lemma other_attr k v a : k <> s "type" -> Typed a -> Typed (aset k v a).
Proof. intros H A. unfold Typed, plain_type in *. now rewrite aget_aset_other by congruence. Qed.
Lemma with_kids_bare n k : btag n -> Forall Bare k -> btag (with_kids n k).
Proof. intros G K. apply btag_El. destruct (btag_parts n G) as (A & B & _). auto. Qed.
Lemma btag_set_attr k x n : k <> s "type" -> btag n -> btag (set_attr k (AStr x) n).
Proof.
  intros Hk G. destruct n as [|nm a ks]; [destruct G; discriminate|]. apply btag_El in G as (A & B & C). cbn [set_attr]. apply btag_El. split; [exact A|]. split; [|exact C]. now apply other_attr.
Qed.

Lemma simple_bare c n v : In c [VReal; VInteger; VBool; VAngle; VTime; VBlendMethod] -> btag n -> btag (fst (simple_set c n v)).
Proof.
  intros Hc G. unfold simple_set. destruct (simple_str c v) as [x|] eqn:E; [|exact G]. cbn [fst]. apply btag_El. split; [destruct Hc as [<-|[<-|[<-|[<-|[<-|[<-|[]]]]]]]; bx|]. split; [|constructor].
  unfold Typed, plain_type. reflexivity.
Qed.
Lemma string_set_bare n v : btag n -> bare_val v -> btag (fst (string_set n v)).
Proof.
  intros G V. unfold string_set. destruct (py_str v) as [x|] eqn:E; [|exact G]. cbn [fst]. apply (with_kids_bare n); [exact G|]. constructor; [ex|constructor].
Qed.
Lemma color_set_bare n v : btag n -> btag (fst (color_set n v)).
Proof.
  intros G. unfold color_set. destruct (color_conv v) as [l|] eqn:E; [|exact G]. cbn [fst]. unfold color_node. apply btag_El. split; [bx|]. split; [apply no_attrs|].
  rewrite Forall_map. apply Forall_forall. intros [d q] Hd. apply in_combine_l in Hd. cbn [fst snd]. apply bare_El. split.
  - destruct Hd as [<-|[<-|[<-|[<-|[]]]]]; bx.
  - split; [apply no_attrs|]. constructor; [ex|constructor].
Qed.
Definition bare_key (kv : pkey * pyval) : Prop := match fst kv with KS k => Plain k | KF _ => True end /\ bare_val (snd kv).
Lemma vector_append_bare l : forall acc, Forall Bare acc -> Forall bare_key l -> Forall Bare (fst (vector_append acc l)).
Proof.
  induction l as [|[k v] l IH]; intros acc A H; [exact A|]. inversion_clear H as [|? ? [H1 H2] Hl]. cbn [fst snd] in *. cbn [vector_append]. destruct k as [k|q]; [|exact A].
  destruct (match v with PFlo q => Ok (fmt_f 10 q) | _ => py_str v end) as [z|] eqn:E; [|exact A]. apply IH; [|exact Hl]. apply Forall_app. split; [exact A|]. constructor; [|constructor].
  apply bare_El. split; [exact H1|]. split; [apply no_attrs|]. constructor; [ex|constructor].
Qed.
Lemma vector_items_bare n l : Bare n -> vector_items n = Ok l -> Forall (fun kv => Plain (fst kv)) l.
Proof.
  intros W H. apply Forall_forall. intros kv Hk. destruct (mapM_In_rev _ _ _ H kv Hk) as (y & Hy & Ey). apply bind_ok in Ey as (q & _ & Ey). injection Ey as <-. cbn [fst].
  unfold vector_dict in Hy. apply in_adict in Hy. apply in_map_iff in Hy as (t & <- & Ht). cbn [fst]. destruct (btag_child n t W Ht) as [Wt Tt]. destruct t; [discriminate|]. now apply bare_El in Wt.
Qed.
Lemma py_items_bare v l : bare_val v -> py_items v = Some (Ok l) -> Forall bare_key l.
Proof.
  intros G H. destruct v; cbn [py_items] in H; try discriminate.
  - injection H as <-. apply bare_dict in G. rewrite Forall_map. apply (Forall_impl _ (P := bare_kv)); [|exact G]. intros [k x]. exact (fun h => h).
  - injection H as <-. apply bare_dictf in G. rewrite Forall_map. apply (Forall_impl _ (P := fun kv => bare_val (snd kv))); [|exact G]. intros [k x] h. now split.
  - destruct G as [W _]. destruct c; try discriminate; injection H as H; apply bind_ok in H as (d & E & H); injection H as <-; rewrite Forall_map.
    + apply (Forall_impl _ (P := fun kv => Plain (fst kv))); [|now apply (vector_items_bare n)]. intros [k x] h. now split.
    + apply (Forall_impl _ (P := bare_kv)); [|now apply (composite_bare n cx)]. intros [k x]. exact (fun h => h).
    + apply (Forall_impl _ (P := fun kv => bare_val (snd kv))); [|now apply (gradient_bare n cx)]. intros [k x] h. now split.
Qed.
Lemma vector_members_bare v l : bare_val v -> vector_members v = Ok l -> Forall bare_key l.
Proof.
  intros G H. destruct v; cbn [vector_members py_items] in H; try discriminate; try (injection H as <-; constructor).
  - destruct l0 as [|a [|b [|]]]; try discriminate; [injection H as <-; constructor|]. destruct (_ && _); [|discriminate]. injection H as <-. apply bare_list in G. inversion_clear G as [|? ? Ga G']. inversion_clear G' as [|? ? Gb _].
    constructor; [split; [cbn [fst]; bx|exact Ga]|]. constructor; [split; [cbn [fst]; bx|exact Gb]|constructor].
  - destruct c; try discriminate; injection H as <-; constructor.
Qed.
Lemma vector_set_bare n v : btag n -> bare_val v -> btag (fst (vector_set n v)).
Proof.
  intros G V. unfold vector_set. destruct (vector_members v) as [m|] eqn:Em; [|exact G]. destruct (btag_parts n G) as (_ & _ & K).
  assert (X : forall k, Forall Bare k -> btag (El (s "vector") [] k)) by (intros k Hk; apply btag_El; split; [bx|split; [apply no_attrs|exact Hk]]).
  destruct (py_items v) as [[l|]|] eqn:Ei.
  - pose proof (vector_append_bare l (tag_kids n) K (py_items_bare v l V Ei)) as A. destruct (vector_append _ l) as [k r]. now apply X.
  - now apply X.
  - pose proof (vector_append_bare m (tag_kids n) K (vector_members_bare v m V Em)) as A. destruct (vector_append _ m) as [k r]. now apply X.
Qed.
Lemma canvas_set_bare n v : btag n -> btag (fst (canvas_set n v)).
Proof.
  intros G. assert (C : btag (El (tag_name n) (tag_attrs n) [])) by (apply (with_kids_bare n); [exact G|constructor]).
  unfold canvas_set. destruct v; try exact C; match goal with |- context[match ?l with _ => _ end] => destruct l; exact C end.
Qed.
Lemma empty_bare c : c <> VCanvas -> (forall x, c <> VTbd x) -> btag (empty_tag c).
Proof.
  intros Hc H. destruct c; try congruence; cbn [empty_tag name_for_tag]; try (apply btag_El; split; [bx|split; [apply no_attrs|constructor]]).
Qed.
Lemma new_flat_bare c v t : c <> VCanvas -> bare_val v -> new_flat c v = Ok t -> btag t.
Proof.
  intros Hc V H. unfold new_flat in H. destruct c as [| | | | | | | | | | | |x]; try discriminate; try congruence;
  match type of H with (let (n, r) := ?o in _) = _ => assert (G : btag (fst o)) end;
  try (apply simple_bare; [cbn [In]; tauto|apply empty_bare; discriminate]);
  try (apply string_set_bare; [apply empty_bare; discriminate|exact V]);
  try (apply color_set_bare, empty_bare; discriminate);
  try (apply vector_set_bare; [apply empty_bare; discriminate|exact V]);
  try (apply canvas_set_bare, empty_bare; discriminate);
  match type of H with (let (n, r) := ?o in _) = _ => destruct o as [n r] end; cbn [fst] in G; apply bind_ok in H as (? & _ & H); injection H as <-; try exact G.
  destruct (btag_parts n G) as (A & B & C). apply btag_El. split; [bx|]. split; [|exact C]. apply other_attr; [intros X; discriminate X|exact B].
Qed.
Lemma composite_append_bare l : forall acc, Forall Bare acc -> Forall bare_kv l -> Forall Bare (fst (composite_append acc l)).
Proof.
  induction l as [|[k v] l IH]; intros acc A H; [exact A|]. inversion_clear H as [|? ? [H1 H2] Hl]. cbn [fst snd] in *. cbn [composite_append]. destruct (aget k transformation_keys) as [c|] eqn:Ek; [|exact A].
  destruct (new_flat c v) as [t|] eqn:E; [|exact A]. apply IH; [|exact Hl]. apply Forall_app. split; [exact A|]. constructor; [|constructor]. apply bare_El. split; [exact H1|]. split; [apply no_attrs|].
  constructor; [apply (new_flat_bare c v); [|exact H2|exact E]; apply (aget_Forall (fun kv => snd kv <> VCanvas) transformation_keys k c) in Ek; [exact Ek|unfold transformation_keys; repeat (constructor; [cbn [snd]; discriminate|]); constructor]|]. constructor; [ex|constructor].
Qed.
Lemma str_keys_bare l : forall l', str_keys l = Some l' -> Forall bare_key l -> Forall bare_kv l'.
Proof.
  induction l as [|[[k|q] v] l IH]; intros l' H G; cbn [str_keys] in H; try discriminate; [injection H as <-; constructor|]. destruct (str_keys l) as [r|]; [|discriminate]. injection H as <-.
  inversion_clear G. constructor; [assumption|]. now apply IH.
Qed.
Lemma composite_set_bare n v : btag n -> bare_val v -> btag (fst (composite_set n v)).
Proof.
  intros G V. unfold composite_set. destruct (py_items v) as [[l|]|] eqn:E; try exact G. destruct (str_keys l) as [l'|] eqn:Es; [|exact G]. destruct (forallb _ l'); [|exact G].
  pose proof (composite_append_bare l' [] (Forall_nil _) (str_keys_bare l l' Es (py_items_bare v l V E))) as A. destruct (composite_append [] l') as [k r]. cbn [fst] in *. now apply (with_kids_bare n).
Qed.
Lemma gradient_append_bare l : forall acc, Forall Bare acc -> Forall (fun kv => bare_val (snd kv)) l -> Forall Bare (fst (gradient_append acc l)).
Proof.
  induction l as [|[q v] l IH]; intros acc A H; [exact A|]. inversion_clear H as [|? ? H1 Hl]. cbn [snd] in H1. cbn [gradient_append]. destruct (new_flat VColor v) as [t|] eqn:E; [|exact A]. apply IH; [|exact Hl].
  apply Forall_app. split; [exact A|]. constructor; [|constructor]. apply btag_set_attr; [intros X; discriminate X|now apply (new_flat_bare VColor v)].
Qed.
Lemma gradient_dict_bare n d : btag n -> Forall (fun kv => bare_val (snd kv)) d -> btag (fst (gradient_set_dict n d)).
Proof.
  intros G D. unfold gradient_set_dict. destruct (Z.ltb _ 2); [exact G|]. assert (D' : Forall (fun kv => bare_val (snd kv)) (sort key_le d)).
  { apply Forall_forall. intros kv Hk. rewrite Forall_forall in D. apply D. exact (Permutation_in _ (SerProofs.sort_perm _ _) Hk). }
  pose proof (gradient_append_bare _ [] (Forall_nil _) D') as A. destruct (gradient_append [] _) as [k r]. cbn [fst] in *. now apply (with_kids_bare n).
Qed.
Lemma gradient_set_bare n v : btag n -> bare_val v -> btag (fst (gradient_set n v)).
Proof.
  intros G V. unfold gradient_set. destruct v; try exact G.
  - destruct (Z.ltb _ 2); [exact G|]. cbn [fst]. apply (with_kids_bare n); [exact G|constructor].
  - apply gradient_dict_bare; [exact G|]. now apply bare_dictf.
  - destruct c; try exact G. destruct (gradient_val n0 cx) as [d|] eqn:E; [|exact G]. apply gradient_dict_bare; [exact G|]. apply (gradient_bare n0 cx); [apply V|exact E].
Qed.
Lemma gradient_setitem_bare n cx q v : btag n -> bare_val v -> btag (fst (gradient_setitem n cx q v)).
Proof.
  intros G V. unfold gradient_setitem. destruct (gradient_val n cx) as [d|] eqn:E; [|exact G]. apply gradient_dict_bare; [exact G|]. pose proof (gradient_bare n cx d (proj1 G) E) as D.
  apply Forall_forall. intros kv Hk. apply qset_In in Hk as [->|Hk]; [exact V|]. apply in_map_iff in Hk as (y & <- & Hy). rewrite Forall_forall in D. now apply D.
Qed.
Lemma set_value_bare c n v : btag n -> bare_val v -> btag (fst (set_value c n v)).
Proof.
  intros G V. destruct c; cbn [set_value]; try (apply simple_bare; [cbn [In]; tauto|exact G]).
  - now apply string_set_bare.
  - now apply color_set_bare.
  - now apply vector_set_bare.
  - now apply composite_set_bare.
  - now apply gradient_set_bare.
  - now apply canvas_set_bare.
  - exact G.
Qed.
Lemma new_value_bare c v t : c <> VCanvas -> bare_val v -> new_value c v = Ok t -> btag t.
Proof.
  intros Hc V H. destruct c; cbn [new_value] in H; try (now apply (new_flat_bare _ _ _ Hc V H)).
  all: match type of H with (let (n, r) := set_value ?c ?e ?w in _) = _ => pose proof (set_value_bare c e w (empty_bare c Hc ltac:(discriminate)) V) as G; destruct (set_value c e w) as [n r] end.
  all: apply bind_ok in H as (? & _ & H); injection H as <-; exact G.
Qed.

(** ** Timelines *)

Lemma wp_tag_bare w : bare_wp w -> btag (wp_tag w).
Proof. intros V. unfold wp_tag. apply btag_El. split; [bx|]. split; [bx|]. constructor; [exact V|constructor]. Qed.
Lemma wp_from_tag_bare y ty cx w : Bare y -> wp_from_tag y ty cx = Ok w -> bare_wp w /\ btag (w_val w).
Proof.
  intros Wy Ey. unfold wp_from_tag in Ey. destruct (negb _); [discriminate|]. destruct (aget (s "time") (tag_attrs y)) as [tv|]; [|discriminate]. apply bind_ok in Ey as (t & _ & Ey).
  destruct (child_tags y) as [|v [|]] eqn:Ec; try discriminate. destruct (is_animated v); [discriminate|]. destruct (negb _); [discriminate|]. apply bind_ok in Ey as (c & _ & Ey).
  destruct (aget (s "before") _) as [b1|]; [|discriminate]. destruct (aget (s "after") _) as [b2|]; [|discriminate]. apply bind_ok in Ey as (b & Eb & Ey). apply bind_ok in Ey as (a & Ea & Ey). injection Ey as <-.
  assert (G : btag v) by (apply (btag_child y); [exact Wy|rewrite Ec; now left]). split; [apply G|exact G].
Qed.
Lemma waypoints_bare n cx d : Bare n -> waypoints n cx = Ok d -> forall w, In w (map snd d) -> bare_wp w /\ btag (w_val w).
Proof.
  intros W E w Hw. unfold waypoints in E. destruct (waypoint_tags n) as [|t ts] eqn:Et; [injection E as <-; destruct Hw|]. rewrite <- Et in E. destruct (aget (s "type") (tag_attrs n)) as [ty|]; [|discriminate].
  assert (E' : (let* ws := mapM (fun w => wp_from_tag w ty cx) (waypoint_tags n) in tsets ws []) = Ok d) by (rewrite Et in E |- *; exact E). clear E.
  apply bind_ok in E' as (ws & Em & E'). destruct (tsets_sub _ _ _ E' w Hw) as [Hi|[]]. destruct (mapM_In_rev _ _ _ Em w Hi) as (y & Hy & Ey). apply (wp_from_tag_bare y ty cx); [|exact Ey].
  unfold waypoint_tags in Hy. destruct (is_animated n); [|destruct Hy]. now apply (child_bare n).
Qed.
Lemma animated_bare n k : btag n -> Forall Bare k -> btag (El (s "animated") [(s "type", AStr (tag_name n))] k).
Proof.
  intros G K. apply btag_El. split; [bx|]. split; [|exact K]. apply one_attr. apply (btag_parts n G).
Qed.
Lemma animated_tag_bare n : btag n -> btag (animated_tag n).
Proof. intros G. apply animated_bare; [exact G|]. apply (btag_parts n G). Qed.
Lemma or_animated n : btag n -> btag (if is_animated n then n else animated_tag n).
Proof. intros G. destruct (is_animated n); [exact G|now apply animated_tag_bare]. Qed.
Lemma newlines_bare l : Forall Bare l -> Forall Bare (with_newlines l).
Proof.
  induction l as [|x l IH]; intros H; [constructor|]. inversion_clear H as [|? ? H1 H2]. cbn [with_newlines]. destruct l as [|y l]; [constructor; [exact H1|constructor]|].
  constructor; [exact H1|]. constructor; [ex|]. now apply IH.
Qed.
Lemma sort_wps_bare l l' : Forall bare_wp l -> sort_wps l = Ok l' -> Forall Bare (map wp_tag l').
Proof.
  intros G H. unfold sort_wps in H. destruct (existsb _ l); [destruct (existsb _ l); discriminate|]. injection H as <-. rewrite Forall_map. apply Forall_forall. intros w Hw. apply wp_tag_bare.
  rewrite Forall_forall in G. apply G. exact (Permutation_in _ (SerProofs.sort_perm _ _) Hw).
Qed.
Lemma unanimate_bare n cx par : btag n -> btag (fst (unanimate n cx par)).
Proof.
  intros G. unfold unanimate. destruct (negb _); [exact G|]. destruct (tl_values n cx) as [[|w l]|] eqn:E; try exact G. apply bind_ok in E as (d & E & H). injection H as H.
  destruct (waypoints_bare n cx d (proj1 G) E w) as [_ Gw]; [rewrite H; now left|]. destruct par; [exact Gw|]. cbn [fst]. apply with_kids_bare; [exact G|constructor].
Qed.
Lemma set_waypoints_bare n cx par l : btag n -> Forall bare_wp l -> btag (fst (set_waypoints n cx par l)).
Proof.
  intros G L. unfold set_waypoints. destruct l as [|w l]; [now apply unanimate_bare|]. cbv zeta. pose proof (or_animated n G) as G1.
  destruct (sort_wps (w :: l)) as [l'|] eqn:E; cbn [fst]; apply with_kids_bare; try exact G1; [|constructor]. apply newlines_bare. now apply (sort_wps_bare (w :: l)).
Qed.
Lemma new_waypoint_bare c t x w : c <> VCanvas -> bare_tlarg x -> new_waypoint c t x = Ok w -> bare_wp w.
Proof.
  intros Hc G H. destruct x as [w'|v]; cbn [new_waypoint] in H.
  - injection H as <-. exact G.
  - cbn [bare_tlarg] in G. assert (X : forall c' m, btag m -> bare_wp (mkW t (s "clamped") (s "clamped") c' m)) by (intros c' m Gm; apply Gm).
    assert (Y : (let* m := new_value c v in Ok (mkW t (s "clamped") (s "clamped") c m)) = Ok w -> bare_wp w) by (intros E; apply bind_ok in E as (m & E & Ew); injection Ew as <-; apply X; now apply (new_value_bare c v m Hc)).
    cbv zeta in H. destruct v; try exact (Y H). destruct (inst c c0); [|exact (Y H)]. destruct (is_animated n); [discriminate|]. injection H as <-. apply X. exact G.
Qed.
Lemma Forall_wps n cx d : Bare n -> waypoints n cx = Ok d -> Forall bare_wp (map snd d).
Proof. intros W H. apply Forall_forall. intros w Hw. now apply (waypoints_bare n cx d W H). Qed.
Lemma tl_setitem_bare c n cx par k x : c <> VCanvas -> btag n -> bare_tlarg x -> btag (fst (tl_setitem c n cx par k x)).
Proof.
  intros Hc G X. unfold tl_setitem. destruct (ensure_fps cx k) as [t|]; [|exact G]. destruct (new_waypoint c t x) as [w|] eqn:Ew; [|exact G]. cbv zeta.
  assert (G1 : btag (if is_animated n then n else animated_tag (with_kids n []))) by (destruct (is_animated n); [exact G|]; apply animated_tag_bare, with_kids_bare; [exact G|constructor]).
  set (n1 := if is_animated n then n else animated_tag (with_kids n [])) in *. destruct (let* d := waypoints n1 cx in tset t w d) as [d|] eqn:E; [|exact G1]. apply bind_ok in E as (d0 & E0 & E).
  apply set_waypoints_bare; [exact G1|]. apply Forall_forall. intros v Hv. apply (tset_sub _ _ _ _ E) in Hv as [->|Hv]; [now apply (new_waypoint_bare c t x _ Hc)|]. now apply (waypoints_bare n1 cx d0 (proj1 G1) E0).
Qed.
Lemma tl_delitem_bare n cx par k : btag n -> btag (fst (tl_delitem n cx par k)).
Proof.
  intros G. unfold tl_delitem. destruct (match k with KeyOther => _ | _ => _ end) as [t|]; [|exact G]. destruct (let* d := waypoints n cx in tdel t d) as [d|] eqn:E; [|exact G].
  apply bind_ok in E as (d0 & E0 & E). apply set_waypoints_bare; [exact G|]. apply Forall_forall. intros v Hv. apply (tdel_sub _ _ _ E) in Hv. now apply (waypoints_bare n cx d0 (proj1 G) E0).
Qed.
Lemma animate_bare c n cx par : c <> VCanvas -> btag n -> btag (fst (animate c n cx par)).
Proof.
  intros Hc G. unfold animate. destruct (is_animated n); [exact G|]. destruct (get_value c n cx) as [v|] eqn:E; [|exact G]. pose proof (get_value_bare c n cx v (proj1 G) E) as V.
  assert (G1 : btag (with_kids (animated_tag n) [])) by (apply with_kids_bare; [now apply animated_tag_bare|constructor]).
  assert (X : match c, v with VCanvas, PList (_ :: _) => true | _, _ => false end = false -> bare_val v).
  { intros H. destruct c; try exact V. cbn [get_value] in E. destruct (forallb _ _); [|discriminate]. injection E as <-. destruct (child_tags n); [ex|discriminate]. }
  destruct (match c, v with VCanvas, PList (_ :: _) => true | _, _ => false end); [exact G|]. apply tl_setitem_bare; [exact Hc|exact G1|]. now apply X.
Qed.
Lemma is_animated_bare c n cx par b : c <> VCanvas -> btag n -> btag (fst (set_is_animated c n cx par b)).
Proof. intros Hc G. destruct b; [now apply animate_bare|now apply unanimate_bare]. Qed.
Lemma tl_add_bare c n cx par ws o : c <> VCanvas -> btag n -> Forall bare_wp ws -> btag (fst (tl_add c n cx par ws o)).
Proof.
  intros Hc G Hw. unfold tl_add. match goal with |- context[match ?z with Ok d => _ | Err e => (n, Err e) end] => destruct z as [d|] eqn:E end; [|exact G].
  assert (D : forall v, In v (map snd d) -> bare_wp v).
  { apply bind_ok in E as (d0 & E0 & E). apply bind_ok in E as (cl & _ & E). intros v Hv. apply (waypoints_bare n cx d0 (proj1 G) E0). destruct o; [now apply (tdels_sub _ _ _ E)|]. destruct cl; [|discriminate]. now injection E as <-. }
  pose proof (is_animated_bare c n cx par true Hc G) as G1. destruct (set_is_animated c n cx par true) as [n1 [|]]; cbn [fst] in G1; [|exact G1]. destruct (tsets ws d) as [d'|] eqn:Et; [|exact G1].
  assert (D' : Forall bare_wp (map snd d')). { apply Forall_forall. intros v Hv. apply (tsets_sub _ _ _ Et) in Hv as [Hv|Hv]; [|now apply D]. rewrite Forall_forall in Hw. now apply Hw. }
  destruct (sort_wps (map snd d')) as [l|] eqn:Es; cbn [fst]; apply with_kids_bare; try exact G1; [now apply (sort_wps_bare (map snd d'))|constructor].
Qed.
Lemma tl_assign_bare n cx par v : btag n -> match v with SList ws => Forall bare_wp ws | _ => True end -> btag (fst (tl_assign n cx par v)).
Proof.
  intros G V. destruct v; cbn [tl_assign]; [now apply set_waypoints_bare| |exact G]. cbn [fst]. apply with_kids_bare; [now apply or_animated|constructor].
Qed.
Lemma tl_iadd_bare c n cx par ws : c <> VCanvas -> btag n -> Forall bare_wp ws -> btag (fst (tl_iadd c n cx par ws)).
Proof. intros Hc G H. unfold tl_iadd. pose proof (tl_add_bare c n cx par ws true Hc G H) as A. destruct (tl_add c n cx par ws true) as [n1 [|]]; exact A. Qed.
Lemma vapply_bare c n cx par e : c <> VCanvas -> btag n -> bare_vedit e -> btag (fst (vapply c n cx par e)).
Proof.
  intros Hc G H. destruct e; cbn [vapply bare_vedit] in *.
  - now apply set_value_bare.
  - now apply gradient_setitem_bare.
  - now apply is_animated_bare.
  - now apply tl_setitem_bare.
  - now apply tl_delitem_bare.
  - now apply tl_add_bare.
  - now apply tl_iadd_bare.
  - now apply tl_assign_bare.
Qed.

(** ** The class *)

Lemma canvas_only x : aget x value_registry = Some VCanvas -> x = s "canvas".
Proof.
  assert (H : forallb (fun kv => match snd kv with VCanvas => pstr_eqb (fst kv) (s "canvas") | _ => true end) value_registry = true) by (vm_compute; reflexivity).
  generalize H. clear H. generalize value_registry. induction r as [|[k c] r IH]; intros H E; [discriminate|]. cbn [forallb] in H. apply andb_prop in H as [H1 H2]. cbn [aget] in E.
  destruct (pstr_eqb x k) eqn:Ek; [|now apply IH]. apply pstr_eqb_spec in Ek. subst k. injection E as ->. cbn [fst snd] in H1. now apply pstr_eqb_spec in H1.
Qed.
Lemma not_canvas t c : btag t -> from_tag t = Ok c -> c <> VCanvas.
Proof.
  intros G H ->. destruct (btag_parts t G) as (A & B & _). unfold from_tag in H. apply bind_ok in H as (nm & En & H). apply bind_ok in H as (c & Ec & H).
  assert (Hc : c = VCanvas).
  { destruct c; try discriminate; [| |reflexivity].
    - unfold vector_construct in H. destruct (is_animated t); [destruct (first_child_tag t) as [y|]; [destruct (first_child_tag y) as [y'|]; [|discriminate]|discriminate]|];
        match type of H with match ?l with _ => _ end = _ => destruct l; [discriminate|] end; destruct (_ && _); discriminate.
    - unfold composite_construct in H. destruct (aget _ _) as [[]|]; try discriminate. destruct (pstr_eqb _ _); discriminate. }
  subst c. unfold from_name in Ec. destruct (aget (normalise nm) value_registry) as [c|] eqn:E; [|discriminate]. injection Ec as ->. apply canvas_only in E.
  assert (P : Plain nm).
  { destruct (is_animated t); [|injection En as <-; exact A]. unfold Typed, plain_type in B. destruct (aget (s "type") (tag_attrs t)) as [[]|]; try discriminate. injection En as <-. exact B. }
  unfold Plain, plain_name in P. rewrite E in P. discriminate.
Qed.
(** ** Single values *)

Lemma val_assign_bare t how v : btag t -> bare_val v -> btag (fst (val_assign t how v)).
Proof.
  intros G V. unfold val_assign. destruct (from_tag t) as [c|] eqn:E; [|exact G]. pose proof (not_canvas t c G E) as Hc. destruct how; [now apply set_value_bare|].
  destruct (new_value c v) as [m|] eqn:En; [|exact G]. cbn [fst]. now apply (new_value_bare c v).
Qed.
Lemma val_edit_bare t cx e : btag t -> bare_vedit e -> btag (fst (val_edit t cx e)).
Proof. intros G V. unfold val_edit. destruct (from_tag t) as [c|] eqn:E; [|exact G]. apply vapply_bare; auto. now apply (not_canvas t c). Qed.
(** No params, layers or canvases *)
Lemma plain_not nm x : Plain nm -> existsb (pstr_eqb (normalise x)) [s "canvas"; s "layer"; s "param"] = true -> pstr_eqb nm x = false.
Proof. intros P H. destruct (pstr_eqb nm x) eqn:E; [|reflexivity]. apply pstr_eqb_spec in E as ->. unfold Plain, plain_name in P. rewrite H in P. discriminate. Qed.
Lemma bare_flat t : Bare t -> no_param t = true /\ flat_value t = true.
Proof.
  induction t as [y|nm a k IH] using node_ind'; intros W; [now split|]. apply bare_El in W as (P & _ & W). cbn [no_param flat_value].
  rewrite (plain_not nm (s "param") P), (plain_not nm (s "layer") P), (plain_not nm (s "canvas") P) by (vm_compute; reflexivity). cbn [negb andb].
  rewrite !forallb_forall. rewrite Forall_forall in *. split; intros x Hx; now apply IH, W.
Qed.
