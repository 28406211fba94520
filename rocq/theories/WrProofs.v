(** Whatever is assigned to a value, its tag can still be written as XML. *)
From Coq Require Import Lia Permutation.
From Verif Require Import ValModel TlModel XpSpec XpProofs AnimProofs5 SerProofs PyFmtProofs BywProofs14 PexProofs3.
From Verif Require Import LayProofs6 LayModel AnimModel WrSpec.
Local Open Scope N_scope.

Ltac bx := good_by_check.



(** ** Arguments *)

Lemma good_list l : good_val (PTuple l) <-> Forall good_val l.
Proof. induction l as [|x l IH]; [now split|]. cbn [good_val] in *. rewrite IH. split; [now intros [A B]; constructor|now inversion 1]. Qed.
Definition good_kv (kv : pstr * pyval) : Prop := good_name (fst kv) /\ good_val (snd kv).
Lemma good_dict l : good_val (PDict l) <-> Forall good_kv l.
Proof. induction l as [|[k x] l IH]; [now split|]. cbn [good_val] in *. rewrite IH. unfold good_kv. split; [intros (A & B & C); now constructor|inversion 1; subst; tauto]. Qed.
Lemma good_dictf l : good_val (PDictF l) <-> Forall (fun kv => good_val (snd kv)) l.
Proof. induction l as [|[k x] l IH]; [now split|]. cbn [good_val] in *. rewrite IH. split; [intros (A & B); now constructor|inversion 1; subst; tauto]. Qed.

(** ** Strings *)

Lemma hex_good n : forall fuel acc, good_text acc -> good_text (hex_aux fuel n acc).
Proof.
  intros fuel. revert n. induction fuel as [|f IH]; intros n acc H; [exact H|]. cbn [hex_aux].
  assert (G : good_text (hex_char (n mod 16) :: acc)).
  { constructor; [|exact H]. pose proof (N.mod_lt n 16). generalize dependent (n mod 16). intros d Hd. unfold hex_char, xml_char. destruct (d <? 10) eqn:E; [apply N.ltb_lt in E|apply N.ltb_ge in E]; lia. }
  destruct (n <? 16); [exact G|]. now apply IH.
Qed.
Lemma pad_good k x : good_text x -> good_text (pad0 k x).
Proof. intros H. unfold pad0. apply good_app; [|exact H]. induction (k - length x)%nat; [constructor|]. cbn [repeat]. constructor; [reflexivity|assumption]. Qed.
Lemma fmt_02x_good n : good_text (fmt_02x n).
Proof. unfold fmt_02x, hex_N. destruct (n <? 0)%Z; [constructor; [reflexivity|]|]; apply pad_good, hex_good; constructor. Qed.
Lemma color_hex_good n x : color_hex n = Ok x -> good_text x.
Proof.
  unfold color_hex. destruct (color_tuple n) as [l|]; [|discriminate]. cbn [bind]. intros H. injection H as <-.
  assert (G : good_text (35 :: flat_map (fun q => fmt_02x (round_he (fmul q 255))) l)).
  { constructor; [reflexivity|]. induction l as [|q l IH]; [constructor|]. cbn [flat_map]. apply good_app; [apply fmt_02x_good|exact IH]. }
  set (r := 35 :: _) in *. destruct (ends_with _ r); [|exact G]. apply (prefix_good (firstn (length r - 2) r) r); [|exact G]. exists (skipn (length r - 2) r). now rewrite firstn_skipn.
Qed.
Lemma string_good n : writable n -> forall x, node_string n = Some x -> good_text x.
Proof.
  induction n as [y|nm a k IH] using node_ind'; intros W x H; [cbn in *; now injection H as <-|]. apply writable_El in W as (_ & _ & W). destruct k as [|c [|]]; try discriminate. cbn [node_string] in H.
  inversion_clear IH as [|? ? IHc _]. inversion_clear W as [|? ? Wc _]. now apply IHc.
Qed.
Lemma string_val_good n : writable n -> good_text (string_val n).
Proof. intros W. unfold string_val. destruct (node_string n) eqn:E; [now apply (string_good n)|bx]. Qed.
Lemma py_str_good v x : good_val v -> py_str v = Ok x -> good_text x.
Proof.
  intros G H. destruct v; cbn [py_str] in H; try discriminate.
  - injection H as <-. bx.
  - injection H as <-. destruct b; bx.
  - injection H as <-. apply num_good, dec_Z_num.
  - injection H as <-. apply num_good, repr_float_num.
  - injection H as <-. exact G.
  - destruct l; [|discriminate]. injection H as <-. bx.
  - injection H as <-. apply time_good.
  - destruct G as [W _]. destruct (is_animated n); [injection H as <-; bx|].
    destruct c; try discriminate; try (destruct (simple_val _ n cx) as [[]|]; cbn [bind] in H; try discriminate; injection H as <-;
      try (apply num_good, dec_Z_num); try (apply num_good, repr_float_num); try apply time_good;
      try (match goal with |- good_text (if ?b then _ else _) => destruct b; bx end);
      try (apply good_app; [apply num_good, fmt_g_num|bx])).
    + injection H as <-. now apply string_val_good.
    + now apply (color_hex_good n).
Qed.

(** ** Reading *)

Lemma bind_ok {A B} (r : res A) (f : A -> res B) y : bind r f = Ok y -> exists x, r = Ok x /\ f x = Ok y.
Proof. destruct r as [x|]; [|discriminate]. cbn [bind]. eauto. Qed.
Lemma gtag_child n c : writable n -> In c (child_tags n) -> writable c /\ is_tag c = true.
Proof. intros W H. split; [now apply (child_writable n)|]. unfold child_tags in H. now apply filter_In in H. Qed.
Lemma descendants_writable n : writable n -> forall c, In c (descendants n) -> writable c /\ is_tag c = true.
Proof.
  induction n as [y|nm a k IH] using node_ind'; intros W c H; [destruct H|]. apply writable_El in W as (_ & _ & W). cbn [descendants] in H. apply in_flat_map in H as (d & Hd & H).
  unfold all_writable in W. rewrite Forall_forall in *. destruct d as [|nm' a' k']; [destruct H|]. destruct H as [<-|H]; [split; [now apply W|reflexivity]|]. exact (IH _ Hd (W _ Hd) _ H).
Qed.
Lemma composite_good n cx l : writable n -> composite_val n cx = Ok l -> Forall good_kv l.
Proof.
  unfold composite_val. intros W H. apply bind_ok in H as (l0 & E & H). destruct (same_keys _ _); [|discriminate]. injection H as <-. apply Forall_forall. intros kv Hk. apply in_adict in Hk.
  destruct (mapM_In_rev _ _ _ E kv Hk) as (f & Hf & Ef). destruct (gtag_child n f W Hf) as [Wf Tf]. unfold composite_field in Ef. destruct (pstr_eqb _ _); [discriminate|].
  destruct (child_tags f) as [|v [|]] eqn:Ec; try discriminate. apply bind_ok in Ef as (c & _ & Ef). injection Ef as <-. split; cbn [fst snd].
  - destruct f as [|nm a k]; [discriminate|]. now apply writable_El in Wf.
  - apply (gtag_child f v Wf). rewrite Ec. now left.
Qed.
Lemma qset_In k v d x : In x (qset k v d) -> snd x = v \/ In (snd x) (map snd d).
Proof.
  induction d as [|[k' v'] d IH]; cbn [qset map]; [intros [<-|[]]; now left|]. destruct (Qeq_bool k k').
  - intros [<-|H]; [now left|]. right. right. now apply in_map.
  - intros [<-|H]; [right; now left|]. destruct (IH H); [now left|right; now right].
Qed.
Lemma qdict_In l x : In x (qdict l) -> In (snd x) (map snd l).
Proof.
  unfold qdict. assert (G : forall l d, In x (fold_left (fun d kv => qset (fst kv) (snd kv) d) l d) -> In (snd x) (map snd l) \/ In (snd x) (map snd d)).
  { clear l. induction l as [|kv l IH]; intros d H; cbn [fold_left] in H; [right; now apply in_map|]. destruct (IH _ H) as [G|G]; [left; now right|]. cbn [map].
    apply in_map_iff in G as (y & Ey & G). apply qset_In in G as [G|G]; rewrite Ey in G; [left; left; now symmetry|now right]. }
  intros H. destruct (G l [] H) as [G'|[]]. exact G'.
Qed.
Lemma gradient_good n cx l : writable n -> gradient_val n cx = Ok l -> Forall (fun kv => good_val (snd kv)) l.
Proof.
  unfold gradient_val. intros W. destruct (Z.ltb _ 2); [discriminate|]. intros H. apply bind_ok in H as (l0 & E & H). injection H as <-. apply Forall_forall. intros kv Hk. apply qdict_In in Hk.
  apply in_map_iff in Hk as (kv' & Ek & Hk). rewrite <- Ek. destruct (mapM_In_rev _ _ _ E kv' Hk) as (c & Hc & Ef). destruct (aget _ _); [|discriminate]. apply bind_ok in Ef as (q & _ & Ef). injection Ef as <-. cbn [snd good_val].
  unfold find_all in Hc. apply filter_In in Hc as [Hc _]. now apply (descendants_writable n).
Qed.
Lemma get_value_good c n cx v : writable n -> get_value c n cx = Ok v -> (match c with VCanvas => True | _ => good_val v end).
Proof.
  intros W H. destruct c; cbn [get_value] in H; try discriminate; try exact I;
    try (unfold simple_val in H; destruct (aget _ _) as [[]|]; try discriminate; try (apply bind_ok in H as (q & _ & H)); injection H as <-; exact I).
  - injection H as <-. now apply string_val_good.
  - apply bind_ok in H as (x & E & H). injection H as <-. now apply (color_hex_good n).
  - injection H as <-. apply good_dict. rewrite Forall_map. apply Forall_forall. intros kv Hk. unfold vector_dict in Hk. apply in_adict in Hk. apply in_map_iff in Hk as (t & <- & Ht).
    destruct (gtag_child n t W Ht) as [Wt Tt]. split; cbn [fst snd].
    + destruct t as [|nm a k]; [discriminate|]. now apply writable_El in Wt.
    + destruct (node_string t) eqn:E; [now apply (string_good t)|exact I].
  - apply bind_ok in H as (d & E & H). injection H as <-. apply good_dict. now apply (composite_good n cx).
  - apply bind_ok in H as (d & E & H). injection H as <-. apply good_dictf. now apply (gradient_good n cx).
Qed.

(** ** Writing *)

Definition gtag (n : node) : Prop := writable n /\ is_tag n = true.
Lemma gtag_El nm a k : gtag (El nm a k) <-> good_name nm /\ good_attrs a /\ Forall writable k.
Proof. unfold gtag. rewrite writable_El. unfold all_writable. cbn [is_tag]. tauto. Qed.
Lemma gtag_parts n : gtag n -> good_name (tag_name n) /\ good_attrs (tag_attrs n) /\ Forall writable (tag_kids n).
Proof. intros [W T]. destruct n; [discriminate|]. now apply writable_El in W. Qed.
Lemma no_attrs : good_attrs [].
Proof. split; constructor. Qed.
Lemma one_attr k v : good_name k -> good_text (aval_str v) -> good_attrs [(k, v)].
Proof. intros A B. split; [repeat constructor; intros []|]. constructor; [split; assumption|constructor]. Qed.
Lemma with_kids_good n k : gtag n -> Forall writable k -> gtag (with_kids n k).
Proof. intros G K. apply gtag_El. destruct (gtag_parts n G) as (A & B & _). auto. Qed.
Lemma gtag_set_attr k v n : gtag n -> good_name k -> good_text (aval_str v) -> gtag (set_attr k v n).
Proof.
  intros G Hk Hv. destruct n as [|nm a ks]; [destruct G; discriminate|]. apply gtag_El in G as (A & [B1 B2] & C). cbn [set_attr]. apply gtag_El. split; [exact A|]. split; [|exact C]. split; [now apply aset_nodup|].
  apply aset_Forall; [exact B2|now split].
Qed.

Lemma simple_good c n v : In c [VReal; VInteger; VBool; VAngle; VTime; VBlendMethod] -> gtag n -> gtag (fst (simple_set c n v)).
Proof.
  intros Hc G. unfold simple_set. destruct (simple_str c v) as [x|] eqn:E; [|exact G]. cbn [fst]. apply gtag_El. split; [destruct Hc as [<-|[<-|[<-|[<-|[<-|[<-|[]]]]]]]; bx|]. split; [|constructor].
  apply one_attr; [bx|]. cbn [aval_str]. unfold simple_str in E. apply bind_ok in E as (e & _ & E).
  destruct Hc as [<-|[<-|[<-|[<-|[<-|[<-|[]]]]]]]; apply bind_ok in E as (z & _ & E); injection E as <-;
    [apply num_good, fmt_f_num|apply num_good, dec_Z_num|destruct z; bx|apply num_good, repr_float_num|apply time_good|apply num_good, dec_Z_num].
Qed.
Lemma string_set_good n v : gtag n -> good_val v -> gtag (fst (string_set n v)).
Proof.
  intros G V. unfold string_set. destruct (py_str v) as [x|] eqn:E; [|exact G]. cbn [fst]. apply (with_kids_good n); [exact G|]. constructor; [|constructor]. now apply (py_str_good v).
Qed.
Lemma color_set_good n v : gtag n -> gtag (fst (color_set n v)).
Proof.
  intros G. unfold color_set. destruct (color_conv v) as [l|] eqn:E; [|exact G]. cbn [fst]. unfold color_node. apply gtag_El. split; [bx|]. split; [apply no_attrs|].
  rewrite Forall_map. apply Forall_forall. intros [d q] Hd. apply in_combine_l in Hd. cbn [fst snd]. apply writable_El. split.
  - destruct Hd as [<-|[<-|[<-|[<-|[]]]]]; bx.
  - split; [apply no_attrs|]. constructor; [|constructor]. apply num_good, fmt_f_num.
Qed.
Definition good_key (kv : pkey * pyval) : Prop := match fst kv with KS k => good_name k | KF _ => True end /\ good_val (snd kv).
Lemma vector_append_good l : forall acc, Forall writable acc -> Forall good_key l -> Forall writable (fst (vector_append acc l)).
Proof.
  induction l as [|[k v] l IH]; intros acc A H; [exact A|]. inversion_clear H as [|? ? [H1 H2] Hl]. cbn [fst snd] in *. cbn [vector_append]. destruct k as [k|q]; [|exact A].
  destruct (match v with PFlo q => Ok (fmt_f 10 q) | _ => py_str v end) as [z|] eqn:E; [|exact A]. apply IH; [|exact Hl]. apply Forall_app. split; [exact A|]. constructor; [|constructor].
  apply writable_El. split; [exact H1|]. split; [apply no_attrs|]. constructor; [|constructor]. change (good_text z).
  destruct v; try (now apply (py_str_good _ _ H2)); injection E as <-. apply num_good, fmt_f_num.
Qed.
Lemma vector_items_good n l : writable n -> vector_items n = Ok l -> Forall (fun kv => good_name (fst kv)) l.
Proof.
  intros W H. apply Forall_forall. intros kv Hk. destruct (mapM_In_rev _ _ _ H kv Hk) as (y & Hy & Ey). apply bind_ok in Ey as (q & _ & Ey). injection Ey as <-. cbn [fst].
  unfold vector_dict in Hy. apply in_adict in Hy. apply in_map_iff in Hy as (t & <- & Ht). cbn [fst]. destruct (gtag_child n t W Ht) as [Wt Tt]. destruct t; [discriminate|]. now apply writable_El in Wt.
Qed.
Lemma py_items_good v l : good_val v -> py_items v = Some (Ok l) -> Forall good_key l.
Proof.
  intros G H. destruct v; cbn [py_items] in H; try discriminate.
  - injection H as <-. apply good_dict in G. rewrite Forall_map. apply (Forall_impl _ (P := good_kv)); [|exact G]. intros [k x]. exact (fun h => h).
  - injection H as <-. apply good_dictf in G. rewrite Forall_map. apply (Forall_impl _ (P := fun kv => good_val (snd kv))); [|exact G]. intros [k x] h. now split.
  - destruct G as [W _]. destruct c; try discriminate; injection H as H; apply bind_ok in H as (d & E & H); injection H as <-; rewrite Forall_map.
    + apply (Forall_impl _ (P := fun kv => good_name (fst kv))); [|now apply (vector_items_good n)]. intros [k x] h. now split.
    + apply (Forall_impl _ (P := good_kv)); [|now apply (composite_good n cx)]. intros [k x]. exact (fun h => h).
    + apply (Forall_impl _ (P := fun kv => good_val (snd kv))); [|now apply (gradient_good n cx)]. intros [k x] h. now split.
Qed.
Lemma vector_members_good v l : good_val v -> vector_members v = Ok l -> Forall good_key l.
Proof.
  intros G H. destruct v; cbn [vector_members py_items] in H; try discriminate; try (injection H as <-; constructor).
  - destruct l0 as [|a [|b [|]]]; try discriminate; [injection H as <-; constructor|]. destruct (_ && _); [|discriminate]. injection H as <-. apply good_list in G. inversion_clear G as [|? ? Ga G']. inversion_clear G' as [|? ? Gb _].
    constructor; [split; [cbn [fst]; bx|exact Ga]|]. constructor; [split; [cbn [fst]; bx|exact Gb]|constructor].
  - destruct c; try discriminate; injection H as <-; constructor.
Qed.
Lemma vector_set_good n v : gtag n -> good_val v -> gtag (fst (vector_set n v)).
Proof.
  intros G V. unfold vector_set. destruct (vector_members v) as [m|] eqn:Em; [|exact G]. destruct (gtag_parts n G) as (_ & _ & K).
  assert (X : forall k, Forall writable k -> gtag (El (s "vector") [] k)) by (intros k Hk; apply gtag_El; split; [bx|split; [apply no_attrs|exact Hk]]).
  destruct (py_items v) as [[l|]|] eqn:Ei.
  - pose proof (vector_append_good l (tag_kids n) K (py_items_good v l V Ei)) as A. destruct (vector_append _ l) as [k r]. now apply X.
  - now apply X.
  - pose proof (vector_append_good m (tag_kids n) K (vector_members_good v m V Em)) as A. destruct (vector_append _ m) as [k r]. now apply X.
Qed.
Lemma canvas_set_good n v : gtag n -> gtag (fst (canvas_set n v)).
Proof.
  intros G. assert (C : gtag (El (tag_name n) (tag_attrs n) [])) by (apply (with_kids_good n); [exact G|constructor]).
  unfold canvas_set. destruct v; try exact C; match goal with |- context[match ?l with _ => _ end] => destruct l; exact C end.
Qed.
Lemma empty_good c : (forall x, c <> VTbd x) -> gtag (empty_tag c).
Proof.
  intros H. destruct c; cbn [empty_tag name_for_tag]; try (apply gtag_El; split; [bx|split; [apply no_attrs|constructor]]).
  - apply gtag_El. split; [bx|]. split; [|constructor]. apply one_attr; bx.
  - now destruct (H name).
Qed.
Lemma new_flat_good c v t : good_val v -> new_flat c v = Ok t -> gtag t.
Proof.
  intros V H. unfold new_flat in H. destruct c as [| | | | | | | | | | | |x]; try discriminate;
  match type of H with (let (n, r) := ?o in _) = _ => assert (G : gtag (fst o)) end;
  try (apply simple_good; [cbn [In]; tauto|apply empty_good; discriminate]);
  try (apply string_set_good; [apply empty_good; discriminate|exact V]);
  try (apply color_set_good, empty_good; discriminate);
  try (apply vector_set_good; [apply empty_good; discriminate|exact V]);
  try (apply canvas_set_good, empty_good; discriminate);
  match type of H with (let (n, r) := ?o in _) = _ => destruct o as [n r] end; cbn [fst] in G; apply bind_ok in H as (? & _ & H); injection H as <-; try exact G.
  destruct (gtag_parts n G) as (A & B & C). apply gtag_El. split; [bx|]. split; [|exact C]. destruct B as [B1 B2]. split; [now apply aset_nodup|]. apply aset_Forall; [exact B2|]. split; bx.
Qed.
Lemma composite_append_good l : forall acc, Forall writable acc -> Forall good_kv l -> Forall writable (fst (composite_append acc l)).
Proof.
  induction l as [|[k v] l IH]; intros acc A H; [exact A|]. inversion_clear H as [|? ? [H1 H2] Hl]. cbn [fst snd] in *. cbn [composite_append]. destruct (aget k transformation_keys) as [c|]; [|exact A].
  destruct (new_flat c v) as [t|] eqn:E; [|exact A]. apply IH; [|exact Hl]. apply Forall_app. split; [exact A|]. constructor; [|constructor]. apply writable_El. split; [exact H1|]. split; [apply no_attrs|].
  constructor; [now apply (new_flat_good c v)|]. constructor; [|constructor]. change (good_text [10]). bx.
Qed.
Lemma str_keys_good l : forall l', str_keys l = Some l' -> Forall good_key l -> Forall good_kv l'.
Proof.
  induction l as [|[[k|q] v] l IH]; intros l' H G; cbn [str_keys] in H; try discriminate; [injection H as <-; constructor|]. destruct (str_keys l) as [r|]; [|discriminate]. injection H as <-.
  inversion_clear G. constructor; [assumption|]. now apply IH.
Qed.
Lemma composite_set_good n v : gtag n -> good_val v -> gtag (fst (composite_set n v)).
Proof.
  intros G V. unfold composite_set. destruct (py_items v) as [[l|]|] eqn:E; try exact G. destruct (str_keys l) as [l'|] eqn:Es; [|exact G]. destruct (forallb _ l'); [|exact G].
  pose proof (composite_append_good l' [] (Forall_nil _) (str_keys_good l l' Es (py_items_good v l V E))) as A. destruct (composite_append [] l') as [k r]. cbn [fst] in *. now apply (with_kids_good n).
Qed.
Lemma gradient_append_good l : forall acc, Forall writable acc -> Forall (fun kv => good_val (snd kv)) l -> Forall writable (fst (gradient_append acc l)).
Proof.
  induction l as [|[q v] l IH]; intros acc A H; [exact A|]. inversion_clear H as [|? ? H1 Hl]. cbn [snd] in H1. cbn [gradient_append]. destruct (new_flat VColor v) as [t|] eqn:E; [|exact A]. apply IH; [|exact Hl].
  apply Forall_app. split; [exact A|]. constructor; [|constructor]. apply gtag_set_attr; [now apply (new_flat_good VColor v)|bx|]. apply num_good, fmt_g_num.
Qed.
Lemma gradient_dict_good n d : gtag n -> Forall (fun kv => good_val (snd kv)) d -> gtag (fst (gradient_set_dict n d)).
Proof.
  intros G D. unfold gradient_set_dict. destruct (Z.ltb _ 2); [exact G|]. assert (D' : Forall (fun kv => good_val (snd kv)) (sort key_le d)).
  { apply Forall_forall. intros kv Hk. rewrite Forall_forall in D. apply D. exact (Permutation_in _ (SerProofs.sort_perm _ _) Hk). }
  pose proof (gradient_append_good _ [] (Forall_nil _) D') as A. destruct (gradient_append [] _) as [k r]. cbn [fst] in *. now apply (with_kids_good n).
Qed.
Lemma gradient_set_good n v : gtag n -> good_val v -> gtag (fst (gradient_set n v)).
Proof.
  intros G V. unfold gradient_set. destruct v; try exact G.
  - destruct (Z.ltb _ 2); [exact G|]. cbn [fst]. apply (with_kids_good n); [exact G|constructor].
  - apply gradient_dict_good; [exact G|]. now apply good_dictf.
  - destruct c; try exact G. destruct (gradient_val n0 cx) as [d|] eqn:E; [|exact G]. apply gradient_dict_good; [exact G|]. apply (gradient_good n0 cx); [apply V|exact E].
Qed.
Lemma gradient_setitem_good n cx q v : gtag n -> good_val v -> gtag (fst (gradient_setitem n cx q v)).
Proof.
  intros G V. unfold gradient_setitem. destruct (gradient_val n cx) as [d|] eqn:E; [|exact G]. apply gradient_dict_good; [exact G|]. pose proof (gradient_good n cx d (proj1 G) E) as D.
  apply Forall_forall. intros kv Hk. apply qset_In in Hk as [->|Hk]; [exact V|]. apply in_map_iff in Hk as (y & <- & Hy). rewrite Forall_forall in D. now apply D.
Qed.
Lemma set_value_good c n v : gtag n -> good_val v -> gtag (fst (set_value c n v)).
Proof.
  intros G V. destruct c; cbn [set_value]; try (apply simple_good; [cbn [In]; tauto|exact G]).
  - now apply string_set_good.
  - now apply color_set_good.
  - now apply vector_set_good.
  - now apply composite_set_good.
  - now apply gradient_set_good.
  - now apply canvas_set_good.
  - exact G.
Qed.
Lemma new_value_good c v t : good_val v -> new_value c v = Ok t -> gtag t.
Proof.
  intros V H. destruct c; cbn [new_value] in H; try (now apply (new_flat_good _ _ _ V H)).
  all: match type of H with (let (n, r) := set_value ?c ?e ?w in _) = _ => pose proof (set_value_good c e w (empty_good c ltac:(discriminate)) V) as G; destruct (set_value c e w) as [n r] end.
  all: apply bind_ok in H as (? & _ & H); injection H as <-; exact G.
Qed.
