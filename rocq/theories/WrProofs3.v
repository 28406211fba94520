(** Whatever is done to a document, it can still be written as XML. *)
From Coq Require Import Lia Permutation.
From Verif Require Import ValModel TlModel XpSpec XpProofs AnimProofs5 SerProofs BywProofs14 DocProofs DocProofs2 LayProofs5.
From Verif Require Import LayProofs6 LayModel AnimModel WrSpec WrProofs WrProofs2.
Local Open Scope N_scope.

Notation all_w k := (Forall writable (map forget k)) (only parsing).
(** The document, which has no name, and is only at the top *)
Definition good_doc (n : inode) : Prop := match n with IE 0 _ _ k => all_w k | _ => False end.
Definition good_top (n : inode) : Prop := good_doc n \/ writable (forget n).
Definition fgood (F : forest) : Prop := Forall good_top F.

Lemma wr_IE u nm a k : writable (forget (IE u nm a k)) <-> good_name nm /\ good_attrs a /\ all_w k.
Proof. cbn [forget]. rewrite writable_El. unfold all_writable. tauto. Qed.
Lemma iget_writable u : forall n m, writable (forget n) -> iget u n = Some m -> writable (forget m).
Proof.
  intros n m W H. assert (G : fget u [n] = Some m) by (cbn; now rewrite H). apply fget_In in G as (G & _ & _). apply (writable_forest [n]); [now constructor|exact G].
Qed.
Lemma kids_writable u : forall k m, all_w k -> first_some (iget u) k = Some m -> writable (forget m).
Proof. intros k m W H. change (fget u k = Some m) in H. apply fget_In in H as (H & _). now apply (writable_forest k). Qed.
Lemma fget_top u F n : fgood F -> fget u F = Some n -> good_top n.
Proof.
  induction 1 as [|t F Ht HF IH]; [discriminate|]. unfold fget. cbn [first_some]. destruct (iget u t) as [m|] eqn:E; [|exact IH]. intros H. injection H as <-.
  destruct Ht as [D|W]; [|right; now apply (iget_writable u t)]. destruct t as [|v nm a k]; [destruct D|]. cbn [iget] in E. destruct (u =? v) eqn:Eu; [injection E as <-; now left|].
  right. destruct v; [|destruct D]. now apply (kids_writable u k).
Qed.
Lemma fget_good u F n : fgood F -> u <> 0 -> fget u F = Some n -> writable (forget n).
Proof.
  intros G U H. destruct (fget_top u F n G H) as [D|W]; [|exact W]. apply fget_uid in H. destruct n as [|[|p] nm a k]; [destruct D| |destruct D]. now destruct U.
Qed.
Lemma fget_gtag u F n : fgood F -> u <> 0 -> fget u F = Some n -> gtag (forget n).
Proof. intros G U H. split; [now apply (fget_good u F)|]. apply fget_tag in H. now destruct n. Qed.

(** ** Changing a tag *)

Lemma iat_writable u f : (forall n, iuid n = u -> itag n = true -> writable (forget n) -> writable (forget (f n))) -> forall n, writable (forget n) -> writable (forget (iat u f n)).
Proof.
  intros Hf. induction n as [x|v nm a k IH] using inode_ind'; intros W; [exact W|]. cbn [iat]. destruct (u =? v) eqn:E; [apply N.eqb_eq in E; apply Hf; auto|].
  apply wr_IE in W as (A & B & C). apply wr_IE. split; [exact A|]. split; [exact B|]. rewrite Forall_map in *. rewrite Forall_map. rewrite Forall_forall in *. intros c Hc. apply (IH c Hc). now apply C.
Qed.
Lemma fat_good u f F : (forall n, iuid n = u -> itag n = true -> writable (forget n) -> writable (forget (f n))) -> (forall n, iuid n = u -> good_doc n -> good_doc (f n)) -> fgood F -> fgood (fat u f F).
Proof.
  intros Hf Hd G. unfold fgood, fat in *. rewrite Forall_map. apply (Forall_impl _ (P := good_top)); [|exact G]. intros n [D|W]; [left|right; now apply iat_writable].
  destruct n as [|v nm a k]; [destruct D|]. cbn [iat]. destruct (u =? v) eqn:E; [apply N.eqb_eq in E; now apply Hd|]. destruct v; [|destruct D]. cbn [good_doc] in *.
  rewrite Forall_map in *. rewrite Forall_map. rewrite Forall_forall in *. intros c Hc. apply iat_writable; [exact Hf|]. now apply D.
Qed.
Lemma with_ikids_good u g F : (forall k, all_w k -> all_w (g k)) -> fgood F -> fgood (fat u (with_ikids g) F).
Proof.
  intros Hg. apply fat_good.
  - intros [|v nm a k] _ Ht W; [discriminate|]. cbn [with_ikids]. apply wr_IE in W as (A & B & C). apply wr_IE. auto.
  - intros [|v nm a k] _ D; [destruct D|]. destruct v; [|destruct D]. cbn [with_ikids good_doc] in *. auto.
Qed.
Lemma with_iattrs_good u g F : (forall a, good_attrs a -> good_attrs (g a)) -> fgood F -> fgood (fat u (with_iattrs g) F).
Proof.
  intros Hg. apply fat_good.
  - intros [|v nm a k] _ Ht W; [discriminate|]. cbn [with_iattrs]. apply wr_IE in W as (A & B & C). apply wr_IE. auto.
  - intros [|v nm a k] _ D; [destruct D|]. destruct v; [|destruct D]. exact D.
Qed.
Lemma write_tag_good F w m : gtag m -> fgood F -> fgood (write_tag F w m).
Proof.
  intros [W T]. destruct m as [|nm' a' k']; [discriminate|]. apply writable_El in W as (A & B & C). assert (L : all_w (fst (label_all (DocModel.fresh F) k'))) by (destruct (label_all_ok k' (DocModel.fresh F)) as (E & _); rewrite E; exact C). unfold write_tag. apply fat_good.
  - intros [|v nm a k] _ Ht Wn; [discriminate|]. apply wr_IE. auto.
  - intros [|v nm a k] Hu D; [destruct D|]. destruct v; [|destruct D]. exact L.
Qed.

(** ** Moving tags *)

Lemma kdel_good u : forall k, all_w k -> all_w (fdel u k).
Proof.
  assert (G : forall n, writable (forget n) -> writable (forget (idel u n))).
  { induction n as [x|v nm a k IH] using inode_ind'; intros W; [exact W|]. cbn [idel]. apply wr_IE in W as (A & B & C). apply wr_IE. split; [exact A|]. split; [exact B|].
    clear A B. induction IH as [|c k Hc _ IHk]; [constructor|]. cbn [map] in C. inversion_clear C as [|? ? C1 C2]. cbn [flat_map]. destruct (is_ u c); cbn [app map]; [now apply IHk|]. constructor; [now apply Hc|now apply IHk]. }
  intros k. induction k as [|c k IH]; intros C; [constructor|]. cbn [map] in C. inversion_clear C as [|? ? C1 C2]. unfold fdel, kdel in *. cbn [flat_map]. destruct (is_ u c); cbn [app map]; [now apply IH|]. constructor; [now apply G|now apply IH].
Qed.
Lemma fdel_good u F : fgood F -> fgood (fdel u F).
Proof.
  intros G. rewrite fdel_map. unfold fgood in *. rewrite Forall_map. apply Forall_forall. intros c Hc. apply filter_In in Hc as [Hc _]. rewrite Forall_forall in G. destruct (G c Hc) as [D|W].
  - left. destruct c as [|v nm a k]; [destruct D|]. destruct v; [|destruct D]. cbn [idel good_doc] in *. exact (kdel_good u k D).
  - right. pose proof (kdel_good u [IE 0 [] [] [c]]) as X. assert (Y : all_w [c]) by (constructor; [exact W|constructor]).
    destruct c as [x|v nm a k]; [exact W|]. apply wr_IE in W as (A & B & C). cbn [idel]. apply wr_IE. split; [exact A|]. split; [exact B|]. exact (kdel_good u k C).
Qed.
Lemma insert_good i n k : writable (forget n) -> all_w k -> all_w (insert_nth i n k).
Proof.
  intros W K. rewrite Forall_map in *. apply Forall_forall. intros y Hy. apply insert_nth_In in Hy as [->|Hy]; [exact W|]. rewrite Forall_forall in K. now apply K.
Qed.
Lemma put_in_good F0 F p i n : fgood F0 -> fgood F -> writable (forget n) -> fgood (fst (put_in F0 F p i n)).
Proof. intros G0 G W. unfold put_in. destruct (fget p F); [|exact G0]. cbn [fst]. apply with_ikids_good; [|exact G]. intros k. now apply insert_good. Qed.
Lemma tag_insert_good F p i u : fgood F -> u <> 0 -> fgood (fst (tag_insert F p i u)).
Proof.
  intros G U. unfold tag_insert. destruct (u =? p); [exact G|]. destruct (fget u F) as [n|] eqn:E; [|exact G]. destruct (fget p F) as [pn|]; [|exact G].
  apply put_in_good; [exact G|now apply fdel_good|now apply (fget_good u F)].
Qed.
Lemma tag_append_good F p u : fgood F -> u <> 0 -> fgood (fst (tag_append F p u)).
Proof. intros G U. unfold tag_append. destruct (fget p F); [now apply tag_insert_good|exact G]. Qed.
Lemma beside_good off F b u : fgood F -> u <> 0 -> fgood (fst (insert_beside off F b u)).
Proof.
  intros G U. unfold insert_beside. destruct (fparent b F) as [[|p nm a k]|]; try exact G. destruct (u =? b); [exact G|]. destruct (fget u F) as [n|] eqn:E; [|exact G].
  destruct (fget p (fdel u F)) as [pn|]; [|exact G]. destruct (index_of b (ikids pn)); [|exact G]. apply put_in_good; [exact G|now apply fdel_good|now apply (fget_good u F)].
Qed.
Lemma text_after_good F b x : fgood F -> good_text x -> fgood (fst (insert_text_after F b x)).
Proof.
  intros G X. unfold insert_text_after. destruct (fparent b F) as [pn|]; [|exact G]. destruct (index_of b (ikids pn)) as [j|]; [|exact G]. destruct pn; [exact G|]. now apply put_in_good.
Qed.
Lemma replace_good F o u : fgood F -> u <> 0 -> fgood (fst (replace_with F o u)).
Proof.
  intros G U. unfold replace_with. destruct (fparent o F) as [[|p nm a k]|]; try exact G. destruct (o =? u); [exact G|]. destruct (u =? p); [exact G|]. destruct (index_of o k) as [j|]; [|exact G].
  destruct (fget o F) as [n|] eqn:E; [|exact G]. apply tag_insert_good; [|exact U]. apply Forall_app. split; [now apply fdel_good|]. constructor; [now apply (fget_top o F)|constructor].
Qed.
Lemma andthen_good c k : fgood (fst c) -> (forall F, fgood F -> fgood (fst (k F))) -> fgood (fst (andthen c k)).
Proof. intros G H. destruct c as [F [x|e]]; cbn [andthen fst] in *; [now apply H|exact G]. Qed.

(** ** The calls *)

Lemma append_good F kd g l : fgood F -> l <> 0 -> fgood (fst (group_append F kd g l)).
Proof.
  intros G L. unfold group_append. assert (X : fgood (fst (match fget g F with None => (F, Err EUnmodelled) | Some n => match canvas_of kd n with Err e => (F, Err e) | Ok c =>
    match find is_layer (ikids c) with None => tag_append F (iuid c) l | Some a => insert_before F (iuid a) l end end end))); [|destruct kd; [exact X|exact X|exact G] || (destruct kd; try exact X; exact G)].
  destruct (fget g F) as [n|]; [|exact G]. destruct (canvas_of kd n) as [c|]; [|exact G]. destruct (find is_layer (ikids c)); [now apply beside_good|now apply tag_append_good].
Qed.
Lemma insert_layer_good F kd g i l : fgood F -> l <> 0 -> fgood (fst (group_insert F kd g i l)).
Proof.
  intros G L. assert (Hn : good_text nl) by bx. unfold group_insert. destruct kd; try exact G.
  all: destruct (fget g F) as [n|]; [|exact G]; match goal with |- context[group_index ?k ?m ?j] => destruct (group_index k m j) as [b|]; [|exact G] end.
  all: apply andthen_good; [now apply text_after_good|]; intros F1 G1; apply andthen_good; [now apply beside_good|]; intros F2 G2; now apply text_after_good.
Qed.
Lemma label_good u t : gtag t -> good_top (fst (label u t)).
Proof. intros [W _]. right. destruct (label_ok t u) as (E & _). now rewrite E. Qed.
Lemma fresh_pos F : DocModel.fresh F <> 0.
Proof. unfold DocModel.fresh. lia. Qed.
Lemma label_iuid u t : is_tag t = true -> iuid (fst (label u t)) = u.
Proof. destruct t; [discriminate|]. intros _. rewrite label_El. reflexivity. Qed.
Lemma layer_setitem_good F u f v : fgood F -> match v with SValue w _ => w <> 0 | SPlain x => good_val x end -> fgood (fst (layer_setitem F u f v)).
Proof.
  intros G V. unfold layer_setitem. destruct (fget u F) as [n|]; [|exact G]. destruct (layer_getitem n f) as [[old c]|]; [|exact G]. destruct v as [w c'|v].
  - destruct (inst c c'); [now apply replace_good|exact G].
  - destruct (new_value c v) as [t|] eqn:E; [|exact G]. pose proof (new_value_good c v t V E) as Gt. cbv zeta. apply replace_good; [|rewrite label_iuid; [apply fresh_pos|apply Gt]].
    apply Forall_app. split; [exact G|]. constructor; [now apply label_good|constructor].
Qed.
Lemma ifind_In p n t : ifind p n = Some t -> In t (idesc n).
Proof. unfold ifind, ifind_all. destruct (filter p (idesc n)) as [|x l] eqn:E; [discriminate|]. intros H. injection H as <-. assert (In x (filter p (idesc n))) as H by (rewrite E; now left). now apply filter_In in H. Qed.
Lemma param_get_good F n k v c : writable (forget n) -> param_get F n k = Ok (v, c) -> gtag (forget v).
Proof.
  intros W H. unfold param_get in H. destruct (ifind (is_param k) n) as [p|] eqn:Ep; [|discriminate]. apply ifind_In in Ep. pose proof (writable_desc n W p Ep) as Wp.
  destruct (filter itag (ikids p)) as [|x [|]] eqn:Ef; try discriminate. apply bind_ok in H as (c' & _ & H). injection H as <- _. assert (Hx : In x (filter itag (ikids p))) by (rewrite Ef; now left).
  apply filter_In in Hx as [Hx Ht]. split; [|destruct x; [discriminate|reflexivity]]. destruct p as [|v' nm a ks]; [destruct Hx|]. apply wr_IE in Wp as (_ & _ & C). rewrite Forall_map, Forall_forall in C. now apply C.
Qed.
Lemma param_set_good F n k v : fgood F -> writable (forget n) -> good_val v -> fgood (fst (param_set F n k v)).
Proof.
  intros G W V. unfold param_set. destruct (param_get F n k) as [[w c]|] eqn:E; [|exact G]. pose proof (set_value_good c (forget w) v (param_get_good F n k w c W E) V) as S.
  destruct (set_value c (forget w) v) as [m r]. cbn [fst] in *. now apply write_tag_good.
Qed.
Lemma attr_set_good F u k r : fgood F -> good_name k -> (forall v, r = Ok v -> good_text (aval_str v)) -> fgood (fst (attr_set F u k r)).
Proof.
  intros G K R. unfold attr_set. destruct r as [v|]; [|exact G]. cbn [fst]. apply with_iattrs_good; [|exact G]. intros a [A B]. split; [now apply aset_nodup|]. apply aset_Forall; [exact B|]. split; [exact K|now apply R].
Qed.
Lemma adel_good k a : good_attrs a -> good_attrs (adel k a).
Proof.
  intros [A B]. assert (S : forall x, In x (adel k a) -> In x a).
  { clear. induction a as [|[k' v'] a IH]; intros x H; [destruct H|]. cbn [adel] in H. destruct (pstr_eqb k k'); [now right|]. destruct H as [<-|H]; [now left|right; now apply IH]. }
  split; [|apply Forall_forall; intros x Hx; rewrite Forall_forall in B; apply B, S, Hx]. clear B. induction a as [|[k' v'] a IH]; [constructor|]. cbn [adel]. inversion_clear A as [|? ? A1 A2]. destruct (pstr_eqb k k'); [exact A2|].
  cbn [map]. constructor; [|apply IH; [exact A2|]]. 
  - intros H. apply A1. cbn [fst] in *. apply in_map_iff in H as (x & E & Hx). rewrite <- E. apply in_map. clear -Hx. induction a as [|[k2 v2] a IH]; [destruct Hx|]. cbn [adel] in Hx. destruct (pstr_eqb k k2); [now right|]. destruct Hx as [<-|Hx]; [now left|right; now apply IH].
  - intros x Hx. clear -Hx. induction a as [|[k2 v2] a IH]; [destruct Hx|]. cbn [adel] in Hx. destruct (pstr_eqb k k2); [now right|]. destruct Hx as [<-|Hx]; [now left|right; now apply IH].
Qed.
Lemma str_aval_good v a : good_val v -> (let* x := py_str v in Ok (AStr x)) = Ok a -> good_text (aval_str a).
Proof. intros V H. apply bind_ok in H as (x & E & H). injection H as <-. now apply (py_str_good v). Qed.
Lemma float_aval_good v a : (let* q := py_float v in Ok (AFlo q)) = Ok a -> good_text (aval_str a).
Proof. intros H. apply bind_ok in H as (x & E & H). injection H as <-. cbn [aval_str]. apply num_good, repr_float_num. Qed.
Lemma bool_aval_good v a : bool_aval v = Ok a -> good_text (aval_str a).
Proof. unfold bool_aval. intros H. apply bind_ok in H as (x & E & H). injection H as <-. destruct x; bx. Qed.

(** ** Fields *)

Definition nameb (x : pstr) : bool := negb (pstr_eqb x []) && forallb (fun c => xml_char c && name_char c) x.
Lemma nameb_good x : nameb x = true -> good_name x.
Proof. unfold nameb. intros H. apply andb_true_iff in H as [A B]. apply good_nameb; [|exact B]. intros ->. discriminate. Qed.
Lemma field_names c k f : In c layer_classes -> aget k (all_fields c) = Some f -> good_name k.
Proof.
  intros Hc H. assert (C : forallb (fun c => forallb (fun kf => nameb (fst kf)) (all_fields c)) layer_classes = true) by (vm_compute; reflexivity).
  rewrite forallb_forall in C. specialize (C c Hc). rewrite forallb_forall in C. apply aget_In in H. apply nameb_good. exact (C _ H).
Qed.
Lemma field_set_good F u n c k v : fgood F -> In c layer_classes -> writable (forget n) -> good_val v -> fgood (fst (field_set F u n c k v)).
Proof.
  intros G Hc W V. unfold field_set. destruct (aget k (all_fields c)) as [[ty d| |up]|] eqn:E.
  - now apply param_set_good.
  - exact G.
  - apply param_set_good; [exact G|exact W|]. apply good_dict. constructor; [split; [now apply (field_names c k (FShort up))|exact V]|constructor].
  - clear E. destruct (pstr_eqb k (s "type_")); [exact G|]. destruct (pstr_eqb k (s "version")) eqn:E1; [apply pstr_eqb_spec in E1 as ->; apply attr_set_good; [exact G|bx|apply float_aval_good]|].
    destruct (_ || _) eqn:E2; [apply attr_set_good; [exact G|apply orb_true_iff in E2 as [E2|E2]; apply pstr_eqb_spec in E2 as ->; bx|apply bool_aval_good]|].
    destruct (pstr_eqb k (s "desc")) eqn:E3; [|repeat match goal with |- context[if ?b then _ else _] => destruct b end; exact G]. apply pstr_eqb_spec in E3 as ->. destruct (is_none v); [cbn [fst]; apply with_iattrs_good; [apply adel_good|exact G]|].
    apply attr_set_good; [exact G|bx|]. intros a. now apply str_aval_good.
Qed.
Lemma set_conv_good ty v a : good_val v -> set_conv ty v = Ok a -> good_text (aval_str a).
Proof.
  intros V H. destruct ty; cbn [set_conv] in H; [now apply (str_aval_good v)|now apply (bool_aval_good v)|now apply (float_aval_good v)|]. apply bind_ok in H as (z & _ & H). injection H as <-. cbn [aval_str]. apply num_good, PyFmtProofs.dec_Z_num.
Qed.
Lemma anim_names k f : aget k anim_attrs = Some f -> good_name k.
Proof.
  intros H. assert (C : forallb (fun kf => nameb (fst kf)) anim_attrs = true) by (vm_compute; reflexivity). rewrite forallb_forall in C. apply aget_In in H. apply nameb_good. exact (C _ H).
Qed.
Lemma group_known : In cls_Group layer_classes.
Proof. apply (nth_In layer_classes cls_Layer (n := 12)). apply PeanoNat.Nat.ltb_lt. vm_compute. reflexivity. Qed.
Lemma anim_set_good F n k v : fgood F -> writable (forget n) -> good_val v -> fgood (fst (anim_set F n k v)).
Proof.
  intros G W V. unfold anim_set. destruct (aget k anim_attrs) as [[ty d]|] eqn:E; [apply attr_set_good; [exact G|now apply (anim_names k (ty, d))|intros a; now apply set_conv_good]|]. clear E.
  destruct (pstr_eqb k (s "end_time")) eqn:E1; [apply pstr_eqb_spec in E1 as ->; apply attr_set_good; [exact G|bx|intros a; now apply (set_conv_good TStrA)]|].
  destruct (existsb _ _); [exact G|]. destruct (existsb _ _); [exact G|]. destruct (pstr_eqb k (s "desc")).
  - destruct (ifind (named (s "desc")) n) as [t|]; [|exact G]. destruct v; try exact G. cbn [fst]. unfold set_string. apply with_ikids_good; [|exact G]. intros _ _. constructor; [exact V|constructor].
  - apply field_set_good; [exact G|apply group_known|exact W|exact V].
Qed.

(** ** New layers *)

Fixpoint nodupb (l : list pstr) : bool := match l with [] => true | x :: l' => negb (existsb (pstr_eqb x) l') && nodupb l' end.
Lemma nodupb_ok l : nodupb l = true -> NoDup l.
Proof.
  induction l as [|x l IH]; [constructor|]. cbn [nodupb]. intros H. apply andb_true_iff in H as [A B]. constructor; [|now apply IH]. intros C. apply negb_true_iff in A.
  assert (existsb (pstr_eqb x) l = true) by (apply existsb_exists; exists x; split; [exact C|apply pstr_eqb_refl]). congruence.
Qed.
Fixpoint writableb (n : node) : bool :=
  match n with
  | Txt x => forallb xml_char x
  | El nm a k => nameb nm && nodupb (map fst a) && forallb (fun kv => nameb (fst kv) && forallb xml_char (aval_str (snd kv))) a && forallb writableb k
  end.
Lemma writableb_ok n : writableb n = true -> writable n.
Proof.
  induction n as [x|nm a k IH] using node_ind'; intros H; [now apply good_textb|]. cbn [writableb] in H. apply andb_true_iff in H as [H D]. apply andb_true_iff in H as [H C]. apply andb_true_iff in H as [A B].
  apply writable_El. split; [now apply nameb_good|]. split.
  - split; [now apply nodupb_ok|]. apply Forall_forall. intros kv Hk. rewrite forallb_forall in C. specialize (C kv Hk). apply andb_true_iff in C as [C1 C2]. split; [now apply nameb_good|now apply good_textb].
  - unfold all_writable. rewrite forallb_forall in D. rewrite Forall_forall in *. intros c Hc. apply IH; [exact Hc|now apply D].
Qed.
Lemma new_tag_good c t : In c layer_classes -> new_tag c = Ok t -> gtag t.
Proof.
  intros Hc H. split; [|unfold new_tag in H; apply bind_ok in H as (l & _ & H); injection H as <-; reflexivity].
  assert (C : forallb (fun c => match new_tag c with Ok t => writableb t | Err _ => true end) layer_classes = true) by (vm_compute; reflexivity).
  rewrite forallb_forall in C. specialize (C c Hc). rewrite H in C. now apply writableb_ok.
Qed.
Lemma new_layer_good F c : In c layer_classes -> fgood F -> fgood (fst (new_layer F c)) /\ (forall u, snd (new_layer F c) = Ok u -> u <> 0).
Proof.
  intros Hc G. unfold new_layer. destruct (new_tag c) as [t|] eqn:E; [|split; [exact G|discriminate]]. cbn [fst snd]. split.
  - apply Forall_app. split; [exact G|]. constructor; [|constructor]. apply label_good. now apply (new_tag_good c).
  - intros u H. injection H as <-. apply fresh_pos.
Qed.
Lemma text_known : In cls_Text layer_classes.
Proof. unfold layer_classes. repeat first [now left|right]. Qed.
Lemma new_text_good F x : good_text x -> fgood F -> fgood (fst (new_text F x)).
Proof.
  intros X G. unfold new_text. destruct (new_layer_good F cls_Text text_known G) as [A B]. destruct (new_layer F cls_Text) as [F1 [u|]]; cbn [fst snd] in *; [|exact A].
  destruct (fget u F1) as [n|] eqn:E; [|exact A]. assert (S : fgood (fst (field_set F1 u n cls_Text (s "text") (PStr x)))) by (apply field_set_good; [exact A|apply text_known|apply (fget_good u F1); auto|exact X]).
  destruct (field_set F1 u n cls_Text (s "text") (PStr x)) as [F2 r]. exact S.
Qed.

(** ** Histories *)

Lemma apply_good F e : fgood F -> meant e -> good_edit e -> fgood (fst (apply_edit F e)).
Proof.
  intros G M H. destruct e as [c|x|u f v|u c k v|u k v|kd g l|kd g i l|w c e]; cbn [apply_edit good_edit meant] in *; unfold on_tag.
  - exact (proj1 (new_layer_good F c M G)).
  - now apply new_text_good.
  - destruct v; destruct M; apply layer_setitem_good; auto; lia.
  - destruct M as (A & B). destruct (fget u F) as [n|] eqn:E; [|exact G]. apply field_set_good; auto. now apply (fget_good u F).
  - destruct (fget u F) as [n|] eqn:E; [|exact G]. apply anim_set_good; auto. now apply (fget_good u F).
  - apply append_good; [exact G|lia].
  - apply insert_layer_good; [exact G|lia].
  - assert (A : w <> 0) by lia. destruct (fget w F) as [n|] eqn:E; [|exact G]. match goal with |- context[vapply c (forget n) ?cx ?p e] => pose proof (vapply_good c (forget n) cx p e (fget_gtag w F n G A E) H) as V; destruct (vapply c (forget n) cx p e) as [m r] end.
    cbn [fst] in *. now apply write_tag_good.
Qed.
Lemma edits_good l : forall F, fgood F -> Forall meant l -> Forall good_edit l -> fgood (edits F l).
Proof. induction l as [|e l IH]; intros F G M H; [exact G|]. inversion_clear H. inversion_clear M. cbn [edits fold_left]. apply IH; [now apply apply_good|assumption|assumption]. Qed.
Lemma doc_good n : writable n -> fgood (doc_forest n).
Proof.
  intros W. constructor; [|constructor]. left. rewrite label_El. cbn [fst good_doc]. destruct (label_all_ok [n] (N.succ 0)) as (E & _). rewrite E. constructor; [exact W|constructor].
Qed.
