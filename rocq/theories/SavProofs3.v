(** Whatever is done to a document, all attributes are of one line, if those that are assigned are. The proofs are those of WrProofs3.v,
    for another property of tags. *)
From Coq Require Import Lia Permutation.
From Verif Require Import ValModel TlModel XpSpec XpProofs AnimProofs5 SerProofs BywProofs14 DocProofs DocProofs2 LayProofs5.
From Verif Require Import LayProofs6 LayModel AnimModel WrSpec WrProofs WrProofs2 WrProofs3 SavSpec SavSpec2 SavProofs2.
Local Open Scope N_scope.

Lemma tidy_desc n : tidy (forget n) -> forall x, In x (idesc n) -> tidy (forget x).
Proof.
  induction n as [y|u nm a k IH] using inode_ind'; [intros _ x []|]. cbn [forget]. rewrite tidy_El. intros (_ & _ & W) x Hx. rewrite Forall_map, Forall_forall in W.
  rewrite Forall_forall in IH. change (In x (fdesc k)) in Hx. unfold fdesc in Hx. apply in_flat_map in Hx as (c & Hc & Hx). destruct c as [y|u' nm' a' k']; [destruct Hx|].
  destruct Hx as [<-|Hx]; [now apply W|]. now apply (IH _ Hc (W _ Hc)).
Qed.
Lemma tidy_forest (F : forest) x : Forall tidy (map forget F) -> In x (fdesc F) -> tidy (forget x).
Proof.
  intros W Hx. rewrite Forall_map, Forall_forall in W. unfold fdesc in Hx. apply in_flat_map in Hx as (c & Hc & Hx). destruct c as [y|u nm a k]; [destruct Hx|].
  destruct Hx as [<-|Hx]; [now apply W|]. now apply (tidy_desc _ (W _ Hc)).
Qed.

Notation all_t k := (Forall tidy (map forget k)) (only parsing).
(** The document, which has no name, and is only at the top *)
Definition tidy_doc (n : inode) : Prop := match n with IE 0 _ _ k => all_t k | _ => False end.
Definition tidy_top (n : inode) : Prop := tidy_doc n \/ tidy (forget n).
Definition ftidy (F : forest) : Prop := Forall tidy_top F.

Lemma ti_IE u nm a k : tidy (forget (IE u nm a k)) <-> one_line nm /\ clean_attrs a /\ all_t k.
Proof. cbn [forget]. rewrite tidy_El. tauto. Qed.
Lemma iget_tidyn u : forall n m, tidy (forget n) -> iget u n = Some m -> tidy (forget m).
Proof.
  intros n m W H. assert (G : fget u [n] = Some m) by (cbn; now rewrite H). apply fget_In in G as (G & _ & _). apply (tidy_forest [n]); [now constructor|exact G].
Qed.
Lemma kids_tidyn u : forall k m, all_t k -> first_some (iget u) k = Some m -> tidy (forget m).
Proof. intros k m W H. change (fget u k = Some m) in H. apply fget_In in H as (H & _). now apply (tidy_forest k). Qed.
Lemma fget_top u F n : ftidy F -> fget u F = Some n -> tidy_top n.
Proof.
  induction 1 as [|t F Ht HF IH]; [discriminate|]. unfold fget. cbn [first_some]. destruct (iget u t) as [m|] eqn:E; [|exact IH]. intros H. injection H as <-.
  destruct Ht as [D|W]; [|right; now apply (iget_tidyn u t)]. destruct t as [|v nm a k]; [destruct D|]. cbn [iget] in E. destruct (u =? v) eqn:Eu; [injection E as <-; now left|].
  right. destruct v; [|destruct D]. now apply (kids_tidyn u k).
Qed.
Lemma fget_tidy u F n : ftidy F -> u <> 0 -> fget u F = Some n -> tidy (forget n).
Proof.
  intros G U H. destruct (fget_top u F n G H) as [D|W]; [|exact W]. apply fget_uid in H. destruct n as [|[|p] nm a k]; [destruct D| |destruct D]. now destruct U.
Qed.
Lemma fget_ttag u F n : ftidy F -> u <> 0 -> fget u F = Some n -> ttag (forget n).
Proof. intros G U H. split; [now apply (fget_tidy u F)|]. apply fget_tag in H. now destruct n. Qed.

(** ** Changing a tag *)

Lemma iat_tidyn u f : (forall n, iuid n = u -> itag n = true -> tidy (forget n) -> tidy (forget (f n))) -> forall n, tidy (forget n) -> tidy (forget (iat u f n)).
Proof.
  intros Hf. induction n as [x|v nm a k IH] using inode_ind'; intros W; [exact W|]. cbn [iat]. destruct (u =? v) eqn:E; [apply N.eqb_eq in E; apply Hf; auto|].
  apply ti_IE in W as (A & B & C). apply ti_IE. split; [exact A|]. split; [exact B|]. rewrite Forall_map in *. rewrite Forall_map. rewrite Forall_forall in *. intros c Hc. apply (IH c Hc). now apply C.
Qed.
Lemma fat_tidy u f F : (forall n, iuid n = u -> itag n = true -> tidy (forget n) -> tidy (forget (f n))) -> (forall n, iuid n = u -> tidy_doc n -> tidy_doc (f n)) -> ftidy F -> ftidy (fat u f F).
Proof.
  intros Hf Hd G. unfold ftidy, fat in *. rewrite Forall_map. apply (Forall_impl _ (P := tidy_top)); [|exact G]. intros n [D|W]; [left|right; now apply iat_tidyn].
  destruct n as [|v nm a k]; [destruct D|]. cbn [iat]. destruct (u =? v) eqn:E; [apply N.eqb_eq in E; now apply Hd|]. destruct v; [|destruct D]. cbn [tidy_doc] in *.
  rewrite Forall_map in *. rewrite Forall_map. rewrite Forall_forall in *. intros c Hc. apply iat_tidyn; [exact Hf|]. now apply D.
Qed.
Lemma with_ikids_tidy u g F : (forall k, all_t k -> all_t (g k)) -> ftidy F -> ftidy (fat u (with_ikids g) F).
Proof.
  intros Hg. apply fat_tidy.
  - intros [|v nm a k] _ Ht W; [discriminate|]. cbn [with_ikids]. apply ti_IE in W as (A & B & C). apply ti_IE. auto.
  - intros [|v nm a k] _ D; [destruct D|]. destruct v; [|destruct D]. cbn [with_ikids tidy_doc] in *. auto.
Qed.
Lemma with_iattrs_tidy u g F : (forall a, clean_attrs a -> clean_attrs (g a)) -> ftidy F -> ftidy (fat u (with_iattrs g) F).
Proof.
  intros Hg. apply fat_tidy.
  - intros [|v nm a k] _ Ht W; [discriminate|]. cbn [with_iattrs]. apply ti_IE in W as (A & B & C). apply ti_IE. auto.
  - intros [|v nm a k] _ D; [destruct D|]. destruct v; [|destruct D]. exact D.
Qed.
Lemma write_tag_tidy F w m : ttag m -> ftidy F -> ftidy (write_tag F w m).
Proof.
  intros [W T]. destruct m as [|nm' a' k']; [discriminate|]. apply tidy_El in W as (A & B & C). assert (L : all_t (fst (label_all (DocModel.fresh F) k'))) by (destruct (label_all_ok k' (DocModel.fresh F)) as (E & _); rewrite E; exact C). unfold write_tag. apply fat_tidy.
  - intros [|v nm a k] _ Ht Wn; [discriminate|]. apply ti_IE. auto.
  - intros [|v nm a k] Hu D; [destruct D|]. destruct v; [|destruct D]. exact L.
Qed.

(** ** Moving tags *)

Lemma kdel_tidy u : forall k, all_t k -> all_t (fdel u k).
Proof.
  assert (G : forall n, tidy (forget n) -> tidy (forget (idel u n))).
  { induction n as [x|v nm a k IH] using inode_ind'; intros W; [exact W|]. cbn [idel]. apply ti_IE in W as (A & B & C). apply ti_IE. split; [exact A|]. split; [exact B|].
    clear A B. induction IH as [|c k Hc _ IHk]; [constructor|]. cbn [map] in C. inversion_clear C as [|? ? C1 C2]. cbn [flat_map]. destruct (is_ u c); cbn [app map]; [now apply IHk|]. constructor; [now apply Hc|now apply IHk]. }
  intros k. induction k as [|c k IH]; intros C; [constructor|]. cbn [map] in C. inversion_clear C as [|? ? C1 C2]. unfold fdel, kdel in *. cbn [flat_map]. destruct (is_ u c); cbn [app map]; [now apply IH|]. constructor; [now apply G|now apply IH].
Qed.
Lemma fdel_tidy u F : ftidy F -> ftidy (fdel u F).
Proof.
  intros G. rewrite fdel_map. unfold ftidy in *. rewrite Forall_map. apply Forall_forall. intros c Hc. apply filter_In in Hc as [Hc _]. rewrite Forall_forall in G. destruct (G c Hc) as [D|W].
  - left. destruct c as [|v nm a k]; [destruct D|]. destruct v; [|destruct D]. cbn [idel tidy_doc] in *. exact (kdel_tidy u k D).
  - right. pose proof (kdel_tidy u [IE 0 [] [] [c]]) as X. assert (Y : all_t [c]) by (constructor; [exact W|constructor]).
    destruct c as [x|v nm a k]; [exact W|]. apply ti_IE in W as (A & B & C). cbn [idel]. apply ti_IE. split; [exact A|]. split; [exact B|]. exact (kdel_tidy u k C).
Qed.
Lemma insert_tidy i n k : tidy (forget n) -> all_t k -> all_t (insert_nth i n k).
Proof.
  intros W K. rewrite Forall_map in *. apply Forall_forall. intros y Hy. apply insert_nth_In in Hy as [->|Hy]; [exact W|]. rewrite Forall_forall in K. now apply K.
Qed.
Lemma put_in_tidy F0 F p i n : ftidy F0 -> ftidy F -> tidy (forget n) -> ftidy (fst (put_in F0 F p i n)).
Proof. intros G0 G W. unfold put_in. destruct (fget p F); [|exact G0]. cbn [fst]. apply with_ikids_tidy; [|exact G]. intros k. now apply insert_tidy. Qed.
Lemma tag_insert_tidy F p i u : ftidy F -> u <> 0 -> ftidy (fst (tag_insert F p i u)).
Proof.
  intros G U. unfold tag_insert. destruct (u =? p); [exact G|]. destruct (fget u F) as [n|] eqn:E; [|exact G]. destruct (fget p F) as [pn|]; [|exact G].
  apply put_in_tidy; [exact G|now apply fdel_tidy|now apply (fget_tidy u F)].
Qed.
Lemma tag_append_tidy F p u : ftidy F -> u <> 0 -> ftidy (fst (tag_append F p u)).
Proof. intros G U. unfold tag_append. destruct (fget p F); [now apply tag_insert_tidy|exact G]. Qed.
Lemma beside_tidy off F b u : ftidy F -> u <> 0 -> ftidy (fst (insert_beside off F b u)).
Proof.
  intros G U. unfold insert_beside. destruct (fparent b F) as [[|p nm a k]|]; try exact G. destruct (u =? b); [exact G|]. destruct (fget u F) as [n|] eqn:E; [|exact G].
  destruct (fget p (fdel u F)) as [pn|]; [|exact G]. destruct (index_of b (ikids pn)); [|exact G]. apply put_in_tidy; [exact G|now apply fdel_tidy|now apply (fget_tidy u F)].
Qed.
Lemma text_after_tidy F b x : ftidy F -> ftidy (fst (insert_text_after F b x)).
Proof.
  intros G. unfold insert_text_after. destruct (fparent b F) as [pn|]; [|exact G]. destruct (index_of b (ikids pn)) as [j|]; [|exact G]. destruct pn; [exact G|]. apply put_in_tidy; [exact G|exact G|exact I].
Qed.
Lemma replace_tidy F o u : ftidy F -> u <> 0 -> ftidy (fst (replace_with F o u)).
Proof.
  intros G U. unfold replace_with. destruct (fparent o F) as [[|p nm a k]|]; try exact G. destruct (o =? u); [exact G|]. destruct (u =? p); [exact G|]. destruct (index_of o k) as [j|]; [|exact G].
  destruct (fget o F) as [n|] eqn:E; [|exact G]. apply tag_insert_tidy; [|exact U]. apply Forall_app. split; [now apply fdel_tidy|]. constructor; [now apply (fget_top o F)|constructor].
Qed.
Lemma andthen_tidy c k : ftidy (fst c) -> (forall F, ftidy F -> ftidy (fst (k F))) -> ftidy (fst (andthen c k)).
Proof. intros G H. destruct c as [F [x|e]]; cbn [andthen fst] in *; [now apply H|exact G]. Qed.

(** ** The calls *)

Lemma append_tidy F kd g l : ftidy F -> l <> 0 -> ftidy (fst (group_append F kd g l)).
Proof.
  intros G L. unfold group_append. assert (X : ftidy (fst (match fget g F with None => (F, Err EUnmodelled) | Some n => match canvas_of kd n with Err e => (F, Err e) | Ok c =>
    match find is_layer (ikids c) with None => tag_append F (iuid c) l | Some a => insert_before F (iuid a) l end end end))); [|destruct kd; [exact X|exact X|exact G] || (destruct kd; try exact X; exact G)].
  destruct (fget g F) as [n|]; [|exact G]. destruct (canvas_of kd n) as [c|]; [|exact G]. destruct (find is_layer (ikids c)); [now apply beside_tidy|now apply tag_append_tidy].
Qed.
Lemma insert_layer_tidy F kd g i l : ftidy F -> l <> 0 -> ftidy (fst (group_insert F kd g i l)).
Proof.
  intros G L. unfold group_insert. destruct kd; try exact G.
  all: destruct (fget g F) as [n|]; [|exact G]; match goal with |- context[group_index ?k ?m ?j] => destruct (group_index k m j) as [b|]; [|exact G] end.
  all: apply andthen_tidy; [now apply text_after_tidy|]; intros F1 G1; apply andthen_tidy; [now apply beside_tidy|]; intros F2 G2; now apply text_after_tidy.
Qed.
Lemma label_tidy u t : ttag t -> tidy_top (fst (label u t)).
Proof. intros [W _]. right. destruct (label_ok t u) as (E & _). now rewrite E. Qed.
Lemma layer_setitem_tidy F u f v : ftidy F -> match v with SValue w _ => w <> 0 | SPlain x => tidy_val x end -> ftidy (fst (layer_setitem F u f v)).
Proof.
  intros G V. unfold layer_setitem. destruct (fget u F) as [n|]; [|exact G]. destruct (layer_getitem n f) as [[old c]|]; [|exact G]. destruct v as [w c'|v].
  - destruct (inst c c'); [now apply replace_tidy|exact G].
  - destruct (new_value c v) as [t|] eqn:E; [|exact G]. pose proof (new_value_tidy c v t V E) as Gt. cbv zeta. apply replace_tidy; [|rewrite label_iuid; [apply fresh_pos|apply Gt]].
    apply Forall_app. split; [exact G|]. constructor; [now apply label_tidy|constructor].
Qed.
Lemma param_get_tidy F n k v c : tidy (forget n) -> param_get F n k = Ok (v, c) -> ttag (forget v).
Proof.
  intros W H. unfold param_get in H. destruct (ifind (is_param k) n) as [p|] eqn:Ep; [|discriminate]. apply ifind_In in Ep. pose proof (tidy_desc n W p Ep) as Wp.
  destruct (filter itag (ikids p)) as [|x [|]] eqn:Ef; try discriminate. apply bind_ok in H as (c' & _ & H). injection H as <- _. assert (Hx : In x (filter itag (ikids p))) by (rewrite Ef; now left).
  apply filter_In in Hx as [Hx Ht]. split; [|destruct x; [discriminate|reflexivity]]. destruct p as [|v' nm a ks]; [destruct Hx|]. apply ti_IE in Wp as (_ & _ & C). rewrite Forall_map, Forall_forall in C. now apply C.
Qed.
Lemma param_set_tidy F n k v : ftidy F -> tidy (forget n) -> tidy_val v -> ftidy (fst (param_set F n k v)).
Proof.
  intros G W V. unfold param_set. destruct (param_get F n k) as [[w c]|] eqn:E; [|exact G]. pose proof (set_value_tidy c (forget w) v (param_get_tidy F n k w c W E) V) as S.
  destruct (set_value c (forget w) v) as [m r]. cbn [fst] in *. now apply write_tag_tidy.
Qed.
Lemma attr_set_tidy F u k r : ftidy F -> ~ In k [s "type"; s "name"] -> (forall v, r = Ok v -> one_line (aval_str v)) -> ftidy (fst (attr_set F u k r)).
Proof.
  intros G K R. unfold attr_set. destruct r as [v|]; [|exact G]. cbn [fst]. apply with_iattrs_tidy; [|exact G]. intros a [A B]. split; [now apply aset_nodup|]. apply aset_Forall; [exact B|]. split; [now apply R|intros X; now destruct K].
Qed.
Lemma adel_tidy k a : clean_attrs a -> clean_attrs (adel k a).
Proof.
  intros [A B]. assert (S : forall x, In x (adel k a) -> In x a).
  { clear. induction a as [|[k' v'] a IH]; intros x H; [destruct H|]. cbn [adel] in H. destruct (pstr_eqb k k'); [now right|]. destruct H as [<-|H]; [now left|right; now apply IH]. }
  split; [|apply Forall_forall; intros x Hx; rewrite Forall_forall in B; apply B, S, Hx]. clear B. induction a as [|[k' v'] a IH]; [constructor|]. cbn [adel]. inversion_clear A as [|? ? A1 A2]. destruct (pstr_eqb k k'); [exact A2|].
  cbn [map]. constructor; [|apply IH; [exact A2|]]. 
  - intros H. apply A1. cbn [fst] in *. apply in_map_iff in H as (x & E & Hx). rewrite <- E. apply in_map. clear -Hx. induction a as [|[k2 v2] a IH]; [destruct Hx|]. cbn [adel] in Hx. destruct (pstr_eqb k k2); [now right|]. destruct Hx as [<-|Hx]; [now left|right; now apply IH].
  - intros x Hx. clear -Hx. induction a as [|[k2 v2] a IH]; [destruct Hx|]. cbn [adel] in Hx. destruct (pstr_eqb k k2); [now right|]. destruct Hx as [<-|Hx]; [now left|right; now apply IH].
Qed.
Lemma str_aval_tidy v a : line_of v -> (let* x := py_str v in Ok (AStr x)) = Ok a -> one_line (aval_str a).
Proof. intros V H. apply bind_ok in H as (x & E & H). injection H as <-. now apply V. Qed.
Lemma float_aval_tidy v a : (let* q := py_float v in Ok (AFlo q)) = Ok a -> one_line (aval_str a).
Proof. intros H. apply bind_ok in H as (x & E & H). injection H as <-. cbn [aval_str]. apply num_line, repr_float_num. Qed.
Lemma bool_aval_tidy v a : bool_aval v = Ok a -> one_line (aval_str a).
Proof. unfold bool_aval. intros H. apply bind_ok in H as (x & E & H). injection H as <-. destruct x; bx. Qed.

(** ** Fields *)

Lemma name_line x : good_name x -> one_line x.
Proof. intros [_ H]. apply (Forall_impl _ (P := fun c => xml_char c = true /\ name_char c = true)); [|exact H]. intros c [X Y]. unfold name_char, space, xml_char in *. cbn [existsb] in Y. lia. Qed.
Ltac nx := intros [X|[X|[]]]; discriminate X.

Lemma field_set_tidy F u n c k v : ftidy F -> In c layer_classes -> tidy (forget n) -> tidy_val v -> (k = s "desc" -> line_of v) -> ftidy (fst (field_set F u n c k v)).
Proof.
  intros G Hc W V L. unfold field_set. destruct (aget k (all_fields c)) as [[ty d| |up]|] eqn:E.
  - now apply param_set_tidy.
  - exact G.
  - apply param_set_tidy; [exact G|exact W|]. apply tidy_dict. constructor; [split; [apply name_line; now apply (field_names c k (FShort up))|exact V]|constructor].
  - clear E. destruct (pstr_eqb k (s "type_")); [exact G|]. destruct (pstr_eqb k (s "version")) eqn:E1; [apply pstr_eqb_spec in E1 as ->; apply attr_set_tidy; [exact G|nx|apply float_aval_tidy]|].
    destruct (_ || _) eqn:E2; [apply attr_set_tidy; [exact G|apply orb_true_iff in E2 as [E2|E2]; apply pstr_eqb_spec in E2 as ->; nx|apply bool_aval_tidy]|].
    destruct (pstr_eqb k (s "desc")) eqn:E3; [|repeat match goal with |- context[if ?b then _ else _] => destruct b end; exact G]. apply pstr_eqb_spec in E3 as ->. destruct (is_none v); [cbn [fst]; apply with_iattrs_tidy; [apply adel_tidy|exact G]|].
    apply attr_set_tidy; [exact G|nx|]. intros a. apply str_aval_tidy. now apply L.
Qed.
Lemma set_conv_tidy ty v a : line_of v -> set_conv ty v = Ok a -> one_line (aval_str a).
Proof.
  intros V H. destruct ty; cbn [set_conv] in H; [now apply (str_aval_tidy v)|now apply (bool_aval_tidy v)|now apply (float_aval_tidy v)|]. apply bind_ok in H as (z & _ & H). injection H as <-. cbn [aval_str]. apply num_line, PyFmtProofs.dec_Z_num.
Qed.
Lemma anim_names k f : aget k anim_attrs = Some f -> ~ In k [s "type"; s "name"; s "desc"].
Proof.
  intros H. assert (C : forallb (fun kf => negb (existsb (pstr_eqb (fst kf)) [s "type"; s "name"; s "desc"])) anim_attrs = true) by (vm_compute; reflexivity). rewrite forallb_forall in C. apply aget_In in H. specialize (C _ H). cbn [fst] in C.
  intros I. apply negb_true_iff in C. assert (X : existsb (pstr_eqb k) [s "type"; s "name"; s "desc"] = true) by (apply existsb_exists; exists k; split; [exact I|apply pstr_eqb_refl]). congruence.
Qed.
Lemma anim_set_tidy F n k v : ftidy F -> tidy (forget n) -> tidy_val v -> (k <> s "desc" -> line_of v) -> ftidy (fst (anim_set F n k v)).
Proof.
  intros G W V L. unfold anim_set. destruct (aget k anim_attrs) as [[ty d]|] eqn:E.
  { apply anim_names in E. apply attr_set_tidy; [exact G|intros [X|[X|[]]]; apply E; cbn [In]; tauto|]. intros a. apply set_conv_tidy, L. intros X. apply E. cbn [In]. right; right; left. now symmetry. }
  clear E.
  destruct (pstr_eqb k (s "end_time")) eqn:E1; [apply pstr_eqb_spec in E1 as ->; apply attr_set_tidy; [exact G|nx|intros a; apply (set_conv_tidy TStrA), L; discriminate]|].
  destruct (existsb _ _); [exact G|]. destruct (existsb _ _); [exact G|]. destruct (pstr_eqb k (s "desc")) eqn:Ed.
  - destruct (ifind (named (s "desc")) n) as [t|]; [|exact G]. destruct v; try exact G. cbn [fst]. unfold set_string. apply with_ikids_tidy; [|exact G]. intros _ _. constructor; [exact I|constructor].
  - apply field_set_tidy; [exact G|apply group_known|exact W|exact V|]. intros ->. now rewrite pstr_eqb_refl in Ed.
Qed.

(** ** New layers *)

Fixpoint tidyb (n : node) : bool :=
  match n with
  | Txt x => true
  | El nm a k => forallb (fun c => 32 <=? c) nm && nodupb (map fst a) && forallb (fun kv => forallb (fun c => 32 <=? c) (aval_str (snd kv)) && match snd kv with AStr _ => true | _ => negb (existsb (pstr_eqb (fst kv)) [s "type"; s "name"]) end) a && forallb tidyb k
  end.
Lemma tidyb_ok n : tidyb n = true -> tidy n.
Proof.
  induction n as [x|nm a k IH] using node_ind'; intros H; [exact I|]. cbn [tidyb] in H. apply andb_true_iff in H as [H D]. apply andb_true_iff in H as [H C]. apply andb_true_iff in H as [A B].
  apply tidy_El. split; [now apply line_check|]. split.
  - split; [now apply nodupb_ok|]. apply Forall_forall. intros kv Hk. rewrite forallb_forall in C. specialize (C kv Hk). apply andb_true_iff in C as [C1 C2]. split; [now apply line_check|]. intros I.
    assert (X : existsb (pstr_eqb (fst kv)) [s "type"; s "name"] = true) by (apply existsb_exists; exists (fst kv); split; [exact I|apply pstr_eqb_refl]). rewrite X in C2. destruct (snd kv) as [y| | |]; try discriminate. now exists y.
  - rewrite forallb_forall in D. rewrite Forall_forall in *. intros c Hc. apply IH; [exact Hc|now apply D].
Qed.
Lemma new_tag_tidy c t : In c layer_classes -> new_tag c = Ok t -> ttag t.
Proof.
  intros Hc H. split; [|unfold new_tag in H; apply bind_ok in H as (l & _ & H); injection H as <-; reflexivity].
  assert (C : forallb (fun c => match new_tag c with Ok t => tidyb t | Err _ => true end) layer_classes = true) by (vm_compute; reflexivity).
  rewrite forallb_forall in C. specialize (C c Hc). rewrite H in C. now apply tidyb_ok.
Qed.
Lemma new_layer_tidy F c : In c layer_classes -> ftidy F -> ftidy (fst (new_layer F c)) /\ (forall u, snd (new_layer F c) = Ok u -> u <> 0).
Proof.
  intros Hc G. unfold new_layer. destruct (new_tag c) as [t|] eqn:E; [|split; [exact G|discriminate]]. cbn [fst snd]. split.
  - apply Forall_app. split; [exact G|]. constructor; [|constructor]. apply label_tidy. now apply (new_tag_tidy c).
  - intros u H. injection H as <-. apply fresh_pos.
Qed.
Lemma new_text_tidy F x : ftidy F -> ftidy (fst (new_text F x)).
Proof.
  intros G. unfold new_text. destruct (new_layer_tidy F cls_Text text_known G) as [A B]. destruct (new_layer F cls_Text) as [F1 [u|]]; cbn [fst snd] in *; [|exact A].
  destruct (fget u F1) as [n|] eqn:E; [|exact A]. assert (S : ftidy (fst (field_set F1 u n cls_Text (s "text") (PStr x)))) by (apply field_set_tidy; [exact A|apply text_known|apply (fget_tidy u F1); auto|exact I|discriminate]).
  destruct (field_set F1 u n cls_Text (s "text") (PStr x)) as [F2 r]. exact S.
Qed.

(** ** Histories *)

Lemma apply_tidy F e : ftidy F -> meant e -> tidy_edit e -> ftidy (fst (apply_edit F e)).
Proof.
  intros G M H. destruct e as [c|x|u f v|u c k v|u k v|kd g l|kd g i l|w c e]; cbn [apply_edit tidy_edit meant] in *; unfold on_tag.
  - exact (proj1 (new_layer_tidy F c M G)).
  - now apply new_text_tidy.
  - destruct v; destruct M; apply layer_setitem_tidy; auto; lia.
  - destruct M as (A & B). destruct (fget u F) as [n|] eqn:E; [|exact G]. destruct H. apply field_set_tidy; auto. now apply (fget_tidy u F).
  - destruct (fget u F) as [n|] eqn:E; [|exact G]. destruct H. apply anim_set_tidy; auto. now apply (fget_tidy u F).
  - apply append_tidy; [exact G|lia].
  - apply insert_layer_tidy; [exact G|lia].
  - assert (A : w <> 0) by lia. destruct (fget w F) as [n|] eqn:E; [|exact G]. match goal with |- context[vapply c (forget n) ?cx ?p e] => pose proof (vapply_tidy c (forget n) cx p e (fget_ttag w F n G A E) H) as V; destruct (vapply c (forget n) cx p e) as [m r] end.
    cbn [fst] in *. now apply write_tag_tidy.
Qed.
Lemma edits_tidy l : forall F, ftidy F -> Forall meant l -> Forall tidy_edit l -> ftidy (edits F l).
Proof. induction l as [|e l IH]; intros F G M H; [exact G|]. inversion_clear H. inversion_clear M. cbn [edits fold_left]. apply IH; [now apply apply_tidy|assumption|assumption]. Qed.
Lemma doc_tidy n : tidy n -> ftidy (doc_forest n).
Proof.
  intros W. constructor; [|constructor]. left. rewrite label_El. cbn [fst tidy_doc]. destruct (label_all_ok [n] (N.succ 0)) as (E & _). rewrite E. constructor; [exact W|constructor].
Qed.
