(** Proofs about the table of layer classes (ClsTable.v) and new layers. *)
From Verif Require Import LayModel DocProofs DocProofs2 LaySpec LayProofs5 LayProofs7 TlProofs2.
From Coq Require Import Lia.

(** ** Lookups don't depend on the identities *)

Lemma desc_forget (n : inode) : descendants (forget n) = map forget (idesc n).
Proof.
  revert n. fix IH 1. intros [x|u nm a k]; [reflexivity|].
  cbn [forget descendants idesc]. induction k as [|c k IHk]; [reflexivity|].
  cbn [map flat_map]. rewrite map_app, IHk. f_equal. specialize (IH c).
  destruct c as [x|v nm' a' k']; [reflexivity|]. cbn [map]. rewrite <- IH. reflexivity.
Qed.

Lemma hd_filter_map {A B} (f : A -> B) p q l : (forall x, In x l -> q (f x) = p x) ->
  hd_error (filter q (map f l)) = option_map f (hd_error (filter p l)).
Proof.
  induction l as [|x l IH]; intros H; [reflexivity|]. cbn [map filter]. rewrite (H x) by now left.
  destruct (p x); [reflexivity|]. apply IH. intros y Hy. apply H. now right.
Qed.

Lemma idesc_tag n x : In x (idesc n) -> itag x = true.
Proof.
  revert n x. fix IH 1. intros [y|u nm a k] x; [contradiction|]. cbn [idesc].
  induction k as [|c k IHk]; [contradiction|]. cbn [flat_map]. rewrite in_app_iff. intros [H|H]; [|auto]. specialize (IH c x).
  destruct c as [y|v nm' a' k']; [contradiction|]. destruct H as [<-|H]; [reflexivity|]. exact (IH H).
Qed.

Lemma find_forget f n : find_first (has_name_attr (s "param") f) (forget n) = option_map forget (ifind (is_param f) n).
Proof.
  unfold find_first, find_all, ifind, ifind_all. rewrite desc_forget. apply hd_filter_map.
  intros x Hx. apply idesc_tag in Hx. destruct x; [discriminate|reflexivity].
Qed.

Lemma filter_forget l : filter is_tag (map forget l) = map forget (filter itag l).
Proof. induction l as [|[x|u nm a k] l IH]; cbn [map forget filter is_tag itag]; [reflexivity|exact IH|now rewrite IH]. Qed.

(** [layer[k]] on a tree without identities *)
Definition nget (t : node) (k : pstr) : res (node * vcls) :=
  match find_first (has_name_attr (s "param") k) t with
  | None => Err KeyError
  | Some p => match aget (s "name") (tag_attrs p), child_tags p with
              | Some _, [v] => let* c := from_tag v in Ok (v, c)
              | _, _ => Err AttributeError
              end
  end.

Lemma getitem_forget n k m c : nget (forget n) k = Ok (m, c) ->
  exists w, layer_getitem n k = Ok (w, c) /\ forget w = m /\ forall F, param_get F n k = Ok (w, c).
Proof.
  unfold nget, layer_getitem, param_get. rewrite find_forget. destruct (ifind (is_param k) n) as [p|] eqn:Ep; [|discriminate].
  cbn [option_map]. assert (Hp : itag p = true).
  { unfold ifind, ifind_all in Ep. apply (idesc_tag n). destruct (filter (is_param k) (idesc n)) as [|x l] eqn:E; [discriminate|].
    injection Ep as ->. eapply (proj1 (filter_In _ _ _)). rewrite E. now left. }
  destruct p as [|u nm a kk]; [discriminate|]. unfold child_tags, value_of. cbn [forget tag_attrs tag_kids iattrs ikids].
  rewrite filter_forget. destruct (aget (s "name") a); [|discriminate].
  destruct (filter itag kk) as [|w [|]]; try discriminate. cbn [map]. destruct (from_tag (forget w)); [|discriminate].
  cbn [bind]. intros [= <- <-]. eauto.
Qed.

Lemma class_forget n : itag n = true -> layer_class n = match aget (s "type") (tag_attrs (forget n)) with Some (AStr x) => from_name layer_registry x | _ => Err AttributeError end.
Proof. destruct n; [discriminate|reflexivity]. Qed.

Lemma names_forget n : itag n = true ->
  param_names n = map (fun p => aget (s "name") (tag_attrs p)) (filter (fun p => is_tag p && has_name (s "param") p) (tag_kids (forget n))).
Proof.
  destruct n as [|u nm a k]; [discriminate|]. intros _. unfold param_names. cbn [forget tag_kids ikids].
  induction k as [|c k IH]; [reflexivity|]. cbn [map filter]. destruct c as [x|v nm' a' k']; [exact IH|].
  unfold named at 1. cbn [itag forget is_tag has_name tag_name iname andb]. destruct (pstr_eqb nm' (s "param")) eqn:E; unfold has_name; cbn [tag_name]; rewrite E; [cbn [map]; now rewrite IH|exact IH].
Qed.

(** ** Equality of trees, for computing. Floats and times are never said to be equal. *)
Definition aval_same (x y : aval) : bool :=
  match x, y with AStr a, AStr b => pstr_eqb a b | AInt a, AInt b => Z.eqb a b | _, _ => false end.
Definition all2 {A} (e : A -> A -> bool) : list A -> list A -> bool :=
  fix go l m := match l, m with [], [] => true | x :: l', y :: m' => e x y && go l' m' | _, _ => false end.
Fixpoint node_same (a b : node) : bool :=
  match a, b with
  | Txt x, Txt y => pstr_eqb x y
  | El x a k, El y b j => pstr_eqb x y && all2 (fun p q => pstr_eqb (fst p) (fst q) && aval_same (snd p) (snd q)) a b && all2 node_same k j
  | _, _ => false
  end.
Lemma all2_eq {A} (e : A -> A -> bool) l : Forall (fun x => forall y, e x y = true -> x = y) l -> forall m, all2 e l m = true -> l = m.
Proof.
  intros H. induction H as [|x l Hx H IH]; intros [|y m]; try discriminate; [reflexivity|]. cbn [all2]. intros E.
  apply andb_prop in E as [A1 A2]. f_equal; auto.
Qed.
Lemma aval_same_eq x y : aval_same x y = true -> x = y.
Proof. destruct x, y; try discriminate; cbn [aval_same]; intros E; f_equal; [now apply pstr_eqb_spec|now apply Z.eqb_eq]. Qed.
Lemma node_same_eq a : forall b, node_same a b = true -> a = b.
Proof.
  induction a as [x|nm a k IH] using node_ind'; intros [y|nm' b j]; try discriminate; cbn [node_same]; intros E.
  - f_equal. now apply pstr_eqb_spec.
  - apply andb_prop in E as [E E3]. apply andb_prop in E as [E1 E2]. apply pstr_eqb_spec in E1. subst nm'. f_equal.
    + revert E2. apply all2_eq. apply Forall_forall. intros [p v] _ [q w]. cbn [fst snd]. intros E. apply andb_prop in E as [A1 A2].
      apply pstr_eqb_spec in A1. apply aval_same_eq in A2. now subst.
    + revert E3. now apply all2_eq.
Qed.

(** ** Every class *)

(** What is checked of each field of each class *)
Definition field_ok (t : node) (f : pstr * lfield) : bool :=
  match snd f with
  | FParam VBlendMethod d =>
      match nget t (fst f) with
      | Ok (m, VInteger) => match value_eq VInteger m None d with Ok b => b | _ => false end
      | _ => false
      end
  | FParam ty d =>
      match nget t (fst f) with
      | Ok (m, c') =>
          vcls_eqb c' ty &&
          match ty with
          | VReal | VInteger | VBool | VAngle | VString | VColor => match value_eq ty m None d with Ok b => b | _ => false end
          | VTime => match py_str d with Ok x => node_same m (El (s "time") [(s "value", AStr x)] []) | _ => false end
          | _ => match new_value ty d with Ok m' => node_same m m' | _ => false end
          end
      | _ => false
      end
  | _ => true
  end.
Definition class_ok (c : lcls) : bool :=
  pstr_eqb (c_name c) (s "Halftone3") ||
  match new_tag c with
  | Ok t => forallb (field_ok t) (all_fields c)
  | _ => false
  end.
Lemma classes_ok : forallb class_ok layer_classes = true.
Proof. vm_compute. reflexivity. Qed.

Lemma classes_resolve : Forall (fun c => from_name layer_registry (lower (c_name c)) = Ok c) layer_classes.
Proof. unfold layer_classes. repeat (apply Forall_cons; [vm_compute; reflexivity|]). apply Forall_nil. Qed.

Fixpoint nodupb (l : list pstr) : bool :=
  match l with [] => true | x :: l' => negb (existsb (pstr_eqb x) l') && nodupb l' end.
Lemma nodupb_ok l : nodupb l = true -> NoDup l.
Proof.
  induction l as [|x l IH]; cbn [nodupb]; intros H; [constructor|]. apply andb_prop in H as [A B]. constructor; [|auto].
  intros Hx. apply negb_true_iff in A. rewrite (proj2 (existsb_exists _ _)) in A; [discriminate|]. exists x. split; [auto|apply pstr_eqb_refl].
Qed.
Lemma classes_declared : forallb (fun c => nodupb (map fst (all_fields c))) layer_classes = true.
Proof. vm_compute. reflexivity. Qed.

Lemma nodup_declared (l : list (pstr * lfield)) : NoDup (map fst l) ->
  NoDup (flat_map (fun f => match snd f with FParam _ _ => [fst f] | _ => [] end) l).
Proof.
  induction l as [|f l IH]; cbn [map flat_map]; intros H; [constructor|]. inversion H as [|? ? A B]; subst.
  destruct (snd f); cbn [app]; auto. constructor; [|auto]. intros Hi. apply A. apply in_flat_map in Hi as (g & Hg & Hi).
  destruct (snd g); try contradiction. destruct Hi as [<-|[]]. now apply in_map.
Qed.

Definition pnames (l : list node) : list (option aval) :=
  map (fun p => aget (s "name") (tag_attrs p)) (filter (fun p => is_tag p && has_name (s "param") p) l).

Lemma names_default (l : list (pstr * lfield)) : forall k, mapM default_param l = Ok k ->
  pnames (concat k) = map (fun x => Some (AStr x)) (flat_map (fun f => match snd f with FParam _ _ => [fst f] | _ => [] end) l).
Proof.
  induction l as [|f l IH]; intros k H.
  - injection H as <-. reflexivity.
  - cbn [mapM] in H. destruct (default_param f) as [x|] eqn:E; [|discriminate]. cbn [bind] in H.
    destruct (mapM default_param l) as [y|] eqn:E'; [|discriminate]. cbn [bind] in H. injection H as <-.
    cbn [concat flat_map]. unfold pnames in *. rewrite filter_app, !map_app, (IH y eq_refl). f_equal.
    unfold default_param in E. destruct (snd f) as [ty d| |].
    + match type of E with (let* v := ?r in _) = _ => destruct r; [|discriminate] end. cbn [bind] in E. injection E as <-. reflexivity.
    + injection E as <-. reflexivity.
    + injection E as <-. reflexivity.
Qed.

(** ** New layers *)

Lemma nodup_both {A} (l m : list A) : NoDup l -> NoDup m -> (forall x, In x m -> ~ In x l) -> NoDup (l ++ m).
Proof.
  induction l as [|x l IH]; intros Hl Hm H; [exact Hm|]. inversion Hl as [|? ? A1 A2]; subst. cbn [app]. constructor.
  - rewrite in_app_iff. intros [Hx|Hx]; [auto|]. apply (H x Hx). now left.
  - apply IH; auto. intros y Hy Hy'. apply (H y Hy). now right.
Qed.

Lemma new_layer_is F c t : wf F -> new_tag c = Ok t ->
  exists n, new_layer F c = (F ++ [n], Ok (iuid n)) /\ forget n = t /\ itag n = true /\ wf (F ++ [n]) /\ fget (iuid n) (F ++ [n]) = Some n /\
    (forall x, In x (uids n) -> ~ In x (fuids F)).
Proof.
  intros W E. unfold new_layer. rewrite E.
  assert (Ht : is_tag t = true).
  { unfold new_tag in E. destruct (mapM default_param (all_fields c)); [|discriminate]. cbn [bind] in E. now injection E as <-. }
  pose proof (label_ok t (fresh F)) as (Hf & _ & Hn & _ & Hi & Hu). pose proof (label_fresh F t) as Hb.
  rewrite Ht in Hi. specialize (Hu Ht). remember (fst (label (fresh F) t)) as n eqn:En. clear En. exists n. rewrite Hu.
  split; [reflexivity|]. split; [exact Hf|]. split; [exact Hi|].
  assert (W' : wf (F ++ [n])).
  { unfold wf, fuids. rewrite flat_map_app. cbn [flat_map]. rewrite app_nil_r. now apply nodup_both. }
  split; [exact W'|]. split; [|exact Hb].
  rewrite <- Hu. apply fget_desc; [exact W'|]. rewrite fdesc_app, in_app_iff. right. rewrite fdesc_one by exact Hi. now left.
Qed.

Definition own_type_of (ty : vcls) : vcls := match ty with VBlendMethod => VInteger | _ => ty end.

Lemma new_layer_ok F c : wf F -> In c layer_classes -> c_name c <> s "Halftone3" ->
  exists n, new_layer F c = (F ++ [n], Ok (iuid n)) /\ wf (F ++ [n]) /\ fget (iuid n) (F ++ [n]) = Some n /\
    layer_class n = Ok c /\ NoDup (declared c) /\ param_names n = map (fun k => Some (AStr k)) (declared c) /\
    forall k ty d, In (k, FParam ty d) (all_fields c) ->
      aget k (all_fields c) = Some (FParam ty d) /\
      exists w, layer_getitem n k = Ok (w, own_type_of ty) /\ (forall G, param_get G n k = Ok (w, own_type_of ty)) /\
        match ty with VBlendMethod => value_eq VInteger (forget w) None d = Ok true | _ => default_kept ty d (forget w) end.
Proof.
  intros W Hc Hh. pose proof (proj1 (forallb_forall _ _) classes_ok c Hc) as Hk. unfold class_ok in Hk.
  apply orb_prop in Hk as [Hk|Hk]; [now apply pstr_eqb_spec in Hk|].
  destruct (new_tag c) as [t|] eqn:Et; [|discriminate].
  destruct (new_layer_is F c t W Et) as (n & En & Hf & Hi & W' & Hg & _). exists n.
  pose proof (nodupb_ok _ (proj1 (forallb_forall _ _) classes_declared c Hc)) as Hnd.
  split; [exact En|]. split; [exact W'|]. split; [exact Hg|]. split; [|split; [now apply nodup_declared|split]].
  - rewrite (class_forget n Hi), Hf. unfold new_tag in Et. destruct (mapM default_param (all_fields c)); [|discriminate]. cbn [bind] in Et.
    injection Et as <-. cbn [tag_attrs]. change (aget (s "type") _) with (Some (AStr (lower (c_name c)))).
    exact (proj1 (Forall_forall _ _) classes_resolve c Hc).
  - rewrite (names_forget n Hi), Hf. unfold new_tag in Et. destruct (mapM default_param (all_fields c)) as [l|] eqn:E; [|discriminate].
    cbn [bind] in Et. injection Et as <-. cbn [tag_kids]. exact (names_default _ _ E).
  - intros k ty d Hin. split; [now apply In_aget|].
    pose proof (proj1 (forallb_forall _ _) Hk _ Hin) as Hx. unfold field_ok in Hx. cbn [fst snd] in Hx.
    rewrite <- Hf in Hx.
    destruct (nget (forget n) k) as [[m c']|] eqn:Em; [|destruct ty; discriminate Hx].
    destruct (getitem_forget n k m c' Em) as (w & G1 & G2 & G3). subst m. exists w.
    assert (Hty : c' = own_type_of ty).
    { destruct ty; try (apply andb_prop in Hx as [Hx _]; now apply vcls_eqb_eq in Hx). destruct c'; try discriminate. reflexivity. }
    subst c'. split; [exact G1|]. split; [exact G3|].
    destruct ty; cbn [own_type_of] in Hx; try apply andb_prop in Hx as [_ Hx]; unfold default_kept; cbn [existsb simple_types vcls_eqb orb];
      try (match type of Hx with match ?r with _ => _ end = true => destruct r as [[]|]; try discriminate; reflexivity end);
      try (destruct (new_value _ d); [|discriminate]; apply node_same_eq in Hx; now rewrite Hx).
    destruct (py_str d) as [x|]; [|discriminate]. apply node_same_eq in Hx. eauto.
Qed.

(** ** The rest of find_all *)

Lemma filterM_all {A} (f : A -> res bool) (g : A -> bool) l : (forall x, In x l -> f x = Ok (g x)) -> filterM f l = Ok (filter g l).
Proof.
  induction l as [|x l IH]; intros H; [reflexivity|]. cbn [filterM filter]. rewrite (H x) by now left. cbn [bind].
  rewrite IH by (intros y Hy; apply H; now right). cbn [bind]. now destruct (g x).
Qed.
Lemma mapM_id {A} (f : A -> res A) l : (forall x, In x l -> f x = Ok x) -> mapM f l = Ok l.
Proof.
  induction l as [|x l IH]; intros H; [reflexivity|]. cbn [mapM]. rewrite (H x) by now left. cbn [bind].
  rewrite IH by (intros y Hy; apply H; now right). reflexivity.
Qed.

Lemma find_fun st F n (rec : bool) f : all_known (if rec then idesc n else filter itag (ikids n)) ->
  layer_find_all st F n [PaFun f] rec [] None =
  Ok (filter (fun y => is_layer y && f y) (if rec then idesc n else filter itag (ikids n))).
Proof.
  intros HK. unfold layer_find_all. cbn [criterion_of with_positional bind mapM fst snd].
  unfold all_known in HK. rewrite Forall_forall in HK.
  rewrite (filterM_all _ (fun y => is_layer y && f y)).
  - cbn [bind]. apply mapM_id. intros x Hx. apply filter_In in Hx as [Hx Hl]. apply andb_prop in Hl as [Hl _].
    destruct (HK x Hx Hl) as [c Hc]. unfold as_layer. now rewrite Hc.
  - intros x Hx. unfold matches. destruct (is_layer x) eqn:E; [|reflexivity]. destruct (HK x Hx E) as [c Hc]. now rewrite Hc.
Qed.

Lemma registry_names : forallb (fun kc => pstr_eqb (fst kc) (normalise (c_name (snd kc)))) layer_registry = true.
Proof. vm_compute. reflexivity. Qed.
Lemma aget_In_any {V} k (l : list (pstr * V)) v : aget k l = Some v -> In (k, v) l.
Proof. apply aget_In. Qed.
Lemma class_name_type t c : from_name layer_registry t = Ok c -> normalise t = normalise (c_name c).
Proof.
  unfold from_name. destruct (aget (normalise t) layer_registry) as [c'|] eqn:E; [|discriminate]. intros [= ->].
  apply aget_In in E. pose proof (proj1 (forallb_forall _ _) registry_names _ E) as H. now apply pstr_eqb_spec in H.
Qed.
Lemma classes_by_name : Forall (fun c => from_name layer_registry (normalise (c_name c)) = Ok c) layer_classes.
Proof. unfold layer_classes. repeat (apply Forall_cons; [vm_compute; reflexivity|]). apply Forall_nil. Qed.

Lemma find_class_name st F n c rec : layer_find_all st F n [PaCls c] rec [] None = layer_find_all st F n [PaStr (c_name c)] rec [] None.
Proof. reflexivity. Qed.

Lemma find_class st F n c : In c layer_classes -> own_type c = false ->
  (forall z, In z (idesc n) -> is_param (s "type_") z = false) ->
  (forall y, In y (idesc n) -> is_layer y = true -> exists t, type_is y t /\ normalise t = t /\ known y) ->
  exists l, layer_find_all st F n [PaCls c] true [] None = Ok l /\
    forall y, In y l <-> In y (idesc n) /\ is_layer y = true /\ layer_class y = Ok c.
Proof.
  intros Hc Ho Hp Ht. rewrite find_class_name. destruct (find_type_exact st F n (c_name c)) as (l & El & Hl); [|exact Hp|].
  { apply Forall_forall. intros x Hx Hlx. destruct (Ht x Hx Hlx) as (t & _ & _ & Hk). exact Hk. }
  exists l. split; [exact El|]. intros y. rewrite Hl. clear Hl El. split.
  - intros (A & B & C & c' & D & G). split; [exact A|]. split; [exact B|].
    unfold layer_class in *. unfold type_is in C. rewrite C in *. exact (proj1 (Forall_forall _ _) classes_by_name c Hc).
  - intros (A & B & C). split; [exact A|]. split; [exact B|]. split; [|eauto].
    destruct (Ht y A B) as (t & H1 & H2 & _). unfold type_is in *. unfold layer_class in C. rewrite H1 in *. do 2 f_equal.
    rewrite <- H2. now apply class_name_type.
Qed.

(** ** Text(...) *)

Lemma string_default : forall t, new_tag cls_Text = Ok t -> nget t (s "text") = Ok (El (s "string") [] [Txt (s "Hello wombat!")], VString).
Proof. intros t H. vm_compute in H. injection H as <-. vm_compute. reflexivity. Qed.

Lemma new_text_ok F x : wf F ->
  exists F' n, new_text F x = (F', Ok (iuid n)) /\ wf F' /\ fget (iuid n) F' = Some n /\ layer_class n = Ok cls_Text /\
    forall st, exists m cx, field_get st F' n cls_Text (s "text") = Ok (PVal VString m cx) /\ string_val m = x.
Proof.
  intros W. unfold new_text. destruct (new_tag cls_Text) as [t|] eqn:Et; [|vm_compute in Et; discriminate].
  destruct (new_layer_is F cls_Text t W Et) as (n & En & Hf & Hi & W' & Hg & _). rewrite En, Hg.
  pose proof (string_default t Et) as Hs. rewrite <- Hf in Hs. destruct (getitem_forget n _ _ _ Hs) as (w & _ & Hw & Hp).
  change (field_set (F ++ [n]) (iuid n) n cls_Text (s "text") (PStr x)) with (param_set (F ++ [n]) n (s "text") (PStr x)).
  set (m := El (s "string") [] [Txt x]).
  assert (Hset : set_value VString (forget w) (PStr x) = (m, Ok tt)) by (rewrite Hw; reflexivity).
  destruct (set_field (F ++ [n]) (iuid n) n (s "text") (PStr x) w VString m (Ok tt) W' Hg (Hp _) Hset) as (w' & Hu & Hm & E & W2 & n' & G1 & _ & G2 & _ & G3).
  exists (fput (iuid w) w' (F ++ [n])), n'. rewrite E. cbn [bind].
  destruct (fget_In _ _ _ G1) as (_ & Hun & Hit). rewrite Hun. split; [reflexivity|]. split; [exact W2|]. split; [exact G1|]. split.
  - unfold layer_class. rewrite G2. assert (Ha : iattrs n = tag_attrs t) by (rewrite <- Hf; now destruct n). rewrite Ha.
    assert (Ht : aget (s "type") (tag_attrs t) = Some (AStr (s "text"))) by (vm_compute in Et; injection Et as <-; reflexivity). rewrite Ht.
    vm_compute. reflexivity.
  - intros st. exists m, (ctx_of (fput (iuid w) w' (F ++ [n])) (iuid w')). split; [|reflexivity].
    change (field_get st ?G n' cls_Text (s "text")) with (param_field G n' (s "text") VString).
    unfold param_field. rewrite (G3 eq_refl) by (cbn; tauto). cbn [bind snd inst vcls_eqb orb]. unfold as_value. cbn [fst snd]. now rewrite Hm.
Qed.
