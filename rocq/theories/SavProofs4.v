(** Solid values read the same after saving and loading. *)
From Coq Require Import Lia.
From Verif Require Import ValModel TlModel SerModel SavSpec SavSpec2 SerProofs SavProofs TlProofs3.

Lemma solid_El nm a k : solid (El nm a k) <-> clean_attrs a /\ Forall (fun kv => exists y, snd kv = AStr y) a /\ apart k /\ Forall solid k.
Proof.
  cbn [solid]. enough (E : forall l, (fix all l := match l with [] => True | c :: l' => solid c /\ all l' end) l <-> Forall solid l) by now rewrite E.
  clear. induction l as [|c l IH]; [now split|]. rewrite IH. split; [now intros [A B]; constructor|now inversion 1].
Qed.
Lemma solid_merge k : apart k -> Forall solid k -> map norm_node (merge_texts (map reload k)) = map reload k.
Proof.
  intros A S. assert (M : merge_texts (map reload k) = map reload k).
  { induction k as [|[x|nm a kk] k IH]; [reflexivity| |].
    - inversion_clear S as [|? ? Sx Sk]. destruct Sx as [Hx _]. assert (Ak : apart k) by (destruct k as [|[y|] k]; [exact I|destruct A|exact A]). specialize (IH Ak Sk). cbn [map reload merge_texts]. rewrite IH.
      destruct k as [|[y|nm a kk] k]; [| destruct A |]; cbn [map reload]; destruct x; (reflexivity || now destruct Hx).
    - inversion_clear S as [|? ? _ Sk]. cbn [map reload merge_texts]. f_equal. apply IH; [exact A|exact Sk]. }
  rewrite M. clear M A. induction S as [|c k Sc _ IH]; [reflexivity|]. cbn [map]. rewrite IH. f_equal. destruct c as [x|nm a kk]; [|reflexivity]. destruct Sc as [_ Hn]. cbn [reload norm_node]. now rewrite Hn.
Qed.
Lemma solid_reload nm a k : solid (El nm a k) -> reload (El nm a k) = El nm (reload_attrs a) (map reload k).
Proof. intros S. apply solid_El in S as (_ & _ & A & S). cbn [reload]. now rewrite solid_merge. Qed.
Lemma solid_attr n k : solid n -> aget k (tag_attrs (reload n)) = aget k (tag_attrs n).
Proof.
  destruct n as [x|nm a kk]; [reflexivity|]. intros S. apply solid_El in S as (C & A & _). cbn [reload tag_attrs]. rewrite clean_get by exact C. destruct (aget k a) as [v|] eqn:E; [|reflexivity].
  apply aget_In in E. rewrite Forall_forall in A. destruct (A _ E) as (y & Hy). cbn [snd] in Hy. now rewrite Hy.
Qed.
Lemma solid_string n : solid n -> node_string (reload n) = node_string n.
Proof.
  induction n as [x|nm a k IH] using node_ind'; intros S; [reflexivity|]. rewrite solid_reload by exact S. apply solid_El in S as (_ & _ & _ & S). destruct k as [|c [|d k]]; try reflexivity.
  cbn [map node_string]. inversion_clear IH as [|? ? H _]. inversion_clear S. now apply H.
Qed.
Lemma solid_kid n c : solid n -> In c (child_tags n) -> solid c.
Proof. destruct n as [|nm a k]; [intros _ []|]. intros S I. apply solid_El in S as (_ & _ & _ & S). unfold child_tags in I. cbn [tag_kids] in I. apply filter_In in I as [I _]. rewrite Forall_forall in S. auto. Qed.
Lemma solid_desc n : solid n -> descendants (reload n) = map reload (descendants n) /\ Forall solid (descendants n).
Proof.
  induction n as [x|nm a k IH] using node_ind'; intros S; [split; [reflexivity|constructor]|]. rewrite solid_reload by exact S. apply solid_El in S as (_ & _ & _ & S). cbn [descendants].
  induction IH as [|c k Hc _ IHk]; [split; [reflexivity|constructor]|]. inversion_clear S as [|? ? Sc Sk]. destruct (IHk Sk) as [E1 E2]. destruct (Hc Sc) as [H1 H2]. cbn [map flat_map]. rewrite map_app, E1. split.
  - f_equal. destruct c as [x|nm' a' k']; [reflexivity|]. change (reload (El nm' a' k') :: descendants (reload (El nm' a' k')) = reload (El nm' a' k') :: map reload (descendants (El nm' a' k'))). now rewrite H1.
  - apply Forall_app. split; [|exact E2]. destruct c as [x|nm' a' k']; [constructor|]. constructor; [exact Sc|exact H2].
Qed.
Lemma solid_find p n : (forall x, p (reload x) = p x) -> solid n -> find_all p (reload n) = map reload (find_all p n) /\ Forall solid (find_all p n).
Proof.
  intros P S. destruct (solid_desc n S) as [E D]. unfold find_all. rewrite E. clear E. induction D as [|c l Sc _ [I1 I2]]; [split; [reflexivity|constructor]|]. cbn [map filter]. rewrite P. destruct (p c); [|split; assumption].
  cbn [map]. split; [now rewrite I1|now constructor].
Qed.
Lemma name_reload d x : has_name d (reload x) = has_name d x.
Proof. destruct x; reflexivity. Qed.
Lemma solid_colour n : solid n -> color_tuple (reload n) = color_tuple n.
Proof.
  intros S. unfold color_tuple. assert (E : forall d, color_comp (reload n) d = color_comp n d); [|generalize rgba; induction l as [|d l IH]; [reflexivity|]; cbn [mapM]; now rewrite E, IH].
  intros d. unfold color_comp. destruct (solid_find (has_name d) n (name_reload d) S) as [-> D]. destruct (find_all (has_name d) n) as [|t l]; [reflexivity|]. cbn [map]. inversion_clear D. now rewrite solid_string.
Qed.
Lemma solid_vector n : solid n -> vector_dict (reload n) = vector_dict n.
Proof.
  intros S. unfold vector_dict. f_equal. rewrite child_tags_reload, map_map. apply map_ext_in. intros t I. rewrite tag_name_reload, solid_string; [reflexivity|now apply (solid_kid n)].
Qed.
Definition keeps {A} (a b : A * pyval) : Prop := fst a = fst b /\ kept (snd a) (snd b).
Lemma keeps_aset k v w : kept v w -> forall l m, Forall2 keeps l m -> Forall2 keeps (aset k v l) (aset k w m).
Proof.
  intros K l m H. induction H as [|[a x] [b y] l m [E1 E2] H IH]; cbn [aset]; [constructor; [split; [reflexivity|exact K]|constructor]|]. cbn [fst snd] in *. subst b.
  destruct (pstr_eqb k a); constructor; try assumption; split; auto.
Qed.
Lemma keeps_adict l m : Forall2 keeps l m -> Forall2 keeps (adict l) (adict m).
Proof.
  unfold adict. assert (G : forall l m, Forall2 keeps l m -> forall d e, Forall2 keeps d e -> Forall2 keeps (fold_left (fun d kv => aset (fst kv) (snd kv) d) l d) (fold_left (fun d kv => aset (fst kv) (snd kv) d) m e)); [|intros; now apply G].
  clear. induction 1 as [|x y l m [E1 E2] _ IH]; intros d e D; [exact D|]. cbn [fold_left]. apply IH. rewrite E1. now apply keeps_aset.
Qed.
Lemma keeps_qset k v w : kept v w -> forall l m, Forall2 keeps l m -> Forall2 keeps (qset k v l) (qset k w m).
Proof.
  intros K l m H. induction H as [|[a x] [b y] l m [E1 E2] H IH]; cbn [qset]; [constructor; [split; [reflexivity|exact K]|constructor]|]. cbn [fst snd] in *. subst b.
  destruct (Qeq_bool k a); constructor; try assumption; split; auto.
Qed.
Lemma keeps_qdict l m : Forall2 keeps l m -> Forall2 keeps (qdict l) (qdict m).
Proof.
  unfold qdict. assert (G : forall l m, Forall2 keeps l m -> forall d e, Forall2 keeps d e -> Forall2 keeps (fold_left (fun d kv => qset (fst kv) (snd kv) d) l d) (fold_left (fun d kv => qset (fst kv) (snd kv) d) m e)); [|intros; now apply G].
  clear. induction 1 as [|x y l m [E1 E2] _ IH]; intros d e D; [exact D|]. cbn [fold_left]. apply IH. rewrite E1. now apply keeps_qset.
Qed.
Lemma keeps_fst {A} (l m : list (A * pyval)) : Forall2 keeps l m -> map fst m = map fst l.
Proof. induction 1 as [|x y l m [E _] _ IH]; [reflexivity|]. cbn [map]. now rewrite IH, E. Qed.
Lemma same_map {A B C} (R : B -> C -> Prop) (f : A -> res B) (g : A -> res C) h l : (forall x, In x l -> same_result R (f x) (g (h x))) -> same_result (Forall2 R) (mapM f l) (mapM g (map h l)).
Proof.
  induction l as [|x l IH]; intros H; [constructor|]. cbn [map mapM]. pose proof (H x (or_introl eq_refl)) as Hx. specialize (IH (fun y I => H y (or_intror I))).
  destruct (f x) as [b|e], (g (h x)) as [c|e']; cbn [same_result bind] in *; try contradiction; [|exact Hx]. destruct (mapM f l) as [bs|e], (mapM g (map h l)) as [cs|e']; cbn [same_result bind] in *; try contradiction; [|exact IH]. now constructor.
Qed.
Lemma solid_composite n cx cy : solid n -> same_times cx cy -> same_result (Forall2 keeps) (composite_val n cx) (composite_val (reload n) cy).
Proof.
  intros S T. unfold composite_val. rewrite child_tags_reload. assert (M : same_result (Forall2 keeps) (mapM (composite_field cx) (child_tags n)) (mapM (composite_field cy) (map reload (child_tags n)))).
  { apply same_map. intros f I. unfold composite_field. rewrite tag_name_reload, child_tags_reload. destruct (pstr_eqb (tag_name f) (s "layer")); [reflexivity|]. pose proof (solid_kid n f S I) as Sf. destruct (child_tags f) as [|v [|w l]] eqn:E; try reflexivity.
    cbn [map]. assert (Sv : solid v) by (apply (solid_kid f v Sf); rewrite E; now left). rewrite from_tag_same; [|destruct v; [split; constructor|]; now apply solid_El in Sv]. destruct (from_tag v) as [c|e]; [|reflexivity]. cbn [bind same_result]. split; [reflexivity|apply kept_val; auto]. }
  destruct (mapM (composite_field cx) (child_tags n)) as [l|], (mapM (composite_field cy) (map reload (child_tags n))) as [m|]; cbn [bind same_result] in *; try contradiction; [|exact M].
  pose proof (keeps_adict l m M) as D. rewrite (keeps_fst _ _ D). destruct (same_keys _ _); [exact D|reflexivity].
Qed.
Lemma solid_gradient n cx cy : solid n -> same_times cx cy -> same_result (Forall2 keeps) (gradient_val n cx) (gradient_val (reload n) cy).
Proof.
  intros S T. unfold gradient_val. destruct (solid_find (has_name (s "color")) n (name_reload _) S) as [-> D]. rewrite map_length. destruct (Z.ltb _ 2); [reflexivity|].
  match goal with |- same_result _ (bind ?x _) (bind ?y _) => assert (M : same_result (Forall2 keeps) x y) end.
  { apply same_map. intros c I. rewrite Forall_forall in D. rewrite (solid_attr c (s "pos") (D c I)). destruct (aget (s "pos") (tag_attrs c)) as [v|]; [|reflexivity]. destruct (float_of_aval v) as [q|]; [|reflexivity]. cbn [bind same_result]. split; [reflexivity|apply kept_val; auto]. }
  destruct (mapM _ (find_all _ n)) as [l|], (mapM _ (map reload _)) as [m|]; cbn [bind same_result] in *; try contradiction; [|exact M]. now apply keeps_qdict.
Qed.
Lemma solid_value c n cx cy : solid n -> same_times cx cy -> same_result kept (get_value c n cx) (get_value c (reload n) cy).
Proof.
  intros S T. assert (Sv : forall c, same_result kept (simple_val c n cx) (simple_val c (reload n) cy)).
  { intros c'. unfold simple_val. rewrite solid_attr by exact S. destruct (aget (s "value") (tag_attrs n)) as [[x| | |]|]; try reflexivity. assert (R : forall r : res pyval, same_result kept r r) by (intros [v|e]; [apply kept_plain|reflexivity]).
    destruct c'; try apply R. rewrite T. apply R. }
  destruct c; cbn [get_value]; try apply Sv.
  - unfold string_val. rewrite solid_string by exact S. apply kept_plain.
  - unfold color_hex. rewrite solid_colour by exact S. destruct (color_tuple n); [apply kept_plain|reflexivity].
  - rewrite solid_vector by exact S. apply kept_plain.
  - pose proof (solid_composite n cx cy S T) as H. destruct (composite_val n cx), (composite_val (reload n) cy); cbn [bind same_result] in *; try contradiction; [now apply kept_dict|exact H].
  - pose proof (solid_gradient n cx cy S T) as H. destruct (gradient_val n cx), (gradient_val (reload n) cy); cbn [bind same_result] in *; try contradiction; [now apply kept_gradient|exact H].
  - rewrite child_tags_reload. assert (E : forallb (has_name (s "layer")) (map reload (child_tags n)) = forallb (has_name (s "layer")) (child_tags n)) by (induction (child_tags n) as [|t l IH]; [reflexivity|]; cbn [map forallb]; now rewrite name_reload, IH).
    rewrite E, map_map. clear E. destruct (forallb (has_name (s "layer")) (child_tags n)); [apply kept_plain|reflexivity].
  - reflexivity.
Qed.
