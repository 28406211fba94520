(** Whatever is done to a timeline, its tag can still be written as XML. *)
From Coq Require Import Lia Permutation.
From Verif Require Import ValModel TlModel XpSpec XpProofs AnimProofs5 SerProofs BywProofs14 PexProofs3.
From Verif Require Import LayProofs6 LayModel AnimModel WrSpec WrProofs.
Local Open Scope N_scope.

Lemma check_good x y : check_interpolation x = Ok y -> good_text y /\ check_interpolation y = Ok y.
Proof.
  unfold check_interpolation at 1. destruct (pstr_eqb x (s "undefined")); [discriminate|].
  destruct (existsb (pstr_eqb x) interpolation_types) eqn:E.
  - intros H. injection H as <-. apply existsb_exists in E as (z & Hz & E). apply pstr_eqb_spec in E as ->. destruct Hz as [<-|[<-|[<-|[<-|[<-|[]]]]]]; (split; [bx|vm_compute; reflexivity]).
  - destruct (aget x interpolation_synonyms) as [k|] eqn:Ek; [|discriminate]. intros H. injection H as <-.
    apply (aget_Forall (fun kv => good_text (snd kv) /\ check_interpolation (snd kv) = Ok (snd kv)) interpolation_synonyms x k) in Ek; [exact Ek|].
    repeat (constructor; [split; [cbn [snd]; bx|vm_compute; reflexivity]|]). constructor.
Qed.
Lemma wp_tag_good w : good_wp w -> gtag (wp_tag w).
Proof.
  intros (B & A & V). unfold wp_tag. apply gtag_El. split; [bx|]. split.
  - split; [repeat constructor; cbn; intuition discriminate|]. constructor; [split; [bx|apply time_good]|]. constructor; [split; [bx|apply (check_good _ _ B)]|]. constructor; [split; [bx|apply (check_good _ _ A)]|constructor].
  - constructor; [exact V|constructor].
Qed.
Lemma wp_from_tag_good y ty cx w : writable y -> wp_from_tag y ty cx = Ok w -> good_wp w /\ gtag (w_val w).
Proof.
  intros Wy Ey. unfold wp_from_tag in Ey. destruct (negb _); [discriminate|]. destruct (aget (s "time") (tag_attrs y)) as [tv|]; [|discriminate]. apply bind_ok in Ey as (t & _ & Ey).
  destruct (child_tags y) as [|v [|]] eqn:Ec; try discriminate. destruct (is_animated v); [discriminate|]. destruct (negb _); [discriminate|]. apply bind_ok in Ey as (c & _ & Ey).
  destruct (aget (s "before") _) as [b1|]; [|discriminate]. destruct (aget (s "after") _) as [b2|]; [|discriminate]. apply bind_ok in Ey as (b & Eb & Ey). apply bind_ok in Ey as (a & Ea & Ey). injection Ey as <-.
  assert (G : gtag v) by (apply (gtag_child y); [exact Wy|rewrite Ec; now left]). split; [|exact G]. unfold good_wp. cbn [w_before w_after w_val].
  destruct b1; try discriminate. destruct b2; try discriminate. split; [apply (check_good _ _ Eb)|]. split; [apply (check_good _ _ Ea)|apply G].
Qed.
Lemma waypoints_good n cx d : writable n -> waypoints n cx = Ok d -> forall w, In w (map snd d) -> good_wp w /\ gtag (w_val w).
Proof.
  intros W E w Hw. unfold waypoints in E. destruct (waypoint_tags n) as [|t ts] eqn:Et; [injection E as <-; destruct Hw|]. rewrite <- Et in E. destruct (aget (s "type") (tag_attrs n)) as [ty|]; [|discriminate].
  assert (E' : (let* ws := mapM (fun w => wp_from_tag w ty cx) (waypoint_tags n) in tsets ws []) = Ok d) by (rewrite Et in E |- *; exact E). clear E.
  apply bind_ok in E' as (ws & Em & E'). destruct (tsets_sub _ _ _ E' w Hw) as [Hi|[]]. destruct (mapM_In_rev _ _ _ Em w Hi) as (y & Hy & Ey). apply (wp_from_tag_good y ty cx); [|exact Ey].
  unfold waypoint_tags in Hy. destruct (is_animated n); [|destruct Hy]. now apply (child_writable n).
Qed.
Lemma animated_good n k : gtag n -> Forall writable k -> gtag (El (s "animated") [(s "type", AStr (tag_name n))] k).
Proof.
  intros G K. apply gtag_El. split; [bx|]. split; [|exact K]. apply one_attr; [bx|]. destruct (gtag_parts n G) as ((_ & A) & _). cbn [aval_str]. apply (Forall_impl _ (P := fun c => xml_char c = true /\ name_char c = true)); [|exact A]. tauto.
Qed.
Lemma animated_tag_good n : gtag n -> gtag (animated_tag n).
Proof. intros G. apply animated_good; [exact G|]. apply (gtag_parts n G). Qed.
Lemma or_animated n : gtag n -> gtag (if is_animated n then n else animated_tag n).
Proof. intros G. destruct (is_animated n); [exact G|now apply animated_tag_good]. Qed.
Lemma newlines_good l : Forall writable l -> Forall writable (with_newlines l).
Proof.
  induction l as [|x l IH]; intros H; [constructor|]. inversion_clear H as [|? ? H1 H2]. cbn [with_newlines]. destruct l as [|y l]; [constructor; [exact H1|constructor]|].
  constructor; [exact H1|]. constructor; [change (good_text [10]); bx|]. now apply IH.
Qed.
Lemma sort_wps_good l l' : Forall good_wp l -> sort_wps l = Ok l' -> Forall writable (map wp_tag l').
Proof.
  intros G H. unfold sort_wps in H. destruct (existsb _ l); [destruct (existsb _ l); discriminate|]. injection H as <-. rewrite Forall_map. apply Forall_forall. intros w Hw. apply wp_tag_good.
  rewrite Forall_forall in G. apply G. exact (Permutation_in _ (SerProofs.sort_perm _ _) Hw).
Qed.
Lemma unanimate_good n cx par : gtag n -> gtag (fst (unanimate n cx par)).
Proof.
  intros G. unfold unanimate. destruct (negb _); [exact G|]. destruct (tl_values n cx) as [[|w l]|] eqn:E; try exact G. apply bind_ok in E as (d & E & H). injection H as H.
  destruct (waypoints_good n cx d (proj1 G) E w) as [_ Gw]; [rewrite H; now left|]. destruct par; [exact Gw|]. cbn [fst]. apply with_kids_good; [exact G|constructor].
Qed.
Lemma set_waypoints_good n cx par l : gtag n -> Forall good_wp l -> gtag (fst (set_waypoints n cx par l)).
Proof.
  intros G L. unfold set_waypoints. destruct l as [|w l]; [now apply unanimate_good|]. cbv zeta. pose proof (or_animated n G) as G1.
  destruct (sort_wps (w :: l)) as [l'|] eqn:E; cbn [fst]; apply with_kids_good; try exact G1; [|constructor]. apply newlines_good. now apply (sort_wps_good (w :: l)).
Qed.
Lemma new_waypoint_good c t x w : good_tlarg x -> new_waypoint c t x = Ok w -> good_wp w.
Proof.
  intros G H. destruct x as [w'|v]; cbn [new_waypoint] in H.
  - injection H as <-. exact G.
  - cbn [good_tlarg] in G. assert (X : forall c' m, gtag m -> good_wp (mkW t (s "clamped") (s "clamped") c' m)) by (intros c' m Gm; split; [vm_compute; reflexivity|]; split; [vm_compute; reflexivity|apply Gm]).
    assert (Y : (let* m := new_value c v in Ok (mkW t (s "clamped") (s "clamped") c m)) = Ok w -> good_wp w) by (intros E; apply bind_ok in E as (m & E & Ew); injection Ew as <-; apply X; now apply (new_value_good c v)).
    cbv zeta in H. destruct v; try exact (Y H). destruct (inst c c0); [|exact (Y H)]. destruct (is_animated n); [discriminate|]. injection H as <-. apply X. exact G.
Qed.
Lemma Forall_wps n cx d : writable n -> waypoints n cx = Ok d -> Forall good_wp (map snd d).
Proof. intros W H. apply Forall_forall. intros w Hw. now apply (waypoints_good n cx d W H). Qed.
Lemma tl_setitem_good c n cx par k x : gtag n -> good_tlarg x -> gtag (fst (tl_setitem c n cx par k x)).
Proof.
  intros G X. unfold tl_setitem. destruct (ensure_fps cx k) as [t|]; [|exact G]. destruct (new_waypoint c t x) as [w|] eqn:Ew; [|exact G]. cbv zeta.
  assert (G1 : gtag (if is_animated n then n else animated_tag (with_kids n []))) by (destruct (is_animated n); [exact G|]; apply animated_tag_good, with_kids_good; [exact G|constructor]).
  set (n1 := if is_animated n then n else animated_tag (with_kids n [])) in *. destruct (let* d := waypoints n1 cx in tset t w d) as [d|] eqn:E; [|exact G1]. apply bind_ok in E as (d0 & E0 & E).
  apply set_waypoints_good; [exact G1|]. apply Forall_forall. intros v Hv. apply (tset_sub _ _ _ _ E) in Hv as [->|Hv]; [now apply (new_waypoint_good c t x)|]. now apply (waypoints_good n1 cx d0 (proj1 G1) E0).
Qed.
Lemma tdel_sub k : forall d d', tdel k d = Ok d' -> forall v, In v (map snd d') -> In v (map snd d).
Proof.
  induction d as [|[k' v'] d IH]; intros d' H v Hv; cbn [tdel] in H; [discriminate|]. apply bind_ok in H as ([|] & _ & H); [injection H as <-; now right|]. apply bind_ok in H as (r & E & H). injection H as <-.
  destruct Hv as [<-|Hv]; [now left|]. right. now apply (IH r).
Qed.
Lemma tdels_sub : forall l d d', tdels l d = Ok d' -> forall v, In v (map snd d') -> In v (map snd d).
Proof. induction l as [|t l IH]; intros d d' H v Hv; cbn [tdels] in H; [now injection H as <-|]. apply bind_ok in H as (d1 & E & H). apply (tdel_sub _ _ _ E). now apply (IH _ _ H). Qed.
Lemma tl_delitem_good n cx par k : gtag n -> gtag (fst (tl_delitem n cx par k)).
Proof.
  intros G. unfold tl_delitem. destruct (match k with KeyOther => _ | _ => _ end) as [t|]; [|exact G]. destruct (let* d := waypoints n cx in tdel t d) as [d|] eqn:E; [|exact G].
  apply bind_ok in E as (d0 & E0 & E). apply set_waypoints_good; [exact G|]. apply Forall_forall. intros v Hv. apply (tdel_sub _ _ _ E) in Hv. now apply (waypoints_good n cx d0 (proj1 G) E0).
Qed.
Lemma animate_good c n cx par : gtag n -> gtag (fst (animate c n cx par)).
Proof.
  intros G. unfold animate. destruct (is_animated n); [exact G|]. destruct (get_value c n cx) as [v|] eqn:E; [|exact G]. pose proof (get_value_good c n cx v (proj1 G) E) as V.
  assert (G1 : gtag (with_kids (animated_tag n) [])) by (apply with_kids_good; [now apply animated_tag_good|constructor]).
  assert (X : match c, v with VCanvas, PList (_ :: _) => true | _, _ => false end = false -> good_val v).
  { intros H. destruct c; try exact V. cbn [get_value] in E. destruct (forallb _ _); [|discriminate]. injection E as <-. destruct (child_tags n); [exact I|discriminate]. }
  destruct (match c, v with VCanvas, PList (_ :: _) => true | _, _ => false end); [exact G|]. apply tl_setitem_good; [exact G1|]. now apply X.
Qed.
Lemma is_animated_good c n cx par b : gtag n -> gtag (fst (set_is_animated c n cx par b)).
Proof. intros G. destruct b; [now apply animate_good|now apply unanimate_good]. Qed.
Lemma tl_add_good c n cx par ws o : gtag n -> Forall good_wp ws -> gtag (fst (tl_add c n cx par ws o)).
Proof.
  intros G Hw. unfold tl_add. match goal with |- context[match ?z with Ok d => _ | Err e => (n, Err e) end] => destruct z as [d|] eqn:E end; [|exact G].
  assert (D : forall v, In v (map snd d) -> good_wp v).
  { apply bind_ok in E as (d0 & E0 & E). apply bind_ok in E as (cl & _ & E). intros v Hv. apply (waypoints_good n cx d0 (proj1 G) E0). destruct o; [now apply (tdels_sub _ _ _ E)|]. destruct cl; [|discriminate]. now injection E as <-. }
  pose proof (is_animated_good c n cx par true G) as G1. destruct (set_is_animated c n cx par true) as [n1 [|]]; cbn [fst] in G1; [|exact G1]. destruct (tsets ws d) as [d'|] eqn:Et; [|exact G1].
  assert (D' : Forall good_wp (map snd d')). { apply Forall_forall. intros v Hv. apply (tsets_sub _ _ _ Et) in Hv as [Hv|Hv]; [|now apply D]. rewrite Forall_forall in Hw. now apply Hw. }
  destruct (sort_wps (map snd d')) as [l|] eqn:Es; cbn [fst]; apply with_kids_good; try exact G1; [now apply (sort_wps_good (map snd d'))|constructor].
Qed.
Lemma tl_assign_good n cx par v : gtag n -> match v with SList ws => Forall good_wp ws | _ => True end -> gtag (fst (tl_assign n cx par v)).
Proof.
  intros G V. destruct v; cbn [tl_assign]; [now apply set_waypoints_good| |exact G]. cbn [fst]. apply with_kids_good; [now apply or_animated|constructor].
Qed.
Lemma tl_iadd_good c n cx par ws : gtag n -> Forall good_wp ws -> gtag (fst (tl_iadd c n cx par ws)).
Proof. intros G H. unfold tl_iadd. pose proof (tl_add_good c n cx par ws true G H) as A. destruct (tl_add c n cx par ws true) as [n1 [|]]; exact A. Qed.
Lemma vapply_good c n cx par e : gtag n -> good_vedit e -> gtag (fst (vapply c n cx par e)).
Proof.
  intros G H. destruct e; cbn [vapply good_vedit] in *.
  - now apply set_value_good.
  - now apply gradient_setitem_good.
  - now apply is_animated_good.
  - now apply tl_setitem_good.
  - now apply tl_delitem_good.
  - now apply tl_add_good.
  - now apply tl_iadd_good.
  - now apply tl_assign_good.
Qed.
(** Waypoints made by the constructor and by its setters are good *)
Lemma waypoint_new_good k v b a cx w : good_val v -> waypoint_new k v b a cx = Ok w -> good_wp w.
Proof.
  intros V H. destruct v; try discriminate. cbn [waypoint_new] in H. destruct (is_animated n); [discriminate|]. apply bind_ok in H as (t & _ & H). apply bind_ok in H as (b' & Eb & H). apply bind_ok in H as (a' & Ea & H).
  injection H as <-. split; [apply (check_good _ _ Eb)|]. split; [apply (check_good _ _ Ea)|apply V].
Qed.
