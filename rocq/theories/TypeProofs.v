From Coq Require Import Permutation.
From Verif Require Import ValModel TlModel WrSpec ViewModel TypeModel TypeSpec TlSpec ValProofs TlProofs TlProofs3.

Lemma type_kids n k : stored_type (with_kids n k) = stored_type n.
Proof. reflexivity. Qed.
Lemma type_animated n : is_animated n = false -> stored_type (animated_tag n) = stored_type n.
Proof. intros H. unfold stored_type. rewrite H. reflexivity. Qed.
Lemma type_shown n : stored_type (if is_animated n then n else animated_tag n) = stored_type n.
Proof. destruct (is_animated n) eqn:E; [reflexivity|now apply type_animated]. Qed.
Lemma type_shown_kids n : stored_type (if is_animated n then n else animated_tag (with_kids n [])) = stored_type n.
Proof. destruct (is_animated n) eqn:E; [reflexivity|]. rewrite type_animated by exact E. reflexivity. Qed.

Lemma wp_type m ty cx w : wp_from_tag m ty cx = Ok w -> stored_type (w_val w) = Ok ty.
Proof.
  unfold wp_from_tag. destruct (negb (has_name _ m)); [discriminate|]. destruct (aget (s "time") (tag_attrs m)); [|discriminate].
  destruct (T_init _ _); [|discriminate]. cbn [bind]. destruct (child_tags m) as [|v [|]]; try discriminate.
  destruct (is_animated v) eqn:A; [discriminate|]. destruct ty as [x| | |]; cbn [negb]; try discriminate.
  destruct (pstr_eqb (tag_name v) x) eqn:E; cbn [negb]; [|discriminate].
  destruct (from_tag v); [|discriminate]. cbn [bind]. destruct (aget (s "before") (tag_attrs m)), (aget (s "after") (tag_attrs m)); try discriminate.
  destruct (aval_interp _); [|discriminate]. cbn [bind]. destruct (aval_interp _); [|discriminate]. cbn [bind]. intros [= <-]. cbn [w_val].
  unfold stored_type. rewrite A. apply pstr_eqb_spec in E. now rewrite E.
Qed.
Lemma waypoints_type n cx d : waypoints n cx = Ok d -> forall w, In w (map snd d) -> stored_type (w_val w) = stored_type n.
Proof.
  unfold waypoints, waypoint_tags. destruct (is_animated n) eqn:A; [|intros [= <-] w []].
  destruct (child_tags n) as [|t l] eqn:K; [intros [= <-] w []|].
  unfold stored_type at 2. rewrite A. destruct (aget (s "type") (tag_attrs n)) as [ty|]; [|discriminate].
  destruct (mapM _ (t :: l)) as [ws|] eqn:E; [|discriminate]. cbn [bind]. intros H w I.
  apply (tsets_members _ _ _ H) in I as [I|[]]. apply mapM_ok_Forall2 in E. clear - E I.
  induction E as [|x v l0 ws H _ IH]; [destruct I|]. destruct I as [->|I]; [exact (wp_type _ _ _ _ H)|exact (IH I)].
Qed.
Lemma unanimate_type n cx par : stored_type (fst (unanimate n cx par)) = stored_type n.
Proof.
  unfold unanimate. destruct (is_animated n); cbn [negb]; [|reflexivity]. unfold tl_values. destruct (waypoints n cx) as [d|] eqn:E; cbn [bind]; [|reflexivity].
  pose proof (waypoints_type n cx d E) as H. destruct (map snd d) as [|w r]; [reflexivity|]. destruct par; [|reflexivity]. cbn [fst]. apply H. now left.
Qed.
Lemma set_waypoints_type n cx par l : stored_type (fst (set_waypoints n cx par l)) = stored_type n.
Proof.
  unfold set_waypoints. destruct l as [|w l]; [apply unanimate_type|]. destruct (sort_wps _); cbn [fst]; rewrite type_kids; apply type_shown.
Qed.
Lemma setitem_type c n cx par k x : stored_type (fst (tl_setitem c n cx par k x)) = stored_type n.
Proof.
  unfold tl_setitem. destruct (ensure_fps cx k); [|reflexivity]. destruct (new_waypoint _ _ _); [|reflexivity]. cbv zeta.
  destruct (bind _ _); [rewrite set_waypoints_type|cbn [fst]]; apply type_shown_kids.
Qed.
Lemma delitem_type n cx par k : stored_type (fst (tl_delitem n cx par k)) = stored_type n.
Proof.
  unfold tl_delitem. destruct (match k with KeyOther => _ | _ => _ end); [|reflexivity]. destruct (bind _ _); [apply set_waypoints_type|reflexivity].
Qed.
Lemma set_animated_type c n cx par b : stored_type (fst (set_is_animated c n cx par b)) = stored_type n.
Proof.
  destruct b; [|apply unanimate_type]. cbn [set_is_animated]. unfold animate. destruct (is_animated n) eqn:E; [reflexivity|].
  destruct (get_value c n cx) as [v|]; [|reflexivity]. destruct (match c, v with VCanvas, PList (_ :: _) => true | _, _ => false end); [reflexivity|].
  rewrite setitem_type, type_kids. now apply type_animated.
Qed.
Lemma add_type c n cx par ws o : stored_type (fst (tl_add c n cx par ws o)) = stored_type n.
Proof.
  unfold tl_add. destruct (bind _ _) as [d|]; [|reflexivity]. pose proof (set_animated_type c n cx par true) as H.
  destruct (set_is_animated c n cx par true) as [m r]. cbn [fst] in H. destruct r; [|exact H]. destruct (tsets ws d); [|exact H].
  destruct (sort_wps _); exact H.
Qed.
Lemma assign_type n cx par v : stored_type (fst (tl_assign n cx par v)) = stored_type n.
Proof. destruct v; cbn [tl_assign]; [apply set_waypoints_type| |reflexivity]. cbn [fst]. rewrite type_kids. apply type_shown. Qed.
Lemma iadd_type c n cx par ws : stored_type (fst (tl_iadd c n cx par ws)) = stored_type n.
Proof.
  unfold tl_iadd. pose proof (add_type c n cx par ws true) as H. destruct (tl_add c n cx par ws true) as [m [u|e]]; exact H.
Qed.
Lemma gradient_dict_type n d : stored_type (fst (gradient_set_dict n d)) = stored_type n.
Proof. unfold gradient_set_dict. destruct (_ <? _)%Z; [reflexivity|]. destruct (gradient_append _ _). reflexivity. Qed.
Lemma edit_type c n cx par e : not_assigned e -> stored_type (fst (vapply c n cx par e)) = stored_type n.
Proof.
  destruct e; cbn [vapply not_assigned]; intros H.
  - destruct H.
  - unfold gradient_setitem. destruct (gradient_val n cx); [apply gradient_dict_type|reflexivity].
  - apply set_animated_type.
  - apply setitem_type.
  - apply delitem_type.
  - apply add_type.
  - apply iadd_type.
  - apply assign_type.
Qed.

Lemma set_type c n v : c <> VBlendMethod -> stored_type n = Ok (AStr (file_type c)) -> stored_type (fst (set_value c n v)) = Ok (AStr (file_type c)).
Proof.
  intros C H. destruct c; cbn [set_value]; try contradiction;
    try (unfold simple_set; destruct (simple_str _ v); [reflexivity|exact H]).
  - unfold string_set. destruct (py_str v); exact H.
  - unfold color_set. destruct (color_conv v); [reflexivity|exact H].
  - unfold vector_set. destruct (vector_members v); [|exact H]. destruct (py_items v) as [[l|]|]; [| |]; try destruct (vector_append _ _); reflexivity.
  - unfold composite_set. destruct (py_items v) as [[l|]|]; [|exact H|exact H]. destruct (str_keys l); [|exact H]. destruct (forallb _ _); [|exact H]. destruct (composite_append _ _). exact H.
  - unfold gradient_set. destruct v as [| | | | | | |d|d| |c m cy|]; try exact H.
    + destruct (_ <? _)%Z; exact H.
    + rewrite gradient_dict_type. exact H.
    + destruct c; try exact H. destruct (gradient_val m cy); [rewrite gradient_dict_type|]; exact H.
  - unfold canvas_set. destruct v as [| | | |[|]|[|]|[|]|[|]|[|]| | |]; exact H.
  - exact H.
Qed.
Lemma history_type c cx l : c <> VBlendMethod -> forall n, stored_type n = Ok (AStr (file_type c)) -> stored_type (history c cx n l) = Ok (AStr (file_type c)).
Proof.
  intros C. unfold history. induction l as [|[p e] l IH]; intros n H; cbn [fold_left fst snd]; [exact H|]. apply IH.
  destruct e as [v| | | | | | |]; try (rewrite edit_type; [exact H|exact I]). now apply set_type.
Qed.
Lemma timeline_history_type c cx l : Forall (fun e => not_assigned (snd e)) l -> forall n, stored_type (history c cx n l) = stored_type n.
Proof.
  unfold history. induction 1 as [|[p e] l E _ IH]; intros n; cbn [fold_left fst snd] in *; [reflexivity|]. rewrite IH. now apply edit_type.
Qed.

(** ** The views of a timeline *)
Lemma views n cx : match tl_items n cx with
  | Ok d => tl_keys n cx = Ok (map fst d) /\ tl_values n cx = Ok (map snd d) /\ tl_len n cx = Ok (Z.of_nat (length d)) /\ tl_bool n cx = Ok (match d with [] => false | _ => true end)
  | Err e => tl_keys n cx = Err e /\ tl_values n cx = Err e /\ tl_len n cx = Err e /\ tl_bool n cx = Err e /\ tl_iter n cx = Err e
  end.
Proof.
  unfold tl_items, tl_iter, tl_keys, tl_values, tl_bool, tl_len. destruct (waypoints n cx) as [d|e]; cbn [bind]; [|repeat split].
  repeat split. destruct d as [|a d]; reflexivity.
Qed.
Lemma tsets_last f ws : forall d, wfd f d -> Forall (fun w => fps (w_time w) = f) ws ->
  exists d', tsets ws d = Ok d' /\ wfd f d' /\
    (forall v, In v (map snd d') -> last_at v ws \/ In v (map snd d) /\ Forall (fun w => ~ (at_ w == at_ v)%Q) ws) /\
    (forall w, In w ws \/ In w (map snd d) -> exists v, In v (map snd d') /\ (at_ v == at_ w)%Q).
Proof.
  induction ws as [|w ws IH]; intros d Hd Hf; cbn [tsets].
  - exists d. split; [reflexivity|]. split; [exact Hd|]. split; [intros v I; right; split; [exact I|constructor]|]. intros w [[]|I]. exists w. split; [exact I|reflexivity].
  - inversion Hf as [|? ? Hw Hr]; subst. destruct (tset_spec _ (w_time w) w d Hd eq_refl eq_refl (Qeq_refl _)) as (d1 & E1 & W1 & _ & M1). rewrite E1. cbn [bind].
    destruct (IH d1 W1 Hr) as (d' & E & W & L & A). exists d'. split; [exact E|]. split; [exact W|]. split.
    + intros v I. destruct (L v I) as [(a & b & -> & H)|[J N]].
      * left. exists (w :: a), b. split; [reflexivity|exact H].
      * apply M1 in J as [->|[J K]].
        -- left. exists [], ws. split; [reflexivity|exact N].
        -- right. split; [exact J|]. constructor; [|exact N]. intros Q. apply K. now symmetry.
    + intros v [[->|I]|I].
      * destruct (A v) as (u & U & Q); [right; apply M1; now left|]. now exists u.
      * destruct (A v) as (u & U & Q); [now left|]. now exists u.
      * destruct (Qeq_bool (at_ v) (at_ w)) eqn:Q.
        -- apply Qeq_bool_iff in Q. destruct (A w) as (u & U & P); [right; apply M1; now left|]. exists u. split; [exact U|]. now rewrite P, Q.
        -- destruct (A v) as (u & U & P); [|now exists u]. right. apply M1. right. split; [exact I|]. intros P. apply Qeq_bool_iff in P. congruence.
Qed.
Lemma mapM_back {A B} (f : A -> res B) l r : Forall2 (fun a b => f a = Ok b) l r -> mapM f l = Ok r.
Proof. induction 1 as [|a b l r H _ IH]; [reflexivity|]. cbn [mapM]. rewrite H. cbn [bind]. rewrite IH. reflexivity. Qed.
Lemma file_views n cx ws : written_as n cx ws -> exists d, tl_items n cx = Ok d /\
  (forall k w, In (k, w) d -> (frames k == frames (w_time w))%Q /\ last_at w ws) /\
  (forall w, In w ws -> exists k v, In (k, v) d /\ (frames k == frames (w_time w))%Q) /\
  ForallOrdPairs (fun a b => ~ (frames a == frames b)%Q) (map fst d).
Proof.
  intros (A & ty & O & F). unfold stored_type in O. rewrite A in O. unfold tl_items, waypoints, waypoint_tags. rewrite A.
  destruct (aget (s "type") (tag_attrs n)) as [ty'|]; [|discriminate]. injection O as ->.
  assert (X : exists f, Forall (fun w => fps (w_time w) = f) ws).
  { destruct ws as [|w0 ws]; [exists None; constructor|]. exists (fps (w_time w0)).
    assert (P : Forall (fun w => ctx_fps cx = Ok (fps (w_time w))) (w0 :: ws)).
    { clear - F. induction F as [|x w l ws2 H _ IH]; constructor; [|exact IH]. apply wp_from_tag_fits in H as (? & _ & _ & H). exact H. }
    inversion P as [|? ? P0 PR]; subst. constructor; [reflexivity|]. revert PR. apply Forall_impl. intros w. congruence. }
  destruct X as [f X]. destruct (tsets_last f ws [] (conj (Forall_nil _) (FOP_nil _)) X) as (d & E & [W P] & L & M).
  exists d. split.
  - destruct F as [|t w l ws' T F]; [exact E|].
    replace (mapM (fun w => wp_from_tag w ty cx) (t :: l)) with (Ok (w :: ws')); [exact E|]. symmetry. apply mapM_back. now constructor.
  - assert (K : forall k w, In (k, w) d -> (frames k == frames (w_time w))%Q).
    { intros k w I. rewrite Forall_forall in W. destruct (W _ I) as (_ & _ & H). exact H. }
    split; [|split].
    + intros k w I. split; [now apply K|]. destruct (L w) as [H|[[] _]]; [apply in_map_iff; now exists (k, w)|exact H].
    + intros w I. destruct (M w (or_introl I)) as (v & J & Q). apply in_map_iff in J as ((k & v') & <- & J). exists k, v'. split; [exact J|]. cbn [snd] in Q. unfold at_ in Q. now rewrite (K k v' J).
    + clear - W P. induction d as [|[k v] d IH]; [constructor|]. inversion W as [|? ? (_ & _ & V) W']; subst. cbn [map snd fst] in *. inversion P as [|? ? P1 P2]; subst. constructor; [|now apply IH].
      apply Forall_forall. intros k' I Q. apply in_map_iff in I as ((k1 & v1) & <- & I). cbn [fst] in Q. rewrite Forall_forall in W', P1. destruct (W' _ I) as (_ & _ & V1). cbn [fst snd] in *.
      apply (P1 v1); [apply in_map_iff; now exists (k1, v1)|]. now rewrite <- V, <- V1.
Qed.
