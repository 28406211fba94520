From Verif Require Import AnimModel LayModel WrSpec TlModel PrmSpec WpvModel WpvProofs HldProofs TypeProofs PrtModel PrtSpec.
From Coq Require Import Lia.
Local Open Scope Z_scope.

(** ** Tags stay tags *)
Lemma set_value_tag c n v : is_tag n = true -> is_tag (fst (set_value c n v)) = true.
Proof.
  intros H. destruct c; cbn [set_value]; unfold simple_set, string_set, color_set, vector_set, composite_set, gradient_set, gradient_set_dict, canvas_set; cbv zeta;
    repeat match goal with |- is_tag (fst (match ?x with _ => _ end)) = true => destruct x end; reflexivity || exact H.
Qed.
Lemma child_is_tag w m : In m (child_tags w) -> is_tag m = true.
Proof. unfold child_tags. intros H. now apply filter_In in H. Qed.
Lemma waypoints_tag n cx d : waypoints n cx = Ok d -> forall w, In w (map snd d) -> is_tag (w_val w) = true.
Proof.
  unfold waypoints. destruct (waypoint_tags n) as [|t l] eqn:K; [intros [= <-] w []|].
  destruct (aget (s "type") (tag_attrs n)) as [ty|]; [|discriminate].
  destruct (mapM _ (t :: l)) as [ws|] eqn:E; [|discriminate]. cbn [bind]. intros H w I.
  apply (TlProofs3.tsets_members _ _ _ H) in I as [I|[]]. apply mapM_ok_Forall2 in E. clear - E I.
  induction E as [|x v l0 ws H _ IH]; [destruct I|]. destruct I as [->|I]; [|exact (IH I)].
  apply (child_is_tag x). rewrite (wp_from_tag_val _ _ _ _ H). now left.
Qed.
Lemma kids_tag n k : is_tag n = true -> is_tag (with_kids n k) = true.
Proof. now destruct n. Qed.
Lemma shown_tag n : is_tag n = true -> is_tag (if is_animated n then n else animated_tag n) = true.
Proof. intros H. destruct (is_animated n); [exact H|]. now destruct n. Qed.
Lemma unanimate_tag n cx par : is_tag n = true -> is_tag (fst (unanimate n cx par)) = true.
Proof.
  intros H. unfold unanimate. destruct (is_animated n); cbn [negb]; [|exact H]. unfold tl_values. destruct (waypoints n cx) as [d|] eqn:E; cbn [bind]; [|exact H].
  pose proof (waypoints_tag n cx d E) as W. destruct (map snd d) as [|w r]; [exact H|]. destruct par; [|now apply kids_tag]. cbn [fst]. apply W. now left.
Qed.
Lemma set_waypoints_tag n cx par l : is_tag n = true -> is_tag (fst (set_waypoints n cx par l)) = true.
Proof.
  intros H. unfold set_waypoints. destruct l as [|w l]; [now apply unanimate_tag|]. destruct (sort_wps _); cbn [fst]; now apply kids_tag, shown_tag.
Qed.
Lemma setitem_tag c n cx par k x : is_tag n = true -> is_tag (fst (tl_setitem c n cx par k x)) = true.
Proof.
  intros H. unfold tl_setitem. destruct (ensure_fps cx k); [|exact H]. destruct (new_waypoint _ _ _); [|exact H]. cbv zeta.
  assert (A : is_tag (if is_animated n then n else animated_tag (with_kids n [])) = true) by (destruct (is_animated n); [exact H|now destruct n]).
  destruct (bind _ _); [now apply set_waypoints_tag|exact A].
Qed.
Lemma delitem_tag n cx par k : is_tag n = true -> is_tag (fst (tl_delitem n cx par k)) = true.
Proof.
  intros H. unfold tl_delitem. destruct (match k with KeyOther => _ | _ => _ end); [|exact H]. destruct (bind _ _); [now apply set_waypoints_tag|exact H].
Qed.
Lemma set_animated_tag c n cx par b : is_tag n = true -> is_tag (fst (set_is_animated c n cx par b)) = true.
Proof.
  intros H. destruct b; [|now apply unanimate_tag]. cbn [set_is_animated]. unfold animate. destruct (is_animated n) eqn:E; [exact H|].
  destruct (get_value c n cx) as [v|]; [|exact H]. destruct (match c, v with VCanvas, PList (_ :: _) => true | _, _ => false end); [exact H|].
  apply setitem_tag. now destruct n.
Qed.
Lemma add_tag c n cx par ws o : is_tag n = true -> is_tag (fst (tl_add c n cx par ws o)) = true.
Proof.
  intros T. unfold tl_add. destruct (bind _ _) as [d|]; [|exact T]. pose proof (set_animated_tag c n cx par true T) as H.
  destruct (set_is_animated c n cx par true) as [m r]. cbn [fst] in H. destruct r; [|exact H]. destruct (tsets ws d); [|exact H].
  destruct (sort_wps _); cbn [fst]; now apply kids_tag.
Qed.
Lemma assign_tag n cx par v : is_tag n = true -> is_tag (fst (TlModel.tl_assign n cx par v)) = true.
Proof. intros H. destruct v; cbn [TlModel.tl_assign]; [now apply set_waypoints_tag| |exact H]. cbn [fst]. now apply kids_tag, shown_tag. Qed.
Lemma gradient_dict_tag n d : is_tag n = true -> is_tag (fst (gradient_set_dict n d)) = true.
Proof. intros H. unfold gradient_set_dict. destruct (_ <? _)%Z; [exact H|]. now destruct (gradient_append _ _). Qed.
Lemma edit_tag c n cx par e : is_tag n = true -> is_tag (fst (vapply c n cx par e)) = true.
Proof.
  intros H. destruct e as [v|q v|b|k x|k|ws o|ws|v]; cbn [vapply].
  - now apply set_value_tag.
  - unfold gradient_setitem. destruct (gradient_val n cx); [now apply gradient_dict_tag|exact H].
  - now apply set_animated_tag.
  - now apply setitem_tag.
  - now apply delitem_tag.
  - now apply add_tag.
  - unfold tl_iadd. pose proof (add_tag c n cx par ws true H) as A. destruct (tl_add c n cx par ws true) as [m [u|x]]; exact A.
  - now apply assign_tag.
Qed.

(** ** Parts *)
Definition put_part (d : list (pstr * node)) (k : pstr) (m : node) : list (pstr * node) := map (fun kt => if pstr_eqb (fst kt) k then (fst kt, m) else kt) d.
Definition parts_edit (d : list (pstr * node)) (cx : ctx) (k : pstr) (e : vedit) : list (pstr * node) * res unit :=
  match aget k d with None => (d, Err KeyError) | Some t => let (m, r) := val_edit t cx e in (put_part d k m, r) end.

Lemma put_fst d k m : map fst (put_part d k m) = map fst d.
Proof. unfold put_part. rewrite map_map. apply map_ext. intros [a b]. cbn [fst]. now destruct (pstr_eqb a k). Qed.
Lemma put_get_same d k m : aget k d <> None -> aget k (put_part d k m) = Some m.
Proof.
  induction d as [|[a b] d IH]; cbn [aget put_part map fst]; [easy|]. destruct (pstr_eqb a k) eqn:E; cbn [aget fst].
  - intros _. destruct (pstr_eqb k a) eqn:E2; [reflexivity|]. apply pstr_eqb_spec in E. subst a. apply pstr_eqb_neq in E2. congruence.
  - destruct (pstr_eqb k a) eqn:E2; [apply pstr_eqb_spec in E2; subst a; apply pstr_eqb_neq in E; congruence|]. exact IH.
Qed.
Lemma put_get_other d k m k' : k' <> k -> aget k' (put_part d k m) = aget k' d.
Proof.
  intros D. induction d as [|[a b] d IH]; [reflexivity|]. cbn [aget put_part map fst]. destruct (pstr_eqb a k) eqn:E; cbn [aget fst].
  - destruct (pstr_eqb k' a) eqn:E2; [|exact IH]. apply pstr_eqb_spec in E, E2. congruence.
  - destruct (pstr_eqb k' a); [reflexivity|exact IH].
Qed.

Lemma named_none l d k : Forall2 (fun f kt => tag_name f = fst kt /\ child_tags f = [snd kt]) l d -> ~ In k (map fst d) -> filter (has_name k) l = [].
Proof.
  induction 1 as [|f [a t] l d [A B] _ IH]; intros N; [reflexivity|]. cbn [filter]. unfold has_name at 1. cbn [fst map] in *. rewrite A.
  destruct (pstr_eqb a k) eqn:E; [apply pstr_eqb_spec in E; exfalso; apply N; now left|]. apply IH. intros I. apply N. now right.
Qed.
Lemma named_one l d k : Forall2 (fun f kt => tag_name f = fst kt /\ child_tags f = [snd kt]) l d -> NoDup (map fst d) ->
  match aget k d with None => filter (has_name k) l = [] | Some t => exists f, filter (has_name k) l = [f] /\ child_tags f = [t] end.
Proof.
  induction 1 as [|f [a t] l d [A B] F IH]; intros N; [reflexivity|]. cbn [filter aget map fst snd] in *. assert (Hn : has_name k f = pstr_eqb a k) by (unfold has_name; now rewrite A). rewrite !Hn. apply NoDup_cons_iff in N as [N1 N2].
  destruct (pstr_eqb k a) eqn:E.
  - apply pstr_eqb_spec in E. rewrite (proj2 (pstr_eqb_spec a k) (eq_sym E)). exists f. split; [f_equal; eapply named_none; [eassumption|now rewrite E]|exact B].
  - destruct (pstr_eqb a k) eqn:E2; [apply pstr_eqb_spec in E2; apply pstr_eqb_neq in E; congruence|]. now apply IH.
Qed.
Lemma part_read n d cx k : has_parts n d -> composite_getitem n cx k = match aget k d with None => Err KeyError | Some t => let* c := from_tag t in Ok (PVal c t cx) end.
Proof.
  intros [F N]. unfold composite_getitem, composite_get. pose proof (named_one _ _ k F N) as H. destruct (aget k d) as [t|].
  - destruct H as (f & -> & ->). destruct (from_tag t); reflexivity.
  - now rewrite H.
Qed.
Lemma with_value_child m f t : is_tag m = true -> child_tags f = [t] -> child_tags (with_value m f) = [m].
Proof.
  intros M H. unfold with_value. unfold child_tags in *. cbn [with_kids tag_kids]. rewrite at_tag_child by (intros; exact M). rewrite H. reflexivity.
Qed.
Lemma with_part_kids n k m : child_tags (with_part n k m) = map (fun f => if has_name k f then with_value m f else f) (child_tags n).
Proof.
  unfold with_part, child_tags. cbn [with_kids tag_kids]. induction (tag_kids n) as [|f l IH]; [reflexivity|]. cbn [map filter].
  destruct (is_tag f) eqn:T; cbn [andb].
  - destruct (has_name k f) eqn:E; cbn [map].
    + replace (is_tag (with_value m f)) with true by reflexivity. now rewrite E, IH.
    + now rewrite T, E, IH.
  - now rewrite T, IH.
Qed.
Lemma with_part_has n d k m : is_tag m = true -> has_parts n d -> has_parts (with_part n k m) (put_part d k m).
Proof.
  intros M [F N]. split; [|now rewrite put_fst]. rewrite with_part_kids. unfold put_part. clear N. induction F as [|f [a t] l d [A B] _ IH]; [constructor|]. cbn [map fst snd] in *.
  constructor; [|exact IH]. unfold has_name. rewrite A. destruct (pstr_eqb a k); cbn [fst snd]; [|split; assumption]. split; [exact A|]. now apply (with_value_child m f t).
Qed.
Lemma part_step n d cx k e : has_parts n d -> let (d', r) := parts_edit d cx k e in
  exists n', part_edit n cx k e = (n', r) /\ has_parts n' d' /\ tag_name n' = tag_name n /\ tag_attrs n' = tag_attrs n.
Proof.
  intros H. unfold parts_edit, part_edit. rewrite (part_read n d cx k H). destruct (aget k d) as [t|] eqn:A; [|now exists n].
  unfold val_edit. destruct (from_tag t) as [c|] eqn:C; cbn [bind].
  - destruct (vapply c t cx true e) as [m r] eqn:V. eexists. split; [reflexivity|]. split; [|split; reflexivity]. apply with_part_has; [|exact H].
    replace m with (fst (vapply c t cx true e)) by now rewrite V. apply edit_tag.
    destruct H as [F N]. pose proof (named_one _ _ k F N) as X. rewrite A in X. destruct X as (f & _ & X). apply (child_is_tag f). rewrite X. now left.
  - exists n. split; [reflexivity|]. split; [|split; reflexivity]. replace (put_part d k t) with d; [exact H|].
    destruct H as [_ N]. clear C. induction d as [|[a b] d IH]; [reflexivity|]. cbn [aget put_part map fst] in *. inversion N as [|? ? N1 N2]; subst.
    destruct (pstr_eqb k a) eqn:E.
    + injection A as ->. apply pstr_eqb_spec in E. subst a. rewrite (proj2 (pstr_eqb_spec k k) eq_refl). f_equal. clear - N1. induction d as [|[a b] d IH]; [reflexivity|]. cbn [put_part map fst] in *.
      destruct (pstr_eqb a k) eqn:E; [apply pstr_eqb_spec in E; exfalso; apply N1; now left|]. f_equal. apply IH. intros I. apply N1. now right.
    + destruct (pstr_eqb a k) eqn:E2; [apply pstr_eqb_spec in E2; subst a; apply pstr_eqb_neq in E; congruence|]. f_equal. now apply IH.
Qed.

(** ** Stops *)
Lemma desc_el nm a k : descendants (El nm a k) = flat_map (fun c => match c with Txt _ => [] | El _ _ _ => c :: descendants c end) k.
Proof. reflexivity. Qed.
Lemma stops_found n : plain_stops n -> find_all (has_name (s "color")) n = child_tags n.
Proof.
  destruct n as [x|nm a k]; [reflexivity|]. unfold plain_stops, find_all, child_tags. cbn [tag_kids]. rewrite desc_el.
  induction k as [|c k IH]; intros H; [reflexivity|]. cbn [flat_map filter] in *. destruct c as [x|nm' a' k']; cbn [is_tag app] in *; [now apply IH|].
  inversion H as [|? ? [H1 H2] H3]; subst. cbn [filter]. unfold has_name at 1. rewrite H1, (proj2 (pstr_eqb_spec (s "color") (s "color")) eq_refl).
  rewrite filter_app, H2, IH by exact H3. reflexivity.
Qed.
Lemma mapM_lost {A B} (g : A -> res B) x e l : forall i ws, mapM g l = Ok ws -> (i < length l)%nat -> g x = Err e -> mapM g (change_nth i (fun _ => x) l) = Err e.
Proof.
  induction l as [|a l IH]; intros i ws E L G; [cbn in L; lia|]. cbn [mapM] in E. destruct (g a) as [b|] eqn:Ea; [|discriminate]. cbn [bind] in E.
  destruct (mapM g l) as [bs|] eqn:El; [|discriminate]. destruct i as [|i]; cbn [change_nth mapM]; [now rewrite G|]. rewrite Ea. cbn [bind].
  rewrite (IH i bs eq_refl); [reflexivity| |exact G]. cbn [length] in L. lia.
Qed.
Lemma last_stop_length q l i : last_stop q l = Some i -> (i < length l)%nat.
Proof.
  revert i. induction l as [|t l IH]; intros i H; [discriminate|]. cbn [last_stop length] in *. destruct (last_stop q l) as [p|]; [injection H as <-; specialize (IH p eq_refl); lia|].
  destruct (aget _ _) as [v|]; [|discriminate]. destruct (float_of_aval v) as [p|]; [|discriminate]. destruct (Qeq_bool q p); [|discriminate]. injection H as <-. lia.
Qed.

Lemma stop_is_colour n cx q w : gradient_getitem n cx q = Ok w -> exists t, w = PVal VColor t cx.
Proof.
  unfold gradient_getitem. destruct (gradient_val n cx) as [d|] eqn:G; cbn [bind]; [|discriminate]. destruct (qget q d) as [w'|] eqn:W; [|discriminate]. intros X. injection X as ->.
  unfold gradient_val in G. destruct (_ <? _); [discriminate|]. destruct (mapM _ _) as [l|] eqn:M; [|discriminate]. cbn [bind] in G. injection G as <-.
    assert (S : forall l0 d0, (forall k x, In (k, x) (l0 ++ d0) -> exists t, x = PVal VColor t cx) -> forall k x, In (k, x) (fold_left (fun d kv => qset (fst kv) (snd kv) d) l0 d0) -> exists t, x = PVal VColor t cx).
    { induction l0 as [|[k0 x0] l0 IH]; intros d0 H k x; cbn [fold_left fst snd]; [apply H|]. apply IH. intros k1 x1 I. apply in_app_or in I as [I|I]; [apply (H k1); right; apply in_or_app; now left|].
      assert (Y : In (k1, x1) d0 \/ x1 = x0).
      { clear - I. induction d0 as [|[k2 x2] d0 IH]; cbn [qset] in I; [destruct I as [I|[]]; injection I as _ <-; now right|].
        destruct (Qeq_bool k0 k2); [destruct I as [I|I]; [injection I as _ <-; now right|left; now right]|]. destruct I as [I|I]; [left; now left|]. destruct (IH I); auto. left. now right. }
      destruct Y as [Y| ->]; [apply (H k1); apply in_or_app; now right|apply (H k0); now left]. }
    assert (I : exists k, In (k, w) (qdict l)).
    { clear - W. induction (qdict l) as [|[k x] d IH]; [discriminate|]. cbn [qget] in W. destruct (Qeq_bool q k); [injection W as ->; exists k; now left|]. destruct (IH W) as [k' I]. exists k'. now right. }
    destruct I as [k I]. apply (S l [] ) with (k := k) in I; [exact I|]. rewrite app_nil_r. clear - M. intros k x I. apply mapM_ok_Forall2 in M.
    induction M as [|c y cs l H _ IH]; [destruct I|]. destruct I as [->|I]; [|exact (IH I)]. destruct (aget _ _) as [a|]; [|discriminate]. destruct (float_of_aval a); [|discriminate]. cbn [bind] in H.
    injection H as _ <-. now exists c.
Qed.
Lemma last_stop_is q l : forall i, last_stop q l = Some i -> exists pre t post, i = length pre /\ l = pre ++ t :: post /\ at_pos q t /\ Forall (fun x => ~ at_pos q x) post.
Proof.
  assert (N : forall l, last_stop q l = None -> Forall (fun x => ~ at_pos q x) l).
  { clear. induction l as [|t l IH]; cbn [last_stop]; [constructor|]. destruct (last_stop q l); [discriminate|]. intros E. constructor; [|now apply IH].
    intros (v & p & A & B & C). rewrite A, B in E. apply Qeq_bool_iff in C. rewrite C in E. discriminate. }
  induction l as [|t l IH]; cbn [last_stop]; [discriminate|]. intros i. destruct (last_stop q l) as [j|] eqn:L.
  - intros E. injection E as <-. destruct (IH j eq_refl) as (pre & t' & post & -> & -> & P). exists (t :: pre), t', post. auto.
  - destruct (aget _ _) as [v|] eqn:A; [|discriminate]. destruct (float_of_aval v) as [p|] eqn:B; [|discriminate]. destruct (Qeq_bool q p) eqn:C; [|discriminate]. intros E. injection E as <-.
    exists [], t, l. split; [reflexivity|]. split; [reflexivity|]. split; [|now apply N]. exists v, p. split; [exact A|]. split; [exact B|]. now apply Qeq_bool_iff.
Qed.
Lemma change_nth_mid {A} (f : A -> A) x pre post : change_nth (length pre) f (pre ++ x :: post) = pre ++ f x :: post.
Proof. induction pre as [|y pre IH]; cbn [length change_nth app]; [reflexivity|]. now rewrite IH. Qed.
