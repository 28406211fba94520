(** Proofs about timelines. *)
From Coq Require Import Permutation Lqa.
From Verif Require Import TlModel TlSpec ValProofs SerProofs.
Local Open Scope Z_scope.

(** ** Reading waypoints *)

Lemma check_interp_fix x : interpolation x -> check_interpolation x = Ok x.
Proof. unfold interpolation; cbn [In]. intuition; subst; reflexivity. Qed.

Lemma check_interp_ok x y : check_interpolation x = Ok y -> interpolation y.
Proof.
  unfold check_interpolation. destruct (pstr_eqb x (s "undefined")); [discriminate|].
  destruct (existsb (pstr_eqb x) interpolation_types) eqn:E.
  - intros [= <-]. apply existsb_exists in E as (z & Hz & Ez). apply pstr_eqb_spec in Ez as ->. exact Hz.
  - unfold interpolation_synonyms. cbn [aget]. repeat match goal with |- context [if ?b then _ else _] => destruct b end; intros [= <-];
      unfold interpolation; cbn [In]; repeat (try (left; reflexivity); right).
Qed.

Lemma T_init_num q cx f : ctx_fps cx = Ok f -> (0 <= q)%Q -> T_init (TNum q) cx = Ok (mkT q f).
Proof.
  intros Hf Hq. unfold T_init. rewrite Hf. cbn [bind]. unfold Qlt_bool.
  replace (Qle_bool 0 q) with true by (symmetry; now apply Qle_bool_iff). reflexivity.
Qed.

Lemma T_init_fps v cx t : T_init v cx = Ok t -> ctx_fps cx = Ok (fps t).
Proof.
  unfold T_init. destruct (ctx_fps cx) as [f|e]; [|discriminate]. cbn [bind].
  match goal with |- (let* fr := ?x in _) = _ -> _ => destruct x as [fr|e] end; [|discriminate]. cbn [bind].
  now intros [= <-].
Qed.

Lemma wp_read ty w cx f : fits ty w -> ctx_fps cx = Ok f -> fps (w_time w) = f -> (0 <= at_ w)%Q ->
  wp_from_tag (wp_tag w) (AStr ty) cx = Ok w.
Proof.
  destruct w as [[q g] b a c m]. intros (Hb & Ha & Hs & Hn & Ht & Hc) Hf Hg Hq.
  unfold at_ in Hq. cbn [w_time w_before w_after w_cls w_val fps frames] in *. subst g.
  unfold wp_from_tag, wp_tag. cbn [w_time w_before w_after w_val].
  change (has_name (s "waypoint") (El (s "waypoint") ?x ?y)) with true. cbn [negb].
  change (aget (s "time") (tag_attrs (El (s "waypoint") [(s "time", ?x); ?y; ?z] ?k))) with (Some x).
  cbn [tval_of frames]. rewrite (T_init_num q cx f Hf Hq). cbn [bind].
  unfold child_tags. cbn [tag_kids filter]. rewrite Ht, Hs.
  subst ty. rewrite pstr_eqb_refl. cbn [negb]. rewrite Hc. cbn [bind].
  change (aget (s "before") (tag_attrs (El (s "waypoint") [?x; (s "before", ?y); ?z] ?k))) with (Some y).
  change (aget (s "after") (tag_attrs (El (s "waypoint") [?x; ?z; (s "after", ?y)] ?k))) with (Some y).
  cbn [aval_interp]. now rewrite (check_interp_fix b Hb), (check_interp_fix a Ha).
Qed.

Lemma wp_from_tag_fits n tv cx w : wp_from_tag n tv cx = Ok w ->
  exists ty, tv = AStr ty /\ fits ty w /\ ctx_fps cx = Ok (fps (w_time w)).
Proof.
  unfold wp_from_tag. destruct (negb (has_name (s "waypoint") n)); [discriminate|].
  destruct (aget (s "time") (tag_attrs n)) as [v|]; [|discriminate].
  destruct (T_init (tval_of v) cx) as [t|] eqn:Et; [|discriminate]. cbn [bind].
  destruct (child_tags n) as [|m [|]] eqn:Ek; [discriminate| |discriminate].
  destruct (is_animated m) eqn:Ea; [discriminate|].
  destruct tv as [ty| | |]; try discriminate.
  destruct (pstr_eqb (tag_name m) ty) eqn:En; [|discriminate]. cbn [negb].
  destruct (from_tag m) as [c|] eqn:Ec; [|discriminate]. cbn [bind].
  destruct (aget (s "before") (tag_attrs n)) as [b|]; [|discriminate].
  destruct (aget (s "after") (tag_attrs n)) as [a|]; [|discriminate].
  destruct b as [b| | |]; try discriminate. cbn [aval_interp].
  destruct (check_interpolation b) as [b'|] eqn:Eb; [|discriminate]. cbn [bind].
  destruct a as [a| | |]; try discriminate. cbn [aval_interp].
  destruct (check_interpolation a) as [a'|] eqn:Ea'; [|discriminate]. cbn [bind]. intros [= <-].
  exists ty. split; [reflexivity|]. apply T_init_fps in Et. split; [|exact Et].
  apply pstr_eqb_spec in En. repeat split; cbn [w_before w_after w_val w_cls]; try assumption.
  - eapply check_interp_ok; eassumption.
  - eapply check_interp_ok; eassumption.
  - unfold child_tags in Ek. assert (In m (filter is_tag (tag_kids n))) by (rewrite Ek; now left).
    now apply filter_In in H.
Qed.

(** ** Dictionaries of times at one speed *)

Lemma opt_qeq_refl f : opt_qeq f f = true.
Proof. destruct f; [apply Qeq_bool_refl|reflexivity]. Qed.

Lemma T_eq_same a b : fps a = fps b -> T_eq a (CT b) = Ok (Qeq_bool (frames a) (frames b)).
Proof. unfold T_eq, T_compare. intros ->. destruct (fps b); [now rewrite Qeq_bool_refl|reflexivity]. Qed.
Lemma T_lt_same a b : fps a = fps b -> T_lt a (CT b) = Ok (Qlt_bool (frames a) (frames b)).
Proof. unfold T_lt, T_compare. intros ->. destruct (fps b); [now rewrite Qeq_bool_refl|reflexivity]. Qed.

Lemma Qeq_bool_false a b : ~ (a == b)%Q -> Qeq_bool a b = false.
Proof. intros H. destruct (Qeq_bool a b) eqn:E; [|reflexivity]. now apply Qeq_bool_iff in E. Qed.
Lemma Qeq_bool_iff' a b : Qeq_bool a b = false <-> ~ (a == b)%Q.
Proof. split; [intros H E; apply Qeq_bool_iff in E; congruence|apply Qeq_bool_false]. Qed.
Lemma Qlt_bool_iff a b : Qlt_bool a b = true <-> (a < b)%Q.
Proof. unfold Qlt_bool. rewrite negb_true_iff. split.
  - intros H. apply Qnot_le_lt. intros L. apply Qle_bool_iff in L. congruence.
  - intros H. destruct (Qle_bool b a) eqn:E; [|reflexivity]. apply Qle_bool_iff in E. exfalso. lra.
Qed.

Lemma tmatch_same a b : fps a = fps b -> tmatch a b = Ok (Qeq_bool (frames a) (frames b)).
Proof.
  intros H. unfold tmatch, T_hash.
  destruct (Qeq_bool (frames a) 0) eqn:Ea, (Qeq_bool (frames b) 0) eqn:Eb.
  - now apply T_eq_same.
  - f_equal. symmetry. apply Qeq_bool_false. apply Qeq_bool_iff in Ea. apply Qeq_bool_iff' in Eb.
    intros E. apply Eb. now rewrite <- E.
  - f_equal. symmetry. apply Qeq_bool_false. apply Qeq_bool_iff in Eb. apply Qeq_bool_iff' in Ea.
    intros E. apply Ea. now rewrite E.
  - rewrite H, opt_qeq_refl, andb_true_r. destruct (Qeq_bool (frames a) (frames b)) eqn:E; [|reflexivity].
    rewrite T_eq_same by assumption. now rewrite E.
Qed.

(** Keys agree with the waypoints' times, are at speed f, and are distinct. *)
Definition wfd (f : option Q) (d : tdict) : Prop :=
  Forall (fun kv => fps (fst kv) = f /\ fps (w_time (snd kv)) = f /\ (frames (fst kv) == at_ (snd kv))%Q) d /\
  ForallOrdPairs (fun a b => ~ (at_ a == at_ b)%Q) (map snd d).

Lemma tset_spec f t w d : wfd f d -> fps t = f -> fps (w_time w) = f -> (frames t == at_ w)%Q ->
  exists d', tset t w d = Ok d' /\ wfd f d' /\ d' <> [] /\
    forall v, In v (map snd d') <-> v = w \/ In v (map snd d) /\ ~ (at_ v == at_ w)%Q.
Proof.
  intros [H P] Ht Hw Htw. induction d as [|[k v] d IH]; cbn [tset].
  - exists [(t, w)]. repeat split.
    + constructor; [now repeat split|constructor].
    + constructor; [constructor|constructor].
    + discriminate.
    + cbn [map snd In]. intuition congruence.
    + cbn [map snd In]. intuition congruence.
  - inversion H as [|? ? (H1 & H2 & H3) H']; subst. cbn [fst snd] in *.
    cbn [map snd] in P. inversion P as [|? ? P1 P2]; subst.
    rewrite (tmatch_same t k) by congruence. cbn [bind].
    destruct (Qeq_bool (frames t) (frames k)) eqn:E.
    + apply Qeq_bool_iff in E. exists ((k, w) :: d). split; [reflexivity|]. repeat split.
      * constructor; [|assumption]. cbn [fst snd]. repeat split; try congruence. now rewrite <- E.
      * cbn [map snd]. constructor; [|assumption]. eapply Forall_impl; [|exact P1]. cbn. intros x Hx Ex. apply Hx.
        now rewrite <- H3, <- E, Htw.
      * discriminate.
      * cbn [map snd In]. intros [<-|I]; [now left|]. right. split; [now right|].
        rewrite Forall_forall in P1. specialize (P1 _ I). intros Ex. apply P1. rewrite Ex. now rewrite <- Htw, E, H3.
      * cbn [map snd In]. intros [<-|[[<-|I] N]]; [now left| |now right].
        exfalso. apply N. now rewrite <- H3, <- E.
    + apply Qeq_bool_iff' in E. destruct (IH H' P2) as (d' & -> & [W1 W2] & Hne & Hin). cbn [bind].
      exists ((k, v) :: d'). split; [reflexivity|]. repeat split.
      * constructor; [now repeat split|assumption].
      * cbn [map snd]. constructor; [|assumption]. apply Forall_forall. intros x Hx. apply Hin in Hx as [->|[Hx _]].
        -- intros Ex. apply E. now rewrite Htw, H3.
        -- rewrite Forall_forall in P1. now apply P1.
      * discriminate.
      * cbn [map snd In]. intros [<-|I].
        -- right. split; [now left|]. intros Ex. apply E. now rewrite Htw, H3.
        -- apply Hin in I as [->|[I N]]; [now left|]. right. split; [now right|assumption].
      * cbn [map snd In]. intros [->|[[<-|I] N]].
        -- right. apply Hin. now left.
        -- now left.
        -- right. apply Hin. now right.
Qed.

Lemma FOP_impl_in {A} (R : A -> A -> Prop) (p : A -> bool) l : ForallOrdPairs R l -> ForallOrdPairs R (filter p l).
Proof.
  induction 1 as [|a l H _ IH]; cbn [filter]; [constructor|]. destruct (p a); [|assumption].
  constructor; [|assumption]. apply Forall_forall. intros x Hx. apply filter_In in Hx as [Hx _].
  rewrite Forall_forall in H. now apply H.
Qed.

Lemma tdel_spec f t d : wfd f d -> fps t = f ->
  match find_at (frames t) (map snd d) with
  | None => tdel t d = Err KeyError
  | Some _ => exists d', tdel t d = Ok d' /\ wfd f d' /\ length d = S (length d') /\
                forall v, In v (map snd d') <-> In v (map snd d) /\ ~ (at_ v == frames t)%Q
  end.
Proof.
  intros [H P] Ht. induction d as [|[k v] d IH]; cbn [tdel find_at map snd find]; [reflexivity|].
  inversion H as [|? ? (H1 & H2 & H3) H']; subst. cbn [fst snd] in *.
  cbn [map snd] in P. inversion P as [|? ? P1 P2]; subst.
  rewrite (tmatch_same t k) by congruence. cbn [bind].
  replace (Qeq_bool (frames t) (frames k)) with (Qeq_bool (at_ v) (frames t)).
  2:{ apply eq_true_iff_eq. rewrite !Qeq_bool_iff. rewrite H3. split; intros E; now rewrite E. }
  destruct (Qeq_bool (at_ v) (frames t)) eqn:E.
  - apply Qeq_bool_iff in E. exists d. split; [reflexivity|]. repeat split; try assumption.
    + cbn [In]. now right.
    + rewrite Forall_forall in P1. specialize (P1 _ H0). intros Ex. apply P1. now rewrite E, Ex.
    + intros [[<-|I] N]; [now elim N|assumption].
  - apply Qeq_bool_iff' in E. specialize (IH H' P2). unfold find_at in IH.
    destruct (find (fun w => Qeq_bool (at_ w) (frames t)) (map snd d)).
    + destruct IH as (d' & -> & [W1 W2] & Hl & Hin). cbn [bind]. exists ((k, v) :: d'). split; [reflexivity|]. repeat split.
      * constructor; [now repeat split|assumption].
      * cbn [map snd]. constructor; [|assumption]. apply Forall_forall. intros x Hx. apply Hin in Hx as [Hx _].
        rewrite Forall_forall in P1. now apply P1.
      * cbn [length]. now rewrite Hl.
      * destruct H0 as [<-|I]; [now left|]. right. now apply Hin.
      * destruct H0 as [<-|I]; [assumption|]. now apply Hin.
      * cbn [map snd In]. intros [[<-|I] N]; [now left|]. right. now apply Hin.
    + now rewrite IH.
Qed.

Lemma tsets_spec f ws : forall d, wfd f d -> Forall (fun w => fps (w_time w) = f) ws ->
  ForallOrdPairs (fun a b => ~ (at_ a == at_ b)%Q) ws ->
  exists d', tsets ws d = Ok d' /\ wfd f d' /\ (ws <> [] \/ d <> [] -> d' <> []) /\
    forall v, In v (map snd d') <-> In v ws \/ In v (map snd d) /\ Forall (fun w => ~ (at_ v == at_ w)%Q) ws.
Proof.
  induction ws as [|w ws IH]; intros d Hd Hf Hp; cbn [tsets].
  - exists d. split; [reflexivity|]. split; [assumption|]. split; [now intros [H|H]|]. intros v. split.
    + intros I. right. split; [assumption|constructor].
    + now intros [[]|[I _]].
  - inversion Hf; subst. inversion Hp as [|? ? P1 P2]; subst.
    destruct (tset_spec _ (w_time w) w d Hd eq_refl eq_refl) as (d1 & -> & W1 & N1 & I1); [reflexivity|]. cbn [bind].
    destruct (IH d1 W1 ltac:(assumption) P2) as (d2 & -> & W2 & N2 & I2). exists d2. split; [reflexivity|]. split; [assumption|].
    split; [intros _; apply N2; now right|]. intros v. rewrite I2, I1. cbn [In]. split.
    + intros [I|[[->|[I N]] F]]; [tauto|tauto|]. right. split; [assumption|]. constructor; assumption.
    + intros [[<-|I]|[I F]]; [|tauto|].
      * right. split; [now left|assumption].
      * inversion F; subst. right. split; [|assumption]. right. now split.
Qed.

Lemma tsets_snoc f ws : forall d, wfd f d -> Forall (fun w => fps (w_time w) = f) ws ->
  ForallOrdPairs (fun a b => ~ (at_ a == at_ b)%Q) (map snd d ++ ws) ->
  tsets ws d = Ok (d ++ map (fun w => (w_time w, w)) ws).
Proof.
  induction ws as [|w ws IH]; intros d Hd Hf Hp; cbn [tsets map].
  - now rewrite app_nil_r.
  - inversion Hf; subst.
    assert (E : tset (w_time w) w d = Ok (d ++ [(w_time w, w)])).
    { clear - Hd Hp. induction d as [|[k v] d IHd]; [reflexivity|]. cbn [tset].
      destruct Hd as [H P]. inversion H as [|? ? (H1 & H2 & H3) H']; subst. cbn [fst snd] in *.
      cbn [map snd app] in Hp, P. inversion Hp as [|? ? P1 P2]; subst. inversion P; subst.
      rewrite tmatch_same by congruence. cbn [bind].
      rewrite (proj2 (Qeq_bool_iff' _ _)).
      - rewrite IHd; [reflexivity|now split|assumption].
      - rewrite Forall_forall in P1. specialize (P1 w ltac:(apply in_app_iff; right; now left)).
        intros E. apply P1. now rewrite <- H3, <- E. }
    rewrite E. cbn [bind]. rewrite IH.
    + now rewrite <- app_assoc.
    + split.
      * apply Forall_app. split; [apply Hd|]. constructor; [now repeat split|constructor].
      * rewrite map_app. cbn [map snd]. replace (map snd d ++ w :: ws) with ((map snd d ++ [w]) ++ ws) in Hp by now rewrite <- app_assoc.
        clear - Hp. revert Hp. generalize (map snd d ++ [w]). induction l as [|a l IH]; intros H; [constructor|].
        cbn [app] in H. inversion H as [|? ? H1 H2]; subst. constructor; [|now apply IH]. apply Forall_app in H1. tauto.
    + assumption.
    + rewrite map_app. cbn [map snd]. now rewrite <- app_assoc.
Qed.

(** ** Sorting *)

Lemma ins_in {A} le (a x : A) l : In x (ins le a l) <-> a = x \/ In x l.
Proof.
  split; intros H.
  - apply (Permutation_in _ (ins_perm le a l)) in H. exact H.
  - apply (Permutation_in _ (Permutation_sym (ins_perm le a l))). exact H.
Qed.
Lemma sort_in {A} le (x : A) l : In x (sort le l) <-> In x l.
Proof.
  split; intros H.
  - eapply Permutation_in; [apply sort_perm|exact H].
  - eapply Permutation_in; [apply Permutation_sym, sort_perm|exact H].
Qed.

Lemma sort_in_order l : ForallOrdPairs (fun a b => ~ (at_ a == at_ b)%Q) l -> in_order (sort wp_le l).
Proof.
  unfold sort. induction 1 as [|a l H _ IH]; cbn [fold_right in_order]; [exact I|].
  change (fold_right (ins wp_le) [] l) with (sort wp_le l) in *.
  assert (G : forall v, In v (sort wp_le l) -> ~ (at_ a == at_ v)%Q).
  { intros v Hv. apply sort_in in Hv. rewrite Forall_forall in H. now apply H. }
  clear H. revert G IH. generalize (sort wp_le l). clear l. induction l as [|b l IHl]; intros G O; cbn [ins].
  - cbn [in_order]. split; [intros v []|exact I].
  - destruct O as [O1 O2]. unfold wp_le at 1. fold (at_ a) (at_ b). destruct (Qle_bool (at_ a) (at_ b)) eqn:E.
    + apply Qle_bool_iff in E. cbn [in_order]. split; [|now split].
      assert (at_ a < at_ b)%Q.
      { apply Qle_lteq in E as [E|E]; [assumption|]. elim (G b (or_introl eq_refl) E). }
      intros v [<-|Hv]; [assumption|]. specialize (O1 v Hv). lra.
    + assert (L : (at_ b < at_ a)%Q).
      { apply Qnot_le_lt. intros L. apply Qle_bool_iff in L. congruence. }
      cbn [in_order]. split.
      * intros v Hv. apply ins_in in Hv as [<-|Hv]; [assumption|now apply O1].
      * apply IHl; [|assumption]. intros v Hv. apply G. now right.
Qed.

Lemma in_order_ext a : forall b, in_order a -> in_order b -> (forall v, In v a <-> In v b) -> a = b.
Proof.
  induction a as [|x a IH]; intros [|y b] Ha Hb H; [reflexivity| | |].
  - elim (proj2 (H y) (or_introl eq_refl)).
  - elim (proj1 (H x) (or_introl eq_refl)).
  - destruct Ha as [A1 A2], Hb as [B1 B2].
    assert (x = y).
    { destruct (proj1 (H x) (or_introl eq_refl)) as [->|I1]; [reflexivity|].
      destruct (proj2 (H y) (or_introl eq_refl)) as [->|I2]; [reflexivity|].
      specialize (A1 _ I2). specialize (B1 _ I1). lra. }
    subst y. f_equal. apply IH; [assumption|assumption|]. intros v. split; intros Hv.
    + destruct (proj1 (H v) (or_intror Hv)) as [<-|]; [|assumption]. specialize (A1 _ Hv). lra.
    + destruct (proj2 (H v) (or_intror Hv)) as [<-|]; [|assumption]. specialize (B1 _ Hv). lra.
Qed.

Lemma in_order_distinct l : in_order l -> ForallOrdPairs (fun a b => ~ (at_ a == at_ b)%Q) l.
Proof.
  induction l as [|a l IH]; intros H; [constructor|]. destruct H as [H1 H2]. constructor; [|now apply IH].
  apply Forall_forall. intros v Hv E. specialize (H1 _ Hv). lra.
Qed.

Lemma in_order_filter p l : in_order l -> in_order (filter p l).
Proof.
  induction l as [|a l IH]; intros H; [exact I|]. destruct H as [H1 H2]. cbn [filter]. destruct (p a); [|now apply IH].
  split; [|now apply IH]. intros v Hv. apply filter_In in Hv as [Hv _]. now apply H1.
Qed.

Lemma in_order_app a b : in_order a -> in_order b -> (forall x y, In x a -> In y b -> at_ x < at_ y)%Q -> in_order (a ++ b).
Proof.
  induction a as [|x a IH]; intros Ha Hb H; [assumption|]. destruct Ha as [A1 A2]. cbn [app in_order]. split.
  - intros v Hv. apply in_app_iff in Hv as [Hv|Hv]; [now apply A1|]. apply H; [now left|assumption].
  - apply IH; [assumption|assumption|]. intros; apply H; [now right|assumption].
Qed.

Lemma put_in_order w l : in_order l -> in_order (put_wp w l).
Proof.
  intros H. unfold put_wp. apply in_order_app; [now apply in_order_filter| |].
  - split; [|now apply in_order_filter]. intros v Hv. apply filter_In in Hv as [_ Hv]. now apply Qlt_bool_iff.
  - intros x y Hx [<-|Hy]; apply filter_In in Hx as [_ Hx]; apply Qlt_bool_iff in Hx; [assumption|].
    apply filter_In in Hy as [_ Hy]. apply Qlt_bool_iff in Hy. lra.
Qed.

Lemma put_members w l v : In v (put_wp w l) <-> v = w \/ In v l /\ ~ (at_ v == at_ w)%Q.
Proof.
  unfold put_wp. rewrite in_app_iff. cbn [In]. rewrite !filter_In, !Qlt_bool_iff. split.
  - intros [[I L]|[->|[I L]]]; [right|now left|right]; (split; [assumption|]); lra.
  - intros [->|[I N]]; [right; now left|].
    destruct (Qlt_le_dec (at_ v) (at_ w)) as [L|L]; [left; now split|]. right. right. split; [assumption|].
    apply Qle_lteq in L as [L|L]; [assumption|]. elim N. now symmetry.
Qed.

Lemma put_all_order ws : forall l, in_order l -> in_order (put_all ws l).
Proof. induction ws as [|w ws IH]; intros l H; [assumption|]. cbn. apply IH. now apply put_in_order. Qed.

Lemma put_all_members ws : forall l v, ForallOrdPairs (fun a b => ~ (at_ a == at_ b)%Q) ws ->
  In v (put_all ws l) <-> In v ws \/ In v l /\ Forall (fun w => ~ (at_ v == at_ w)%Q) ws.
Proof.
  induction ws as [|w ws IH]; intros l v H.
  - cbn. split; [intros I; right; split; [assumption|constructor]|]. now intros [[]|[]].
  - inversion H as [|? ? P1 P2]; subst. cbn [put_all fold_left]. change (fold_left _ ws ?x) with (put_all ws x).
    rewrite IH by assumption. rewrite put_members. cbn [In]. split.
    + intros [I|[[->|[I N]] F]]; [tauto|tauto|]. right. split; [assumption|]. now constructor.
    + intros [[<-|I]|[I F]]; [right; split; [now left|assumption]|tauto|].
      inversion F; subst. right. split; [|assumption]. right. now split.
Qed.

Lemma without_members q l v : In v (without q l) <-> In v l /\ ~ (at_ v == q)%Q.
Proof. unfold without. rewrite filter_In, negb_true_iff, Qeq_bool_iff'. reflexivity. Qed.

Lemma sort_wps_same f l : Forall (fun w => fps (w_time w) = f) l -> sort_wps l = Ok (sort wp_le l).
Proof.
  intros H. unfold sort_wps. destruct (existsb _ l) eqn:E; [|reflexivity]. exfalso.
  apply existsb_exists in E as (a & Ha & E). apply existsb_exists in E as (b & Hb & E).
  rewrite Forall_forall in H. unfold conflict in E. rewrite (H _ Ha), (H _ Hb) in E.
  destruct f; [rewrite Qeq_bool_refl in E|]; discriminate.
Qed.

(** ** Timelines *)

Lemma waypoints_wfd n cx d f : waypoints n cx = Ok d -> ctx_fps cx = Ok f -> wfd f d.
Proof.
  unfold waypoints. destruct (waypoint_tags n) as [|t l]; [intros [= <-] _; split; constructor|].
  destruct (aget (s "type") (tag_attrs n)) as [ty|]; [|discriminate].
  destruct (mapM _ (t :: l)) as [ws|] eqn:E; [|discriminate]. cbn [bind]. intros H Hf.
  assert (F : Forall (fun w => fps (w_time w) = f) ws).
  { apply mapM_ok_Forall2 in E. clear - E Hf. induction E as [|x w l0 ws H _ IH]; constructor; [|assumption].
    apply wp_from_tag_fits in H as (? & _ & _ & H). congruence. }
  assert (W : wfd f []) by (split; constructor).
  clear E. revert F W H. generalize (@nil (T * wp)). induction ws as [|w ws IH]; intros d0 F W H.
  - cbn [tsets] in H. congruence.
  - cbn [tsets] in H. inversion F; subst.
    destruct (tset_spec (fps (w_time w)) (w_time w) w d0 W eq_refl eq_refl (Qeq_refl _)) as (d1 & E1 & W1 & _ & _).
    rewrite E1 in H. cbn [bind] in H. now apply (IH d1).
Qed.

Lemma waypoints_fits n cx d ty : waypoints n cx = Ok d -> has_type n ty -> Forall (fits ty) (map snd d).
Proof.
  unfold waypoints, has_type, waypoint_tags. destruct (is_animated n).
  2:{ intros [= <-] _. constructor. }
  destruct (child_tags n) as [|t l]; [intros [= <-] _; constructor|].
  intros H [_ Hty]. rewrite Hty in H. destruct (mapM _ (t :: l)) as [ws|] eqn:E; [|discriminate]. cbn [bind] in H.
  assert (F : Forall (fits ty) ws).
  { apply mapM_ok_Forall2 in E. clear - E. induction E as [|x w l0 ws H _ IH]; constructor; [|assumption].
    apply wp_from_tag_fits in H as (? & [= <-] & H & _). exact H. }
  clear E. assert (G : Forall (fits ty) (map snd (@nil (T * wp)))) by constructor.
  revert F G H. generalize (@nil (T * wp)). induction ws as [|w ws IH]; intros d0 F G H; cbn [tsets] in H.
  - congruence.
  - inversion F; subst. destruct (tset (w_time w) w d0) as [d1|] eqn:E1; [|discriminate]. cbn [bind] in H.
    apply (IH d1); [assumption| |assumption]. clear - E1 G H2. revert d1 E1. induction d0 as [|[k v] d0 IH]; intros d1 E; cbn [tset] in E.
    + injection E as <-. constructor; [assumption|constructor].
    + inversion G; subst. destruct (tmatch (w_time w) k) as [[|]|]; cbn [bind] in E; try discriminate.
      * injection E as <-. cbn [map snd]. now constructor.
      * destruct (tset (w_time w) w d0) eqn:E'; [|discriminate]. cbn [bind] in E. injection E as <-. cbn [map snd]. constructor; [assumption|].
        now apply IH.
Qed.

(** Tags made of waypoints read back. *)
Lemma child_tags_newlines nm a l : child_tags (El nm a (with_newlines (map wp_tag l))) = map wp_tag l.
Proof.
  unfold child_tags. cbn [tag_kids]. induction l as [|w l IH]; [reflexivity|]. destruct l as [|v l]; [reflexivity|].
  cbn [map with_newlines filter] in IH |- *. cbn [is_tag wp_tag] in *. now rewrite IH.
Qed.
Lemma child_tags_plain nm a l : child_tags (El nm a (map wp_tag l)) = map wp_tag l.
Proof. unfold child_tags. cbn [tag_kids]. induction l as [|w l IH]; [reflexivity|]. cbn [map filter is_tag wp_tag]. now rewrite IH. Qed.

Lemma stored_is n cx f ty l : is_animated n = true -> has_type n ty -> child_tags n = map wp_tag l ->
  ctx_fps cx = Ok f -> in_order l -> Forall (fun w => fps (w_time w) = f /\ (0 <= at_ w)%Q) l -> Forall (fits ty) l ->
  waypoints n cx = Ok (map (fun w => (w_time w, w)) l) /\ timeline_is n cx f l.
Proof.
  intros Ha [Ht Hty] Hk Hf Ho Hq Hfit. rewrite Ha in Hty.
  assert (W : waypoints n cx = Ok (map (fun w => (w_time w, w)) l)).
  { unfold waypoints, waypoint_tags. rewrite Ha, Hk, Hty. destruct l as [|w0 l0]; [reflexivity|].
    set (l := w0 :: l0) in *. change (map wp_tag l) with (wp_tag w0 :: map wp_tag l0) at 1. cbn iota.
    change (wp_tag w0 :: map wp_tag l0) with (map wp_tag l).
    replace (mapM (fun w => wp_from_tag w (AStr ty) cx) (map wp_tag l)) with (Ok l).
    - cbn [bind]. apply (tsets_snoc f l []).
      + split; constructor.
      + eapply Forall_impl; [|exact Hq]. cbn. tauto.
      + now apply in_order_distinct.
    - clearbody l. clear - Hf Hq Hfit. induction l as [|w l IH]; [reflexivity|].
      inversion Hq as [|? ? [Q1 Q2] ?]; subst. inversion Hfit; subst. cbn [map mapM].
      rewrite (wp_read ty w cx _ H2 Hf eq_refl Q2). cbn [bind]. now rewrite <- IH. }
  split; [assumption|]. repeat split; try assumption.
  - unfold tl_values. rewrite W. cbn [bind]. f_equal. clear. induction l as [|w l IH]; [reflexivity|]. cbn [map snd]. now rewrite IH.
  - unfold waypoint_tags. rewrite Ha, Hk. apply map_length.
Qed.

(** n' is n with the waypoints l written in it. *)
Definition wrote (n n' : node) (l : list wp) : Prop :=
  is_animated n' = true /\ child_tags n' = map wp_tag l /\
  (is_animated n = false \/ NoDup (map fst (tag_attrs n)) -> NoDup (map fst (tag_attrs n'))).

(** Writing a list of waypoints *)
Lemma set_waypoints_is n cx f ty par l : has_type n ty -> ctx_fps cx = Ok f -> l <> [] ->
  ForallOrdPairs (fun a b => ~ (at_ a == at_ b)%Q) l ->
  Forall (fun w => fps (w_time w) = f /\ (0 <= at_ w)%Q) l -> Forall (fits ty) l ->
  exists n', set_waypoints n cx par l = (n', Ok tt) /\ wrote n n' (sort wp_le l) /\ has_type n' ty /\
    timeline_is n' cx f (sort wp_le l).
Proof.
  intros Hty Hf Hne Hd Hq Hfit. unfold set_waypoints. destruct l as [|w0 l0]; [easy|]. set (l := w0 :: l0) in *.
  rewrite (sort_wps_same f) by (eapply Forall_impl; [|exact Hq]; cbn; tauto).
  eexists. split; [reflexivity|].
  set (n1 := if is_animated n then n else animated_tag n).
  assert (A1 : is_animated n1 = true) by (subst n1; destruct (is_animated n) eqn:E; [exact E|reflexivity]).
  assert (T1 : aget (s "type") (tag_attrs n1) = Some (AStr ty)).
  { subst n1. destruct Hty as [_ Hty]. destruct (is_animated n); [exact Hty|]. now rewrite <- Hty. }
  assert (A2 : is_animated (with_kids n1 (with_newlines (map wp_tag (sort wp_le l)))) = true) by exact A1.
  assert (T2 : has_type (with_kids n1 (with_newlines (map wp_tag (sort wp_le l)))) ty).
  { split; [reflexivity|]. rewrite A2. exact T1. }
  split.
  { split; [exact A2|]. split; [apply child_tags_newlines|]. intros D. cbn [with_kids tag_attrs]. subst n1.
    destruct (is_animated n); [|repeat constructor; intros []]. destruct D; [discriminate|assumption]. }
  split; [exact T2|].
  apply (stored_is _ cx f ty); try assumption.
  - apply child_tags_newlines.
  - now apply sort_in_order.
  - apply Forall_forall. intros w Hw. apply sort_in in Hw. rewrite Forall_forall in Hq. now apply Hq.
  - apply Forall_forall. intros w Hw. apply sort_in in Hw. rewrite Forall_forall in Hfit. now apply Hfit.
Qed.

Lemma timeline_waypoints n cx f l : timeline_is n cx f l -> exists d, waypoints n cx = Ok d /\ map snd d = l /\ wfd f d.
Proof.
  intros (_ & Hf & Hv & _). unfold tl_values in Hv. destruct (waypoints n cx) as [d|] eqn:E; [|discriminate].
  cbn [bind] in Hv. injection Hv as <-. exists d. split; [reflexivity|]. split; [reflexivity|]. eapply waypoints_wfd; eassumption.
Qed.
Lemma timeline_fits n cx f l ty : timeline_is n cx f l -> has_type n ty -> Forall (fits ty) l.
Proof. intros H Hty. destruct (timeline_waypoints _ _ _ _ H) as (d & E & <- & _). eapply waypoints_fits; eassumption. Qed.
