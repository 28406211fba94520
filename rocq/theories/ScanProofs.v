From Verif Require Import ScanModel ScanSpec RepSpec RepProofs AnimProofs2.
Local Open Scope N_scope.

Lemma keys_aset {V} k (v : V) d : In k (map fst (aset k v d)) /\ (forall j, In j (map fst (aset k v d)) <-> j = k \/ In j (map fst d)).
Proof.
  assert (H : forall j, In j (map fst (aset k v d)) <-> j = k \/ In j (map fst d)).
  { induction d as [|[k' v'] d IH]; intros j; cbn [aset map fst In]; [intuition congruence|].
    destruct (pstr_eqb k k') eqn:E; cbn [map fst In]; [apply pstr_eqb_spec in E; subst k'; intuition congruence|]. rewrite IH. intuition congruence. }
  split; [apply H; now left|exact H].
Qed.
Lemma nodup_aset {V} k (v : V) d : NoDup (map fst d) -> NoDup (map fst (aset k v d)).
Proof.
  induction d as [|[k' v'] d IH]; intros H; cbn [aset map fst]; [constructor; [intros []|constructor]|].
  inversion H as [|? ? N D]; subst. destruct (pstr_eqb k k') eqn:E; cbn [map fst]; [apply pstr_eqb_spec in E; subst k'; constructor; assumption|]. constructor; [|now apply IH].
  intros I. apply (proj2 (keys_aset k v d)) in I as [->|I]; [rewrite pstr_eqb_refl in E; discriminate|contradiction].
Qed.
Lemma str_attr_ok k n x : str_attr k n = Ok x <-> aget k (tag_attrs n) = Some (AStr x).
Proof. unfold str_attr. destruct (aget k (tag_attrs n)) as [[y| | |]|]; split; congruence. Qed.

Section Scan.
  Context (pr : N -> bool) (ex : known).

  (** ** Layers *)
  Lemma scan_layers_ok cx l : forall done fs fs', scan_layers pr ex cx done fs l = Ok fs' ->
    NoDup (map fst fs) ->
    NoDup (map fst fs') /\
    (forall c, In c (map fst fs') <-> In c (map fst fs) \/ exists n ty, In n l /\ has_ltype n ty /\ ~ In ty done /\ c = title ty) /\
    (forall c, (forall n ty, In n l -> has_ltype n ty -> ~ In ty done -> title ty <> c) -> aget c fs' = aget c fs) /\
    (forall ty n, first_of_type l ty n -> ~ In ty done -> only_type l ty -> exists b, aget (title ty) fs' = Some b /\ layer_block pr ex cx n = Ok b).
  Proof.
    induction l as [|m l IH]; intros done fs fs' H D; cbn [scan_layers] in H.
    - injection H as <-. split; [exact D|]. split; [intros c; split; [now left|intros [I|(n & ty & [] & _)]; exact I]|]. split; [reflexivity|].
      intros ty n (a & b & E & _). destruct a; discriminate E.
    - destruct (str_attr (s "type") m) as [ty0|] eqn:T0; [|discriminate]. cbn [bind] in H. apply str_attr_ok in T0.
      destruct (existsb (pstr_eqb ty0) done) eqn:X.
      + assert (I0 : In ty0 done) by (apply existsb_exists in X as (y & I & E); apply pstr_eqb_spec in E; now subst y).
        destruct (IH _ _ _ H D) as (N & K & O & F). split; [exact N|]. split; [|split].
        * intros c. rewrite K. split; intros [I|(n & ty & I & P)]; [now left|right; exists n, ty; split; [now right|exact P]|now left|].
          destruct I as [<-|I]; [|right; now exists n, ty]. exfalso. destruct P as (P & Q & _). unfold has_ltype in P. rewrite T0 in P. injection P as ->. contradiction.
        * intros c A. apply O. intros n ty I. apply A. now right.
        * intros ty n (a & b & E & P & A) Q U. destruct a as [|a0 a].
          -- injection E as -> _. exfalso. unfold has_ltype in P. rewrite T0 in P. injection P as ->. contradiction.
          -- injection E as -> ->. inversion A as [|? ? _ A']; subst. apply F; [exists a, b; repeat split; assumption|exact Q|]. intros m ty' I. apply U. now right.
      + assert (I0 : ~ In ty0 done). { intros I. assert (existsb (pstr_eqb ty0) done = true); [|congruence]. apply existsb_exists. exists ty0. split; [exact I|apply pstr_eqb_refl]. }
        destruct (layer_block pr ex cx m) as [b0|] eqn:B0; [|discriminate]. cbn [bind] in H.
        destruct (IH _ _ _ H (nodup_aset (title ty0) b0 fs D)) as (N & K & O & F). split; [exact N|]. split; [|split].
        * intros c. rewrite K, (proj2 (keys_aset (title ty0) b0 fs)). split.
          -- intros [[->|I]|(n & ty & I & P & Q & R)]; [right; exists m, ty0; repeat split; [now left|exact T0|exact I0]|now left|].
             right. exists n, ty. split; [now right|]. split; [exact P|]. split; [|exact R]. intros J. apply Q. now right.
          -- intros [I|(n & ty & I & P & Q & R)]; [left; now right|]. destruct (list_eq_dec N.eq_dec ty ty0) as [->|Z]; [left; left; exact R|].
             right. destruct I as [<-|I]; [exfalso; apply Z; unfold has_ltype in P; congruence|]. exists n, ty. split; [exact I|]. split; [exact P|]. split; [|exact R]. intros [J|J]; congruence.
        * intros c A. rewrite O.
          -- apply aget_aset_other. intros ->. apply (A m ty0); [now left|exact T0|exact I0|reflexivity].
          -- intros n ty I P Q. apply (A n ty); [now right|exact P|]. intros J. apply Q. now right.
        * intros ty n (a & b & E & P & A) Q U. destruct a as [|a0 a].
          -- injection E as -> ->. unfold has_ltype in P. rewrite T0 in P. injection P as ->. exists b0. split; [|exact B0]. rewrite O; [apply aget_aset_same|].
             intros n' ty' I P' Q' R. apply Q'. left. symmetry. apply (U n' ty'); [now right|exact P'|exact R].
          -- injection E as -> ->. inversion A as [|? ? A0 A']; subst. apply F; [exists a, b; repeat split; assumption| |].
             ++ intros [<-|J]; [now apply A0|contradiction].
             ++ intros m ty' I. apply U. now right.
  Qed.

  (** ** Params *)
  Lemma has_infix_spec p x : has_infix p x = true <-> exists u v, x = u ++ p ++ v.
  Proof.
    induction x as [|c x IH]; cbn [has_infix]; destruct (after p _) as [r|] eqn:E.
    - split; [|reflexivity]. intros _. apply after_spec in E. exists [], r. exact E.
    - split; [discriminate|]. intros (u & v & X). assert (after p [] = Some []); [|congruence]. apply after_spec. destruct u; [|discriminate]. cbn in X. destruct p; [|discriminate]. now rewrite X.
    - split; [|reflexivity]. intros _. apply after_spec in E. exists [], r. exact E.
    - rewrite IH. split.
      + intros (u & v & ->). now exists (c :: u), v.
      + intros (u & v & X). destruct u as [|c' u]; [cbn [app] in X; apply after_spec in X; congruence|]. injection X as -> ->. now exists u, v.
  Qed.
  Lemma span_bracket x : ~ In 91 (fst (span (fun c => negb (c =? 91)) x)) /\ (In 91 x -> exists r, x = fst (span (fun c => negb (c =? 91)) x) ++ 91 :: r) /\ (~ In 91 x -> fst (span (fun c => negb (c =? 91)) x) = x).
  Proof.
    destruct (span_splits (fun c => negb (c =? 91)) x) as (F & E & B). set (a := fst (span (fun c => negb (c =? 91)) x)) in *. set (b := snd (span (fun c => negb (c =? 91)) x)) in *. clearbody a b. subst x.
    assert (N : ~ In 91 a) by (intros I; rewrite Forall_forall in F; apply F in I; discriminate). split; [exact N|]. split.
    - intros I. apply in_app_or in I as [I|I]; [contradiction|]. destruct b as [|c b]; [destruct I|]. exists b. f_equal. f_equal.
      destruct (N.eqb_spec c 91) as [Q|Q]; [exact Q|]. exfalso. apply B. cbn [begins]. apply negb_true_iff. now apply N.eqb_neq.
    - intros I. destruct b as [|c b]; [now rewrite app_nil_r|]. exfalso. apply B. cbn [begins]. apply negb_true_iff, N.eqb_neq. intros ->. apply I. apply in_or_app. right. now left.
  Qed.
  Lemma bracket_in x : existsb (N.eqb 91) x = true <-> In 91 x.
  Proof. split; [intros H; apply existsb_exists in H as (c & I & E); apply N.eqb_eq in E; now subst c|intros I; apply existsb_exists; exists 91; split; [exact I|reflexivity]]. Qed.

  (** What one param does to the dictionary *)
  Lemma makes_unique k p n n' : makes_field k p n -> makes_field k p n' -> n = n'.
  Proof.
    intros (f & A & _ & C) (f' & A' & _ & C'). rewrite A in A'. injection A' as <-.
    assert (U : forall m, (~ In 91 f /\ m = f \/ ~ In 91 m /\ (exists r, f = m ++ 91 :: r) /\ exists u v, f = u ++ s "[0]" ++ v) -> m = fst (span (fun c => negb (c =? 91)) f)).
    { intros m [[I ->]|(I & (r & E) & _)]; [symmetry; now apply span_bracket|]. rewrite (span_unique (fun c => negb (c =? 91)) f m (91 :: r)); [reflexivity| | |exact E].
      - apply Forall_forall. intros c J. apply negb_true_iff, N.eqb_neq. now intros ->.
      - cbn [begins]. discriminate. }
    now rewrite (U n C), (U n' C').
  Qed.
  Lemma scan_param_cases k lt cx d p d' : scan_param pr k lt cx d p = Ok d' ->
    (d' = d /\ forall n, ~ makes_field k p n) \/
    exists n r, makes_field k p n /\ d' = aset n r d /\ forall e, scan_param pr k lt cx e p = Ok (aset n r e).
  Proof.
    unfold scan_param. destruct (str_attr (s "name") p) as [f|] eqn:A; [|discriminate]. cbn [bind]. apply str_attr_ok in A.
    destruct (match k with Some k => is_inherited_param k f | None => false end) eqn:Inh.
    { intros [= <-]. left. split; [reflexivity|]. intros n (f' & A' & C & _). rewrite A in A'. injection A' as <-. destruct k as [k|]; [|discriminate]. rewrite (C k eq_refl) in Inh. discriminate. }
    destruct (existsb (N.eqb 91) f && negb (has_infix (s "[0]") f)) eqn:B.
    { intros [= <-]. left. split; [reflexivity|]. apply andb_prop in B as [B1 B2]. apply bracket_in in B1. apply negb_true_iff in B2.
      intros n (f' & A' & _ & C). rewrite A in A'. injection A' as <-. destruct C as [[C _]|(_ & _ & C)]; [contradiction|]. apply has_infix_spec in C. congruence. }
    set (n := fst (span (fun c => negb (c =? 91)) f)) in *.
    assert (M : makes_field k p n).
    { exists f. split; [exact A|]. split; [intros c ->; exact Inh|]. destruct (span_bracket f) as (S1 & S2 & S3). fold n in S1, S2, S3.
      destruct (in_dec N.eq_dec 91 f) as [I|I]; [right|left; split; [exact I|now rewrite S3]]. split; [exact S1|]. split; [exact (S2 I)|].
      apply has_infix_spec. apply bracket_in in I. rewrite I in B. cbn [andb] in B. now apply negb_false_iff in B. }
    clearbody n. intros H. right.
    destruct (override lt n) as [x|]; [injection H as <-; exists n, x; repeat split; exact M|].
    destruct (child_tags p) as [|v [|]]; [|  |discriminate].
    { destruct (pstr_eqb n (s "index")) eqn:E; [|discriminate]. apply pstr_eqb_spec in E. injection H as <-. rewrite <- E. exists n, (s "DuplicatesIndexField(None)"). repeat split. exact M. }
    cbv zeta in H |- *. destruct (pstr_eqb (type_name n v) (s "T")); [discriminate|]. destruct (pstr_eqb (type_name n v) (s "Waypoint")); [discriminate|].
    destruct (pstr_eqb (type_name n v) (s "BlendMethod") || existsb (pstr_eqb (type_name n v)) value_names); [|discriminate].
    destruct (right_side pr k (existsb (N.eqb 91) f) n (type_name n v) v cx) as [r|]; [|discriminate]. cbn [bind] in *. injection H as <-. exists n, r. repeat split. exact M.
  Qed.
  Lemma scan_params_ok k lt cx l : forall d d', scan_params pr k lt cx d l = Ok d' -> NoDup (map fst d) ->
    NoDup (map fst d') /\ (forall n, In n (map fst d') <-> In n (map fst d) \/ exists p, In p l /\ makes_field k p n) /\
    (forall n, (forall p, In p l -> ~ makes_field k p n) -> aget n d' = aget n d) /\
    (forall a p b n, l = a ++ p :: b -> makes_field k p n -> (forall q, In q b -> ~ makes_field k q n) -> exists r, aget n d' = Some r /\ scan_param pr k lt cx [] p = Ok [(n, r)]).
  Proof.
    induction l as [|p l IH]; intros d d' H D; cbn [scan_params] in H.
    - injection H as <-. split; [exact D|]. split; [intros n; split; [now left|intros [I|(p & [] & _)]; exact I]|]. split; [reflexivity|]. intros a p b n E; destruct a; discriminate E.
    - destruct (scan_param pr k lt cx d p) as [d1|] eqn:P; [|discriminate]. cbn [bind] in H. destruct (scan_param_cases _ _ _ _ _ _ P) as [[-> Z]|(n0 & r0 & M0 & -> & G)].
      + destruct (IH _ _ H D) as (N & K & O & F). split; [exact N|]. split; [|split].
        * intros n. rewrite K. split; intros [I|(q & I & M)]; [now left|right; exists q; split; [now right|exact M]|now left|]. destruct I as [<-|I]; [destruct (Z n M)|right; now exists q].
        * intros n A. apply O. intros q I. apply A. now right.
        * intros a q b n E M A. destruct a as [|a0 a]; [injection E as -> ->; destruct (Z n M)|]. injection E as -> ->. now apply (F a q b n).
      + destruct (IH _ _ H (nodup_aset n0 r0 d D)) as (N & K & O & F). split; [exact N|]. split; [|split].
        * intros n. rewrite K, (proj2 (keys_aset n0 r0 d)). split.
          -- intros [[->|I]|(q & I & M)]; [right; exists p; split; [now left|exact M0]|now left|right; exists q; split; [now right|exact M]].
          -- intros [I|(q & [<-|I] & M)]; [left; now right|left; left; exact (makes_unique _ _ _ _ M M0)|right; now exists q].
        * intros n A. rewrite O; [|intros q I; apply A; now right]. apply aget_aset_other. intros ->. apply (A p); [now left|exact M0].
        * intros a q b n E M A. destruct a as [|a0 a]; [|injection E as -> ->; now apply (F a q b n)]. injection E as -> ->.
          rewrite (makes_unique _ _ _ _ M M0) in *. exists r0. split; [|exact (G [])]. rewrite O; [apply aget_aset_same|exact A].
  Qed.
End Scan.
