From Verif Require Import ScanModel ScanSpec ScanProofs ScanProofs2 RepSpec RepProofs RepProofs4.
Local Open Scope N_scope.

Section Scan.
  Context (pr : N -> bool) (Hpr : forall c, pr c = true -> encodable [c]) (ex : known).

  Lemma makes_name k p n : makes_field k p n -> exists x, aget (s "name") (tag_attrs p) = Some (AStr x) /\ n = fst (span (fun c => negb (c =? 91)) x).
  Proof.
    intros (f & A & _ & C). exists f. split; [exact A|]. destruct C as [[I ->]|(I & (r & E) & _)]; [symmetry; now apply span_bracket|].
    rewrite (span_unique (fun c => negb (c =? 91)) f n (91 :: r)); [reflexivity| | |exact E].
    - apply Forall_forall. intros c J. apply negb_true_iff, N.eqb_neq. now intros ->.
    - cbn [begins]. discriminate.
  Qed.
  Lemma in_aget {V} (d : list (pstr * V)) k v : NoDup (map fst d) -> In (k, v) d -> aget k d = Some v.
  Proof.
    induction d as [|[k' v'] d IH]; intros D I; [destruct I|]. cbn [map fst] in D. inversion D as [|? ? D1 D2]; subst. cbn [aget]. destruct I as [I|I].
    - injection I as -> ->. now rewrite pstr_eqb_refl.
    - destruct (pstr_eqb k k') eqn:E; [|now apply IH]. apply pstr_eqb_spec in E. subst k'. exfalso. apply D1. now apply (in_map fst) in I.
  Qed.
  Lemma last_split {A} (P : A -> Prop) (dec : forall x, P x \/ ~ P x) (l : list A) : (exists p, In p l /\ P p) -> exists a p b, l = a ++ p :: b /\ P p /\ forall q, In q b -> ~ P q.
  Proof.
    induction l as [|x l IH]; intros (p & I & H); [destruct I|].
    assert (D : (exists q, In q l /\ P q) \/ forall q, In q l -> ~ P q).
    { clear IH I. induction l as [|y l IH]; [right; intros q []|]. destruct (dec y) as [Y|Y]; [left; exists y; split; [now left|exact Y]|]. destruct IH as [(q & I & Q)|Q]; [left; exists q; split; [now right|exact Q]|]. right. intros q [<-|I]; [exact Y|now apply Q]. }
    destruct D as [D|D].
    - destruct (IH D) as (a & q & b & -> & B & C). exists (x :: a), q, b. repeat split; assumption.
    - destruct I as [->|I]; [|destruct (D p I H)]. exists [], p, l. repeat split; assumption.
  Qed.
  Lemma makes_dec k p n : makes_field k p n \/ ~ makes_field k p n.
  Proof.
    destruct (aget (s "name") (tag_attrs p)) as [[f| | |]|] eqn:A; try (right; intros (f' & A' & _); rewrite A in A'; discriminate).
    destruct (match k with Some k => is_inherited_param k f | None => false end) eqn:Inh.
    { right. intros (f' & A' & C & _). rewrite A in A'. injection A' as <-. destruct k as [k|]; [|discriminate]. rewrite (C k eq_refl) in Inh. discriminate. }
    destruct (list_eq_dec N.eq_dec n (fst (span (fun c => negb (c =? 91)) f))) as [->|Q].
    2:{ right. intros M. destruct (makes_name _ _ _ M) as (x & A' & ->). rewrite A in A'. injection A' as ->. contradiction. }
    destruct (existsb (N.eqb 91) f && negb (has_infix (s "[0]") f)) eqn:B.
    { right. apply andb_prop in B as [B1 B2]. apply bracket_in in B1. apply negb_true_iff in B2. intros (f' & A' & _ & C). rewrite A in A'. injection A' as <-. destruct C as [[C _]|(_ & _ & C)]; [contradiction|]. apply has_infix_spec in C. congruence. }
    left. exists f. split; [exact A|]. split; [intros c ->; exact Inh|]. destruct (span_bracket f) as (S1 & S2 & S3).
    destruct (in_dec N.eq_dec 91 f) as [I|I]; [right|left; split; [exact I|now rewrite S3]]. split; [exact S1|]. split; [exact (S2 I)|].
    apply has_infix_spec. apply bracket_in in I. rewrite I in B. cbn [andb] in B. now apply negb_false_iff in B.
  Qed.
  Lemma params_last k lt cx l d n r : scan_params pr k lt cx [] l = Ok d -> In (n, r) d ->
    exists a p b, l = a ++ p :: b /\ makes_field k p n /\ (forall q, In q b -> ~ makes_field k q n) /\ scan_param pr k lt cx [] p = Ok [(n, r)].
  Proof.
    intros H I. destruct (scan_params_ok pr k lt cx l [] d H (NoDup_nil _)) as (D & K & _ & F).
    assert (In n (map fst d)) as J by now apply (in_map fst) in I. apply K in J as [[]|J].
    destruct (last_split (fun p => makes_field k p n) (fun p => makes_dec k p n) l J) as (a & p & b & E & M & Z). exists a, p, b. split; [exact E|]. split; [exact M|]. split; [exact Z|].
    destruct (F a p b n E M Z) as (r' & A & B). rewrite (in_aget d n r D I) in A. injection A as <-. exact B.
  Qed.
  Lemma block_good cx l b : (forall v, aget (s "version") (tag_attrs l) = Some (AStr v) -> one_line v) ->
    (forall p x, In p (find_all (has_name (s "param")) l) -> aget (s "name") (tag_attrs p) = Some (AStr x) -> word_name (fst (span (fun c => negb (c =? 91)) x))) ->
    layer_block pr ex cx l = Ok b -> good_block b.
  Proof.
    intros Hv Hp. unfold layer_block. destruct (str_attr (s "type") l) as [ty|]; [|discriminate]. cbn [bind]. destruct (str_attr (s "version") l) as [v|] eqn:V; [|discriminate]. cbn [bind]. apply str_attr_ok in V. apply Hv in V.
    set (k := aget (title ty) ex). clearbody k. destruct (scan_params pr k ty cx [] (find_all (has_name (s "param")) l)) as [d|] eqn:P; [|discriminate]. cbn [bind]. intros [= <-].
    assert (A : Forall (fun kv => word_name (fst kv) /\ cont (snd kv)) d).
    { apply Forall_forall. intros [n r] I. destruct (params_last _ _ _ _ _ _ _ P I) as (a & p & b & E & M & _ & R). split.
      - destruct (makes_name _ _ _ M) as (x & X & ->). apply (Hp p x); [rewrite E; apply in_or_app; right; now left|exact X].
      - exact (cont_param pr Hpr _ _ _ _ _ _ R). }
    assert (G : good_block (flat_map field_line d)). { clear P. induction A as [|[n r] d [A1 A2] A IH]; [exact good_empty|]. cbn [flat_map]. now apply good_field. }
    match goal with |- good_block ?z => replace z with ((s "SYNFIG_VERSION = " ++ [34] ++ v ++ [34]) ++ 10 :: ([] ++ 10 :: flat_map field_line d)) by (rewrite <- !app_assoc; reflexivity) end.
    apply good_line; [|now apply other_quiet|].
    - apply flat_app; [apply flat_lit; vm_compute; reflexivity|]. apply flat_app; [apply flat_lit; reflexivity|]. apply flat_app; [now apply one_line_flat|apply flat_lit; reflexivity].
    - apply good_line; [constructor|exact empty_quiet|exact G].
  Qed.
  Lemma layers_values cx l : forall done fs fs', scan_layers pr ex cx done fs l = Ok fs' -> forall k v, aget k fs' = Some v -> aget k fs = Some v \/ exists n, In n l /\ layer_block pr ex cx n = Ok v.
  Proof.
    induction l as [|m l IH]; intros done fs fs' H k v A; cbn [scan_layers] in H; [injection H as <-; now left|].
    destruct (str_attr (s "type") m) as [ty|]; [|discriminate]. cbn [bind] in H. destruct (existsb _ done).
    - destruct (IH _ _ _ H k v A) as [B|(n & I & B)]; [now left|right; exists n; split; [now right|exact B]].
    - destruct (layer_block pr ex cx m) as [b|] eqn:Bm; [|discriminate]. cbn [bind] in H. destruct (IH _ _ _ H k v A) as [B|(n & I & B)]; [|right; exists n; split; [now right|exact B]].
      destruct (list_eq_dec N.eq_dec k (title ty)) as [->|Z]; [|left; now rewrite AnimProofs2.aget_aset_other in B]. rewrite AnimProofs2.aget_aset_same in B. injection B as <-. right. exists m. split; [now left|exact Bm].
  Qed.
  Lemma scan_good root fs : python_names root -> scan_soup pr ex root = Ok fs -> fields_encodable fs /\ (forall k v, aget k fs = Some v -> ~ In 13 v) /\ field_quiet fs.
  Proof.
    intros P H. assert (G : forall k v, aget k fs = Some v -> good_block v).
    { intros k v A. destruct (layers_values _ _ _ _ _ H k v A) as [B|(n & I & B)]; [discriminate|]. destruct (P n I) as [P1 P2]. exact (block_good _ _ _ P1 P2 B). }
    assert (J : forall ls, Forall (fun l => flat l /\ quiet l) ls -> Forall (fun c => okc c /\ c <> 13) (join [10] ls)).
    { intros ls F. induction F as [|l ls [F1 _] F IH]; [constructor|]. cbn [join]. assert (Z : Forall (fun c => okc c /\ c <> 13) l) by (eapply Forall_impl; [|exact F1]; intros c (A & B & C); now split).
      destruct ls; [exact Z|]. apply Forall_app. split; [exact Z|]. constructor; [split; [discriminate|discriminate]|exact IH]. }
    split; [|split].
    - intros k v A. destruct (G k v A) as (ls & (_ & _ & ->) & F). apply encodable_spec. eapply Forall_impl; [|exact (J ls F)]. now intros c [C _].
    - intros k v A I. destruct (G k v A) as (ls & (_ & _ & ->) & F). apply J in F. rewrite Forall_forall in F. apply F in I. now destruct I as [_ []].
    - intros k v ls A V. destruct (G k v A) as (ls' & V' & F). rewrite (value_lines_unique _ _ V _ V'). eapply Forall_impl; [|exact F]. now intros l [_ Q].
  Qed.

  (** What has been checked when it succeeds *)
  Lemma param_checked k lt cx d p d' n : scan_param pr k lt cx d p = Ok d' -> makes_field k p n -> override lt n = None ->
    (child_tags p = [] /\ n = s "index") \/ exists v, child_tags p = [v] /\ In (type_name n v) (s "BlendMethod" :: value_names).
  Proof.
    intros H M O. unfold scan_param in H. destruct (str_attr (s "name") p) as [f|] eqn:A; [|discriminate]. cbn [bind] in H. apply str_attr_ok in A.
    destruct (makes_name _ _ _ M) as (x & X & En). rewrite A in X. injection X as <-.
    destruct M as (f' & A' & C & D). rewrite A in A'. injection A' as <-.
    destruct (match k with Some k => is_inherited_param k f | None => false end) eqn:Inh; [destruct k as [k|]; [|discriminate]; rewrite (C k eq_refl) in Inh; discriminate|].
    destruct (existsb (N.eqb 91) f && negb (has_infix (s "[0]") f)) eqn:B.
    { exfalso. apply andb_prop in B as [B1 B2]. apply bracket_in in B1. apply negb_true_iff in B2. destruct D as [[D _]|(_ & _ & D)]; [contradiction|]. apply has_infix_spec in D. congruence. }
    cbv zeta in H. rewrite <- En in H. rewrite O in H. destruct (child_tags p) as [|v [|]]; [| |discriminate].
    - left. destruct (pstr_eqb n (s "index")) eqn:E; [|discriminate]. apply pstr_eqb_spec in E. now split.
    - right. exists v. split; [reflexivity|]. destruct (pstr_eqb _ (s "T")); [discriminate|]. destruct (pstr_eqb _ (s "Waypoint")); [discriminate|].
      destruct (pstr_eqb (type_name n v) (s "BlendMethod") || existsb (pstr_eqb (type_name n v)) value_names) eqn:T; [|discriminate].
      apply orb_true_iff in T as [T|T]; [apply pstr_eqb_spec in T; left; now symmetry|]. apply existsb_exists in T as (y & I & E). apply pstr_eqb_spec in E. rewrite E. now right.
  Qed.
  Lemma params_checked k lt cx l : forall d d', scan_params pr k lt cx d l = Ok d' -> forall p, In p l -> exists e e', scan_param pr k lt cx e p = Ok e'.
  Proof.
    induction l as [|q l IH]; intros d d' H p I; [destruct I|]. cbn [scan_params] in H. destruct (scan_param pr k lt cx d q) as [d1|] eqn:Q; [|discriminate]. cbn [bind] in H.
    destruct I as [<-|I]; [now exists d, d1|exact (IH _ _ H p I)].
  Qed.
  Lemma block_of cx l : forall done fs fs', scan_layers pr ex cx done fs l = Ok fs' -> forall ty n, first_of_type l ty n -> ~ In ty done -> exists b, layer_block pr ex cx n = Ok b.
  Proof.
    induction l as [|m l IH]; intros done fs fs' H ty n (a & b & E & P & A) Z; [destruct a; discriminate E|]. cbn [scan_layers] in H.
    destruct (str_attr (s "type") m) as [ty0|] eqn:T0; [|discriminate]. cbn [bind] in H. apply str_attr_ok in T0. destruct a as [|a0 a].
    - injection E as -> ->. unfold has_ltype in P. rewrite T0 in P. injection P as ->. destruct (existsb (pstr_eqb ty) done) eqn:X.
      + exfalso. apply Z. apply existsb_exists in X as (y & I & E). apply pstr_eqb_spec in E. now subst y.
      + destruct (layer_block pr ex cx n) as [b0|]; [now exists b0|discriminate].
    - injection E as -> ->. inversion A as [|? ? A0 A']; subst. assert (F : first_of_type (a ++ n :: b) ty n) by (exists a, b; repeat split; assumption).
      destruct (existsb (pstr_eqb ty0) done); [exact (IH _ _ _ H ty n F Z)|]. destruct (layer_block pr ex cx a0) as [b0|]; [|discriminate]. cbn [bind] in H. apply (IH _ _ _ H ty n F).
      intros [<-|I]; [now apply A0|contradiction].
  Qed.
  Lemma types_of cx l : forall done fs fs', scan_layers pr ex cx done fs l = Ok fs' -> forall n, In n l -> exists ty, has_ltype n ty.
  Proof.
    induction l as [|m l IH]; intros done fs fs' H n I; [destruct I|]. cbn [scan_layers] in H. destruct (str_attr (s "type") m) as [ty|] eqn:T; [|discriminate]. cbn [bind] in H. apply str_attr_ok in T.
    destruct I as [<-|I]; [now exists ty|]. destruct (existsb _ done); [exact (IH _ _ _ H n I)|]. destruct (layer_block pr ex cx m); [|discriminate]. cbn [bind] in H. exact (IH _ _ _ H n I).
  Qed.
End Scan.
