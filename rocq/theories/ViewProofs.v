(** Comparing vectors, gradients and transformations. *)
From Coq Require Import Lia Permutation.
From Verif Require Import TlModel ValProofs ValProofs2 WrProofs ViewModel ViewSpec.
Local Open Scope Z_scope.

Lemma bind_Ok {A B} (r : res A) (f : A -> res B) y : bind r f = Ok y -> exists x, r = Ok x /\ f x = Ok y.
Proof. destruct r; [intros H; now exists a|discriminate]. Qed.

(** ** Vectors *)

Lemma reads_length n l : reads n l -> length l = length (vector_dict n).
Proof.
  unfold reads, vector_iter, vector_values. destruct (is_animated n); [discriminate|]. intros H. apply bind_Ok in H as (o & H1 & H2). apply bind_Ok in H1 as (it & H1 & H3). injection H3 as <-. injection H2 as <-.
  rewrite map_length. exact (mapM_length _ _ _ H1).
Qed.
Lemma forallb_id_map {A} (f : A -> bool) l : forallb (fun b => b) (map f l) = forallb f l.
Proof. induction l as [|x l IH]; [reflexivity|]. cbn [map forallb]. now rewrite IH. Qed.
Lemma both_floats l m : both float_eq l (map PFlo m) = Ok (forallb (fun ab => Qeq_bool (fst ab) (snd ab)) (combine l m)).
Proof.
  unfold both. assert (E : mapM (fun ab => float_eq (fst ab) (snd ab)) (combine l (map PFlo m)) = Ok (map (fun ab => Qeq_bool (fst ab) (snd ab)) (combine l m))).
  { revert m. induction l as [|x l IH]; intros m; [reflexivity|]. destruct m as [|y m]; [reflexivity|]. cbn [map combine mapM]. rewrite IH. reflexivity. }
  rewrite E. cbn [bind]. now rewrite forallb_id_map.
Qed.
Lemma all_equal l : forall m, length l = length m -> forallb (fun ab => Qeq_bool (fst ab) (snd ab)) (combine l m) = true <-> Forall2 Qeq l m.
Proof.
  induction l as [|x l IH]; intros [|y m] H; try discriminate; [split; auto|]. injection H as H. cbn [combine forallb fst snd]. rewrite Bool.andb_true_iff, IH, Qeq_bool_iff by exact H.
  split; [intros []; now constructor|intros X; inversion_clear X; auto].
Qed.
Lemma Forall2_len {A B} (R : A -> B -> Prop) l m : Forall2 R l m -> length l = length m.
Proof. induction 1; cbn; congruence. Qed.
Lemma vec_eq_reads a b la lb cx : reads a la -> reads b lb ->
  exists r, vec_eq a (PVal VXY b cx) = Ok r /\ (r = true <-> Forall2 Qeq la lb).
Proof.
  intros Ha Hb. pose proof (reads_length a la Ha) as La. pose proof (reads_length b lb Hb) as Lb. unfold vec_eq. cbn [py_len value_len py_iter].
  destruct (Z.eqb_spec (Z.of_nat (length (vector_dict b))) (Z.of_nat (length (vector_dict a)))) as [E|E]; cbn [negb].
  - apply Nat2Z.inj in E. rewrite Ha, Hb. cbn [bind]. destruct la as [|x la].
    + exists true. split; [reflexivity|]. destruct lb as [|y lb]; [split; auto|]. cbn in La, Lb. lia.
    + rewrite both_floats. eexists. split; [reflexivity|]. apply all_equal. congruence.
  - exists false. split; [reflexivity|]. split; [discriminate|]. intros F. apply Forall2_len in F. exfalso. apply E. congruence.
Qed.
Lemma vec_eq_tuple a la l : reads a la -> exists r, vec_eq a (PTuple (map PFlo l)) = Ok r /\ (r = true <-> Forall2 Qeq la l).
Proof.
  intros Ha. pose proof (reads_length a la Ha) as La. unfold vec_eq. cbn [py_len py_iter]. rewrite map_length.
  destruct (Z.eqb_spec (Z.of_nat (length l)) (Z.of_nat (length (vector_dict a)))) as [E|E]; cbn [negb].
  - apply Nat2Z.inj in E. rewrite Ha. cbn [bind]. destruct la as [|x la].
    + exists true. split; [reflexivity|]. destruct l as [|y l]; [split; auto|]. cbn in La, E. lia.
    + rewrite both_floats. eexists. split; [reflexivity|]. apply all_equal. congruence.
  - exists false. split; [reflexivity|]. split; [discriminate|]. intros F. apply Forall2_len in F. exfalso. apply E. congruence.
Qed.
Lemma plain_reads n x y : plain_xy n x y -> reads n [x; y] /\ vector_keys n = [s "x"; s "y"] /\ vector_tuple n = Ok [x; y] /\ vector_items n = Ok [(s "x", x); (s "y", y)].
Proof.
  intros (A & K & X & Y). destruct (child_tags n) as [|tx [|ty [|]]] eqn:E; try discriminate. injection K as Kx Ky.
  assert (D : vector_dict n = [(s "x", node_string tx); (s "y", node_string ty)]) by (unfold vector_dict; rewrite E; cbn [map]; rewrite Kx, Ky; reflexivity).
  assert (Xv : float_opt (node_string tx) = Ok x).
  { unfold vector_getitem, vector_get in X. rewrite E in X. cbn [filter] in X. unfold has_name in X. rewrite Kx in X. change (pstr_eqb (s "x") (s "x")) with true in X. cbn iota in X. destruct (is_tag tx); cbn [andb] in X.
    all: revert X; rewrite ?Ky; change (pstr_eqb (s "y") (s "x")) with false; rewrite ?Bool.andb_false_r; destruct (float_opt (node_string tx)); cbn; try discriminate; intros H; inversion_clear H; reflexivity. }
  assert (Yv : float_opt (node_string ty) = Ok y).
  { unfold vector_getitem, vector_get in Y. rewrite E in Y. cbn [filter] in Y. unfold has_name in Y. rewrite Kx, Ky in Y. change (pstr_eqb (s "x") (s "y")) with false in Y. change (pstr_eqb (s "y") (s "y")) with true in Y. rewrite ?Bool.andb_false_r in Y. destruct (is_tag ty); cbn [andb] in Y.
    all: revert Y; destruct (float_opt (node_string ty)); cbn; try discriminate; intros H; inversion_clear H; reflexivity. }
  assert (It : vector_items n = Ok [(s "x", x); (s "y", y)]) by (unfold vector_items; rewrite D; cbn [mapM snd fst]; rewrite Xv; cbn [bind]; rewrite Yv; reflexivity).
  assert (Ks : vector_keys n = [s "x"; s "y"]) by (unfold vector_keys; rewrite D; reflexivity).
  split; [|split; [exact Ks|split; [|exact It]]].
  - unfold reads, vector_iter, vector_values. rewrite A, It. reflexivity.
  - unfold vector_tuple. rewrite Ks, D.
    change (mapM (fun k => float_opt match aget k [(s "x", node_string tx); (s "y", node_string ty)] with Some v => v | None => None end) [s "x"; s "y"]) with (let* a := float_opt (node_string tx) in let* l := (let* b := float_opt (node_string ty) in let* m := Ok [] in Ok (b :: m)) in Ok (a :: l)).
    rewrite Xv. cbn [bind]. rewrite Yv. reflexivity.
Qed.
Lemma two_equal (x y z w : Q) : Forall2 Qeq [x; y] [z; w] <-> (x == z /\ y == w)%Q.
Proof. split; [intros H; inversion_clear H as [|? ? ? ? E1 H1]; inversion_clear H1; auto|intros []; repeat constructor; auto]. Qed.

(** ** Gradients *)

Lemma qset_keys k v d : map fst (qset k v d) = if existsb (fun k' => Qeq_bool k k') (map fst d) then map fst d else map fst d ++ [k].
Proof. induction d as [|[k' w] d IH]; [reflexivity|]. cbn [qset map fst existsb]. destruct (Qeq_bool k k'); [reflexivity|]. cbn [orb map fst]. rewrite IH. destruct (existsb _ (map fst d)); reflexivity. Qed.
Definition distinct (d : list (Q * pyval)) : Prop := NoDup (map Qred (map fst d)).
Lemma Qred_in k l : In (Qred k) (map Qred l) <-> existsb (fun k' => Qeq_bool k k') l = true.
Proof.
  rewrite existsb_exists, in_map_iff. split; intros (x & H1 & H2); exists x.
  - split; [exact H2|]. apply Qeq_bool_iff. rewrite <- (Qred_correct k), <- (Qred_correct x), H1. reflexivity.
  - split; [|exact H1]. apply Qeq_bool_iff in H2. symmetry. now apply Qred_complete.
Qed.
Lemma qset_distinct k v d : distinct d -> distinct (qset k v d).
Proof.
  unfold distinct. rewrite qset_keys. destruct (existsb (fun k' => Qeq_bool k k') (map fst d)) eqn:E; [auto|]. intros H. rewrite map_app. cbn [map].
  apply (Permutation_NoDup (l := Qred k :: map Qred (map fst d))); [apply Permutation_cons_append|]. constructor; [|exact H]. intros C. apply Qred_in in C. congruence.
Qed.
Lemma qdict_distinct_keys l : distinct (qdict l).
Proof. unfold qdict. assert (G : forall l d, distinct d -> distinct (fold_left (fun d kv => qset (fst kv) (snd kv) d) l d)) by (induction l0 as [|x l0 IH]; intros d H; [exact H|]; apply IH; now apply qset_distinct). apply G. constructor. Qed.
Lemma gradient_distinct n cx d : gradient_val n cx = Ok d -> distinct d.
Proof. unfold gradient_val. destruct (_ <? 2); [discriminate|]. intros H. apply bind_Ok in H as (l & _ & H). injection H as <-. apply qdict_distinct_keys. Qed.

Lemma qget_ex q d : In (Qred q) (map Qred (map fst d)) <-> exists v, qget q d = Some v.
Proof.
  rewrite Qred_in. induction d as [|[k v] d IH]; cbn [map fst existsb qget]; [split; [discriminate|intros (v & H); discriminate]|].
  destruct (Qeq_bool q k); cbn [orb]; [|exact IH]. split; [intros _; now exists v|reflexivity].
Qed.
Lemma qget_proper q q' d : (q == q')%Q -> qget q d = qget q' d.
Proof. intros E. induction d as [|[k v] d IH]; [reflexivity|]. cbn [qget]. rewrite IH. assert (X : Qeq_bool q k = Qeq_bool q' k); [|now rewrite X]. apply Bool.eq_iff_eq_true. rewrite !Qeq_bool_iff. now rewrite E. Qed.
Lemma qget_In q d v : qget q d = Some v -> exists k, In (k, v) d /\ (k == q)%Q.
Proof.
  induction d as [|[k w] d IH]; [discriminate|]. cbn [qget]. destruct (Qeq_bool q k) eqn:E; [intros [= ->]; exists k; split; [now left|]; apply Qeq_bool_iff in E; now symmetry|]. intros H. destruct (IH H) as (k' & H1 & H2). exists k'. split; [now right|exact H2].
Qed.
Lemma qget_here k v d : distinct d -> In (k, v) d -> qget k d = Some v.
Proof.
  unfold distinct. induction d as [|[k' w] d IH]; intros N H; [destruct H|]. cbn [map fst qget] in *. apply NoDup_cons_iff in N as [N1 N2]. destruct H as [[= -> ->]|H].
  - replace (Qeq_bool k k) with true by (symmetry; apply Qeq_bool_iff; reflexivity). reflexivity.
  - destruct (Qeq_bool k k') eqn:E; [|now apply IH]. exfalso. apply N1. apply Qeq_bool_iff in E. rewrite <- (Qred_complete _ _ E). apply in_map, (in_map fst _ _ H).
Qed.

(** The entries are in the other dictionary, and the colours are the same there. *)
Lemma entries_spec a d : (forall q v, In (q, v) a -> exists c cy x, v = PVal VColor c cy /\ color_hex c = Ok x) -> (forall q v, In (q, v) d -> exists c cy x, v = PVal VColor c cy /\ color_hex c = Ok x) ->
  exists r, entries_eq (fun k => qget k d) stop_eq a = Ok r /\ (r = true <-> forall q c cy x, In (q, PVal VColor c cy) a -> color_hex c = Ok x -> shows d q x).
Proof.
  intros Ha Hd. induction a as [|[k v] a IH]; [exists true; split; [reflexivity|]; split; [intros _ q c cy x []|reflexivity]|].
  destruct IH as (r & E & Hr); [intros q w Hq; apply (Ha q w); now right|]. cbn [entries_eq]. destruct (Ha k v (or_introl eq_refl)) as (c & cy & x & -> & Ec).
  destruct (qget k d) as [w|] eqn:Eg.
  - destruct (qget_In _ _ _ Eg) as (k' & Hk & _). destruct (Hd k' w Hk) as (c2 & cy2 & x2 & -> & Ec2). cbn [stop_eq color_eq]. rewrite Ec, Ec2. cbn [bind]. destruct (pstr_eqb x x2) eqn:Ex.
    + exists r. split; [exact E|]. apply pstr_eqb_spec in Ex. subst x2. rewrite Hr. split.
      * intros H q c0 cy0 x0 [[= <- <- <-]|Hq] E0; [|now apply (H q c0 cy0)]. exists c2, cy2. rewrite Eg. split; [reflexivity|]. congruence.
      * intros H q c0 cy0 x0 Hq. apply (H q c0 cy0). now right.
    + exists false. split; [reflexivity|]. split; [discriminate|]. intros H. destruct (H k c cy x (or_introl eq_refl) Ec) as (c3 & cy3 & E1 & E2). rewrite Eg in E1. injection E1 as <- <-. rewrite Ec2 in E2. injection E2 as ->. rewrite pstr_eqb_refl in Ex. discriminate.
  - exists false. split; [reflexivity|]. split; [discriminate|]. intros H. destruct (H k c cy x (or_introl eq_refl) Ec) as (c3 & cy3 & E1 & _). congruence.
Qed.
Lemma grad_eq_reads a b cx cy da db : grad_reads a cx da -> grad_reads b cy db ->
  exists r, grad_eq a cx (PVal VGradient b cy) = Ok r /\ (r = true <-> forall q x, shows da q x <-> shows db q x).
Proof.
  intros [Ea Ha] [Eb Hb]. pose proof (gradient_distinct _ _ _ Ea) as Na. pose proof (gradient_distinct _ _ _ Eb) as Nb. unfold grad_eq. cbn [get_value]. rewrite Ea, Eb. cbn [bind].
  assert (Keys : forall d e : list (Q * pyval), (forall q v, In (q, v) d -> exists c cz x, v = PVal VColor c cz /\ color_hex c = Ok x) -> (forall q x, shows d q x -> shows e q x) -> incl (map Qred (map fst d)) (map Qred (map fst e))).
  { intros d e Hd S k Hk. apply in_map_iff in Hk as (q & <- & Hq). assert (Hq' : In (Qred q) (map Qred (map fst d))) by now apply in_map. apply qget_ex in Hq' as (v & Hv). destruct (qget_In _ _ _ Hv) as (k' & Hk & _). destruct (Hd k' v Hk) as (c & cz & x & -> & Ec).
    destruct (S q x) as (c2 & cz2 & E2 & _); [now exists c, cz|]. apply qget_ex. eauto. }
  destruct (Z.eqb_spec (Z.of_nat (length db)) (Z.of_nat (length da))) as [E|E]; cbn [negb].
  - apply Nat2Z.inj in E. destruct (entries_spec da db Ha Hb) as (r & Er & Hr). exists r. split; [exact Er|]. rewrite Hr. split.
    + intros H. assert (S : forall q x, shows da q x -> shows db q x).
      { intros q x (c & cz & E1 & E2). destruct (qget_In _ _ _ E1) as (k & Hk & Ek). destruct (H k c cz x Hk E2) as (c2 & cz2 & E3 & E4). exists c2, cz2. split; [|exact E4]. now rewrite <- (qget_proper k q db Ek). }
      intros q x. split; [apply S|]. intros (c & cz & E1 & E2).
      assert (I : incl (map Qred (map fst db)) (map Qred (map fst da))) by (apply NoDup_length_incl; [exact Na|rewrite !map_length; lia|now apply Keys]).
      assert (Hq : In (Qred q) (map Qred (map fst db))) by (apply qget_ex; eauto). apply I, qget_ex in Hq as (v & Hv). destruct (qget_In _ _ _ Hv) as (k & Hk & _). destruct (Ha k v Hk) as (c2 & cz2 & x2 & -> & E4).
      destruct (S q x2) as (c3 & cz3 & E5 & E6); [now exists c2, cz2|]. rewrite E1 in E5. injection E5 as <- <-. exists c2, cz2. split; [exact Hv|]. congruence.
    + intros H q c cz x Hq Ec. apply H. exists c, cz. split; [now apply qget_here|exact Ec].
  - exists false. split; [reflexivity|]. split; [discriminate|]. intros H. exfalso. apply E.
    assert (I1 : incl (map Qred (map fst da)) (map Qred (map fst db))) by (apply Keys; [exact Ha|]; intros q x; apply H). assert (I2 : incl (map Qred (map fst db)) (map Qred (map fst da))) by (apply Keys; [exact Hb|]; intros q x; apply H).
    apply NoDup_incl_length in I1; [|exact Na]. apply NoDup_incl_length in I2; [|exact Nb]. rewrite !map_length in *. lia.
Qed.

(** ** Transformations *)

Lemma items_spec other (R : pstr -> Prop) l : (forall k v, In (k, v) l -> exists o b, py_getitem other k = Ok o /\ item_eq o v = Ok b /\ (b = true <-> R k)) ->
  exists r, items_eq other l = Ok r /\ (r = true <-> forall k, In k (map fst l) -> R k).
Proof.
  induction l as [|[k v] l IH]; intros H; [exists true; split; [reflexivity|]; split; [intros _ k []|reflexivity]|].
  destruct IH as (r & E & Hr); [intros k' v' Hk; apply H; now right|]. destruct (H k v (or_introl eq_refl)) as (o & b & E1 & E2 & Hb). cbn [items_eq]. rewrite E1. cbn [bind]. rewrite E2. cbn [bind]. destruct b.
  - exists r. split; [exact E|]. rewrite Hr. cbn [map fst]. split; [intros G k' [<-|Hk]; [now apply Hb|now apply G]|intros G k' Hk; apply G; now right].
  - exists false. split; [reflexivity|]. split; [discriminate|]. intros G. apply Hb. apply G. now left.
Qed.
Lemma getitem_field n cx k v : composite_getitem n cx k = Ok v -> exists f m c, filter (has_name k) (child_tags n) = [f] /\ child_tags f = [m] /\ from_tag m = Ok c /\ v = PVal c m cx.
Proof.
  unfold composite_getitem, composite_get. intros H. apply bind_Ok in H as (o & H1 & H2). destruct (filter (has_name k) (child_tags n)) as [|f [|]] eqn:E; [injection H1 as <-; discriminate| |discriminate].
  destruct (child_tags f) as [|m [|]] eqn:Ef; [injection H1 as <-; discriminate| |discriminate]. apply bind_Ok in H1 as (c & H1 & H3). injection H3 as <-. injection H2 as <-. exists f, m, c. auto.
Qed.
Lemma child_tag_named n f : In f (child_tags n) -> has_name (tag_name f) f = true.
Proof. intros _. unfold has_name. apply pstr_eqb_refl. Qed.
Lemma get_field n cx f v : In f (child_tags n) -> composite_getitem n cx (tag_name f) = Ok v -> pstr_eqb (tag_name f) (s "layer") = false -> composite_field cx f = Ok (tag_name f, v).
Proof.
  intros Hf H L. apply getitem_field in H as (g & m & c & E1 & E2 & E3 & ->). assert (Hg : In f (filter (has_name (tag_name f)) (child_tags n))) by (apply filter_In; split; [exact Hf|exact (child_tag_named n f Hf)]).
  rewrite E1 in Hg. destruct Hg as [->|[]]. unfold composite_field. rewrite L, E2, E3. reflexivity.
Qed.
Lemma mapM_all {A B} (f : A -> res B) (g : A -> B) l : (forall x, In x l -> f x = Ok (g x)) -> mapM f l = Ok (map g l).
Proof. induction l as [|x l IH]; intros H; [reflexivity|]. cbn [mapM map]. rewrite (H x) by now left. cbn [bind]. rewrite IH by (intros y Hy; apply H; now right). reflexivity. Qed.
Lemma trans_fields n cx : Permutation (composite_keys n) (map fst transformation_keys) -> (forall k, In k (map fst transformation_keys) -> exists v, composite_getitem n cx k = Ok v) ->
  exists d, composite_val n cx = Ok d /\ map fst d = composite_keys n /\ forall k v, In (k, v) d -> composite_getitem n cx k = Ok v.
Proof.
  intros P H. set (val k := match composite_getitem n cx k with Ok v => v | Err _ => PNone end).
  assert (G : forall f, In f (child_tags n) -> In (tag_name f) (map fst transformation_keys)) by (intros f Hf; apply (Permutation_in _ P); unfold composite_keys; now apply in_map).
  assert (L : forall k, In k (map fst transformation_keys) -> pstr_eqb k (s "layer") = false) by (intros k; cbn; intros [<-|[<-|[<-|[<-|[]]]]]; reflexivity).
  assert (M : mapM (composite_field cx) (child_tags n) = Ok (map (fun f => (tag_name f, val (tag_name f))) (child_tags n))).
  { apply mapM_all. intros f Hf. destruct (H _ (G f Hf)) as (v & Hv). unfold val. rewrite Hv. apply (get_field n); auto. }
  assert (K : map fst (map (fun f => (tag_name f, val (tag_name f))) (child_tags n)) = composite_keys n) by (rewrite map_map; reflexivity).
  assert (N : NoDup (composite_keys n)) by (apply (Permutation_NoDup (Permutation_sym P)); cbn; repeat constructor; cbn; intuition discriminate).
  exists (map (fun f => (tag_name f, val (tag_name f))) (child_tags n)). split; [|split; [exact K|]].
  - unfold composite_val. rewrite M. cbn [bind]. rewrite adict_id by (rewrite K; exact N). rewrite K.
    assert (S : same_keys (composite_keys n) (map fst transformation_keys) = true); [|now rewrite S].
    unfold same_keys. apply andb_true_intro. split; apply forallb_forall; intros k Hk; apply existsb_exists; exists k; (split; [|apply pstr_eqb_refl]); [now apply (Permutation_in _ P)|now apply (Permutation_in _ (Permutation_sym P))].
  - intros k v Hk. apply in_map_iff in Hk as (f & [= <- <-] & Hf). destruct (H _ (G f Hf)) as (v & Hv). unfold val. now rewrite Hv.
Qed.
Lemma trans_eq_reads n m cx cy o1 o2 a w s1 s2 p1 p2 b x t1 t2 : trans_reads n cx o1 o2 a w s1 s2 -> trans_reads m cy p1 p2 b x t1 t2 ->
  exists r, trans_eq n cx (PVal VTransformation m cy) = Ok r /\
    (r = true <-> (o1 == p1 /\ o2 == p2) /\ a == b /\ w == x /\ (s1 == t1 /\ s2 == t2))%Q.
Proof.
  intros [Kn On An Wn Sn] [Km Om Am Wm Sm].
  assert (Vp : forall k u1 u2 v1 v2, vector_part n cx k u1 u2 -> vector_part m cy k v1 v2 -> forall v, composite_getitem n cx k = Ok v -> exists o r, py_getitem (PVal VTransformation m cy) k = Ok o /\ item_eq o v = Ok r /\ (r = true <-> u1 == v1 /\ u2 == v2)%Q).
  { intros k u1 u2 v1 v2 (y & E1 & P1) (z & E2 & P2) v Ev. rewrite E1 in Ev. injection Ev as <-. destruct (plain_reads _ _ _ P1) as (R1 & _). destruct (plain_reads _ _ _ P2) as (R2 & _). destruct (vec_eq_reads z y _ _ cx R2 R1) as (r & Er & Hr).
    exists (PVal VXY z cy), r. split; [exact E2|]. split; [exact Er|]. rewrite Hr, two_equal. split; intros []; split; now symmetry. }
  assert (Ap : forall k u v', angle_part n cx k u -> angle_part m cy k v' -> forall v, composite_getitem n cx k = Ok v -> exists o r, py_getitem (PVal VTransformation m cy) k = Ok o /\ item_eq o v = Ok r /\ (r = true <-> u == v')%Q).
  { intros k u v' (y & E1 & P1) (z & E2 & P2) v Ev. rewrite E1 in Ev. injection Ev as <-. exists (PVal VAngle z cy), (Qeq_bool v' u). split; [exact E2|]. split.
    - cbn [item_eq flat_eq simple_eq is_instance]. rewrite P1. cbn [bind]. rewrite P2. reflexivity.
    - rewrite Qeq_bool_iff. split; intros H; now symmetry. }
  destruct (trans_fields n cx Kn) as (d & Ed & Kd & Hd).
  { intros k. cbn. destruct On as (? & ? & _), An as (? & ? & _), Wn as (? & ? & _), Sn as (? & ? & _). intros [<-|[<-|[<-|[<-|[]]]]]; eauto. }
  set (R := fun k => (k = s "offset" -> o1 == p1 /\ o2 == p2)%Q /\ (k = s "angle" -> a == b)%Q /\ (k = s "skew_angle" -> w == x)%Q /\ (k = s "scale" -> s1 == t1 /\ s2 == t2)%Q).
  destruct (items_spec (PVal VTransformation m cy) R d) as (r & Er & Hr).
  { intros k v Hk. pose proof (Hd k v Hk) as Hv. assert (Hin : In k (map fst transformation_keys)) by (apply (Permutation_in _ Kn); rewrite <- Kd; now apply (in_map fst _ (k, v))). unfold R.
    cbn in Hin. destruct Hin as [<-|[<-|[<-|[<-|[]]]]].
    - destruct (Vp _ _ _ _ _ On Om v Hv) as (o & r & E1 & E2 & E3). exists o, r. split; [exact E1|]. split; [exact E2|]. rewrite E3. split; [intros E; repeat split; try discriminate; tauto|intros (E & _); now apply E].
    - destruct (Ap _ _ _ An Am v Hv) as (o & r & E1 & E2 & E3). exists o, r. split; [exact E1|]. split; [exact E2|]. rewrite E3. split; [intros E; repeat split; try discriminate; tauto|intros (_ & E & _); now apply E].
    - destruct (Ap _ _ _ Wn Wm v Hv) as (o & r & E1 & E2 & E3). exists o, r. split; [exact E1|]. split; [exact E2|]. rewrite E3. split; [intros E; repeat split; try discriminate; tauto|intros (_ & _ & E & _); now apply E].
    - destruct (Vp _ _ _ _ _ Sn Sm v Hv) as (o & r & E1 & E2 & E3). exists o, r. split; [exact E1|]. split; [exact E2|]. rewrite E3. split; [intros E; repeat split; try discriminate; tauto|intros (_ & _ & _ & E); now apply E]. }
  exists r. split.
  - unfold trans_eq. cbn [py_items py_len value_len bind]. assert (Ln : length (child_tags m) = length (child_tags n)).
    { pose proof (Permutation_length Kn) as L1. pose proof (Permutation_length Km) as L2. unfold composite_keys in L1, L2. rewrite map_length in L1, L2. congruence. }
    rewrite Ln, Z.eqb_refl. cbn [negb]. unfold composite_items. rewrite Ed. exact Er.
  - rewrite Hr. rewrite Kd. split.
    + intros H. assert (H' : forall k, In k (map fst transformation_keys) -> R k) by (intros k Hk; apply H; now apply (Permutation_in _ (Permutation_sym Kn))).
      assert (I1 : R (s "offset")) by (apply H'; now left). assert (I2 : R (s "angle")) by (apply H'; right; now left). assert (I3 : R (s "skew_angle")) by (apply H'; do 2 right; now left). assert (I4 : R (s "scale")) by (apply H'; do 3 right; now left).
      split; [now apply I1|]. split; [now apply I2|]. split; [now apply I3|now apply I4].
    + intros (H1 & H2 & H3 & H4) k _. unfold R. auto.
Qed.

(** ** Truth *)
Lemma nonzero {A} (l : list A) : negb (Z.of_nat (length l) =? 0) = true <-> l <> [].
Proof. destruct l; cbn [length]; [split; [discriminate|congruence]|]. split; [discriminate|intros _]. apply negb_true_iff. apply Z.eqb_neq. lia. Qed.
Lemma tset_some k v d d' : tset k v d = Ok d' -> d' <> [].
Proof. destruct d as [|(k', v') d]; cbn [tset]; intros H; [injection H as <-; discriminate|]. apply bind_Ok in H as (m & _ & H). destruct m; [injection H as <-; discriminate|]. apply bind_Ok in H as (r & _ & H). injection H as <-. discriminate. Qed.
Lemma tsets_some l : forall d d', tsets l d = Ok d' -> (l <> [] \/ d <> []) -> d' <> [].
Proof. induction l as [|w l IH]; intros d d' H [N|N]; cbn [tsets] in H; try congruence; apply bind_Ok in H as (e & E & H); apply (IH _ _ H); right; exact (tset_some _ _ _ _ E). Qed.
Lemma waypoints_some n cx d : waypoints n cx = Ok d -> (d <> [] <-> is_animated n = true /\ child_tags n <> []).
Proof.
  unfold waypoints, waypoint_tags. destruct (is_animated n); [|intros [= <-]; split; [congruence|intros []; discriminate]].
  destruct (child_tags n) as [|t l]; [intros [= <-]; tauto|]. destruct (aget (s "type") (tag_attrs n)) as [ty|]; [|discriminate]. intros H. apply bind_Ok in H as (ws & E & H).
  split; [intros _; split; [reflexivity|discriminate]|intros _]. apply (tsets_some _ _ _ H). left. cbn [mapM] in E. apply bind_Ok in E as (x & _ & E). apply bind_Ok in E as (y & _ & E). injection E as <-. discriminate.
Qed.
Lemma adict_some {A V} (f : A -> pstr * V) l : adict (map f l) <> [] <-> l <> [].
Proof.
  destruct l as [|x l]; [cbn; tauto|]. split; [discriminate|intros _ E]. assert (H : In (fst (f x)) (map fst (adict (map f (x :: l))))) by (apply in_keys_adict; left; reflexivity). rewrite E in H. destruct H.
Qed.
Lemma gradient_some n cx d : gradient_val n cx = Ok d -> d <> [].
Proof.
  unfold gradient_val. destruct (find_all _ n) as [|c l]; [discriminate|]. destruct (_ <? 2); [discriminate|]. intros H. apply bind_Ok in H as (m & E & H). injection H as <-.
  cbn [mapM] in E. apply bind_Ok in E as ((k & v) & _ & E). apply bind_Ok in E as (r & _ & E). injection E as <-. unfold qdict. cbn [fold_left qset fst snd].
  assert (G : forall l d, d <> [] -> fold_left (fun d kv => qset (fst kv) (snd kv) d) l d <> []).
  { induction l0 as [|x l0 IH]; intros d N; [exact N|]. apply IH. destruct d as [|(k', v') d]; [discriminate|]. cbn [qset]. destruct (Qeq_bool _ _); discriminate. }
  apply G. discriminate.
Qed.

(** ** Views of transformations *)
Lemma trans_keys_distinct : NoDup (map fst transformation_keys).
Proof. cbn. repeat constructor; cbn; intuition discriminate. Qed.
Lemma filter_one n f : NoDup (composite_keys n) -> In f (child_tags n) -> filter (has_name (tag_name f)) (child_tags n) = [f].
Proof.
  unfold composite_keys. induction (child_tags n) as [|g l IH]; intros N H; [destruct H|]. cbn [map] in N. inversion_clear N as [|? ? N1 N2]. cbn [filter]. destruct H as [->|H].
  - unfold has_name at 1. rewrite pstr_eqb_refl. f_equal. clear - N1. induction l as [|g l IH]; [reflexivity|]. cbn [filter]. unfold has_name at 1. destruct (pstr_eqb (tag_name g) (tag_name f)) eqn:E.
    + apply pstr_eqb_spec in E. destruct N1. left. exact E.
    + apply IH. intros C. apply N1. now right.
  - unfold has_name at 1. destruct (pstr_eqb (tag_name g) (tag_name f)) eqn:E; [|now apply IH]. apply pstr_eqb_spec in E. destruct N1. rewrite E. now apply in_map.
Qed.
Lemma field_ok cx f k v : composite_field cx f = Ok (k, v) -> k = tag_name f /\ exists m c, child_tags f = [m] /\ from_tag m = Ok c /\ v = PVal c m cx.
Proof.
  unfold composite_field. destruct (pstr_eqb _ _); [discriminate|]. destruct (child_tags f) as [|m [|]]; try discriminate. intros H. apply bind_Ok in H as (c & E & H). injection H as <- <-. split; [reflexivity|]. exists m, c. auto.
Qed.
Lemma mapM_fst cx l : forall d, mapM (composite_field cx) l = Ok d -> map fst d = map tag_name l.
Proof. induction l as [|f l IH]; intros d H; cbn [mapM] in H; [injection H as <-; reflexivity|]. apply bind_Ok in H as ((k & v) & E & H). apply bind_Ok in H as (r & E' & H). injection H as <-. apply field_ok in E as (-> & _). cbn [map fst]. f_equal. now apply IH. Qed.
Lemma mapM_In {A B} (f : A -> res B) l : forall d, mapM f l = Ok d -> (forall y, In y d -> exists x, In x l /\ f x = Ok y) /\ (forall x, In x l -> exists y, In y d /\ f x = Ok y).
Proof.
  induction l as [|a l IH]; intros d H; cbn [mapM] in H; [injection H as <-; split; intros ? []|]. apply bind_Ok in H as (b & E & H). apply bind_Ok in H as (r & E' & H). injection H as <-. destruct (IH _ E') as (I1 & I2). split.
  - intros y [->|Hy]; [exists a; split; [now left|exact E]|]. destruct (I1 y Hy) as (x & Hx & Ex). exists x. split; [now right|exact Ex].
  - intros x [->|Hx]; [exists b; split; [now left|exact E]|]. destruct (I2 x Hx) as (y & Hy & Ey). exists y. split; [now right|exact Ey].
Qed.
Lemma same_keys_in a b : same_keys a b = true -> forall k, In k a <-> In k b.
Proof.
  unfold same_keys. rewrite andb_true_iff, !forallb_forall. intros [H1 H2] k. split; intros H; [apply H1 in H|apply H2 in H]; apply existsb_exists in H as (k' & H & E); apply pstr_eqb_spec in E; now subst k'.
Qed.
Lemma trans_views n cx l : composite_items n cx = Ok l -> NoDup (composite_keys n) ->
  composite_keys n = map fst l /\ composite_values n cx = Ok (map snd l) /\ value_len VTransformation n cx = Ok (Z.of_nat (length l)) /\
  (forall k v, In (k, v) l <-> composite_getitem n cx k = Ok v) /\ (forall k v, composite_getitem n cx k = Ok v <-> composite_attr n cx k = Ok v) /\
  (forall k, In k (map fst l) <-> In k [s "offset"; s "angle"; s "skew_angle"; s "scale"]).
Proof.
  intros H N. assert (H' := H). unfold composite_items, composite_val in H. apply bind_Ok in H as (d & E & H). assert (F := mapM_fst _ _ _ E).
  assert (F' : map fst d = composite_keys n) by exact F. rewrite adict_id in H by (rewrite F'; exact N).
  destruct (same_keys (map fst d) (map fst transformation_keys)) eqn:S; [|discriminate]. injection H as ->.
  split; [now symmetry|]. split; [unfold composite_values; unfold composite_items in H'; rewrite H'; reflexivity|].
  split; [cbn [value_len]; rewrite <- (map_length tag_name), <- F, map_length; reflexivity|].
  destruct (mapM_In _ _ _ E) as (I1 & I2). split; [|split].
  - intros k v. split.
    + intros I. destruct (I1 _ I) as (f & Hf & Ef). apply field_ok in Ef as (-> & m & c & E1 & E2 & ->). unfold composite_getitem, composite_get. rewrite (filter_one n f N Hf), E1, E2. reflexivity.
    + intros G. apply getitem_field in G as (f & m & c & E1 & E2 & E3 & ->). assert (Hf : In f (filter (has_name k) (child_tags n))) by (rewrite E1; now left). apply filter_In in Hf as (Hf & Kf). apply pstr_eqb_spec in Kf.
      destruct (I2 f Hf) as ((k' & v') & Hy & Ey). apply field_ok in Ey as (-> & m' & c' & E1' & E2' & ->). rewrite E2 in E1'. injection E1' as <-. rewrite E3 in E2'. injection E2' as <-. rewrite <- Kf. exact Hy.
  - intros k v. unfold composite_getitem, composite_attr. destruct (composite_get n cx k) as [[w|]|]; cbn [bind]; [reflexivity|split; discriminate|reflexivity].
  - intros k. rewrite (same_keys_in _ _ S k). reflexivity.
Qed.
