(** Proofs about writing and reading XML. *)
From Verif Require Import XpModel XpSpec SerProofs.
From Coq Require Import Lia ZifyN ZifyBool Permutation.
Local Open Scope N_scope.

Definition all_writable (l : list node) : Prop := Forall writable l.
Lemma writable_El nm a k : writable (El nm a k) <-> good_name nm /\ good_attrs a /\ all_writable k.
Proof.
  cbn [writable]. assert (H : forall l, (fix all l := match l with [] => True | c :: l' => writable c /\ all l' end) l <-> all_writable l).
  { induction l as [|c l IH]; unfold all_writable in *; [now split|]. rewrite IH. split; [now intros [A B]; constructor|now inversion 1]. }
  rewrite H. reflexivity.
Qed.

Lemma prun_app st x y : prun st (x ++ y) = prun (prun st x) y.
Proof. apply fold_left_app. Qed.
Lemma prun_cons st c x : prun st (c :: x) = prun (pstep st c) x.
Proof. reflexivity. Qed.

Lemma good_no13 x : good_text x -> Forall (fun c => c <> 13) x.
Proof. intros H. eapply Forall_impl; [|exact H]. cbv beta. intros c Hc ->. discriminate. Qed.

(** ** Names *)

Ltac ok := match goal with H : xml_char ?c = true |- _ => unfold pstep; rewrite H; cbn [negb] end.

Lemma run_name stk : forall x acc, Forall (fun c => xml_char c = true /\ name_char c = true) x ->
  prun (PName stk acc) x = PName stk (rev x ++ acc).
Proof.
  induction x as [|c x IH]; intros acc H; [reflexivity|]. inversion H as [|? ? [A B] C]; subst. rewrite prun_cons. ok. rewrite B, IH by auto.
  cbn [rev]. now rewrite <- app_assoc.
Qed.
Lemma run_key stk nm a : forall x acc, Forall (fun c => xml_char c = true /\ name_char c = true) x ->
  prun (PKey stk nm a acc) x = PKey stk nm a (rev x ++ acc).
Proof.
  induction x as [|c x IH]; intros acc H; [reflexivity|]. inversion H as [|? ? [A B] C]; subst. rewrite prun_cons. ok. rewrite B, IH by auto.
  cbn [rev]. now rewrite <- app_assoc.
Qed.
Lemma run_close f stk : forall x acc, Forall (fun c => xml_char c = true /\ name_char c = true) x ->
  prun (PClose (f :: stk) acc) x = PClose (f :: stk) (rev x ++ acc).
Proof.
  induction x as [|c x IH]; intros acc H; [reflexivity|]. inversion H as [|? ? [A B] C]; subst. rewrite prun_cons. ok. rewrite B, IH by auto.
  cbn [rev]. now rewrite <- app_assoc.
Qed.
Lemma name_char_not c d : name_char c = true -> existsb (N.eqb d) [9; 10; 13; 32; 33; 34; 38; 39; 47; 58; 59; 60; 61; 62; 63] = true -> (c =? d) = false.
Proof.
  unfold name_char, space. cbn [existsb]. lia.
Qed.

(** ** Values of attributes *)

Definition sp (c : N) : N := if space c then 32 else c.

Lemma run_value stk nm a k q : (q = 34 \/ q = 39) -> forall x v, good_text x -> existsb (N.eqb q) x = false ->
  prun (PQVal stk nm a k q v) (text_out x) = PQVal stk nm a k q (rev (map sp x) ++ v).
Proof.
  intros Hq. induction x as [|c x IH]; intros v H Hn; [reflexivity|]. inversion H as [|? ? A C]; subst.
  cbn [existsb] in Hn. apply orb_false_iff in Hn as [Hc Hn]. cbn [text_out flat_map map rev]. rewrite prun_app, <- app_assoc. cbn [app].
  assert (E : prun (PQVal stk nm a k q v) (esc c) = PQVal stk nm a k q (sp c :: v)).
  { unfold esc. destruct (c =? 38) eqn:E1; [apply N.eqb_eq in E1; subst c; destruct Hq; subst q; vm_compute; reflexivity|].
    destruct (c =? 60) eqn:E2; [apply N.eqb_eq in E2; subst c; destruct Hq; subst q; vm_compute; reflexivity|].
    destruct (c =? 62) eqn:E3; [apply N.eqb_eq in E3; subst c; destruct Hq; subst q; vm_compute; reflexivity|].
    rewrite prun_cons. ok. rewrite (N.eqb_sym c q), Hc, E1, E2. reflexivity. }
  rewrite E. now apply IH.
Qed.
Lemma run_value_quot stk nm a k : forall x v, good_text x ->
  prun (PQVal stk nm a k 34 v) (flat_map (fun c => if c =? 34 then s "&quot;" else esc c) x) = PQVal stk nm a k 34 (rev (map sp x) ++ v).
Proof.
  induction x as [|c x IH]; intros v H; [reflexivity|]. inversion H as [|? ? A C]; subst.
  cbn [flat_map map rev]. rewrite prun_app, <- app_assoc. cbn [app].
  assert (E : prun (PQVal stk nm a k 34 v) (if c =? 34 then s "&quot;" else esc c) = PQVal stk nm a k 34 (sp c :: v)).
  { destruct (c =? 34) eqn:E0; [apply N.eqb_eq in E0; subst c; vm_compute; reflexivity|]. unfold esc.
    destruct (c =? 38) eqn:E1; [apply N.eqb_eq in E1; subst c; vm_compute; reflexivity|].
    destruct (c =? 60) eqn:E2; [apply N.eqb_eq in E2; subst c; vm_compute; reflexivity|].
    destruct (c =? 62) eqn:E3; [apply N.eqb_eq in E3; subst c; vm_compute; reflexivity|].
    rewrite prun_cons. ok. rewrite E0, E1, E2. reflexivity. }
  etransitivity; [apply (f_equal (fun z => prun z _) E)|]. now apply IH.
Qed.
Lemma norm_attr_sp x : good_text x -> norm_attr x = map sp x.
Proof.
  intros H. unfold norm_attr. rewrite norm_eol_id by now apply good_no13. apply map_ext. intros c. unfold sp, space.
  destruct (c =? 9) eqn:E1, (c =? 10) eqn:E2, (c =? 32) eqn:E3; cbn [orb]; try reflexivity. now apply N.eqb_eq in E3.
Qed.
Lemma run_quoted stk nm a k x : good_text x -> prun (PQuote stk nm a k) (attr_out x) = PAttrs stk nm ((k, AStr (norm_attr x)) :: a).
Proof.
  intros H. rewrite norm_attr_sp by exact H. unfold attr_out.
  assert (Q : forall q body, (q = 34 \/ q = 39) -> (forall v, prun (PQVal stk nm a k q v) body = PQVal stk nm a k q (rev (map sp x) ++ v)) ->
     prun (PQuote stk nm a k) ([q] ++ body ++ [q]) = PAttrs stk nm ((k, AStr (map sp x)) :: a)).
  { intros q body Hq Hb. cbn [app]. rewrite prun_cons. assert (E : pstep (PQuote stk nm a k) q = PQVal stk nm a k q []) by (destruct Hq; subst q; reflexivity).
    rewrite E, prun_app, Hb, prun_cons. cbn [prun fold_left].
    assert (E2 : forall v, pstep (PQVal stk nm a k q v) q = PAttrs stk nm ((k, AStr (rev v)) :: a)) by (intros v; destruct Hq; subst q; reflexivity).
    rewrite E2, app_nil_r, rev_involutive. reflexivity. }
  destruct (existsb (N.eqb 34) x) eqn:E1; [destruct (existsb (N.eqb 39) x) eqn:E2|].
  - apply Q; [now left|]. intros v. now apply run_value_quot.
  - apply Q; [now right|]. intros v. apply run_value; auto.
  - apply Q; [now left|]. intros v. apply run_value; auto.
Qed.

(** ** Attributes *)

Definition read_attr (kv : pstr * aval) : pstr * aval := (fst kv, AStr (norm_attr (aval_str (snd kv)))).

Lemma run_attrs stk nm : forall l a, Forall (fun kv => good_name (fst kv) /\ good_text (aval_str (snd kv))) l ->
  NoDup (map fst l) -> (forall kv, In kv a -> ~ In (fst kv) (map fst l)) ->
  prun (PAttrs stk nm a) (flat_map (fun kv => [32] ++ fst kv ++ [61] ++ attr_out (aval_str (snd kv))) l) =
  PAttrs stk nm (rev (map read_attr l) ++ a).
Proof.
  induction l as [|[k v] l IH]; intros a H Hn Ha; [reflexivity|]. inversion H as [|? ? [[A0 A] B] C]; subst. cbn [fst snd] in *.
  inversion Hn as [|? ? D E]; subst.
  cbn [flat_map map rev fst snd]. rewrite prun_app, <- app_assoc. cbn [app].
  assert (St : prun (PAttrs stk nm a) (32 :: k ++ 61 :: attr_out (aval_str v)) = PAttrs stk nm (read_attr (k, v) :: a)).
  { rewrite prun_cons. change (pstep (PAttrs stk nm a) 32) with (PAttrs stk nm a). rewrite prun_app.
    destruct k as [|c k]; [contradiction|]. inversion A as [|? ? [A1 A2] A3]; subst. rewrite prun_cons.
    assert (E1 : pstep (PAttrs stk nm a) c = PKey stk nm a [c]).
    { ok. assert (space c = false) as -> by (unfold name_char in A2; destruct (space c); [discriminate|reflexivity]).
      rewrite !(name_char_not c) by (auto; reflexivity). now rewrite A2. }
    rewrite (prun_cons _ c k), E1, run_key by exact A3. change (rev k ++ [c]) with (rev (c :: k)).
    assert (E2 : pstep (PKey stk nm a (rev (c :: k))) 61 = PQuote stk nm a (c :: k)).
    { unfold pstep. change (negb (xml_char 61)) with false. change (name_char 61) with false. cbv iota. rewrite rev_involutive.
      replace (existsb (fun kv => pstr_eqb (fst kv) (c :: k)) a) with false; [reflexivity|]. symmetry. apply not_true_iff_false. intros Hx.
      apply existsb_exists in Hx as (kv & Hi & He). apply pstr_eqb_spec in He. apply (Ha kv Hi). left. now rewrite He. }
    rewrite E2. now apply run_quoted. }
  cbn [app] in St. rewrite St. apply IH; auto. intros kv [<-|Hi]; [exact D|]. intros Hx. apply (Ha kv Hi). now right.
Qed.

Definition sorted (a : attrs) : attrs := sort (fun a b => pstr_le (fst a) (fst b)) a.
Lemma reload_attrs_map a : reload_attrs a = map read_attr (sorted a).
Proof. reflexivity. Qed.
Lemma good_sorted a : good_attrs a -> Forall (fun kv => good_name (fst kv) /\ good_text (aval_str (snd kv))) (sorted a) /\ NoDup (map fst (sorted a)).
Proof.
  intros [Hn H]. pose proof (sort_perm (fun a b : pstr * aval => pstr_le (fst a) (fst b)) a) as P. fold (sorted a) in P. split.
  - apply Forall_forall. intros x Hx. rewrite Forall_forall in H. apply H. now apply (Permutation_in _ P).
  - eapply Permutation_NoDup; [|exact Hn]. apply Permutation_map. now symmetry.
Qed.

(** A start tag, from its name on *)
Lemma run_start stk nm a r : good_name nm -> good_attrs a ->
  prun (POpen stk) (nm ++ attrs_out a ++ 62 :: r) = prun (PText (mkFr nm (reload_attrs a) [] :: stk) []) r /\
  prun (POpen stk) (nm ++ attrs_out a ++ 47 :: 62 :: r) = prun (close (mkFr nm (reload_attrs a) []) stk) r.
Proof.
  intros [N0 Hn] Ha. destruct (good_sorted a Ha) as [G1 G2]. destruct nm as [|c nm]; [contradiction|]. inversion Hn as [|? ? [A1 A2] A3]; subst.
  assert (E1 : forall y, prun (POpen stk) ((c :: nm) ++ y) = prun (PName stk (rev (c :: nm))) y).
  { intros y. rewrite prun_app, prun_cons. f_equal. assert (E : pstep (POpen stk) c = PName stk [c]).
    { ok. rewrite (name_char_not c 47) by (auto; reflexivity). now rewrite A2. }
    rewrite E, run_name by exact A3. reflexivity. }
  rewrite !E1. unfold attrs_out. fold (sorted a). rewrite reload_attrs_map. destruct (sorted a) as [|kv l] eqn:El.
  - cbn [flat_map app map]. rewrite !prun_cons.
    change (pstep (PName stk (rev (c :: nm))) 62) with (PText (mkFr (rev (rev (c :: nm))) [] [] :: stk) []).
    change (pstep (PName stk (rev (c :: nm))) 47) with (PSlash stk (rev (rev (c :: nm))) []). rewrite rev_involutive. split; reflexivity.
  - assert (E2 : forall y, prun (PName stk (rev (c :: nm))) (flat_map (fun kv => [32] ++ fst kv ++ [61] ++ attr_out (aval_str (snd kv))) (kv :: l) ++ y) =
        prun (PAttrs stk (c :: nm) (rev (map read_attr (kv :: l)))) y).
    { intros y. rewrite prun_app. f_equal.
      pose proof (run_attrs stk (c :: nm) (kv :: l) [] G1 G2 (fun _ f => match f with end)) as R. rewrite app_nil_r in R. etransitivity; [|exact R].
      cbn [flat_map app]. rewrite !prun_cons. f_equal. change (pstep (PName stk (rev (c :: nm))) 32) with (PAttrs stk (rev (rev (c :: nm))) []).
      rewrite rev_involutive. reflexivity. }
    rewrite !E2, !prun_cons. set (m := map read_attr (kv :: l)).
    change (pstep (PAttrs stk (c :: nm) (rev m)) 62) with (PText (mkFr (c :: nm) (rev (rev m)) [] :: stk) []).
    change (pstep (PAttrs stk (c :: nm) (rev m)) 47) with (PSlash stk (c :: nm) (rev m)).
    change (pstep (PSlash stk (c :: nm) (rev m)) 62) with (close (mkFr (c :: nm) (rev (rev m)) []) stk).
    rewrite rev_involutive. split; reflexivity.
Qed.

(** An end tag *)
Lemma run_end f stk b r : good_name (f_name f) ->
  prun (PText (f :: stk) b) ([60; 47] ++ f_name f ++ [62] ++ r) = prun (close (flush f b) stk) r.
Proof.
  intros [_ Hn]. cbn [app]. rewrite !prun_cons. change (pstep (PText (f :: stk) b) 60) with (POpen (flush f b :: stk)).
  change (pstep (POpen (flush f b :: stk)) 47) with (PClose (flush f b :: stk) []).
  rewrite prun_app, run_close by exact Hn. rewrite prun_cons, app_nil_r. f_equal. unfold pstep. change (negb (xml_char 62)) with false.
  change (name_char 62) with false. cbv iota. rewrite rev_involutive.
  assert (f_name (flush f b) = f_name f) as -> by now destruct b. rewrite pstr_eqb_refl. reflexivity.
Qed.

(** ** Text *)

Lemma run_text f stk : forall x b, good_text x -> prun (PText (f :: stk) b) (text_out x) = PText (f :: stk) (rev x ++ b).
Proof.
  induction x as [|c x IH]; intros b H; [reflexivity|]. inversion H as [|? ? A C]; subst.
  cbn [text_out flat_map rev]. rewrite prun_app, <- app_assoc. cbn [app].
  assert (E : prun (PText (f :: stk) b) (esc c) = PText (f :: stk) (c :: b)).
  { unfold esc. destruct (c =? 38) eqn:E1; [apply N.eqb_eq in E1; subst c; vm_compute; reflexivity|].
    destruct (c =? 60) eqn:E2; [apply N.eqb_eq in E2; subst c; vm_compute; reflexivity|].
    destruct (c =? 62) eqn:E3; [apply N.eqb_eq in E3; subst c; vm_compute; reflexivity|].
    rewrite prun_cons. ok. rewrite E1, E2. reflexivity. }
  rewrite E. now apply IH.
Qed.

(** ** Trees *)

(** The children read so far, and the text being read *)
Definition absorb (st : list node * pstr) (n : node) : list node * pstr :=
  match n with
  | Txt x => (fst st, rev x ++ snd st)
  | El _ _ _ => (reload n :: (match snd st with [] => fst st | b => Txt (norm_blank (rev b)) :: fst st end), [])
  end.
Definition absorbed (st : list node * pstr) : list node := match snd st with [] => fst st | b => Txt (norm_blank (rev b)) :: fst st end.

Lemma merge_two x y l : merge_texts (Txt x :: Txt y :: l) = merge_texts (Txt (x ++ y) :: l).
Proof.
  cbn [merge_texts]. destruct (merge_texts l) as [|[z|nm a k] r].
  - destruct y; [now rewrite app_nil_r|]. destruct (x ++ n :: y) eqn:E; [now destruct x|reflexivity].
  - now rewrite app_assoc.
  - destruct y; [now rewrite app_nil_r|]. destruct (x ++ n :: y) eqn:E; [now destruct x|reflexivity].
Qed.
Lemma merge_start l : match merge_texts l with Txt [] :: _ => False | _ => True end.
Proof.
  induction l as [|[x|nm a k] l IH]; cbn [merge_texts]; auto. destruct (merge_texts l) as [|[z|nm a k] r].
  - destruct x; exact I.
  - destruct x; cbn [app]; [exact IH|exact I].
  - destruct x; exact I.
Qed.

Definition no13 (n : node) : Prop := match n with Txt x => Forall (fun c => c <> 13) x | _ => True end.
Lemma absorb_merge : forall k ks b, Forall no13 k -> Forall (fun c => c <> 13) b ->
  rev (absorbed (fold_left absorb k (ks, b))) = rev ks ++ map norm_node (merge_texts (Txt (rev b) :: map reload k)).
Proof.
  induction k as [|n k IH]; intros ks b Hk Hb.
  - cbn [fold_left map merge_texts]. unfold absorbed. cbn [fst snd]. destruct b as [|c b]; [now rewrite app_nil_r|].
    destruct (rev (c :: b)) as [|d r] eqn:E; [cbn [rev] in E; now destruct (rev b)|].
    cbn [rev map norm_node]. unfold norm_text. rewrite norm_eol_id; [reflexivity|]. rewrite <- E. now apply Forall_rev.
  - inversion Hk as [|? ? A B]; subst. cbn [fold_left map]. destruct n as [x|nm a kk].
    + cbn [absorb fst snd]. rewrite IH; [|exact B|apply Forall_app; split; [now apply Forall_rev|exact Hb]].
      rewrite rev_app_distr, rev_involutive. cbn [reload]. now rewrite merge_two.
    + cbn [absorb fst snd]. rewrite IH; [|exact B|constructor].
      cbn [rev]. rewrite <- app_assoc. cbn [app]. remember (reload (El nm a kk)) as t eqn:Et.
      assert (Ht : exists nm' a' k', t = El nm' a' k') by (subst t; cbn [reload]; eauto). destruct Ht as (nm' & a' & k' & ->). clear Et.
      assert (E0 : merge_texts (Txt [] :: map reload k) = merge_texts (map reload k)).
      { cbn [merge_texts]. destruct (merge_texts (map reload k)) as [|[z|]]; reflexivity. }
      rewrite E0. cbn [merge_texts]. destruct b as [|c b]; [reflexivity|].
      destruct (rev (c :: b)) as [|d r] eqn:E; [cbn [rev] in E; now destruct (rev b)|].
      cbn [rev map norm_node]. rewrite <- app_assoc. cbn [app]. unfold norm_text. rewrite norm_eol_id; [do 4 f_equal; exact E|]. rewrite <- E. now apply Forall_rev.
Qed.

Lemma writable_no13 n : writable n -> no13 n.
Proof. destruct n; [apply good_no13|exact (fun _ => I)]. Qed.

Definition el_reads (void : pstr -> attrs -> bool) (n : node) : Prop :=
  match n with
  | Txt _ => True
  | El nm a k => forall stk r, prun (POpen stk) (tl (node_out void n) ++ r) =
      prun (close (mkFr nm (reload_attrs a) (rev (map norm_node (merge_texts (map reload k))))) stk) r
  end.

Lemma run_kids void : forall k f stk b r, Forall (el_reads void) k -> all_writable k ->
  prun (PText (f :: stk) b) (flat_map (node_out void) k ++ r) =
  prun (PText (mkFr (f_name f) (f_attrs f) (fst (fold_left absorb k (f_kids f, b))) :: stk) (snd (fold_left absorb k (f_kids f, b)))) r.
Proof.
  induction k as [|n k IH]; intros f stk b r Hr Hw.
  - cbn [flat_map app fold_left fst snd]. now destruct f.
  - inversion Hr as [|? ? R1 R2]; subst. inversion Hw as [|? ? W1 W2]; subst. cbn [flat_map fold_left]. rewrite <- app_assoc. destruct n as [x|nm a kk].
    + cbn [node_out]. rewrite prun_app, run_text by exact W1. rewrite IH by assumption. reflexivity.
    + cbn [el_reads] in R1. assert (E : node_out void (El nm a kk) = 60 :: tl (node_out void (El nm a kk))) by reflexivity. rewrite E.
      cbn [app]. rewrite prun_cons. change (pstep (PText (f :: stk) b) 60) with (POpen (flush f b :: stk)). rewrite R1. unfold close. cbn [f_name f_attrs f_kids].
      rewrite rev_involutive. change (El nm (reload_attrs a) (map norm_node (merge_texts (map reload kk)))) with (reload (El nm a kk)).
      rewrite IH by assumption. cbn [f_name f_attrs f_kids absorb fst snd].
      destruct b; reflexivity.
Qed.

Lemma merge_drop l : merge_texts (Txt [] :: l) = merge_texts l.
Proof. cbn [merge_texts]. now destruct (merge_texts l) as [|[z|]]. Qed.

Lemma reads_all void n : writable n -> el_reads void n.
Proof.
  induction n as [x|nm a k IH] using node_ind'; intros W; [exact I|]. apply writable_El in W as (Wn & Wa & Wk). cbn [el_reads]. intros stk r.
  assert (HR : Forall (el_reads void) k).
  { rewrite Forall_forall in *. intros x Hx. apply IH; [exact Hx|]. unfold all_writable in Wk. rewrite Forall_forall in Wk. auto. }
  cbn [node_out tl app]. destruct k as [|n k].
  - destruct (void nm a).
    + rewrite <- !app_assoc. cbn [app]. rewrite (proj2 (run_start stk nm a r Wn Wa)). reflexivity.
    + rewrite <- !app_assoc. cbn [app]. rewrite (proj1 (run_start stk nm a _ Wn Wa)).
      rewrite <- app_assoc. change (60 :: 47 :: nm ++ [62] ++ r) with ([60; 47] ++ f_name (mkFr nm (reload_attrs a) []) ++ [62] ++ r).
      rewrite run_end by exact Wn. reflexivity.
  - remember (n :: k) as kk eqn:Ek. clear Ek. rewrite <- !app_assoc. cbn [app]. rewrite (proj1 (run_start stk nm a _ Wn Wa)).
    etransitivity; [apply (f_equal (prun _)); apply (eq_sym (app_assoc _ _ _))|].
    etransitivity; [apply (run_kids void kk); assumption|]. cbn [f_name f_attrs f_kids].
    set (st := fold_left absorb kk ([], [])). 
    match goal with |- prun _ ?x = _ => replace x with ([60; 47] ++ f_name (mkFr nm (reload_attrs a) (fst st)) ++ [62] ++ r)
      by (cbn [app f_name]; do 2 f_equal; exact (app_assoc nm [62] r)) end.
    rewrite run_end by exact Wn. f_equal.
    assert (E : absorbed st = rev (map norm_node (merge_texts (map reload kk)))).
    { rewrite <- (rev_involutive (absorbed st)). f_equal. unfold st. rewrite absorb_merge; [|eapply Forall_impl; [|exact Wk]; intros; now apply writable_no13|constructor].
      cbn [rev app]. now rewrite merge_drop. }
    rewrite <- E. assert (F : forall q A, flush (mkFr nm A (fst q)) (snd q) = mkFr nm A (absorbed q)) by (intros [? []] ?; reflexivity).
    exact (f_equal (fun z => close z stk) (F st _)).
Qed.

(** ** Documents *)

Lemma good_esc c : xml_char c = true -> Forall (fun d => d <> 13) (esc c).
Proof.
  intros H. unfold esc. destruct (c =? 38); [repeat constructor; discriminate|]. destruct (c =? 60); [repeat constructor; discriminate|].
  destruct (c =? 62); [repeat constructor; discriminate|]. constructor; [|constructor]. intros ->. discriminate.
Qed.
Lemma Forall_flat_map {A B} (P : B -> Prop) (f : A -> list B) l : Forall (fun x => Forall P (f x)) l -> Forall P (flat_map f l).
Proof. induction 1; cbn [flat_map]; [constructor|]. now apply Forall_app. Qed.
Lemma text_no13 x : good_text x -> Forall (fun d => d <> 13) (text_out x).
Proof. intros H. apply Forall_flat_map. eapply Forall_impl; [|exact H]. intros; now apply good_esc. Qed.
Lemma attr_no13 x : good_text x -> Forall (fun d => d <> 13) (attr_out x).
Proof.
  intros H. unfold attr_out. assert (Q : forall q y, q <> 13 -> Forall (fun d => d <> 13) y -> Forall (fun d => d <> 13) ([q] ++ y ++ [q])).
  { intros q y Hq Hy. constructor; [exact Hq|]. apply Forall_app; split; [exact Hy|]. now repeat constructor. }
  destruct (existsb (N.eqb 34) x); [destruct (existsb (N.eqb 39) x)|]; apply Q; try discriminate; try now apply text_no13.
  apply Forall_flat_map. eapply Forall_impl; [|exact H]. intros c Hc. cbv beta. destruct (c =? 34); [repeat constructor; discriminate|now apply good_esc].
Qed.
Lemma name_no13 x : good_name x -> Forall (fun d => d <> 13) x.
Proof. intros [_ H]. eapply Forall_impl; [|exact H]. cbv beta. intros c [Hc _] ->. discriminate. Qed.
Lemma attrs_no13 a : good_attrs a -> Forall (fun d => d <> 13) (attrs_out a).
Proof.
  intros H. destruct (good_sorted a H) as [G _]. unfold attrs_out. fold (sorted a). apply Forall_flat_map. eapply Forall_impl; [|exact G].
  intros [k v] [A B]. cbn [fst snd] in *. constructor; [discriminate|]. apply Forall_app; split; [now apply name_no13|]. constructor; [discriminate|]. now apply attr_no13.
Qed.
Lemma node_no13 void n : writable n -> Forall (fun d => d <> 13) (node_out void n).
Proof.
  induction n as [x|nm a k IH] using node_ind'; intros W; [now apply text_no13|]. apply writable_El in W as (Wn & Wa & Wk). cbn [node_out].
  constructor; [discriminate|]. apply Forall_app; split; [now apply name_no13|]. apply Forall_app; split; [now apply attrs_no13|].
  assert (T : Forall (fun d => d <> 13) ([60; 47] ++ nm ++ [62])).
  { constructor; [discriminate|]. constructor; [discriminate|]. apply Forall_app; split; [now apply name_no13|]. now repeat constructor. }
  assert (K : Forall (fun d => d <> 13) ([62] ++ flat_map (node_out void) k ++ [60; 47] ++ nm ++ [62])).
  { constructor; [discriminate|]. apply Forall_app; split; [|exact T]. apply Forall_flat_map. unfold all_writable in Wk. rewrite Forall_forall in *. intros c Hc. apply IH; auto. }
  destruct k; [|exact K]. destruct (void nm a); [repeat constructor; discriminate|]. constructor; [discriminate|exact T].
Qed.

(** Reading what was written gives [reload]. *)
Lemma doc_in_out void nm a k : writable (El nm a k) -> doc_in (doc_out void (El nm a k)) = Some (reload (El nm a k)).
Proof.
  intros W. unfold doc_in, doc_out. assert (starts_with (s "<?xml") (decl ++ node_out void (El nm a k)) = true) as -> by reflexivity.
  rewrite norm_eol_id; [|apply Forall_app; split; [|now apply node_no13]; repeat constructor; discriminate].
  rewrite prun_app. change (prun (PDecl false) decl) with PProlog.
  assert (E : node_out void (El nm a k) = 60 :: tl (node_out void (El nm a k))) by reflexivity. rewrite E, prun_cons.
  change (pstep PProlog 60) with (POpen []). pose proof (reads_all void _ W [] []) as R. rewrite app_nil_r in R. rewrite R.
  unfold close. cbn [f_name f_attrs f_kids prun fold_left]. rewrite rev_involutive. reflexivity.
Qed.

(** ** UTF-8 *)

Ltac Zify.zify_post_hook ::= Z.to_euclidean_division_equations.

Lemma Some_is {A} (x y : A) : Some x = Some y -> y = x.
Proof. congruence. Qed.
Lemma utf8_char_in c b r : utf8_char c = Some b -> utf8_in (b ++ r) = option_map (cons c) (utf8_in r).
Proof.
  unfold utf8_char. destruct (c <? 128) eqn:E1; [intros HH; apply Some_is in HH; subst b; cbn [app utf8_in]; now rewrite E1|].
  destruct (c <? 2048) eqn:E2.
  { intros HH; apply Some_is in HH; subst b. cbn [app utf8_in]. assert (192 + c / 64 <? 128 = false) as -> by lia.
    assert ((192 <=? 192 + c / 64) && (192 + c / 64 <? 224) = true) as -> by lia.
    f_equal. f_equal. lia. }
  destruct ((55296 <=? c) && (c <=? 57343)); [discriminate|].
  destruct (c <? 65536) eqn:E3.
  { intros HH; apply Some_is in HH; subst b. cbn [app utf8_in]. assert (224 + c / 4096 <? 128 = false) as -> by lia.
    assert ((192 <=? 224 + c / 4096) && (224 + c / 4096 <? 224) = false) as -> by lia.
    assert ((224 <=? 224 + c / 4096) && (224 + c / 4096 <? 240) = true) as -> by lia.
    f_equal. f_equal. lia. }
  destruct (c <? 1114112) eqn:E4; [|discriminate]. intros HH; apply Some_is in HH; subst b. cbn [app utf8_in]. assert (240 + c / 262144 <? 128 = false) as -> by lia.
  assert ((192 <=? 240 + c / 262144) && (240 + c / 262144 <? 224) = false) as -> by lia.
  assert ((224 <=? 240 + c / 262144) && (240 + c / 262144 <? 240) = false) as -> by lia.
  assert ((240 <=? 240 + c / 262144) && (240 + c / 262144 <? 248) = true) as -> by lia.
  f_equal. f_equal. lia.
Qed.
Lemma utf8_in_out : forall x b, utf8_out x = Some b -> utf8_in b = Some x.
Proof.
  induction x as [|c x IH]; intros b; cbn [utf8_out]; [now intros [= <-]|]. destruct (utf8_char c) as [b1|] eqn:E; [|discriminate].
  destruct (utf8_out x) as [b2|]; [|discriminate]. intros [= <-]. rewrite (utf8_char_in c b1 b2 E), (IH b2 eq_refl). reflexivity.
Qed.
Lemma decode_out x b : utf8_out x = Some b -> decode b = Some x.
Proof. intros H. unfold decode. rewrite (utf8_in_out x b H), H. pose proof (pstr_eqb_refl b) as R. now rewrite R. Qed.
Lemma utf8_char_xml c : xml_char c = true -> utf8_char c <> None.
Proof.
  unfold xml_char, utf8_char. intros H. destruct (c <? 128) eqn:E1; [discriminate|]. destruct (c <? 2048) eqn:E2; [discriminate|].
  destruct ((55296 <=? c) && (c <=? 57343)) eqn:E3; [lia|]. destruct (c <? 65536) eqn:E4; [discriminate|]. destruct (c <? 1114112) eqn:E5; [discriminate|]. lia.
Qed.
Lemma utf8_out_app x y : utf8_out (x ++ y) = match utf8_out x, utf8_out y with Some a, Some b => Some (a ++ b) | _, _ => None end.
Proof.
  induction x as [|c x IH]; cbn [utf8_out app]; [now destruct (utf8_out y)|]. rewrite IH. destruct (utf8_char c); [|reflexivity].
  destruct (utf8_out x); [|reflexivity]. destruct (utf8_out y); [|reflexivity]. now rewrite app_assoc.
Qed.
Lemma utf8_out_xml x : good_text x -> exists b, utf8_out x = Some b.
Proof.
  induction 1 as [|c x Hc H [b IH]]; [now exists []|]. cbn [utf8_out]. pose proof (utf8_char_xml c Hc). destruct (utf8_char c); [|contradiction]. rewrite IH. eauto.
Qed.
(** The bytes of a character never start with those of '<' or the like, unless it is that. *)
Lemma utf8_surrogate x c y : 55296 <= c <= 57343 -> utf8_out (x ++ c :: y) = None.
Proof.
  intros H. rewrite utf8_out_app. cbn [utf8_out]. assert (utf8_char c = None) as ->.
  { unfold utf8_char. assert (c <? 128 = false) as -> by lia. assert (c <? 2048 = false) as -> by lia. assert ((55296 <=? c) && (c <=? 57343) = true) as -> by lia. reflexivity. }
  now destruct (utf8_out x).
Qed.
