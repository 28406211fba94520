From Verif Require Import PyBase RegistryModel RegistrySpec.
From Coq Require Import ZifyBool ZifyN.

Lemma lower_char_same a b : lower_char a = lower_char b <-> same_letter a b.
Proof. unfold lower_char, same_letter, is_upper. destruct (((65 <=? a) && (a <=? 90))%N) eqn:E1, (((65 <=? b) && (b <=? 90))%N) eqn:E2; lia. Qed.

Lemma normalise_cons c x : normalise (c :: x) =
  if N.eqb c 95 then normalise x else lower_char c :: normalise x.
Proof.
  unfold normalise, remove_char, lower. cbn [map filter].
  assert (N.eqb (lower_char c) 95 = N.eqb c 95) as ->.
  { unfold lower_char, is_upper. destruct ((65 <=? c) && (c <=? 90))%N eqn:E; lia. }
  destruct (N.eqb c 95); reflexivity.
Qed.

Lemma same_normalise a b : same_name a b -> normalise a = normalise b.
Proof.
  induction 1 as [|x y _ IH|x y _ IH|c d x y Hc _ IH]; [reflexivity| | |]; rewrite ?normalise_cons; auto.
  assert (N.eqb c 95 = N.eqb d 95) as -> by (unfold same_letter in Hc; lia).
  apply lower_char_same in Hc. rewrite Hc, IH. reflexivity.
Qed.

Lemma normalise_same a b : normalise a = normalise b -> same_name a b.
Proof.
  remember (length a + length b)%nat as n eqn:Hn. revert a b Hn.
  induction n as [n IH] using (well_founded_induction lt_wf). intros a b Hn H.
  destruct a as [|c a].
  - destruct b as [|d b]; [constructor|]. rewrite normalise_cons in H.
    destruct (N.eqb_spec d 95) as [->|]; [|discriminate].
    apply sn_right. apply (IH (length b)); simpl in *; auto; lia.
  - rewrite normalise_cons in H. destruct (N.eqb_spec c 95) as [->|Hc].
    + apply sn_left. apply (IH (length a + length b)%nat); auto. simpl in Hn. lia.
    + destruct b as [|d b]; [discriminate|]. rewrite normalise_cons in H.
      destruct (N.eqb_spec d 95) as [->|Hd].
      * apply sn_right. apply (IH (length (c :: a) + length b)%nat); simpl in *; try lia; auto.
        rewrite normalise_cons. apply N.eqb_neq in Hc. now rewrite Hc.
      * injection H as H1 H2. apply sn_char; [now apply lower_char_same|].
        apply (IH (length a + length b)%nat); auto. simpl in Hn. lia.
Qed.

Lemma lookup_same {C} (r : registry C) a b : same_name a b -> from_name r a = from_name r b.
Proof. intros H. unfold from_name. now rewrite (same_normalise _ _ H). Qed.

Lemma run_snoc {C} h (e : option pstr * pstr * C) :
  run (h ++ [e]) = aset (normalise (registered_name e)) (snd e) (run h).
Proof.
  unfold run. rewrite fold_left_app. cbn [fold_left]. destruct e as [[n cn] c].
  unfold registry_call, registered_name. destruct n as [[|ch x]|]; reflexivity.
Qed.

Lemma lookup_last {C} (h : list (option pstr * pstr * C)) x c :
  from_name (run h) x = Ok c <->
  exists h1 e h2, h = h1 ++ e :: h2 /\ snd e = c /\ same_name x (registered_name e)
    /\ Forall (fun e' => ~ same_name x (registered_name e')) h2.
Proof.
  induction h as [|e h IH] using rev_ind.
  - split; [discriminate|]. intros (h1 & e & h2 & H & _). destruct h1; discriminate.
  - unfold from_name in *. rewrite run_snoc, aget_aset.
    destruct (pstr_eqb (normalise x) (normalise (registered_name e))) eqn:E.
    + apply pstr_eqb_spec, normalise_same in E. split.
      * intros H. inversion H; subst. exists h, e, []. repeat split; auto.
      * intros (h1 & e' & h2 & H & Hc & Hs & Hn).
        destruct h2 as [|e2 h2] using rev_ind.
        -- apply app_inj_tail in H as [_ ->]. now rewrite Hc.
        -- clear IHh2. change (h1 ++ e' :: h2 ++ [e2]) with (h1 ++ (e' :: h2) ++ [e2]) in H.
           rewrite app_assoc in H. apply app_inj_tail in H as [_ ->].
           apply Forall_app in Hn as [_ Hn]. inversion Hn; contradiction.
    + assert (E' : ~ same_name x (registered_name e)).
      { intros H. apply same_normalise in H. rewrite H, pstr_eqb_refl in E. discriminate. }
      rewrite IH. split.
      * intros (h1 & e' & h2 & H & Hc & Hs & Hn). exists h1, e', (h2 ++ [e]). subst h.
        rewrite <- app_assoc. cbn [app]. repeat split; auto. apply Forall_app; auto.
      * intros (h1 & e' & h2 & H & Hc & Hs & Hn).
        destruct h2 as [|e2 h2] using rev_ind.
        -- apply app_inj_tail in H as [_ ->]. contradiction.
        -- clear IHh2. change (h1 ++ e' :: h2 ++ [e2]) with (h1 ++ (e' :: h2) ++ [e2]) in H.
           rewrite app_assoc in H. apply app_inj_tail in H as [H ->].
           apply Forall_app in Hn as [Hn _]. exists h1, e', h2. repeat split; auto.
Qed.

Lemma lookup_none {C} (h : list (option pstr * pstr * C)) x :
  from_name (run h) x = Err KeyError <->
  Forall (fun e => ~ same_name x (registered_name e)) h.
Proof.
  induction h as [|e h IH] using rev_ind.
  - split; [constructor|reflexivity].
  - unfold from_name in *. rewrite run_snoc, aget_aset, Forall_app, <- IH.
    destruct (pstr_eqb (normalise x) (normalise (registered_name e))) eqn:E.
    + apply pstr_eqb_spec, normalise_same in E. split; [discriminate|].
      intros [_ H]. inversion H; contradiction.
    + split; [|tauto]. intros H. split; [exact H|]. repeat constructor.
      intros H'. apply same_normalise in H'. rewrite H', pstr_eqb_refl in E. discriminate.
Qed.

Lemma lookup_register {C} (h : list (option pstr * pstr * C)) e x :
  from_name (run (h ++ [e])) (registered_name e) = Ok (snd e)
  /\ (~ same_name x (registered_name e) -> from_name (run (h ++ [e])) x = from_name (run h) x).
Proof.
  unfold from_name. rewrite run_snoc, !aget_aset, pstr_eqb_refl. split; [reflexivity|].
  intros H. destruct (pstr_eqb (normalise x) (normalise (registered_name e))) eqn:E; [|reflexivity].
  apply pstr_eqb_spec, normalise_same in E. contradiction.
Qed.

Lemma lookup_distinguishes a b :
  (forall (h : list (option pstr * pstr * nat)), from_name (run h) a = from_name (run h) b) ->
  a <> [] -> same_name b a.
Proof.
  intros H Ha. specialize (H [(Some a, [], 0%nat)]).
  destruct (lookup_register [] (Some a, [], 0%nat) b) as [H1 _].
  destruct a as [|c a]; [contradiction|]. cbn [registered_name app snd] in H1.
  pose proof (eq_trans (eq_sym H) H1) as H2.
  apply lookup_last in H2 as (h1 & e & h2 & E & _ & Hs & _).
  destruct h1 as [|? [|? ?]]; inversion E; subst. exact Hs.
Qed.
