(** Proofs about assigning anything to the description. *)
From Verif Require Import AnimModel AnimSpec AnimSpec2 XpSpec XpProofs SerProofs AnimProofs AnimProofs2 AnimProofs3 AnimProofs4 AnimProofs5 AnimProofs6 DscModel DscSpec DocProofs DocProofs2 LaySpec LayProofs LayProofs6 ClsProofs PyFloatProofs PyFmtProofs PyFmtProofs2 ValProofs ValProofs2.
From Coq Require Import Lia ZifyN ZifyBool.
Local Open Scope N_scope.

Definition kids (ks : list inode) : inode -> inode := with_ikids (fun _ => ks).
Lemma kids_shallow ks : shallow_pres (kids ks).
Proof. intros []; repeat split; reflexivity. Qed.
Lemma content_iat t ks n : itag t = true -> NoDup (uids n) -> t = n \/ inside t n -> content_put t ks n (iat (iuid t) (kids ks) n).
Proof.
  intros Ht Hnd [->|Hi].
  { destruct n as [|u nm a k]; [discriminate|]. cbn [iat iuid]. rewrite N.eqb_refl. apply content_here. }
  revert Hnd. induction Hi as [n Hk Htg|n y Hy Hi IH]; intros Hnd.
  - destruct n as [|u nm a k]; [destruct Hk|]. cbn [ikids] in Hk. rewrite uids_IE in Hnd. inversion Hnd as [|? ? Hu Hnk]; subst.
    destruct (in_split _ _ Hk) as (k1 & k2 & ->). cbn [iat]. assert (Hne : iuid t <> u). { intros Eu. rewrite <- Eu in Hu. apply Hu. rewrite fuids_app. apply in_or_app. right. destruct t; [discriminate|]. now left. }
    apply N.eqb_neq in Hne. rewrite Hne.
    rewrite map_app. cbn [map]. rewrite fuids_app in Hnk. change (fuids (t :: k2)) with (uids t ++ fuids k2) in Hnk.
    assert (Htu : In (iuid t) (uids t)) by now apply tag_uid.
    destruct (NoDup_app_parts _ _ Hnk) as (_ & Hn2 & Hd1). destruct (NoDup_app_parts _ _ Hn2) as (_ & _ & Hd2).
    assert (E1 : map (iat (iuid t) (kids ks)) k1 = k1). { apply (fat_notin (iuid t)). intros H. apply (Hd1 (iuid t) H). apply in_or_app. now left. }
    assert (E2 : map (iat (iuid t) (kids ks)) k2 = k2). { apply (fat_notin (iuid t)). intros H. exact (Hd2 (iuid t) Htu H). }
    rewrite E1, E2. apply (content_below t ks (IE u nm a (k1 ++ t :: k2)) t _ k1 k2 eq_refl).
    destruct t as [|tu tn ta tk]; [discriminate|]. cbn [iat iuid]. rewrite N.eqb_refl. apply content_here.
  - destruct n as [|u nm a k]; [destruct Hy|]. cbn [ikids] in Hy. rewrite uids_IE in Hnd. inversion Hnd as [|? ? Hu Hnk]; subst.
    destruct (in_split _ _ Hy) as (k1 & k2 & ->). rewrite fuids_app in *. change (fuids (y :: k2)) with (uids y ++ fuids k2) in *.
    assert (Hty : In (iuid t) (uids y)). { apply desc_inside in Hi. destruct y as [|yu yn ya yk]; [destruct Hi|]. rewrite uids_IE. right. cbn [ikids] in Hi. apply (desc_uids _ _ Hi). now apply tag_uid. }
    assert (Hne : iuid t <> u). { intros Eu. rewrite <- Eu in Hu. apply Hu. apply in_or_app. right. apply in_or_app. now left. }
    apply N.eqb_neq in Hne. cbn [iat]. rewrite Hne. rewrite map_app. cbn [map].
    destruct (NoDup_app_parts _ _ Hnk) as (_ & Hn2 & Hd1). destruct (NoDup_app_parts _ _ Hn2) as (Hny & _ & Hd2).
    assert (E1 : map (iat (iuid t) (kids ks)) k1 = k1). { apply (fat_notin (iuid t)). intros H. apply (Hd1 (iuid t) H). apply in_or_app. now left. }
    assert (E2 : map (iat (iuid t) (kids ks)) k2 = k2). { apply (fat_notin (iuid t)). intros H. exact (Hd2 (iuid t) Hty H). }
    rewrite E1, E2. apply (content_below t ks (IE u nm a (k1 ++ y :: k2)) y _ k1 k2 eq_refl). apply IH. exact Hny.
Qed.
Lemma iat_again u k1 k2 : forall n, iat u (kids k2) (iat u (kids k1) n) = iat u (kids k2) n.
Proof.
  fix IH 1. intros [x|v nm a k]; [reflexivity|]. cbn [iat]. destruct (N.eqb u v) eqn:E.
  - cbn [kids with_ikids iat]. rewrite E. reflexivity.
  - cbn [iat]. rewrite E. f_equal. rewrite map_map. clear - IH. induction k as [|c k IHk]; [reflexivity|]. cbn [map]. now rewrite IH, IHk.
Qed.
Lemma found_kids x ks n t : itag n = true -> NoDup (uids n) -> ifind (named x) n = Some t ->
  ifind (named x) (iat (iuid t) (kids ks) n) = Some (IE (iuid t) (iname t) (iattrs t) ks).
Proof.
  intros Hn Hnd Hf. pose proof (first_found x n Hn) as H. rewrite Hf in H. destruct H as (Hi & Hx & _).
  assert (Ht : itag t = true) by now apply named_tag in Hx.
  rewrite (ifind_iat (named x) n (iuid t) (kids ks) t (named_shallow x) (kids_shallow ks) Hnd Hf (tag_uid t Ht)).
  f_equal. destruct t as [|u nm a k]; [discriminate|]. cbn [iat iuid]. rewrite N.eqb_refl. reflexivity.
Qed.
Lemma told_set v r ks z F n t : desc_told v r ks z -> ifind (named (s "desc")) n = Some t -> desc_assign F n v = (fat (iuid t) (kids ks) F, r).
Proof. intros H E. unfold desc_assign. rewrite E. destruct H; reflexivity. Qed.
Lemma told_read u nm a v r ks z : desc_told v r ks z -> (match node_string (forget (IE u nm a ks)) with Some x => PStr x | None => PNone end) = z.
Proof. destruct 1; reflexivity. Qed.

(** Once something was assigned, and then all of [vs] *)
Lemma assigns_from vs : forall du dn da n t k0, du <> iuid t -> itag n = true -> NoDup (uids n) -> ifind (named (s "desc")) n = Some t ->
  forall rs, Forall2 (fun v r => exists ks z, desc_told v r ks z) vs rs ->
  exists k1, desc_assigns [IE du dn da [iat (iuid t) (kids k0) n]] vs = ([IE du dn da [iat (iuid t) (kids k1) n]], rs) /\
    match rev vs with [] => k1 = k0 | v :: _ => exists r z, desc_told v r k1 z end.
Proof.
  induction vs as [|v vs IH]; intros du dn da n t k0 Hd Hn Hnd Hf rs H; inversion H as [|? r ? rs' (ks & z & Hv) Hr]; subst; [exists k0; split; reflexivity|].
  pose proof (found_kids (s "desc") k0 n t Hn Hnd Hf) as Hf1. cbn [desc_assigns]. rewrite (told_set v r ks z _ _ _ Hv Hf1). cbn [iuid fat map].
  apply N.eqb_neq in Hd as Hd'. rewrite N.eqb_sym in Hd'. cbn [iat map]. rewrite Hd'. rewrite iat_again.
  destruct (IH du dn da n t ks Hd Hn Hnd Hf rs' Hr) as (k1 & -> & Hl). exists k1. split; [reflexivity|]. cbn [rev].
  destruct (rev vs) as [|w l]; cbn [app]; [subst k1; now exists r, z|exact Hl].
Qed.
