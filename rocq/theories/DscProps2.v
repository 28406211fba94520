(** Property C173: a description that is refused (DscModel.v). *)
From Verif Require Import AnimModel AnimSpec AnimSpec2 XpSpec XpProofs SerProofs AnimProofs AnimProofs2 AnimProofs3 AnimProofs4 AnimProofs5 AnimProofs6 DscModel DscSpec DocProofs DocProofs2 LaySpec LayProofs LayProofs6 ClsProofs PyFloatProofs PyFmtProofs PyFmtProofs2 ValProofs ValProofs2 DscProofs DscProofs2 AnimProps AnimProps2.
From Coq Require Import Lia.
Local Open Scope N_scope.

(** After any assignments of any plain values, each of which told the program what [desc_told] says, the document is as it was but for the
    content of the tag of the description, which is what the last of them left there. *)
Theorem C173_history_partial : forall st F n vs rs, wf F -> doc_top F = Some n -> itag n = true ->
  (exists t, inside t n /\ named (s "desc") t = true) -> vs <> [] -> Forall2 (fun v r => exists ks z, desc_told v r ks z) vs rs ->
  exists t F' n' r ks z, first_called (s "desc") n t /\ desc_assigns F vs = (F', rs) /\ doc_top F' = Some n' /\
    desc_told (last vs PNone) r ks z /\ content_put t ks n n' /\ anim_get st F' n' (s "desc") = Ok z.
Proof.
  intros st F n vs rs Hw Hd Hn Hex Hne H. destruct (top_is F n Hd) as (du & dn & da & ->).
  pose proof (first_found (s "desc") n Hn) as Hff. destruct (ifind (named (s "desc")) n) as [t|] eqn:Et.
  2:{ destruct Hex as (t & H1 & H2). rewrite (Hff t H1) in H2. discriminate. }
  assert (Htt : itag t = true) by (destruct Hff as (_ & X & _); now apply named_tag in X).
  unfold wf in Hw. change (fuids [IE du dn da [n]]) with (uids (IE du dn da [n]) ++ []) in Hw. rewrite app_nil_r, uids_IE in Hw. change (fuids [n]) with (uids n ++ []) in Hw. rewrite app_nil_r in Hw.
  inversion Hw as [|? ? Hu Hnd]; subst.
  assert (Hdu : du <> iuid t).
  { intros ->. apply Hu. destruct Hff as (Hi & _ & _). apply desc_inside in Hi. destruct n as [|nu nn na nk]; [destruct Hi|]. rewrite uids_IE. right. cbn [ikids] in Hi. apply (desc_uids _ _ Hi). now apply tag_uid. }
  destruct vs as [|v vs]; [congruence|]. inversion H as [|? r ? rs' (ks & z & Hv) Hr]; subst.
  assert (E0 : desc_assign [IE du dn da [n]] n v = ([IE du dn da [iat (iuid t) (kids ks) n]], r)).
  { rewrite (told_set v r ks z _ _ _ Hv Et). unfold fat. cbn [map iat]. apply N.eqb_neq in Hdu as E. rewrite N.eqb_sym in E. now rewrite E. }
  destruct (assigns_from vs du dn da n t ks Hdu Hn Hnd Et rs' Hr) as (k1 & E1 & Hl).
  assert (HL : exists r1 z1, desc_told (last (v :: vs) PNone) r1 k1 z1).
  { destruct (rev vs) as [|w l] eqn:Er.
    - subst k1. assert (vs = []) as -> by (rewrite <- (rev_involutive vs), Er; reflexivity). now exists r, z.
    - destruct Hl as (r1 & z1 & Hl). exists r1, z1. assert (vs = rev l ++ [w]) as -> by (rewrite <- (rev_involutive vs), Er; reflexivity). rewrite app_comm_cons, last_last. exact Hl. }
  destruct HL as (r1 & z1 & HL). exists t, [IE du dn da [iat (iuid t) (kids k1) n]], (iat (iuid t) (kids k1) n), r1, k1, z1.
  split; [exact Hff|]. split; [cbn [desc_assigns]; rewrite E0, E1; reflexivity|]. split; [reflexivity|]. split; [exact HL|].
  split; [apply content_iat; auto; right; apply Hff|].
  change (desc_get (iat (iuid t) (kids k1) n) = Ok z1). unfold desc_get. rewrite (found_kids (s "desc") k1 n t Hn Hnd Et). f_equal. exact (told_read _ _ _ _ _ _ _ HL).
Qed.
Print Assumptions C173_history_partial.

(** So it is wrong that a refused assignment changes nothing: whatever the description was, it is lost, and reads as None. *)
Theorem C173_lost_refuted : forall st F n v r ks z, wf F -> doc_top F = Some n -> itag n = true -> (exists t, inside t n /\ named (s "desc") t = true) ->
  desc_told v r ks z -> (forall x, v <> PStr x) ->
  exists t F' n' e, first_called (s "desc") n t /\ desc_assign F n v = (F', Err e) /\ doc_top F' = Some n' /\ content_put t [] n n' /\ anim_get st F' n' (s "desc") = Ok PNone.
Proof.
  intros st F n v r ks z Hw Hd Hn Hex Hv Hs.
  destruct (C173_history_partial st F n [v] [r] Hw Hd Hn Hex) as (t & F' & n' & r' & ks' & z' & H1 & H2 & H3 & H4 & H5 & H6); [discriminate|repeat constructor; now exists ks, z|].
  cbn [last] in H4. destruct (top_is F n Hd) as (du & dn & da & ->). cbn [desc_assigns] in H2. destruct (desc_assign _ n v) as [F1 r1] eqn:E. injection H2 as -> ->.
  assert (X : ks' = [] /\ z' = PNone /\ exists e, r = Err e).
  { split; [|split]; [destruct H4; auto; destruct (Hs x eq_refl)|destruct H4; auto; destruct (Hs x eq_refl)|]. destruct Hv; eauto. destruct (Hs x eq_refl). }
  destruct X as (-> & -> & e & ->). exists t, F', n', e. auto.
Qed.
Print Assumptions C173_lost_refuted.

(** An animation without a description is not changed by this. *)
Theorem C173_none : forall F n v, itag n = true -> (forall t, inside t n -> named (s "desc") t = false) -> desc_assign F n v = (F, Err AttributeError).
Proof.
  intros F n v Hn H. pose proof (first_found (s "desc") n Hn) as Hf. unfold desc_assign. destruct (ifind (named (s "desc")) n) as [t|]; [|reflexivity].
  destruct Hf as (A & B & _). rewrite (H t A) in B. discriminate B.
Qed.
Print Assumptions C173_none.

(** The description of the example is lost by assigning a number, and can be set again. *)
Example C173_nonvacuous : wf (doc_forest xframe) /\ doc_top (doc_forest xframe) = Some (xroot xframe) /\ itag (xroot xframe) = true /\
  (exists t, inside t (xroot xframe) /\ named (s "desc") t = true) /\
  desc_told (PInt 5) (Err AttributeError) [] PNone /\
  desc_get (xroot xframe) = Ok (PStr (s "A film")) /\
  match doc_top (fst (desc_assigns (doc_forest xframe) [PStr (s "b"); PInt 5])) with Some n => desc_get n = Ok PNone | None => False end /\
  match doc_top (fst (desc_assigns (doc_forest xframe) [PNone; PStr (s "b")])) with Some n => desc_get n = Ok (PStr (s "b")) | None => False end.
Proof.
  destruct xframe_root as (A & B & C & _). split; [exact A|]. split; [exact B|]. split; [exact C|]. split; [exact xframe_desc|]. split; [constructor|].
  split; [vm_compute; reflexivity|]. split; vm_compute; reflexivity.
Qed.
