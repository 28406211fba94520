(** Proofs about saving, over whole histories; crashes; and the fields of animations. *)
From Verif Require Import AnimModel AnimSpec XpSpec XpProofs SerProofs AnimProofs AnimProofs2 DocProofs DocProofs2 LaySpec LayProofs LayProofs3 TimeSpec TimeProofs TimeProofs2.
From Coq Require Import Lia ZifyN ZifyBool Permutation.
Local Open Scope N_scope.

(** ** Saving and loading *)

Section Save.
  Context (void : pstr -> attrs -> bool) (can : pstr -> bool).

  Lemma target_kind a name x kd : target_of a name x kd -> kd = FSif \/ kd = FSifz.
  Proof. destruct name; cbn; [intros [_ [[-> _]|[-> _]]]; auto|tauto]. Qed.

  Lemma save_target fs a name x kd : target_of a name x kd -> can x = true -> writable (am_root a) ->
    exists b, utf8_out (doc_out void (am_root a)) = Some b /\
      save void can fs a name = (aset x (in_format kd b) fs, mkAnim (am_root a) kd (Some x), Ok tt).
  Proof.
    destruct name as [y|]; intros H Hc W.
    - destruct H as [-> H]. now apply save_as_writes.
    - destruct H as (A & B & C). destruct (save_writes void can fs a x kd B C A Hc W) as (b & E1 & E2). exists b. split; [exact E1|]. rewrite E2. destruct a. cbn in *. now subst.
  Qed.
  Lemma saved_loads fs a name x kd : target_of a name x kd -> can x = true -> writable (am_root a) -> is_tag (am_root a) = true ->
    exists fs', save void can fs a name = (fs', mkAnim (am_root a) kd (Some x), Ok tt) /\ only_changes x fs fs' /\
      load fs' x = Ok (mkAnim (reload (am_root a)) kd (Some x)).
  Proof.
    intros H Hc W Ht. destruct (save_target fs a name x kd H Hc W) as (b & E1 & E2). exists (aset x (in_format kd b) fs). split; [exact E2|]. split; [apply only_aset|].
    apply (load_written void) with (b := b); auto; [exact (target_kind _ _ _ _ H)|apply aget_aset_same].
  Qed.

  (** ** Histories *)
  Lemma format_save_only fs a : exists x, only_changes x fs (fst (format_save void can fs a)) /\
    (am_file a = Some x \/ fst (format_save void can fs a) = fs).
  Proof.
    unfold format_save. destruct (am_kind a), (am_file a) as [x|]; try (exists []; split; [intros y _; reflexivity|now right]);
      exists x; split; try (now left); apply write_doc_only.
  Qed.

  (** The target of [save()] is a kind of format that can write *)
  Definition tracks (t : pstr * fkind) (a : anim) : Prop :=
    am_file a = Some (fst t) /\ am_kind a = snd t /\ (snd t = FSif \/ snd t = FSifz).

  Lemma history : forall l t fs a fs' a' rs, tracks t a -> happen_all void can (fs, a) l = (fs', a', rs) -> Forall (eq (Ok tt)) rs ->
    exists t', last_target t l t' /\ tracks t' a'.
  Proof.
    induction l as [|e l IH]; intros t fs a fs' a' rs Ht Hh Hr; cbn [happen_all] in Hh.
    - injection Hh as <- <- <-. exists t. split; [constructor|exact Ht].
    - destruct (happen void can (fs, a) e) as [[fs1 a1] r] eqn:E1. destruct (happen_all void can (fs1, a1) l) as [[fs2 a2] rs2] eqn:E2.
      injection Hh as <- <- <-. inversion Hr as [|? ? R1 R2]; subst.
      assert (X : exists t1, tracks t1 a1 /\ forall t', last_target t1 l t' -> last_target t (e :: l) t').
      { destruct e as [name|n|fs0]; cbn [happen] in E1.
        - destruct name as [x|]; unfold save in E1.
          + destruct (kind_by_name x) as [kd|] eqn:Ek; [|injection E1 as <- <- E1; discriminate].
            destruct (format_save void can fs (mkAnim (am_root a) kd (Some x))) as [fs3 r3] eqn:Ef. injection E1 as <- <- ->.
            destruct (kind_by_name_ok x kd Ek) as [->|Hk].
            { unfold format_save in Ef. cbn in Ef. injection Ef as <- Ef. discriminate. }
            exists (x, kd). split; [|intros t' Hl; now constructor 3 with kd]. split; [reflexivity|]. split; [reflexivity|]. destruct Hk as [[-> _]|[-> _]]; auto.
          + destruct (format_save void can fs a) as [fs3 r3]. injection E1 as <- <- ->. exists t. split; [exact Ht|]. intros; now constructor.
        - injection E1 as <- <-. exists t. split; [exact Ht|]. intros; now constructor.
        - injection E1 as <- <-. exists t. split; [exact Ht|]. intros; now constructor. }
      destruct X as (t1 & T1 & T2). destruct (IH _ _ _ _ _ _ T1 E2 R2) as (t' & A & B). exists t'. auto.
  Qed.

  Lemma save_back t fs a : tracks t a ->
    let '(fs', a', r) := save void can fs a None in
    only_changes (fst t) fs fs' /\ a' = a /\
    (r = Ok tt -> exists b, utf8_out (doc_out void (am_root a)) = Some b /\ holds fs' (fst t) (snd t) b) /\
    (can (fst t) = true -> writable (am_root a) -> r = Ok tt).
  Proof.
    destruct a as [n kd f]. intros (A & B & C). destruct t as [x kd']. cbn [fst snd am_file am_kind am_root] in *. subst f kd'.
    assert (E : save void can fs (mkAnim n kd (Some x)) None = let (fs', r) := write_doc void can fs kd x n in (fs', mkAnim n kd (Some x), r)) by (destruct C; subst; reflexivity).
    rewrite E. clear E.
    pose proof (write_doc_only void can fs kd x n) as O. unfold write_doc in *. destruct (can x) eqn:Ec.
    - destruct (utf8_out (doc_out void n)) as [b|] eqn:Eb; cbn [fst] in O; cbv beta iota zeta.
      + split; [exact O|]. split; [reflexivity|]. split; [intros _|auto]. exists b. split; [reflexivity|]. unfold holds. rewrite aget_aset_same. destruct C; subst; reflexivity.
      + split; [exact O|]. split; [reflexivity|]. split; [discriminate|]. intros _ W. destruct (doc_encodes void _ W) as [b Hb]. congruence.
    - cbv beta iota zeta. split; [exact O|]. split; [reflexivity|]. split; [discriminate|discriminate].
  Qed.

  (** ** Saves that fail *)

  Lemma save_unknown fs a x : ~ has_extension x (s "sif") -> ~ has_extension x (s "sifz") -> ~ has_extension x (s "sfg") ->
    save void can fs a (Some x) = (fs, a, Err ValueError).
  Proof.
    intros A B C. unfold save. destruct (kind_cases x) as [[_ H]|[[_ H]|[[_ H]|[-> _]]]]; try contradiction. reflexivity.
  Qed.
  Lemma save_sfg fs a x : has_extension x (s "sfg") -> snd (save void can fs a (Some x)) = Err NotImplementedError /\ fst (fst (save void can fs a (Some x))) = fs.
  Proof. intros H. unfold save. rewrite (kind_sfg x H). cbn. auto. Qed.

  (** Of all saves, only one file is ever changed: the one saved to. *)
  Lemma save_only fs a name fs' a' r x : save void can fs a name = (fs', a', r) ->
    (match name with Some y => y = x | None => am_file a = Some x end) -> only_changes x fs fs'.
  Proof.
    unfold save. destruct name as [y|]; intros H Hx.
    - subst y. destruct (kind_by_name x) as [kd|]; [|injection H as <- <- <-; intros y _; reflexivity].
      destruct (format_save void can fs (mkAnim (am_root a) kd (Some x))) as [fs3 r3] eqn:Ef. injection H as <- <- <-.
      destruct (format_save_only fs (mkAnim (am_root a) kd (Some x))) as (z & O & [E|E]); rewrite Ef in *; cbn [fst am_file] in *.
      + injection E as <-. exact O.
      + rewrite E. intros y _; reflexivity.
    - destruct (format_save void can fs a) as [fs3 r3] eqn:Ef. injection H as <- <- <-.
      destruct (format_save_only fs a) as (z & O & [E|E]); rewrite Ef in *; cbn [fst] in *.
      + rewrite Hx in E. injection E as <-. exact O.
      + rewrite E. intros y _; reflexivity.
  Qed.
  Lemma save_raises_before fs a name fs' a' e : save void can fs a name = (fs', a', Err e) -> fs' = fs \/ utf8_out (doc_out void (am_root a)) = None /\ e = ValueError.
  Proof.
    intros H. assert (G : forall a0 fs3 r3, am_root a0 = am_root a -> format_save void can fs a0 = (fs3, r3) -> r3 = Err e -> fs3 = fs \/ utf8_out (doc_out void (am_root a)) = None /\ e = ValueError).
    { intros a0 fs3 r3 Er. unfold format_save. rewrite Er. destruct (am_kind a0), (am_file a0) as [x|]; unfold write_doc;
        try destruct (can x); try destruct (utf8_out (doc_out void (am_root a))) as [b|] eqn:Eb; intros [= <- <-] E; try discriminate E; auto; right; split; auto; congruence. }
    unfold save in H. destruct name as [x|].
    - destruct (kind_by_name x) as [kd|]; [|injection H as <- <- _; now left].
      destruct (format_save void can fs (mkAnim (am_root a) kd (Some x))) as [fs3 r3] eqn:Ef. injection H as <- <- Hr. eapply G; [|exact Ef|exact Hr]; reflexivity.
    - destruct (format_save void can fs a) as [fs3 r3] eqn:Ef. injection H as <- <- Hr. eapply G; [|exact Ef|exact Hr]; reflexivity.
  Qed.

  (** ** Crashes *)

  Lemma firstn_prefix {A} i (l : list A) : exists r, l = firstn i l ++ r.
  Proof. exists (skipn i l). now rewrite firstn_skipn. Qed.

  Lemma crash fs a name x kd b fs' : target_of a name x kd -> utf8_out (doc_out void (am_root a)) = Some b ->
    In fs' (save_states void can fs a name) ->
    only_changes x fs fs' /\
    (aget x fs' = aget x fs \/ holds fs' x kd b \/
     (exists b1 b2, b = b1 ++ b2 /\ aget x fs' = Some (Raw b1)) \/ kd = FSifz /\ aget x fs' = Some (Raw gzip_magic)).
  Proof.
    intros Ht Hb Hi.
    assert (E : save_states void can fs a name = write_states void can fs kd x (am_root a)).
    { unfold save_states. destruct name as [y|]; cbn [target_of] in Ht.
      - destruct Ht as [-> Hk]. rewrite (kind_by_name_named x kd Hk). destruct Hk as [[-> _]|[-> _]]; reflexivity.
      - destruct Ht as (A & B & C). destruct a as [n k f]. cbn [am_file am_kind am_root] in *. subst. destruct C; subst; reflexivity. }
    rewrite E in Hi. split; [now apply write_states_only in Hi|]. unfold write_states in Hi. rewrite Hb in Hi. destruct Hi as [<-|Hi]; [now left|].
    destruct (can x); [|destruct Hi]. right. pose proof (target_kind _ _ _ _ Ht) as [->| ->].
    - apply in_map_iff in Hi as (i & <- & _). rewrite aget_aset_same. right. left. destruct (firstn_prefix i b) as (r & Er). eauto.
    - repeat destruct Hi as [<-|Hi]; rewrite ?aget_aset_same; [right; left; exists [], b; auto| |left; unfold holds; now rewrite aget_aset_same|destruct Hi]. auto.
  Qed.
  (** The last of these is how the files are when [save] returns. *)
  Lemma crash_last fs a name : last (save_states void can fs a name) fs = fst (fst (save void can fs a name)).
  Proof.
    assert (W : forall kd x n, kd = FSif \/ kd = FSifz -> last (write_states void can fs kd x n) fs = fst (write_doc void can fs kd x n)).
    { intros kd x n K. unfold write_states, write_doc. destruct (can x); [|reflexivity]. destruct (utf8_out (doc_out void n)) as [b|]; [|reflexivity].
      destruct K; subst; [|reflexivity]. rewrite seq_S, map_app. cbn [map]. rewrite app_comm_cons, last_last. cbn [fst in_format Nat.add]. now rewrite firstn_all. }
    unfold save_states, save. destruct name as [x|].
    - destruct (kind_by_name x) as [kd|] eqn:Ek; [|reflexivity]. unfold format_save. cbn [am_root am_kind am_file].
      destruct kd; try reflexivity; rewrite W by auto; destruct (write_doc void can fs _ x (am_root a)); reflexivity.
    - destruct a as [n kd f]. unfold format_save. cbn [am_root am_kind am_file]. destruct kd, f as [x|]; try reflexivity; rewrite W by auto; destruct (write_doc void can fs _ x n); reflexivity.
  Qed.
End Save.

(** ** The reference of times in a document *)

Lemma top_anc F d : wf F -> In d F -> itag d = true -> fanc (iuid d) F = Some [] /\ In d (fdesc F).
Proof.
  unfold wf. induction F as [|y F IH|u nm a k F _ IH] using forest_ind; intros Hw Hi Ht.
  - destruct Hi.
  - destruct Hi as [<-|Hi]; [discriminate|]. exact (IH Hw Hi Ht).
  - pose proof (NoDup_kids _ _ _ _ _ Hw) as (H1 & H2 & H3 & H4 & H5). rewrite fanc_IE, fdesc_IE. destruct Hi as [<-|Hi].
    + cbn [iuid]. rewrite N.eqb_refl. split; [reflexivity|now left].
    + destruct (IH H4 Hi Ht) as [E Hd]. assert (Hu : In (iuid d) (fuids F)).
      { destruct (in_dec N.eq_dec (iuid d) (fuids F)) as [Hj|Hj]; auto. apply fanc_None in Hj. congruence. }
      destruct (N.eqb_spec (iuid d) u) as [Eu|Hne]; [rewrite Eu in Hu; contradiction|].
      destruct (fanc (iuid d) k) as [l|] eqn:Ek.
      * assert (In (iuid d) (fuids k)) by (destruct (in_dec N.eq_dec (iuid d) (fuids k)) as [Hj|Hj]; auto; apply fanc_None in Hj; congruence). exfalso; eauto.
      * split; [exact E|]. right. apply in_or_app. now right.
Qed.

Lemma root_anc F n : wf F -> root_of F n -> exists d, fanc (iuid n) F = Some [d] /\ fget (iuid n) F = Some n /\ In n (fdesc F).
Proof.
  intros Hw (d & Hd & Ht & Hk & Hn). destruct (top_anc F d Hw Hd Ht) as [E Hi].
  destruct (child_anc F (iuid d) d n Hw (fget_desc F d Hw Hi) ltac:(rewrite Hk; now left) Hn) as (r & E1 & E2). rewrite E in E1. injection E1 as <-.
  exists d. split; [exact E2|]. destruct (fanc_ex (iuid n) F) as (l & El).
  { destruct (in_dec N.eq_dec (iuid n) (fuids F)) as [Hj|Hj]; auto. apply fanc_None in Hj. congruence. }
  assert (Hin : In n (fdesc F)).
  { destruct d as [|u nm a k]; [discriminate|]. cbn [ikids] in Hk. subst k. apply in_split in Hd as (F1 & F2 & ->). rewrite fdesc_app, fdesc_IE. apply in_or_app. right. right.
    apply in_or_app. left. destruct n; [discriminate|]. rewrite fdesc_IE. now left. }
  split; [now apply fget_desc|exact Hin].
Qed.

Lemma forget_attrs x : itag x = true -> tag_attrs (forget x) = iattrs x /\ tag_name (forget x) = iname x.
Proof. destruct x; [discriminate|]. split; reflexivity. Qed.

Lemma ctx_in_doc F n x : wf F -> root_of F n -> iname n = s "canvas" -> x = n \/ In x (fdesc (ikids n)) -> ctx_of F (iuid x) = Some (iattrs n).
Proof.
  intros Hw Hr Hc Hx. destruct (root_anc F n Hw Hr) as (d & E1 & E2 & Hin). assert (Hn : itag n = true) by (destruct Hr as (? & ? & ? & ? & ?); auto).
  destruct (forget_attrs n Hn) as [Fa Fn]. unfold ctx_of. destruct Hx as [->|Hx].
  - rewrite E1, E2. unfold canvas_root. cbn [map option_map]. rewrite Fn, Hc, pstr_eqb_refl. cbn [option_map]. now rewrite Fa.
  - assert (HxF : In x (fdesc F)).
    { apply desc_trans with n; auto. destruct n; [discriminate|]. now rewrite idesc_IE. }
    rewrite (fget_desc F x Hw HxF). destruct (fanc_ex (iuid x) F) as (l & El).
    { rewrite <- uids_desc. now apply in_map. }
    rewrite El. assert (Hl : In n l).
    { apply (anc_iff (iuid x) F l n Hw El). split; [exact Hin|]. rewrite <- uids_desc. now apply in_map. }
    apply in_split in Hl as (l1 & r & ->). destruct (anc_suffix _ _ _ _ _ Hw El) as [E3 _]. rewrite E1 in E3. injection E3 as <-.
    unfold canvas_root. rewrite map_app. cbn [map].
    assert (G : forall (m : list node) a b (y : node), match m ++ [a; b] with [] => None | [_] => Some y | _ :: _ :: _ => nth_error (m ++ [a; b]) (length (m ++ [a; b]) - 2) end = Some a).
    { clear. intros m a b y. assert (E : nth_error (m ++ [a; b]) (length (m ++ [a; b]) - 2) = Some a).
      { rewrite app_length. cbn [length]. replace (length m + 2 - 2)%nat with (length m) by lia. rewrite nth_error_app2 by lia. now rewrite Nat.sub_diag. }
      rewrite E. destruct m as [|c [|? ?]]; reflexivity. }
    rewrite G, Fn, Hc, pstr_eqb_refl. cbn [option_map]. now rewrite Fa.
Qed.
