(** C57 and C58 for histories in which any of the saves may fail, and for animations that are made from nothing. *)
From Verif Require Import AnimModel AnimSpec XpSpec AnimProofs AnimProofs2 AnimProofs3 AnimProps.
Local Open Scope N_scope.

(** The file and the format that the animation was told last, whether or not it could be written. A name with an unknown
    extension doesn't count. Animations that are made from nothing have none at first. *)
Definition any_kind (x : pstr) (kd : fkind) : Prop := kind_named x kd \/ kd = FSfg /\ has_extension x (s "sfg").
Definition no_kind (x : pstr) : Prop := ~ has_extension x (s "sif") /\ ~ has_extension x (s "sifz") /\ ~ has_extension x (s "sfg").
Inductive last_told : option (pstr * fkind) -> list event -> option (pstr * fkind) -> Prop :=
| told_nil t : last_told t [] t
| told_save t l t' : last_told t l t' -> last_told t (ESave None :: l) t'
| told_name t x kd l t' : any_kind x kd -> last_told (Some (x, kd)) l t' -> last_told t (ESave (Some x) :: l) t'
| told_unknown t x l t' : no_kind x -> last_told t l t' -> last_told t (ESave (Some x) :: l) t'
| told_edit t n l t' : last_told t l t' -> last_told t (EEdit n :: l) t'
| told_world t fs l t' : last_told t l t' -> last_told t (EWorld fs :: l) t'.
(** How the animation knows *)
Definition knows (t : option (pstr * fkind)) (a : anim) : Prop :=
  match t with
  | None => am_kind a = FBlank
  | Some (x, kd) => am_file a = Some x /\ am_kind a = kd /\ (kd = FSif \/ kd = FSifz \/ kd = FSfg)
  end.
Lemma knows_history void can : forall l t fs a fs' a' rs, knows t a -> happen_all void can (fs, a) l = (fs', a', rs) -> exists t', last_told t l t' /\ knows t' a'.
Proof.
  induction l as [|e l IH]; intros t fs a fs' a' rs Ht Hh; cbn [happen_all] in Hh.
  - injection Hh as <- <- <-. exists t. split; [constructor|exact Ht].
  - destruct (happen void can (fs, a) e) as [[fs1 a1] r] eqn:E1. destruct (happen_all void can (fs1, a1) l) as [[fs2 a2] rs2] eqn:E2. injection Hh as <- <- <-.
    assert (X : exists t1, knows t1 a1 /\ forall t', last_told t1 l t' -> last_told t (e :: l) t').
    { destruct e as [[x|]|n|fs0]; cbn [happen] in E1.
      - unfold save in E1. destruct (kind_cases x) as [[K H]|[[K H]|[[K H]|[K H]]]]; rewrite K in E1.
        4:{ injection E1 as <- <- <-. exists t. split; [exact Ht|]. intros t' L. now apply told_unknown. }
        + destruct (format_save void can fs (mkAnim (am_root a) FSif (Some x))) as [fs3 r3]. injection E1 as <- <- ->. exists (Some (x, FSif)). split; [repeat split; auto|]. intros t' L. apply told_name with FSif; [left; left; now split|exact L].
        + destruct (format_save void can fs (mkAnim (am_root a) FSifz (Some x))) as [fs3 r3]. injection E1 as <- <- ->. exists (Some (x, FSifz)). split; [repeat split; auto|]. intros t' L. apply told_name with FSifz; [left; right; now split|exact L].
        + destruct (format_save void can fs (mkAnim (am_root a) FSfg (Some x))) as [fs3 r3]. injection E1 as <- <- ->. exists (Some (x, FSfg)). split; [repeat split; auto|]. intros t' L. apply told_name with FSfg; [right; now split|exact L].
      - unfold save in E1. destruct (format_save void can fs a) as [fs3 r3]. injection E1 as <- <- ->. exists t. split; [exact Ht|]. intros; now constructor.
      - injection E1 as <- <- _. exists t. split; [|intros; now constructor]. destruct t as [[? ?]|]; exact Ht.
      - injection E1 as <- <- _. exists t. split; [exact Ht|]. intros; now constructor. }
    destruct X as (t1 & T1 & T2). destruct (IH _ _ _ _ _ _ T1 E2) as (t' & A & B). exists t'. auto.
Qed.

Lemma bind_blank (r : res node) a : (let* n := r in Ok (mkAnim n FBlank None)) = Ok a -> am_kind a = FBlank.
Proof. destruct r as [n|e]; cbn [bind]; [|discriminate]. intros H. now injection H as <-. Qed.
Lemma new_blank a : new_anim = Ok a -> am_kind a = FBlank.
Proof. exact (bind_blank (parse_doc blank_text) a). Qed.
(** C57: whatever happens, save() writes the file that the animation was told last, in the format of its name, or of its content if it was
    loaded; or it raises and changes nothing. *)
Theorem C57_any_history : forall void can fs0 a0 t0 l fs a rs,
  (new_anim = Ok a0 /\ t0 = None \/ exists x0, load fs0 x0 = Ok a0 /\ t0 = Some (x0, match aget x0 fs0 with Some (Gz _) => FSifz | _ => FSif end)) ->
  happen_all void can (fs0, a0) l = (fs, a, rs) ->
  exists t, last_told t0 l t /\
    match t with
    | None => save void can fs a None = (fs, a, Err ValueError)
    | Some (x, FSfg) => save void can fs a None = (fs, a, Err NotImplementedError)
    | Some (x, kd) =>
        let '(fs', a', r) := save void can fs a None in
        only_changes x fs fs' /\ a' = a /\
        (r = Ok tt -> exists b, utf8_out (doc_out void (am_root a)) = Some b /\ holds fs' x kd b) /\
        (can x = true -> writable (am_root a) -> r = Ok tt)
    end.
Proof.
  intros void can fs0 a0 t0 l fs a rs H0 H. assert (K : knows t0 a0).
  { destruct H0 as [[N ->]|(x0 & L & ->)].
    - exact (new_blank _ N).
    - apply load_is in L as (L1 & _ & _ & _ & L2). cbn [knows]. split; [exact L1|]. destruct L2 as [[-> (b & ->)]|[-> (b & ->)]]; auto. }
  destruct (knows_history void can l t0 fs0 a0 fs a rs K H) as (t & A & B). exists t. split; [exact A|]. destruct t as [[x kd]|].
  - destruct B as (B1 & B2 & [->|[->| ->]]).
    + apply (save_back void can (x, FSif) fs a). repeat split; auto.
    + apply (save_back void can (x, FSifz) fs a). repeat split; auto.
    + unfold save, format_save. now rewrite B2.
  - cbn [knows] in B. unfold save, format_save. now rewrite B.
Qed.
Print Assumptions C57_any_history.
(** There is always exactly one such file. *)
Theorem C57_told_unique : forall t l t1 t2, last_told t l t1 -> last_told t l t2 -> t1 = t2.
Proof.
  intros t l t1 t2 H. revert t2. assert (U : forall x kd kd', any_kind x kd -> any_kind x kd' -> kd = kd').
  { assert (W : forall x kd, any_kind x kd -> kind_by_name x = Ok kd) by (intros x kd [K|[-> K]]; [now apply kind_by_name_named|now apply kind_sfg]). intros x kd kd' K K'. apply W in K, K'. congruence. }
  assert (V : forall x kd, any_kind x kd -> no_kind x -> False) by (intros x kd [[[_ K]|[_ K]]|[_ K]] (A & B & C); auto).
  induction H as [t|t l t' H IH|t x kd l t' K H IH|t x l t' K H IH|t n l t' H IH|t fs l t' H IH]; intros t2 H2; inversion H2; subst; auto.
  - match goal with X : any_kind x ?k |- _ => match k with kd => fail 1 | _ => rewrite (U x kd k K X) in * end | _ => idtac end. auto.
  - exfalso; eauto.
  - exfalso; eauto.
Qed.
Print Assumptions C57_told_unique.

(** C58, exactly: a save with a name that raises changes where save() will write, just if the extension of the name is known. *)
Theorem C58_exactly : forall void can fs a x fs' a' e, save void can fs a (Some x) = (fs', a', Err e) ->
  am_root a' = am_root a /\
  ((no_kind x /\ a' = a /\ fs' = fs) \/
   (exists kd, any_kind x kd /\ am_file a' = Some x /\ am_kind a' = kd)).
Proof.
  intros void can fs a x fs' a' e H. unfold save in H. destruct (kind_cases x) as [[K E]|[[K E]|[[K E]|[K E]]]]; rewrite K in H.
  4:{ injection H as <- <- _. split; [reflexivity|]. left. now repeat split. }
  - destruct (format_save void can fs (mkAnim (am_root a) FSif (Some x))) as [fs3 r3]. injection H as <- <- ->. split; [reflexivity|]. right. exists FSif. split; [left; left; now split|now split].
  - destruct (format_save void can fs (mkAnim (am_root a) FSifz (Some x))) as [fs3 r3]. injection H as <- <- ->. split; [reflexivity|]. right. exists FSifz. split; [left; right; now split|now split].
  - destruct (format_save void can fs (mkAnim (am_root a) FSfg (Some x))) as [fs3 r3]. injection H as <- <- ->. split; [reflexivity|]. right. exists FSfg. split; [right; now split|now split].
Qed.
Print Assumptions C58_exactly.
Example C57_any_nonvacuous : exists a fs' a', load xfs xsif = Ok a /\
  happen_all xvoid (fun x => pstr_eqb x xsif) (xfs, a) [ESave (Some (s "a.png")); ESave None; ESave (Some (s "no/a.sif")); ESave (Some (s "a.sfg")); EEdit xends]
    = (fs', a', [Err ValueError; Ok tt; Err FileNotFoundError; Err NotImplementedError; Ok tt]) /\
  last_told (Some (xsif, FSif)) [ESave (Some (s "a.png")); ESave None; ESave (Some (s "no/a.sif")); ESave (Some (s "a.sfg")); EEdit xends] (Some (s "a.sfg", FSfg)) /\
  snd (save xvoid xcan fs' a' None) = Err NotImplementedError.
Proof.
  pose (a := mkAnim (reload xblank) FSif (Some xsif)). eexists a, _, _. split; [exact xfs_loads|]. split; [|split].
  - vm_compute. reflexivity.
  - apply told_unknown; [exact C58_nonvacuous|]. constructor. apply told_name with FSif; [left; left; split; [reflexivity|]; apply sif_iff; vm_compute; reflexivity|].
    apply told_name with FSfg; [right; split; [reflexivity|]; apply sfg_iff; vm_compute; reflexivity|]. repeat constructor.
  - reflexivity.
Qed.
