(** Where two properties stop being true: what save() writes after a save that failed, and descriptions of more than one line. *)
From Coq Require Import Lia.
From Verif Require AnimProofs AnimProofs2 AnimProofs4 AnimProps4.
From Verif Require Import XpSpec SerModel SerProofs SavSpec SavProofs SavSpec2 SavProofs2 SavProofs3 SavProofs4 SavProps2 WrProofs2 WrProofs3 WrProofs4 WrProofs5 EndSpec.
From Verif Require Import XpSpec AnimModel AnimSpec AnimProofs3 AnimProofs5 AnimProps LayModel DocProofs DocProofs2 LaySpec LayProofs LayProofs2 LayProofs3 LayProofs4 LayProofs5 LayProofs6 LayProofs7 VarSpec VarProofs LoopModel MovSpec MovProofs MovProofs2 MovProps MixSpec MixProofs WrSpec ClsProofs PrmSpec PrmProofs PrmProofs2 PrmProofs3 PrmProps WldSpec WldProofs WldProofs2 WldProps EndProofs EndProofs2 EndProps AnimProps4.
Local Open Scope N_scope.

Lemma again_writable n : writable n -> writable (reload n).
Proof. intros H. exact (proj1 (AnimProofs.reload_ok n H)). Qed.
(** C57: an animation is loaded, and it could be saved there again; [save("no/a.sif")] fails, since there is no such directory; and then save() fails, too. *)
Theorem C57_refuted : exists void can fs0 x0 a0 name fs a e fs' a' e', load fs0 x0 = Ok a0 /\ can x0 = true /\ writable (am_root a0) /\
  happen_all void can (fs0, a0) [ESave (Some name)] = (fs, a, [Err e]) /\ save void can fs a None = (fs', a', Err e').
Proof.
  exists xvoid, (fun x => pstr_eqb x xsif), xfs, xsif, (mkAnim (reload xblank) FSif (Some xsif)), (s "no/a.sif"), xfs, (mkAnim (reload xblank) FSif (Some (s "no/a.sif"))), FileNotFoundError, xfs, (mkAnim (reload xblank) FSif (Some (s "no/a.sif"))), FileNotFoundError.
  split; [exact xfs_loads|]. split; [reflexivity|]. split; [cbn [am_root]; exact (again_writable xblank (proj1 xblank_ok))|]. split; vm_compute; reflexivity.
Qed.
Print Assumptions C57_refuted.

(** C156: a circle is described in two lines; after saving and loading, the description is one line. *)
Definition two_lines : pstr := s "a" ++ [10] ++ s "b".
Definition nprogram : list wact := [WNew cls_Circle; WAct (AMove (MAppend KAnim 1 20)); WField 20 (s "desc") (PStr two_lines)].
Definition nforest : forest := fst (wacts (doc_forest xblank) nprogram).
Definition nroot : inode := match fget 1 nforest with Some r => r | None => IT [] end.
Definition nagain : forest := doc_forest (reload (forget nroot)).
Definition nroot2 : inode := match doc_top nagain with Some r => r | None => IT [] end.
Definition nkids : list inode := match children KAnim nroot2 with Ok l => l | Err _ => [] end.
Theorem C156_refuted : exists fs' a2 r2 n c st, snd (wacts (doc_forest xblank) nprogram) = [Ok tt; Ok tt; Ok tt] /\ good_val (PStr two_lines) /\ fget 1 nforest = Some nroot /\
  save xvoid xcan [] (mkAnim (forget nroot) FBlank None) (Some xsifz) = (fs', mkAnim (forget nroot) FSifz (Some xsifz), Ok tt) /\ load fs' xsifz = Ok a2 /\ doc_top (doc_forest (am_root a2)) = Some r2 /\
  children KAnim r2 = Ok [n] /\ layer_class n = Ok c /\ field_get st (doc_forest (am_root a2)) n c (s "desc") = Ok (PStr (s "a b")).
Proof.
  assert (W : writable (forget nroot)) by (apply writableb_ok; vm_compute; reflexivity). assert (T : is_tag (forget nroot) = true) by (vm_compute; reflexivity).
  destruct (saved_loads xvoid xcan [] (mkAnim (forget nroot) FBlank None) (Some xsifz) xsifz FSifz (conj eq_refl xsifz_name) eq_refl W T) as (fs' & S1 & _ & S2). cbn [am_root] in *.
  exists fs', (mkAnim (reload (forget nroot)) FSifz (Some xsifz)), nroot2, (match nkids with n :: _ => n | [] => IT [] end), cls_Circle, cls_Circle.
  split; [vm_compute; reflexivity|]. split; [cbn [good_val]; apply good_textb; vm_compute; reflexivity|]. split; [vm_compute; reflexivity|]. split; [exact S1|]. split; [exact S2|]. cbn [am_root].
  split; [vm_compute; reflexivity|]. split; [vm_compute; reflexivity|]. split; [vm_compute; reflexivity|]. vm_compute. reflexivity.
Qed.
Print Assumptions C156_refuted.
