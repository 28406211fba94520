(** C97 is false for texts in two groups. *)
From Coq Require Import Permutation.
From Verif Require Import LayModel LaySpec AnimSpec AnimProofs3 AnimProofs5 BywModel BywSpec BywProofs12 BywProps.

(** When a text layer is in two groups, running the program again can change the document: Python goes through the set in another order. *)
Theorem C97_refuted : exists F root srt order order' F2 root2, wf F /\ root_of F root /\ plainly root /\ (forall l, Permutation (order l) l) /\ (forall l, Permutation (order' l) l) /\
  adjust order cls_Layer false F root srt = (F2, Ok tt) /\ fget (iuid root) F2 = Some root2 /\
  snd (adjust order' cls_Layer false F2 root2 srt) = Ok tt /\ map forget (fst (adjust order' cls_Layer false F2 root2 srt)) <> map forget F2.
Proof.
  pose (F := doc_forest xnested). pose (r := xroot_of F). exists F, r, xnested_srt, (fun l => l), (@rev _).
  pose (F2 := fst (adjust (fun l => l) cls_Layer false F r xnested_srt)). exists F2. exists (match fget (iuid r) F2 with Some x => x | None => IT [] end).
  destruct (doc_forest_root xnested r) as (W & R & _); [reflexivity|vm_compute; reflexivity|]. split; [exact W|]. split; [exact R|].
  split; [split; [apply LayProps.all_known_check; vm_compute; reflexivity|apply no_type_check; vm_compute; reflexivity]|].
  split; [intros; apply Permutation_refl|]. split; [intros; apply Permutation_sym, Permutation_rev|]. split; [vm_compute; reflexivity|]. split; [vm_compute; reflexivity|]. split; [vm_compute; reflexivity|].
  intros C. apply (f_equal (flat_map texts_in)) in C. vm_compute in C. discriminate C.
Qed.
Print Assumptions C97_refuted.
