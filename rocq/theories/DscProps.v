(** Theorems about descriptions of any text (C107). *)
From Verif Require Import AnimModel AnimSpec AnimSpec2 XpSpec XpProofs AnimProofs AnimProofs2 AnimProofs3 AnimProofs4 AnimProofs5 AnimProofs6 AnimProps AnimProps2 LaySpec DscSpec DscProofs DocProofs ValProofs2 ValSpec.
From Coq Require Import Lia.
Local Open Scope N_scope.

(** Whatever text the description is set to, it is read back at once and nothing else in the document
    changes. After saving and loading it is what [comes_back] says: the same text if it shows anything. *)
Theorem C107_set : forall void can st fs a n x y kd,
  is_tag (am_root a) = true -> writable (am_root a) -> doc_top (doc_forest (am_root a)) = Some n ->
  (exists t, inside t n /\ named (s "desc") t = true) -> good_text x -> kind_named y kd -> can y = true ->
  exists z, comes_back x z /\ (forall z', comes_back x z' -> z' = z) /\
  exists t F' n', first_called (s "desc") n t /\ text_put t x n n' /\
    anim_set (doc_forest (am_root a)) n (s "desc") (PStr x) = (F', Ok tt) /\ doc_top F' = Some n' /\ anim_get st F' n' (s "desc") = Ok (PStr x) /\
    exists fs' a' a2 n2, save void can fs (mkAnim (forget n') (am_kind a) (am_file a)) (Some y) = (fs', a', Ok tt) /\
      load fs' y = Ok a2 /\ doc_top (doc_forest (am_root a2)) = Some n2 /\ anim_get st (doc_forest (am_root a2)) n2 (s "desc") = Ok z.
Proof.
  intros void can st fs a n x y kd Ht W Hd Hex Hg Hk Hc. destruct (back_all x) as (z & Hz). exists z. split; [exact Hz|]. split.
  - intros z' Hz'. assert (H13 : Forall (fun c => c <> 13) x) by now apply good_no13.
    rewrite <- (text_back [] [] x z' H13 Hz'). now apply text_back.
  - now apply desc_any with (kd := kd).
Qed.
Print Assumptions C107_set.

(** A description of only white space does not come back from the file as it was, and the empty one comes back as no text at all. *)
Theorem C107_blank_refuted : forall void can st fs a n y kd,
  is_tag (am_root a) = true -> writable (am_root a) -> doc_top (doc_forest (am_root a)) = Some n ->
  (exists t, inside t n /\ named (s "desc") t = true) -> kind_named y kd -> can y = true ->
  forall x z, In (x, z) [(s "   ", PStr (s " ")); ([9; 10; 10], PStr [10]); ([], PNone)] ->
  exists F' n', anim_set (doc_forest (am_root a)) n (s "desc") (PStr x) = (F', Ok tt) /\ doc_top F' = Some n' /\ anim_get st F' n' (s "desc") = Ok (PStr x) /\
    exists fs' a' a2 n2, save void can fs (mkAnim (forget n') (am_kind a) (am_file a)) (Some y) = (fs', a', Ok tt) /\
      load fs' y = Ok a2 /\ doc_top (doc_forest (am_root a2)) = Some n2 /\ anim_get st (doc_forest (am_root a2)) n2 (s "desc") = Ok z /\ z <> PStr x.
Proof.
  intros void can st fs a n y kd Ht W Hd Hex Hk Hc x z Hin.
  assert (H : good_text x /\ comes_back x z /\ z <> PStr x).
  { cbn [In] in Hin. destruct Hin as [E|[E|[E|[]]]]; inversion E; subst; (split; [repeat constructor|split; [|discriminate]]).
    - apply back_blank; [discriminate|reflexivity|]. intros H. vm_compute in H. decompose [or] H; try discriminate; auto.
    - apply back_line; [reflexivity|]. right. left. reflexivity.
    - apply back_empty. }
  destruct H as (Hg & Hz & Hne). destruct (desc_any void can st fs a n x z y kd) as (t & F' & n' & _ & _ & H1 & H2 & H3 & fs' & a' & a2 & n2 & H4 & H5 & H6 & H7); auto.
  exists F', n'. do 3 (split; [assumption|]). exists fs', a', a2, n2. auto.
Qed.
Print Assumptions C107_blank_refuted.

(** The example animation meets the hypotheses, with a blank description. *)
Example C107_blank_nonvacuous : is_tag xframe = true /\ writable xframe /\ doc_top (doc_forest xframe) = Some (xroot xframe) /\
  (exists t, inside t (xroot xframe) /\ named (s "desc") t = true) /\ kind_named (s "a.sif") FSif /\
  good_text (s "  ") /\ comes_back (s "  ") (PStr (s " ")) /\ comes_back (s " a ") (PStr (s " a ")).
Proof.
  split; [reflexivity|]. split; [exact xframe_ok|]. split; [reflexivity|]. split; [exact xframe_desc|].
  split; [left; split; [reflexivity|now apply sif_iff]|]. split; [apply good_textb; reflexivity|].
  split; [apply back_blank; [discriminate|reflexivity|]; intros H; vm_compute in H; decompose [or] H; try discriminate; auto|].
  apply back_shown. vm_compute. discriminate.
Qed.
