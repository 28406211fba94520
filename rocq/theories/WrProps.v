(** The theorems about editing through the whole API: the document stays a tree with the animation on top,
    and can be saved and loaded again. Exceptions are caught, and the program goes on with what there is. *)
From Verif Require Import ValModel TlModel XpSpec AnimModel AnimSpec AnimProofs AnimProofs2 AnimProofs3 AnimProofs4 AnimProofs5 LayModel DocProofs AnimProps.
From Verif Require Import LaySpec BywModel BywProofs14 WrSpec WrProofs WrProofs2 WrProofs3 WrProofs4 WrProofs5.
From Coq Require Import Lia Permutation.
Local Open Scope N_scope.

(** BywProps2.v is only named, for an example. *)
From Verif Require BywProps2.

(** ** Examples to use *)

(** A text is appended to a new animation, gets another text, a description and an animated amount; an empty
    group is put below it; two of the calls raise exceptions. *)
Definition xF0 : forest := doc_forest xblank.
Definition xt : N := DocModel.fresh xF0.
Definition xv : node := match new_value VReal (PFlo 0) with Ok n => n | Err _ => Txt [] end.
Definition xw : wp := mkW (mkT 12 (Some 24%Q)) (s "clamped") (s "linear") VReal xv.

Definition xcalls : list edit :=
  [EText (s "hello"); EAppend KAnim 1 xt; EItem xt (s "text") (SPlain (PStr (s "goodbye"))); EField xt cls_Text (s "desc") (PStr (s "a < b"));
   EAnim 1 (s "name") (PStr (s "x")); EAnim 1 (s "fps") (PInt 12);
   EValue (xt + 4) VReal (VTlAdd [xw] true); EItem xt (s "nonesuch") (SPlain PNone); ENew cls_Group; EInsert KAnim 1 0 68].
Definition xF : forest := edits xF0 xcalls.
Lemma xcalls_meant : Forall meant xcalls.
Proof.
  assert (E : xt = 20) by (vm_compute; reflexivity). unfold xcalls. rewrite E. apply Forall_forall. intros e He. cbn [In] in He.
  destruct He as [<-|[<-|[<-|[<-|[<-|[<-|[<-|[<-|[<-|[<-|[]]]]]]]]]]]; cbn [meant].
  1: exact I.
  1: split; [discriminate|reflexivity].
  1: split; [discriminate|exact I].
  1: split; [discriminate|exact text_known].
  1, 2: discriminate.
  1: reflexivity.
  1: split; [discriminate|exact I].
  1: exact group_known.
  split; [discriminate|reflexivity].
Qed.
Lemma xw_good : good_wp xw.
Proof. split; [reflexivity|]. split; [reflexivity|]. apply (proj1 (new_value_good VReal (PFlo 0) xv I eq_refl)). Qed.
Lemma xcalls_good : Forall good_edit xcalls.
Proof.
  unfold xcalls. repeat match goal with |- Forall good_edit _ => constructor end; cbn [good_edit good_val good_vedit]; try exact I; try (apply good_textb; reflexivity).
  constructor; [exact xw_good|constructor].
Qed.

(** ** C128 the document stays a tree *)

(** Whatever is called, no tag is in two places, and the animation is still on top of the document, with the name it had. *)
Theorem C128_tree : forall n es, is_tag n = true -> Forall meant es ->
  NoDup (fuids (edits (doc_forest n) es)) /\
  exists d r, In d (edits (doc_forest n) es) /\ iuid d = 0 /\ In r (ikids d) /\ iuid r = 1 /\ iname r = tag_name n /\ fget 1 (edits (doc_forest n) es) = Some r.
Proof.
  intros n es Hn M. destruct n as [|nm a k]; [discriminate|]. pose proof (edits_inv nm es _ M (doc_inv nm a k)) as [W (da & dk & ra & rk & Hd & Hr)]. split; [exact W|].
  exists (IE 0 dname da dk), (IE 1 nm ra rk). repeat split; auto. apply (fget_desc _ (IE 1 nm ra rk) W). apply (desc_trans _ (IE 0 dname da dk)).
  - unfold fdesc. apply in_flat_map. exists (IE 0 dname da dk). split; [exact Hd|now left].
  - rewrite idesc_IE. unfold fdesc. apply in_flat_map. exists (IE 1 nm ra rk). split; [exact Hr|now left].
Qed.
Print Assumptions C128_tree.
(** Some of the calls raise, others don't, and two layers are in the animation then. *)
Example C128_nonvacuous : is_tag xblank = true /\ Forall meant xcalls /\
  exists r, fget 1 xF = Some r /\ map iuid (filter is_layer (ikids r)) = [xt; 68] /\
    map (fun i => snd (apply_edit (edits xF0 (firstn i xcalls)) (nth i xcalls (EText [])))) (seq 0 10) =
      [Ok tt; Ok tt; Ok tt; Ok tt; Err AttributeError; Ok tt; Ok tt; Err KeyError; Ok tt; Ok tt].
Proof.
  split; [apply xblank_ok|]. split; [exact xcalls_meant|]. exists (match fget 1 xF with Some r => r | None => IT [] end). repeat split; vm_compute; reflexivity.
Qed.

(** ** C127 what has been edited can be saved *)

(** An animation that was loaded can be edited with any calls, if the strings are XML. It can then be saved under any name that can be
    written, and the file can be loaded: it has the same tags. *)
Theorem C127_saves : forall void can fs0 file a fs es name x kd, load fs0 file = Ok a -> Forall meant es -> Forall good_edit es ->
  (forall n, target_of (mkAnim n (am_kind a) (am_file a)) name x kd) -> can x = true ->
  exists r fs' a2, fget 1 (edits (doc_forest (am_root a)) es) = Some r /\
    save void can fs (mkAnim (forget r) (am_kind a) (am_file a)) name = (fs', mkAnim (forget r) kd (Some x), Ok tt) /\ only_changes x fs fs' /\
    load fs' x = Ok a2 /\ am_kind a2 = kd /\ am_file a2 = Some x /\ am_root a2 = reload (forget r) /\ same_tags (forget r) (am_root a2).
Proof.
  intros void can fs0 file a fs es name x kd L M G T C. apply load_is in L as (_ & W & _ & Ht & _).
  pose proof (edits_good es _ (doc_good _ W) M G) as Gf. destruct (am_root a) as [|nm at_ k]; [discriminate|].
  destruct (root_there nm _ (edits_inv nm es _ M (doc_inv nm at_ k))) as (ra & rk & Hr).
  assert (W2 : writable (forget (IE 1 nm ra rk))) by (apply (fget_good 1 _ _ Gf); [discriminate|exact Hr]).
  destruct (saved_loads void can fs (mkAnim (forget (IE 1 nm ra rk)) (am_kind a) (am_file a)) name x kd (T _) C W2 eq_refl) as (fs' & E1 & E2 & E3).
  exists (IE 1 nm ra rk), fs', (mkAnim (reload (forget (IE 1 nm ra rk))) kd (Some x)). split; [exact Hr|]. split; [exact E1|]. split; [exact E2|]. split; [exact E3|]. do 3 (split; [reflexivity|]). exact (reload_tags_same (forget (IE 1 nm ra rk)) eq_refl W2).
Qed.
Print Assumptions C127_saves.
(** The same for new animations *)
Theorem C127_new : forall void can a fs es x kd, new_anim = Ok a -> Forall meant es -> Forall good_edit es -> kind_named x kd -> can x = true ->
  exists r fs' a2, fget 1 (edits (doc_forest (am_root a)) es) = Some r /\
    save void can fs (mkAnim (forget r) (am_kind a) (am_file a)) (Some x) = (fs', mkAnim (forget r) kd (Some x), Ok tt) /\ only_changes x fs fs' /\
    load fs' x = Ok a2 /\ am_kind a2 = kd /\ am_file a2 = Some x /\ am_root a2 = reload (forget r) /\ same_tags (forget r) (am_root a2).
Proof.
  intros void can a fs es x kd L M G T C. assert (Ea : am_root a = xblank) by (unfold xblank; now rewrite L). destruct xblank_ok as (W & _ & Ht). rewrite <- Ea in W, Ht.
  pose proof (edits_good es _ (doc_good _ W) M G) as Gf. destruct (am_root a) as [|nm at_ k]; [discriminate|].
  destruct (root_there nm _ (edits_inv nm es _ M (doc_inv nm at_ k))) as (ra & rk & Hr).
  assert (W2 : writable (forget (IE 1 nm ra rk))) by (apply (fget_good 1 _ _ Gf); [discriminate|exact Hr]).
  destruct (saved_loads void can fs (mkAnim (forget (IE 1 nm ra rk)) (am_kind a) (am_file a)) (Some x) x kd (conj eq_refl T) C W2 eq_refl) as (fs' & E1 & E2 & E3).
  exists (IE 1 nm ra rk), fs', (mkAnim (reload (forget (IE 1 nm ra rk))) kd (Some x)). split; [exact Hr|]. split; [exact E1|]. split; [exact E2|]. split; [exact E3|]. do 3 (split; [reflexivity|]). exact (reload_tags_same (forget (IE 1 nm ra rk)) eq_refl W2).
Qed.
Print Assumptions C127_new.
(** With other strings, saving may fail: half of a surrogate pair can't be encoded. *)
Theorem C127_strings_refuted : exists void can fs0 file a fs e x r fs' a', load fs0 file = Ok a /\ meant e /\ kind_named x FSif /\ can x = true /\
  apply_edit (doc_forest (am_root a)) e = (edits (doc_forest (am_root a)) [e], Ok tt) /\ fget 1 (edits (doc_forest (am_root a)) [e]) = Some r /\
  save void can fs (mkAnim (forget r) (am_kind a) (am_file a)) (Some x) = (fs', a', Err ValueError).
Proof.
  pose (a := mkAnim (reload xblank) FSif (Some xsif)). pose (e := EAnim 1 (s "view_box") (PStr [55296])).
  pose (r := match fget 1 (edits (doc_forest (am_root a)) [e]) with Some r => r | None => IT [] end).
  exists xvoid, xcan, xfs, xsif, a, [], e, xsif, r, [(xsif, Raw [])], (mkAnim (forget r) FSif (Some xsif)). split; [exact xfs_loads|]. split; [discriminate|]. split; [apply xsif_name|]. split; [reflexivity|].
  repeat split; vm_compute; reflexivity.
Qed.
Print Assumptions C127_strings_refuted.
Example C127_nonvacuous : exists a, load xfs xsif = Ok a /\ new_anim = Ok (mkAnim xblank FBlank None) /\ Forall meant xcalls /\ Forall good_edit xcalls /\
  (forall n, target_of (mkAnim n (am_kind a) (am_file a)) None xsif FSif) /\ (forall n, target_of (mkAnim n (am_kind a) (am_file a)) (Some xsifz) xsifz FSifz).
Proof.
  exists (mkAnim (reload xblank) FSif (Some xsif)). split; [exact xfs_loads|]. split; [vm_compute; reflexivity|]. split; [exact xcalls_meant|]. split; [exact xcalls_good|].
  split; intros n; cbn [target_of am_kind am_file]; [repeat split; auto|split; [reflexivity|apply xsifz_name]].
Qed.

(** ** C102 what the command leaves can be loaded *)

(** If the subtitles could be read, the animation loaded and the words adjusted, then the file is written, and can be loaded again. *)
Theorem C102_loads : forall void can read_srt order st letter fs sif srt lines a root F' kd, (forall l, Permutation (order l) l) ->
  read_srt fs (srt_name sif srt) = Ok lines -> load fs sif = Ok a -> doc_top (doc_forest (am_root a)) = Some root ->
  adjust order st letter (doc_forest (am_root a)) root lines = (F', Ok tt) -> kind_named sif kd -> can sif = true ->
  exists fs' n, main void can read_srt order st letter fs sif srt = (fs', Ok tt) /\ only_changes sif fs fs' /\
    fget (iuid root) F' = Some n /\ load fs' sif = Ok (mkAnim (reload (forget n)) kd (Some sif)) /\ same_tags (forget n) (reload (forget n)).
Proof.
  intros void can read_srt order st letter fs sif srt lines a root F' kd O Hl Ha Hr A K C. destruct (load_is _ _ _ Ha) as (_ & W & _ & Ht & _).
  destruct (doc_forest_root (am_root a) root Ht Hr) as (Wf & Ro & Ef & Eu).
  assert (E1 : fget 1 (doc_forest (am_root a)) = Some root) by (rewrite <- Eu; apply fget_desc; [exact Wf|now apply root_in]).
  assert (S0 : sound (tag_name (am_root a)) (doc_forest (am_root a))) by (split; [now apply doc_good|]; destruct (am_root a); [discriminate|apply doc_inv]).
  pose proof (adjust_sound _ order st letter _ root lines O E1 S0) as S1. rewrite A in S1. cbn [fst] in S1. destruct (root_there _ _ (proj2 S1)) as (ra & rk & E2).
  assert (W2 : writable (forget (IE 1 (tag_name (am_root a)) ra rk))) by (apply (fget_good 1 _ _ (proj1 S1)); [discriminate|exact E2]). set (r2 := IE 1 (tag_name (am_root a)) ra rk) in *.
  assert (Tg : target_of (mkAnim (forget r2) (am_kind a) (am_file a)) (Some sif) sif kd) by (split; [reflexivity|exact K]).
  destruct (saved_loads void can fs _ (Some sif) sif kd Tg C W2 eq_refl) as (fs' & S2 & S3 & S4). cbn [am_root] in S2, S4. exists fs', r2. split; [unfold main; now rewrite Hl, Ha, E1, A, E2, S2|].
  split; [exact S3|]. split; [now rewrite Eu|]. split; [exact S4|]. exact (reload_tags_same (forget r2) eq_refl W2).
Qed.
Print Assumptions C102_loads.
(** Whatever happens, the file is as it was, or has the adjusted document: it can always be loaded if it could be before. *)
Theorem C102_always : forall void can read_srt order st letter fs sif srt fs' r, (forall l, Permutation (order l) l) ->
  main void can read_srt order st letter fs sif srt = (fs', r) -> fs' = fs \/ r = Ok tt /\ exists a, load fs' sif = Ok a.
Proof.
  intros void can read_srt order st letter fs sif srt fs' r O H. pose proof H as H0. unfold main in H.
  destruct (read_srt fs (srt_name sif srt)) as [lines|] eqn:El; [|injection H as <- <-; now left]. destruct (load fs sif) as [a|] eqn:Ea; [|injection H as <- <-; now left].
  destruct (fget 1 (doc_forest (am_root a))) as [root|] eqn:Er; [|injection H as <- <-; now left]. destruct (adjust order st letter (doc_forest (am_root a)) root lines) as [F' [[]|e]] eqn:A; [|injection H as <- <-; now left].
  destruct (fget 1 F') as [n|]; [|injection H as <- <-; now left].
  destruct (save void can fs (mkAnim (forget n) (am_kind a) (am_file a)) (Some sif)) as [[fs2 a2] r2] eqn:Es. injection H as <- <-.
  assert (Hr : doc_top (doc_forest (am_root a)) = Some root).
  { destruct (load_is _ _ _ Ea) as (_ & _ & _ & Ht & _). destruct (am_root a) as [|nm at_ k]; [discriminate|]. destruct (doc_forest_top nm at_ k) as (k' & E & _ & _). rewrite E in Er |- *. cbn in Er |- *. exact Er. }
  unfold save in Es. destruct (kind_cases sif) as [[E K]|[[E K]|[[E K]|[E K]]]]; rewrite E in Es; cbn [am_root am_kind am_file format_save] in Es; try (injection Es as <- _ _; now left).
  all: destruct (can sif) eqn:C; [|unfold write_doc in Es; rewrite C in Es; injection Es as <- _ _; now left].
  - destruct (C102_loads void can read_srt order st letter fs sif srt lines a root F' FSif O El Ea Hr A (or_introl (conj eq_refl K)) C) as (fs3 & n3 & M & _ & _ & L & _). rewrite M in H0. injection H0 as <- <-. right. eauto.
  - destruct (C102_loads void can read_srt order st letter fs sif srt lines a root F' FSifz O El Ea Hr A (or_intror (conj eq_refl K)) C) as (fs3 & n3 & M & _ & _ & L & _). rewrite M in H0. injection H0 as <- <-. right. eauto.
Qed.
Print Assumptions C102_always.
(** The example of BywProps2.v: a group with two texts and a subtitle for them *)
Example C102_loads_nonvacuous : exists F', (forall l : list ((nat * nat) * N), Permutation ((fun l => l) l) l) /\
  BywProps2.xread BywProps2.xfiles (srt_name BywProps2.xname None) = Ok BywProps.xsrt /\ load BywProps2.xfiles BywProps2.xname = Ok (mkAnim BywProps.xwords FSif (Some BywProps2.xname)) /\
  doc_top (doc_forest BywProps.xwords) = Some BywProps.xroot /\ adjust (fun l => l) cls_Layer false (doc_forest BywProps.xwords) BywProps.xroot BywProps.xsrt = (F', Ok tt) /\ F' <> doc_forest BywProps.xwords /\
  kind_named BywProps2.xname FSif.
Proof.
  exists (fst (adjust (fun l => l) cls_Layer false (doc_forest BywProps.xwords) BywProps.xroot BywProps.xsrt)). split; [intros l; apply Permutation_refl|].
  split; [vm_compute; reflexivity|]. split; [vm_compute; reflexivity|]. split; [vm_compute; reflexivity|]. split; [vm_compute; reflexivity|]. split; [vm_compute; discriminate|apply BywProps2.xname_sif].
Qed.
