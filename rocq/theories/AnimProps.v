(** The theorems about animations: files, saving, loading, keyframes and fields.

    [void] is any rule for writing empty tags as [<a/>], and [can] says which files can be
    opened for writing: the theorems hold for all of them. *)
From Verif Require Import AnimModel AnimSpec XpSpec AnimProofs AnimProofs2 AnimProofs3 AnimProofs4 AnimProofs5 LaySpec TimeSpec DocProofs.
From Coq Require Import Lia Permutation.
Local Open Scope N_scope.

(** ** Examples to use *)

Definition xvoid : pstr -> attrs -> bool := fun _ _ => true.
Definition xcan : pstr -> bool := fun _ => true.
Definition xblank : node := match new_anim with Ok a => am_root a | Err _ => Txt [] end.
Definition xsif : pstr := s "dir/blank.sif".
Definition xsifz : pstr := s "dir/blank.SIFZ".
Definition xbytes (n : node) : list N := match utf8_out (doc_out xvoid n) with Some b => b | None => [] end.
Definition xfs : files := [(xsif, Raw (xbytes xblank))].
Definition xcanvas (a : attrs) (k : list node) : node := El (s "canvas") a k.
Definition xends : node :=
  xcanvas [(s "begin-time", AStr (s "0f")); (s "end-time", AStr (s "10s")); (s "fps", AStr (s "24.000"))]
    [El (s "keyframe") [(s "active", AStr (s "true")); (s "time", AStr (s "1s"))] [Txt (s "first")];
     El (s "layer") [(s "type", AStr (s "group"))]
       [El (s "param") [(s "name", AStr (s "time_offset"))] [El (s "time") [(s "value", AStr (s "2s"))] []];
        El (s "keyframe") [(s "active", AStr (s "false")); (s "time", AStr (s "36f"))] []]].
Definition xroot (n : node) : inode := match doc_top (doc_forest n) with Some r => r | None => IT [] end.

Lemma xsif_name : kind_named xsif FSif.
Proof.
  left. split; [reflexivity|]. exists (s "dir/"), (s "blank"), (s "sif"). repeat split.
  - right. exists (s "dir"). reflexivity.
  - vm_compute. intros H. repeat (destruct H as [H|H]; [discriminate|]). exact H.
  - exists 98. vm_compute. split; [now left|discriminate].
Qed.
Lemma xsifz_name : kind_named xsifz FSifz.
Proof.
  right. split; [reflexivity|]. exists (s "dir/"), (s "blank"), (s "SIFZ"). repeat split.
  - right. exists (s "dir"). reflexivity.
  - vm_compute. intros H. repeat (destruct H as [H|H]; [discriminate|]). exact H.
  - exists 98. vm_compute. split; [now left|discriminate].
Qed.

(** ** C55 end_time *)

(** What is missing: [end_time] takes no notice of [end-time] in the file. It is right only when
    that's 5s. *)
Theorem C55_end_time_partial : forall F n, wf F -> root_of F n -> iname n = s "canvas" ->
  aget (s "end_time") (iattrs n) = None -> aget (s "end-time") (iattrs n) = Some (AStr (s "5s")) ->
  end_time F n = T_init (TStr (s "5s")) (Some (iattrs n)).
Proof. intros F n Hw Hr Hc He _. unfold end_time, time_of_str. rewrite He. now rewrite (ctx_in_doc F n n Hw Hr Hc (or_introl eq_refl)). Qed.
Print Assumptions C55_end_time_partial.
Theorem C55_end_time_refuted : exists F n t t', wf F /\ root_of F n /\ iname n = s "canvas" /\
  aget (s "end-time") (iattrs n) = Some (AStr (s "10s")) /\
  T_init (TStr (s "10s")) (Some (iattrs n)) = Ok t /\ end_time F n = Ok t' /\ ~ frames t == frames t'.
Proof.
  exists (doc_forest xends), (xroot xends), (mkT 240 (Some 24%Q)), (mkT 120 (Some 24%Q)).
  destruct (doc_forest_root xends (xroot xends) eq_refl eq_refl) as (Hw & Hr & _). split; [exact Hw|]. split; [exact Hr|].
  repeat split; try (vm_compute; reflexivity). vm_compute. discriminate.
Qed.
Print Assumptions C55_end_time_refuted.
Example C55_nonvacuous : exists n, doc_top (doc_forest xblank) = Some n /\ iname n = s "canvas" /\
  aget (s "end_time") (iattrs n) = None /\ aget (s "end-time") (iattrs n) = Some (AStr (s "5s")) /\ wf (doc_forest xblank) /\ root_of (doc_forest xblank) n.
Proof.
  exists (xroot xblank). destruct (doc_forest_root xblank (xroot xblank) ltac:(vm_compute; reflexivity) ltac:(vm_compute; reflexivity)) as (Hw & Hr & _).
  split; [vm_compute; reflexivity|]. split; [vm_compute; reflexivity|]. split; [vm_compute; reflexivity|]. split; [vm_compute; reflexivity|]. split; assumption.
Qed.

(** ** C56 what save writes, load reads *)

(** Any document read from a file, whatever is in it, and however it's saved *)
Theorem C56_loaded_partial : forall void can fs0 x0 a fs name x kd, load fs0 x0 = Ok a -> target_of a name x kd -> can x = true ->
  exists fs' a' a2, save void can fs a name = (fs', a', Ok tt) /\ load fs' x = Ok a2 /\
    same_doc (am_root a) (am_root a2) /\ am_kind a2 = kd /\ am_file a2 = Some x /\ am_root a' = am_root a.
Proof.
  intros void can fs0 x0 a fs name x kd L T C. apply load_is in L as (_ & W & S & G & _).
  destruct (saved_loads void can fs a name x kd T C W G) as (fs' & E1 & _ & E2). exists fs', (mkAnim (am_root a) kd (Some x)), (mkAnim (reload (am_root a)) kd (Some x)).
  split; [exact E1|]. split; [exact E2|]. split; [now apply reload_same|]. repeat split.
Qed.
Print Assumptions C56_loaded_partial.
(** A document edited in any way, provided that its texts are as they are in files *)
Theorem C56_settled_partial : forall void can fs a name x kd, is_tag (am_root a) = true -> writable (am_root a) -> settled (am_root a) ->
  target_of a name x kd -> can x = true ->
  exists fs' a' a2, save void can fs a name = (fs', a', Ok tt) /\ load fs' x = Ok a2 /\ same_doc (am_root a) (am_root a2).
Proof.
  intros void can fs a name x kd G W S T C.
  destruct (saved_loads void can fs a name x kd T C W G) as (fs' & E1 & _ & E2). exists fs', (mkAnim (am_root a) kd (Some x)), (mkAnim (reload (am_root a)) kd (Some x)).
  split; [exact E1|]. split; [exact E2|]. now apply reload_same.
Qed.
Print Assumptions C56_settled_partial.
(** A document edited in any way: the same up to white space. Saving and loading once more changes nothing. *)
Theorem C56_edited_partial : forall void can fs a name x kd, is_tag (am_root a) = true -> writable (am_root a) ->
  target_of a name x kd -> can x = true ->
  exists fs' a' a2 fs2 a2' a3, save void can fs a name = (fs', a', Ok tt) /\ load fs' x = Ok a2 /\ same_tags (am_root a) (am_root a2) /\
    save void can fs' a2 None = (fs2, a2', Ok tt) /\ load fs2 x = Ok a3 /\ a3 = a2.
Proof.
  intros void can fs a name x kd G W T C.
  destruct (saved_loads void can fs a name x kd T C W G) as (fs' & E1 & _ & E2). pose proof (target_kind void can _ _ _ _ T) as K.
  destruct (saved_loads void can fs' (mkAnim (reload (am_root a)) kd (Some x)) None x kd) as (fs2 & E3 & _ & E4); cbn [am_root target_of am_file am_kind] in *; auto.
  - now apply reload_ok.
  - rewrite SerProofs.reload_is_tag. exact G.
  - exists fs', (mkAnim (am_root a) kd (Some x)), (mkAnim (reload (am_root a)) kd (Some x)), fs2, (mkAnim (reload (am_root a)) kd (Some x)), (mkAnim (reload (reload (am_root a))) kd (Some x)).
    split; [exact E1|]. split; [exact E2|]. split; [now apply reload_tags_same|]. split; [exact E3|]. split; [exact E4|]. now rewrite reload_twice.
Qed.
Print Assumptions C56_edited_partial.
(** C56 is false of a document with a newline in an attribute, such as the description of a layer. *)
Theorem C56_refuted : exists void can fs a x fs' a' a2, kind_named x FSif /\ is_tag (am_root a) = true /\ writable (am_root a) /\
  save void can fs a (Some x) = (fs', a', Ok tt) /\ load fs' x = Ok a2 /\ ~ same_doc (am_root a) (am_root a2).
Proof.
  pose (n := xcanvas [(s "desc", AStr (s "a" ++ [10] ++ s "b"))] []).
  assert (W : writable n).
  { split; [apply good_nameb; [discriminate|reflexivity]|]. split; [|exact I]. split; [repeat constructor; intros []|].
    constructor; [|constructor]. split; [apply good_nameb; [discriminate|reflexivity]|apply good_textb; reflexivity]. }
  destruct (saved_loads xvoid xcan [] (mkAnim n FBlank None) (Some xsif) xsif FSif) as (fs' & E1 & _ & E2); auto; [split; [reflexivity|apply xsif_name]|].
  exists xvoid, xcan, [], (mkAnim n FBlank None), xsif, fs', (mkAnim n FSif (Some xsif)), (mkAnim (reload n) FSif (Some xsif)).
  split; [apply xsif_name|]. split; [reflexivity|]. split; [exact W|]. split; [exact E1|]. split; [exact E2|]. cbn [am_root].
  intros H. inversion H as [|? ? ? ? ? P _]; subst. vm_compute in P. apply Permutation_length_1 in P. discriminate P.
Qed.
Print Assumptions C56_refuted.
Lemma xblank_ok : writable xblank /\ settled xblank /\ is_tag xblank = true.
Proof. apply (doc_in_ok blank_text). vm_compute. reflexivity. Qed.
Lemma xends_ok : writable xends /\ settled xends /\ is_tag xends = true.
Proof. apply (doc_in_ok (doc_out xvoid xends)). vm_compute. reflexivity. Qed.
Lemma fresh_saves n : writable n -> settled n -> is_tag n = true -> forall void can fs x kd, kind_named x kd -> can x = true ->
  exists fs' a' a2, save void can fs (mkAnim n FBlank None) (Some x) = (fs', a', Ok tt) /\ am_kind a' = kd /\ am_file a' = Some x /\
    load fs' x = Ok a2 /\ same_doc n (am_root a2).
Proof.
  intros W S G void can fs x kd K C.
  destruct (saved_loads void can fs (mkAnim n FBlank None) (Some x) x kd (conj eq_refl K) C W G) as (fs' & E1 & _ & E2).
  exists fs', (mkAnim n kd (Some x)), (mkAnim (reload n) kd (Some x)). split; [exact E1|]. split; [exact eq_refl|]. split; [exact eq_refl|].
  split; [exact E2|]. exact (reload_same n W S).
Qed.
Lemma xfs_loads : load xfs xsif = Ok (mkAnim (reload xblank) FSif (Some xsif)).
Proof.
  destruct xblank_ok as (W & _ & G). destruct (doc_encodes xvoid xblank W) as (b & Eb).
  refine (load_written xvoid xfs xsif FSif xblank b (or_introl eq_refl) _ W G Eb). unfold xfs, xbytes. rewrite Eb. generalize xsif. intros x. cbn [aget]. rewrite pstr_eqb_refl. reflexivity.
Qed.
Example C56_nonvacuous : exists a, load xfs xsif = Ok a /\ target_of a None xsif FSif /\ target_of a (Some xsifz) xsifz FSifz /\
  same_doc xblank (am_root a) /\ (3 < length (tag_kids (am_root a)))%nat.
Proof.
  exists (mkAnim (reload xblank) FSif (Some xsif)). split; [exact xfs_loads|]. split; [exact (conj eq_refl (conj eq_refl (or_introl eq_refl)))|]. split; [exact (conj eq_refl xsifz_name)|].
  split; [exact (reload_same xblank (proj1 xblank_ok) (proj1 (proj2 xblank_ok)))|]. apply Nat.ltb_lt. vm_compute. reflexivity.
Qed.

(** ** C57 save() goes back to the last file name *)

(** The histories are of saves that worked, changes of the document, and changes of the files by others.
    What is missing: after a failed save(filename) this is false (C58). *)
Theorem C57_save_partial : forall void can fs0 x0 a0 l fs a rs, load fs0 x0 = Ok a0 ->
  happen_all void can (fs0, a0) l = (fs, a, rs) -> Forall (eq (Ok tt)) rs ->
  exists x kd, last_target (x0, match aget x0 fs0 with Some (Gz _) => FSifz | _ => FSif end) l (x, kd) /\
    let '(fs', a', r) := save void can fs a None in
    only_changes x fs fs' /\ a' = a /\
    (r = Ok tt -> exists b, utf8_out (doc_out void (am_root a)) = Some b /\ holds fs' x kd b) /\
    (can x = true -> writable (am_root a) -> r = Ok tt).
Proof.
  intros void can fs0 x0 a0 l fs a rs L H R. apply load_is in L as (L1 & _ & _ & _ & L2).
  assert (T0 : tracks (x0, match aget x0 fs0 with Some (Gz _) => FSifz | _ => FSif end) a0).
  { split; [exact L1|]. cbn [snd]. destruct L2 as [[-> (b & ->)]|[-> (b & ->)]]; auto. }
  destruct (history void can l _ _ _ _ _ _ T0 H R) as ([x kd] & A & B). exists x, kd. split; [exact A|]. exact (save_back void can (x, kd) fs a B).
Qed.
Print Assumptions C57_save_partial.
(** No save ever touches any file but the one it is meant to write. *)
Theorem C57_no_other_file : forall void can fs a name fs' a' r x, save void can fs a name = (fs', a', r) ->
  (match name with Some y => y = x | None => am_file a = Some x end) -> only_changes x fs fs'.
Proof. exact save_only. Qed.
Print Assumptions C57_no_other_file.
Example C57_nonvacuous : exists a fs' a' rs, load xfs xsif = Ok a /\
  happen_all xvoid xcan (xfs, a) [EEdit xends; ESave (Some xsifz); EEdit xends; ESave None] = (fs', a', rs) /\ Forall (eq (Ok tt)) rs /\
  last_target (xsif, FSif) [EEdit xends; ESave (Some xsifz); EEdit xends; ESave None] (xsifz, FSifz) /\ holds fs' xsifz FSifz (xbytes xends).
Proof.
  pose (a := mkAnim (reload xblank) FSif (Some xsif)). pose (a1 := mkAnim xends FSif (Some xsif)). pose (a2 := mkAnim xends FSifz (Some xsifz)).
  destruct (save_target xvoid xcan xfs a1 (Some xsifz) xsifz FSifz (conj eq_refl xsifz_name) eq_refl (proj1 xends_ok)) as (b & Eb & E1).
  change (am_root a1) with xends in *.
  destruct (save_target xvoid xcan (aset xsifz (in_format FSifz b) xfs) a2 None xsifz FSifz (conj eq_refl (conj eq_refl (or_intror eq_refl))) eq_refl (proj1 xends_ok)) as (b' & Eb' & E2).
  change (am_root a2) with xends in *.
  exists a, (aset xsifz (in_format FSifz b') (aset xsifz (in_format FSifz b) xfs)), a2, [Ok tt; Ok tt; Ok tt; Ok tt].
  split; [exact xfs_loads|]. split.
  - cbn [happen_all happen a am_kind am_file]. fold a1. rewrite E1. cbv beta iota zeta. cbn [am_kind am_file]. fold a2. unfold a2 in E2. cbn [am_root] in E2. unfold a2.
    cbn [happen am_kind am_file]. rewrite E2. reflexivity.
  - split; [repeat constructor|]. split; [constructor; apply last_save_as with FSifz; [apply xsifz_name|]; repeat constructor|].
    unfold holds. rewrite aget_aset_same. unfold xbytes. rewrite Eb'. reflexivity.
Qed.

(** ** C58 a failed save *)

(** What is missing: of the reasons to fail, only an unsupported extension leaves all as it was. *)
Theorem C58_failed_save_partial : forall void can fs a x,
  ~ has_extension x (s "sif") -> ~ has_extension x (s "sifz") -> ~ has_extension x (s "sfg") ->
  save void can fs a (Some x) = (fs, a, Err ValueError).
Proof. exact save_unknown. Qed.
Print Assumptions C58_failed_save_partial.
Theorem C58_refuted : exists void can fs a x fs1 a1 e fs2 a2 e2 fs' a',
  save void can fs a (Some x) = (fs1, a1, Err e) /\ save void can fs1 a1 None = (fs2, a2, Err e2) /\
  save void can fs a None = (fs', a', Ok tt).
Proof.
  exists xvoid, xcan, [], (mkAnim (xcanvas [] []) FSif (Some xsif)), (s "a.sfg"), [], (mkAnim (xcanvas [] []) FSfg (Some (s "a.sfg"))), NotImplementedError,
    [], (mkAnim (xcanvas [] []) FSfg (Some (s "a.sfg"))), NotImplementedError, [(xsif, Raw (xbytes (xcanvas [] [])))], (mkAnim (xcanvas [] []) FSif (Some xsif)).
  repeat split; vm_compute; reflexivity.
Qed.
Print Assumptions C58_refuted.
(** Worse: after a save in a directory that isn't there, save() goes on trying to write there. *)
Theorem C58_redirected_refuted : exists void can fs a x fs1 a1 e fs2 a2 e2, am_file a = Some xsif /\ can xsif = true /\
  save void can fs a (Some x) = (fs1, a1, Err e) /\ am_file a1 = Some x /\ x <> xsif /\ save void can fs1 a1 None = (fs2, a2, Err e2).
Proof.
  exists xvoid, (fun x => pstr_eqb x xsif), [], (mkAnim (xcanvas [] []) FSif (Some xsif)), (s "no/a.sif"), [], (mkAnim (xcanvas [] []) FSif (Some (s "no/a.sif"))), FileNotFoundError,
    [], (mkAnim (xcanvas [] []) FSif (Some (s "no/a.sif"))), FileNotFoundError.
  repeat split; try (vm_compute; reflexivity). discriminate.
Qed.
Print Assumptions C58_redirected_refuted.
Example C58_nonvacuous : ~ has_extension (s "a.png") (s "sif") /\ ~ has_extension (s "a.png") (s "sifz") /\ ~ has_extension (s "a.png") (s "sfg").
Proof. rewrite sif_iff, sifz_iff, sfg_iff. vm_compute. repeat split; discriminate. Qed.

(** ** C59 crashes *)

(** What holds: no other file is affected; the file is as it was, or as it will be, or it has a beginning of
    the new content, or is a gzip file cut short. The last of the states is the one when [save] returns. *)
Theorem C59_crash_partial : forall void can fs a name x kd b fs', target_of a name x kd -> utf8_out (doc_out void (am_root a)) = Some b ->
  In fs' (save_states void can fs a name) ->
  only_changes x fs fs' /\
  (aget x fs' = aget x fs \/ holds fs' x kd b \/
   (exists b1 b2, b = b1 ++ b2 /\ aget x fs' = Some (Raw b1)) \/ kd = FSifz /\ aget x fs' = Some (Raw gzip_magic)).
Proof. exact crash. Qed.
Print Assumptions C59_crash_partial.
Theorem C59_last_state : forall void can fs a name, last (save_states void can fs a name) fs = fst (fst (save void can fs a name)).
Proof. exact crash_last. Qed.
Print Assumptions C59_last_state.
Theorem C59_refuted : exists void can fs a fs' a' fs1, save void can fs a None = (fs', a', Ok tt) /\ am_file a = Some xsif /\
  In fs1 (save_states void can fs a None) /\ aget xsif fs <> None /\
  aget xsif fs1 <> aget xsif fs /\ aget xsif fs1 <> aget xsif fs' /\ (exists a1, load fs xsif = Ok a1) /\ load fs1 xsif = Err ValueError.
Proof.
  pose (n := xcanvas [] []). pose (fs := [(xsif, Raw (xbytes n))]).
  exists xvoid, xcan, fs, (mkAnim n FSif (Some xsif)), fs, (mkAnim n FSif (Some xsif)), [(xsif, Raw [])].
  repeat split; try (vm_compute; reflexivity); try (vm_compute; discriminate).
  - vm_compute. right. left. reflexivity.
  - eexists. vm_compute. reflexivity.
Qed.
Print Assumptions C59_refuted.
Example C59_nonvacuous : target_of (mkAnim xends FSif (Some xsif)) None xsif FSif /\ utf8_out (doc_out xvoid xends) = Some (xbytes xends) /\
  (100 < length (save_states xvoid xcan xfs (mkAnim xends FSif (Some xsif)) None))%nat.
Proof. split; [repeat split; now left|]. split; [vm_compute; reflexivity|]. apply Nat.ltb_lt. vm_compute. reflexivity. Qed.

(** ** C60 keyframes *)

(** The keyframes are the keyframe tags of the document, in the order of the text, each once;
    [len] is how many there are; and their times are read with the FPS of the root. *)
Theorem C60_keyframes : forall F n, wf F -> root_of F n -> iname n = s "canvas" ->
  (forall k, In k (keyframes n) <-> inside k n /\ named (s "keyframe") k = true) /\
  NoDup (map iuid (keyframes n)) /\ ForallOrdPairs (precedes n) (keyframes n) /\
  keyframes_len n = Z.of_nat (length (keyframes n)) /\
  (forall k x, In k (keyframes n) -> aget (s "time") (iattrs k) = Some (AStr x) -> kf_time F k = T_init (TStr x) (Some (iattrs n))).
Proof.
  intros F n Hw Hr Hc. assert (Ht : itag n = true) by (destruct Hr as (? & ? & ? & ? & ?); auto).
  destruct (root_anc F n Hw Hr) as (d & _ & _ & Hd).
  split; [intros k; now apply find_in|]. split; [apply find_nodup; auto; exact (NoDup_inside F n Hw Hd)|]. split; [now apply find_order|]. split; [reflexivity|].
  intros k x Hk Hx. unfold kf_time, attr_item, time_of_str. rewrite Hx. cbn [bind].
  rewrite (ctx_in_doc F n k Hw Hr Hc); [reflexivity|]. right. apply desc_inside. now apply (find_in (named (s "keyframe")) n k Ht) in Hk.
Qed.
Print Assumptions C60_keyframes.
Example C60_nonvacuous : wf (doc_forest xends) /\ root_of (doc_forest xends) (xroot xends) /\ iname (xroot xends) = s "canvas" /\
  map (fun k => (kf_name k, kf_active k, kf_time (doc_forest xends) k)) (keyframes (xroot xends)) =
  [(s "first", Ok true, Ok (mkT 24 (Some 24%Q))); ([], Ok false, Ok (mkT 36 (Some 24%Q)))].
Proof.
  destruct (doc_forest_root xends (xroot xends) eq_refl eq_refl) as (Hw & Hr & _). split; [exact Hw|]. split; [exact Hr|]. split; vm_compute; reflexivity.
Qed.

(** ** C61 framecount *)

(** What holds instead of the documented [int(end_time)-int(begin_time)]: it is one more *)
Theorem C61_framecount_partial : forall F n p le te lb tb, wf F -> root_of F n -> iname n = s "canvas" ->
  at_fps (inject_Z p) (Some (iattrs n)) -> (0 < p)%Z ->
  aget (s "end-time") (iattrs n) = Some (AStr (write le te)) -> wf_spec le te -> small p le -> (0 <= amount UF le)%Z ->
  aget (s "begin-time") (iattrs n) = Some (AStr (write lb tb)) -> wf_spec lb tb -> small p lb -> (0 <= amount UF lb)%Z ->
  (Z.abs (frames_of p le) <= 2 ^ 51)%Z -> (Z.abs (frames_of p lb) <= 2 ^ 51)%Z ->
  framecount F n = Ok (frames_of p le - frames_of p lb + 1)%Z.
Proof.
  intros F n p le te lb tb Hw Hr Hc. apply framecount_is. exact (ctx_in_doc F n n Hw Hr Hc (or_introl eq_refl)).
Qed.
Print Assumptions C61_framecount_partial.
Theorem C61_refuted : exists n b e, framecount (doc_forest xblank) n = Ok 121%Z /\ doc_top (doc_forest xblank) = Some n /\
  begin_time (doc_forest xblank) n = Ok b /\ end_time (doc_forest xblank) n = Ok e /\ (trunc (frames e) - trunc (frames b) = 120)%Z.
Proof. exists (xroot xblank), (mkT 0 (Some 24%Q)), (mkT 120 (Some 24%Q)). repeat split; vm_compute; reflexivity. Qed.
Print Assumptions C61_refuted.

Example C61_nonvacuous : exists n le lb, doc_top (doc_forest xends) = Some n /\ at_fps (inject_Z 24) (Some (iattrs n)) /\
  aget (s "end-time") (iattrs n) = Some (AStr (write le [])) /\ wf_spec le [] /\ small 24 le /\
  aget (s "begin-time") (iattrs n) = Some (AStr (write lb [])) /\ wf_spec lb [] /\ small 24 lb /\
  frames_of 24 le = 240%Z /\ frames_of 24 lb = 0%Z /\ framecount (doc_forest xends) n = Ok 241%Z.
Proof.
  exists (xroot xends), [mkItem [] false [1; 0] US], [mkItem [] false [0] UF].
  split; [vm_compute; reflexivity|]. split; [exists (iattrs (xroot xends)), (AStr (s "24.000")); repeat split; vm_compute; reflexivity|].
  split; [vm_compute; reflexivity|]. split; [repeat constructor; try discriminate; intros []|]. split; [vm_compute; discriminate|].
  split; [vm_compute; reflexivity|]. split; [repeat constructor; try discriminate; intros []|]. split; [vm_compute; discriminate|].
  repeat split; vm_compute; reflexivity.
Qed.

(** ** C87 a time in a param is read with the FPS of the animation *)

Theorem C87_param_reference : forall F root n k ty v, wf F -> root_of F root -> iname root = s "canvas" ->
  (n = root \/ inside n root) -> param_field F n k ty = Ok v ->
  exists c t, v = PVal c (forget t) (Some (iattrs root)) /\ inside t n /\ is_a c ty.
Proof. exact value_ctx. Qed.
Print Assumptions C87_param_reference.
Example C87_nonvacuous : exists n, inside n (xroot xends) /\ is_layer n = true /\
  exists v, param_field (doc_forest xends) n (s "time_offset") VTime = Ok v /\ match v with PVal c n cx => get_value c n cx = Ok (PT (mkT 48 (Some 24%Q))) | _ => False end.
Proof.
  destruct (ifind_all (named (s "layer")) (xroot xends)) as [|n l] eqn:E; [vm_compute in E; discriminate|].
  exists n. split; [apply (find_in (named (s "layer")) (xroot xends) n); [reflexivity|]; rewrite E; now left|].
  vm_compute in E. injection E as <- <-. split; [reflexivity|].
  exists (PVal VTime (El (s "time") [(s "value", AStr (s "2s"))] []) (Some (iattrs (xroot xends)))). split; vm_compute; reflexivity.
Qed.

(** ** C88 fields of the animation: set, save, load, read *)

Theorem C88_field_round_trip : forall void can st fs a r k ty d v w x kd,
  is_tag (am_root a) = true -> writable (am_root a) -> doc_top (doc_forest (am_root a)) = Some r ->
  aget k anim_attrs = Some (ty, d) -> takes ty v w -> kind_named x kd -> can x = true ->
  exists F' r', anim_set (doc_forest (am_root a)) r k v = (F', Ok tt) /\ doc_top F' = Some r' /\ ikids r' = ikids r /\
    anim_get st F' r' k = Ok w /\
    (forall j, j <> k -> In j (map fst anim_attrs) -> anim_get st F' r' j = anim_get st (doc_forest (am_root a)) r j) /\
    exists fs' a' a2 r2, save void can fs (mkAnim (forget r') (am_kind a) (am_file a)) (Some x) = (fs', a', Ok tt) /\
      load fs' x = Ok a2 /\ doc_top (doc_forest (am_root a2)) = Some r2 /\ anim_get st (doc_forest (am_root a2)) r2 k = Ok w.
Proof. exact field_round_trip. Qed.
Print Assumptions C88_field_round_trip.
(** A field of an animation that was just loaded is what the file says, if the file calls it by that name. *)
Theorem C88_field_read : forall st F n k ty d v, aget k anim_attrs = Some (ty, d) -> aget k (iattrs n) = Some v ->
  anim_get st F n k = match ty, v with
                      | TStrA, AStr x => Ok (PStr x)
                      | TFloatA, AStr x => let* q := parse_float x in Ok (PFlo q)
                      | TIntA, AStr x => let* z := parse_int x in Ok (PInt z)
                      | _, _ => anim_get st F n k
                      end.
Proof. intros st F n k ty d v Hk Hv. rewrite (anim_get_attr st F n k ty d Hk). unfold attr_get. rewrite Hv. destruct ty, v; reflexivity. Qed.
Print Assumptions C88_field_read.
(** But files call some of the fields by other names, so those are never read: a gamma of 2.2 is read as 1. *)
Theorem C88_hyphens_refuted : exists st n, aget (s "gamma-r") (tag_attrs n) = Some (AStr (s "2.2")) /\
  anim_get st (doc_forest n) (xroot n) (s "gamma_r") = Ok (PFlo 1).
Proof. exists cls_Group, (xcanvas [(s "gamma-r", AStr (s "2.2"))] []). split; vm_compute; reflexivity. Qed.
Print Assumptions C88_hyphens_refuted.
Example C88_nonvacuous : aget (s "width") anim_attrs = Some (TIntA, PInt 480) /\ takes TIntA (PInt 640) (PInt 640) /\
  aget (s "fps") anim_attrs = Some (TFloatA, PFlo 24) /\ takes TFloatA (PInt 30) (PFlo 30) /\ takes TFloatA (PFlo (rnd64 (12 # 10))) (PFlo (rnd64 (12 # 10))) /\
  doc_top (doc_forest xends) = Some (xroot xends) /\ aget (s "fps") (iattrs (xroot xends)) = Some (AStr (s "24.000")).
Proof.
  split; [reflexivity|]. split; [constructor|]. split; [reflexivity|]. split; [apply (takes_float_int 30); vm_compute; discriminate|].
  split; [constructor; vm_compute; reflexivity|]. split; vm_compute; reflexivity.
Qed.

(** ** C89 a save that fails *)

(** What holds: the only way for a failed save to change a file is text that can't be encoded. *)
Theorem C89_failed_save_partial : forall void can fs a name fs' a' e, save void can fs a name = (fs', a', Err e) ->
  fs' = fs \/ utf8_out (doc_out void (am_root a)) = None /\ e = ValueError.
Proof. exact save_raises_before. Qed.
Print Assumptions C89_failed_save_partial.
Theorem C89_refuted : exists void can fs a fs' a' e, save void can fs a None = (fs', a', Err e) /\
  aget xsif fs = Some (Raw (xbytes xends)) /\ aget xsif fs' = Some (Raw []).
Proof.
  exists xvoid, xcan, [(xsif, Raw (xbytes xends))], (mkAnim (xcanvas [(s "desc", AStr [55296])] []) FSif (Some xsif)),
    [(xsif, Raw [])], (mkAnim (xcanvas [(s "desc", AStr [55296])] []) FSif (Some xsif)), ValueError.
  repeat split; vm_compute; reflexivity.
Qed.
Print Assumptions C89_refuted.
Example C89_nonvacuous : exists fs a a' e, save xvoid xcan fs a (Some (s "x.sfg")) = (fs, a', Err e) /\ fs <> [] /\ a' <> a.
Proof.
  exists xfs, (mkAnim xends FSif (Some xsif)), (mkAnim xends FSfg (Some (s "x.sfg"))), NotImplementedError.
  split; [vm_compute; reflexivity|]. split; [discriminate|]. intros H. discriminate (f_equal am_kind H).
Qed.

(** ** C90 a new animation *)

(** [Animation()] works; it can't be saved without a name; saved with one, loading gives it back. *)
Theorem C90_new_animation : exists a, new_anim = Ok a /\
  (forall void can fs, save void can fs a None = (fs, a, Err ValueError)) /\
  (forall void can fs x kd, kind_named x kd -> can x = true ->
    exists fs' a' a2, save void can fs a (Some x) = (fs', a', Ok tt) /\ am_kind a' = kd /\ am_file a' = Some x /\
      load fs' x = Ok a2 /\ same_doc (am_root a) (am_root a2)).
Proof.
  assert (E : new_anim = Ok (mkAnim xblank FBlank None)) by (vm_compute; reflexivity).
  exists (mkAnim xblank FBlank None). split; [exact E|]. split; [reflexivity|]. intros void can fs x kd K C.
  exact (fresh_saves xblank (proj1 xblank_ok) (proj1 (proj2 xblank_ok)) (proj2 (proj2 xblank_ok)) void can fs x kd K C).
Qed.
Print Assumptions C90_new_animation.

(** ** C91 loading goes by the content of the file *)

(** A file is read according to how it begins, whatever its name; one that's neither XML nor
    gzip, nor long enough, is refused. *)
Theorem C91_load_by_content : forall fs x f, aget x fs = Some f ->
  (forall a, load fs x = Ok a -> am_file a = Some x /\
     match f with Raw b => am_kind a = FSif /\ exists b', b = s "<?" ++ b' | Gz _ => am_kind a = FSifz end) /\
  (forall b, f = Raw b -> firstn 2 b <> s "<?" -> exists e, load fs x = Err e).
Proof. exact load_by_content. Qed.
Print Assumptions C91_load_by_content.
Theorem C91_load_missing : forall fs x, aget x fs = None -> load fs x = Err FileNotFoundError.
Proof. intros fs x H. unfold load. now rewrite H. Qed.
Print Assumptions C91_load_missing.
(** The same content under another name gives the same document. *)
Theorem C91_name_does_not_matter : forall fs x y, aget x fs = aget y fs ->
  forall a, load fs x = Ok a -> exists a', load fs y = Ok a' /\ am_root a' = am_root a /\ am_kind a' = am_kind a.
Proof.
  intros fs x y H a. unfold load. rewrite H. destruct (aget y fs) as [f|]; [|discriminate]. destruct (kind_by_magic f) as [kd|]; [|discriminate]. cbn [bind].
  destruct (main_file kd f) as [n|]; [|discriminate]. intros [= <-]. eexists. split; [reflexivity|]. split; reflexivity.
Qed.
Print Assumptions C91_name_does_not_matter.
Example C91_nonvacuous : exists a, load [(s "a.png", Gz (xbytes xends))] (s "a.png") = Ok a /\ am_kind a = FSifz /\ load [(s "a.sif", Raw [])] (s "a.sif") = Err ValueError.
Proof. eexists. split; [vm_compute; reflexivity|]. split; vm_compute; reflexivity. Qed.
