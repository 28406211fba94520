(** More theorems about animations: size, view box, background, name, description, end time and keyframes. *)
From Verif Require Import AnimModel AnimSpec AnimSpec2 XpSpec AnimProofs AnimProofs2 AnimProofs3 AnimProofs4 AnimProofs5 AnimProofs6 AnimProps LaySpec DocProofs ValProofs2 ValSpec.
From Coq Require Import Lia.
Local Open Scope N_scope.

Definition xframe : node :=
  xcanvas [(s "begin-time", AStr (s "0f")); (s "bgcolor", AStr (s "0.25 0.5 1 0.75")); (s "end-time", AStr (s "10s")); (s "fps", AStr (s "24.000"));
           (s "height", AStr (s "270")); (s "view-box", AStr (s "-4.0 2.25 4.0 -2.25")); (s "width", AStr (s "480"))]
    [El (s "name") [] [Txt (s "Film")]; El (s "desc") [] [Txt (s "A film")];
     El (s "layer") [(s "type", AStr (s "group"))] [El (s "desc") [] [Txt (s "inner")]]].
Definition xinner : node := xcanvas [] [El (s "layer") [(s "type", AStr (s "group"))] [El (s "desc") [] [Txt (s "inner")]]].
Lemma xframe_root : wf (doc_forest xframe) /\ doc_top (doc_forest xframe) = Some (xroot xframe) /\ itag (xroot xframe) = true /\ iname (xroot xframe) = s "canvas".
Proof. destruct (doc_forest_root xframe (xroot xframe) eq_refl eq_refl) as (Hw & _). split; [exact Hw|]. repeat split. Qed.

(** ** C105 size *)

(** The size is the width and the height, whenever the file says both. *)
Theorem C105_size_partial : forall st F n w h, size n = Ok (w, h) <->
  aget (s "width") (iattrs n) <> None /\ aget (s "height") (iattrs n) <> None /\
  anim_get st F n (s "width") = Ok (PInt w) /\ anim_get st F n (s "height") = Ok (PInt h).
Proof.
  intros st F n w h. assert (Ew : anim_get st F n (s "width") = attr_get (s "width") TIntA (PInt 480) n) by reflexivity. assert (Eh : anim_get st F n (s "height") = attr_get (s "height") TIntA (PInt 270) n) by reflexivity.
  rewrite Ew, Eh. unfold size, attr_get, attr_item. destruct (aget (s "width") (iattrs n)) as [v1|]; [|cbn [bind]; split; [discriminate|intros (H & _); now destruct H]]. cbn [bind].
  assert (C : forall v, (exists e, attr_conv TIntA v = Err e) \/ exists z, attr_conv TIntA v = Ok (PInt z)).
  { intros [x| | |]; cbn [attr_conv]; eauto. destruct (parse_int x); cbn [bind]; eauto. }
  destruct (C v1) as [(e & E)|(z & E)]; rewrite E; cbn [bind]; [split; [discriminate|intros (_ & _ & H & _); discriminate H]|].
  destruct (aget (s "height") (iattrs n)) as [v2|]; [|cbn [bind]; split; [discriminate|intros (_ & H & _); now destruct H]]. cbn [bind].
  destruct (C v2) as [(e & E2)|(z2 & E2)]; rewrite E2; cbn [bind]; [split; [discriminate|intros (_ & _ & _ & H); discriminate H]|].
  split; [intros [= <- <-]; repeat split; discriminate|]. intros (_ & _ & [= ->] & [= ->]). reflexivity.
Qed.
Print Assumptions C105_size_partial.
(** Setting the width and the height sets the size. *)
Theorem C105_size_set : forall F n w h, wf F -> doc_top F = Some n -> itag n = true ->
  exists F1 n1 F2 n2, anim_set F n (s "width") (PInt w) = (F1, Ok tt) /\ doc_top F1 = Some n1 /\
    anim_set F1 n1 (s "height") (PInt h) = (F2, Ok tt) /\ doc_top F2 = Some n2 /\ size n2 = Ok (w, h).
Proof. exact set_size. Qed.
Print Assumptions C105_size_set.
(** But where the file doesn't say them, width and height have default values, and size raises. *)
Theorem C105_refuted : exists st n, anim_get st (doc_forest n) (xroot n) (s "width") = Ok (PInt 480) /\
  anim_get st (doc_forest n) (xroot n) (s "height") = Ok (PInt 270) /\ size (xroot n) = Err KeyError.
Proof. exists cls_Group, (xcanvas [] []). repeat split. Qed.
Print Assumptions C105_refuted.
Example C105_nonvacuous : wf (doc_forest xframe) /\ doc_top (doc_forest xframe) = Some (xroot xframe) /\ itag (xroot xframe) = true /\ size (xroot xframe) = Ok (480, 270)%Z.
Proof. destruct xframe_root as (A & B & C & _). split; [exact A|]. split; [exact B|]. split; [exact C|]. vm_compute. reflexivity. Qed.

(** ** C106 the view box and the background are the numbers in the file *)

Theorem C106_viewbox : forall n qs, viewbox n = Ok qs <-> says_numbers n (s "view-box") qs.
Proof. intros n qs. symmetry. apply numbers_read. Qed.
Print Assumptions C106_viewbox.
(** Numbers as Python writes them are read exactly. *)
Theorem C106_written_exactly : forall n k qs, qs <> [] -> Forall is_dbl qs -> aget k (iattrs n) = Some (AStr (blank_between (map repr_float qs))) -> says_numbers n k qs.
Proof. exact reprs_say. Qed.
Print Assumptions C106_written_exactly.
Theorem C106_background : forall n qs, says_numbers n (s "bgcolor") qs ->
  match qs with
  | [r; g; b; a] => exists v wr wg wb wa, background n = Ok v /\ from_tag v = Ok VColor /\ color_tuple v = Ok [wr; wg; wb; wa] /\
                      rounded_to 6 r wr /\ rounded_to 6 g wg /\ rounded_to 6 b wb /\ rounded_to 6 a wa
  | [r; g; b] => exists v wr wg wb, background n = Ok v /\ from_tag v = Ok VColor /\ color_tuple v = Ok [wr; wg; wb; 1%Q] /\
                      rounded_to 6 r wr /\ rounded_to 6 g wg /\ rounded_to 6 b wb
  | _ => background n = Err ValueError
  end.
Proof.
  intros n qs H. pose proof (numbers_nonempty _ _ _ H) as Hne. apply numbers_read in H. unfold background. rewrite H. cbn [bind].
  destruct qs as [|r [|g [|b [|a [|? ?]]]]]; [contradiction| | | | |]; try reflexivity.
  - destruct (color3_prop (empty_tag VColor) r g b) as (v & w1 & w2 & w3 & E & A & _ & B). exists v, w1, w2, w3. split; [|split; [exact A|exact B]]. cbn [map]. match goal with |- new_value VColor ?p = _ => change (new_value VColor p) with (let (n0, r0) := set_value VColor (empty_tag VColor) p in let* _ := r0 in Ok n0) end. now rewrite E.
  - destruct (color_prop (empty_tag VColor) r g b a) as (v & w1 & w2 & w3 & w4 & E & A & _ & B). exists v, w1, w2, w3, w4. split; [|split; [exact A|exact B]]. cbn [map]. match goal with |- new_value VColor ?p = _ => change (new_value VColor p) with (let (n0, r0) := set_value VColor (empty_tag VColor) p in let* _ := r0 in Ok n0) end. now rewrite E.
Qed.
Print Assumptions C106_background.
(** Setting [view_box] doesn't set [viewbox]: another attribute is written. *)
Theorem C106_set_viewbox_refuted : exists F n F' n', doc_top F = Some n /\ anim_set F n (s "view_box") (PStr (s "-1 1 1 -1")) = (F', Ok tt) /\ doc_top F' = Some n' /\
  viewbox n' = viewbox n /\ viewbox n = Ok [-4; 9 # 4; 4; - (9 # 4)]%Q.
Proof.
  eexists (doc_forest xframe), (xroot xframe), _, _. split; [reflexivity|]. split; [reflexivity|]. split; [reflexivity|]. split; vm_compute; reflexivity.
Qed.
Print Assumptions C106_set_viewbox_refuted.
Example C106_nonvacuous : viewbox (xroot xframe) = Ok [-4; 9 # 4; 4; - (9 # 4)]%Q /\ says_numbers (xroot xframe) (s "bgcolor") [1 # 4; 1 # 2; 1; 3 # 4]%Q /\
  match background (xroot xframe) with Ok v => color_tuple v = Ok [1 # 4; 1 # 2; 1; 3 # 4]%Q | Err _ => False end.
Proof. split; [vm_compute; reflexivity|]. split; [apply numbers_read; vm_compute; reflexivity|vm_compute; reflexivity]. Qed.

(** ** C107 the name and the description *)

(** Both are the text of the first tag of that name in the document. *)
Theorem C107_read : forall st F n x, itag n = true -> In x [s "name"; s "desc"] -> (exists t, inside t n /\ named x t = true) ->
  exists t, first_called x n t /\ anim_get st F n x = Ok (match node_string (forget t) with Some y => PStr y | None => PNone end).
Proof.
  intros st F n x Ht Hx (u & Hu & Hn). pose proof (first_found x n Ht) as H. destruct (ifind (named x) n) as [t|] eqn:E; [|rewrite (H u Hu) in Hn; discriminate Hn].
  exists t. split; [exact H|]. destruct Hx as [<-|[<-|[]]].
  - change (anim_get st F n (s "name")) with (name_get n). unfold name_get. now rewrite E.
  - change (anim_get st F n (s "desc")) with (desc_get n). unfold desc_get. now rewrite E.
Qed.
Print Assumptions C107_read.
(** Without such a tag, the description is empty and can't be set, and reading the name raises. *)
Theorem C107_missing : forall st F n v, itag n = true ->
  ((forall t, inside t n -> named (s "desc") t = false) -> anim_get st F n (s "desc") = Ok (PStr []) /\ anim_set F n (s "desc") v = (F, Err AttributeError)) /\
  ((forall t, inside t n -> named (s "name") t = false) -> anim_get st F n (s "name") = Err AttributeError) /\
  anim_set F n (s "name") v = (F, Err AttributeError).
Proof.
  intros st F n v Ht. split; [|split; [|reflexivity]].
  - intros H. pose proof (first_found (s "desc") n Ht) as Hf. destruct (ifind (named (s "desc")) n) as [t|] eqn:E; [destruct Hf as (A & B & _); rewrite (H t A) in B; discriminate B|].
    split; [change (anim_get st F n (s "desc")) with (desc_get n); unfold desc_get; now rewrite E|].
    change (anim_set F n (s "desc") v) with (match ifind (named (s "desc")) n, v with None, _ => (F, Err AttributeError) | Some t, PStr x => (set_string F (iuid t) x, Ok tt) | Some _, _ => (F, Err EUnmodelled) end). now rewrite E.
  - intros H. pose proof (first_found (s "name") n Ht) as Hf. destruct (ifind (named (s "name")) n) as [t|] eqn:E; [destruct Hf as (A & B & _); rewrite (H t A) in B; discriminate B|].
    change (anim_get st F n (s "name")) with (name_get n); unfold name_get; now rewrite E.
Qed.
Print Assumptions C107_missing.
(** The description that was set is read back, at once and after saving and loading, and nothing else
    in the document changes. What is missing: a description of only white space. *)
Theorem C107_set_partial : forall void can st fs a n x y kd,
  is_tag (am_root a) = true -> writable (am_root a) -> doc_top (doc_forest (am_root a)) = Some n ->
  (exists t, inside t n /\ named (s "desc") t = true) -> good_text x -> dark x <> [] -> kind_named y kd -> can y = true ->
  exists t F' n', first_called (s "desc") n t /\ text_put t x n n' /\
    anim_set (doc_forest (am_root a)) n (s "desc") (PStr x) = (F', Ok tt) /\ doc_top F' = Some n' /\ anim_get st F' n' (s "desc") = Ok (PStr x) /\
    exists fs' a' a2 n2, save void can fs (mkAnim (forget n') (am_kind a) (am_file a)) (Some y) = (fs', a', Ok tt) /\
      load fs' y = Ok a2 /\ doc_top (doc_forest (am_root a2)) = Some n2 /\ anim_get st (doc_forest (am_root a2)) n2 (s "desc") = Ok (PStr x).
Proof. exact desc_round_trip. Qed.
Print Assumptions C107_set_partial.
(** If the animation has no description of its own, the description of something in it is taken for it, and overwritten. *)
Theorem C107_inner_refuted : exists st F n F' n' l l', doc_top F = Some n /\ (forall t, In t (ikids n) -> named (s "desc") t = false) /\
  anim_get st F n (s "desc") = Ok (PStr (s "inner")) /\ anim_set F n (s "desc") (PStr (s "mine")) = (F', Ok tt) /\ doc_top F' = Some n' /\
  ikids n = [l] /\ ikids n' = [l'] /\ node_text (forget l) = s "inner" /\ node_text (forget l') = s "mine".
Proof.
  eexists cls_Group, (doc_forest xinner), (xroot xinner), _, _, _, _. split; [reflexivity|]. split; [intros t [<-|[]]; reflexivity|]. repeat split; vm_compute; reflexivity.
Qed.
Print Assumptions C107_inner_refuted.
Lemma xframe_desc : exists t, inside t (xroot xframe) /\ named (s "desc") t = true.
Proof.
  pose proof (first_found (s "desc") (xroot xframe) eq_refl) as H. destruct (ifind (named (s "desc")) (xroot xframe)) as [t|] eqn:E; [|vm_compute in E; discriminate E].
  exists t. destruct H as (A & B & _). split; [exact A|exact B].
Qed.
Lemma xframe_ok : writable xframe.
Proof. apply (doc_in_ok (doc_out xvoid xframe)). vm_compute. reflexivity. Qed.
Example C107_nonvacuous : is_tag xframe = true /\ writable xframe /\ doc_top (doc_forest xframe) = Some (xroot xframe) /\
  (exists t, inside t (xroot xframe) /\ named (s "desc") t = true) /\ good_text (s "new text") /\ dark (s "new text") <> [] /\
  anim_get cls_Group (doc_forest xframe) (xroot xframe) (s "desc") = Ok (PStr (s "A film")) /\ anim_get cls_Group (doc_forest xframe) (xroot xframe) (s "name") = Ok (PStr (s "Film")).
Proof.
  split; [reflexivity|]. split; [exact xframe_ok|]. split; [reflexivity|]. split; [exact xframe_desc|]. split; [apply good_textb; reflexivity|]. split; [vm_compute; discriminate|]. split; vm_compute; reflexivity.
Qed.

(** ** C108 the metadata can't be used *)

Theorem C108_metadata : forall st F n k v, In k metadata_fields ->
  anim_get st F n k = Err NotImplementedError /\ anim_set F n k v = (F, Err NotImplementedError).
Proof.
  intros st F n k v H. unfold metadata_fields in H. repeat (destruct H as [<-|H]; [split; reflexivity|]). destruct H.
Qed.
Print Assumptions C108_metadata.
(** ... even in a new animation, where the file has all of them. *)
Example C108_nonvacuous : Forall (fun k => exists t, In t (ifind_all (named (s "meta")) (xroot xblank)) /\ aget (s "name") (iattrs t) = Some (AStr k)) metadata_fields.
Proof.
  assert (E : forall k, existsb (fun t => match aget (s "name") (iattrs t) with Some (AStr x) => pstr_eqb x k | _ => false end) (ifind_all (named (s "meta")) (xroot xblank)) = true ->
    exists t, In t (ifind_all (named (s "meta")) (xroot xblank)) /\ aget (s "name") (iattrs t) = Some (AStr k)).
  { intros k H. apply existsb_exists in H as (t & Ht & Hk). exists t. split; [exact Ht|]. destruct (aget (s "name") (iattrs t)) as [[x| | |]|]; try discriminate Hk. apply pstr_eqb_spec in Hk. f_equal. f_equal. exact Hk. }
  unfold metadata_fields. repeat (constructor; [apply E; vm_compute; reflexivity|]). constructor.
Qed.

(** ** C109 setting the end time *)

(** What was set is read back, but only by [end_time]: how long the animation is, as the rest of the program sees it, stays as it was. *)
Theorem C109_end_time_set : forall F n v x, wf F -> doc_top F = Some n -> itag n = true -> iname n = s "canvas" -> py_str v = Ok x ->
  exists F' n', anim_set F n (s "end_time") v = (F', Ok tt) /\ doc_top F' = Some n' /\ ikids n' = ikids n /\ iname n' = iname n /\
    aget (s "end_time") (iattrs n') = Some (AStr x) /\ (forall k, k <> s "end_time" -> aget k (iattrs n') = aget k (iattrs n)) /\
    end_time F' n' = T_init (TStr x) (Some (iattrs n)) /\ begin_time F' n' = begin_time F n /\ framecount F' n' = framecount F n.
Proof. exact set_end_time. Qed.
Print Assumptions C109_end_time_set.
Theorem C109_longer_refuted : exists F n F' n' t, doc_top F = Some n /\ framecount F n = Ok 241%Z /\ anim_set F n (s "end_time") (PStr (s "20s")) = (F', Ok tt) /\
  doc_top F' = Some n' /\ end_time F' n' = Ok t /\ (frames t == 480)%Q /\ framecount F' n' = Ok 241%Z.
Proof. eexists (doc_forest xframe), (xroot xframe), _, _, _. split; [reflexivity|]. split; [vm_compute; reflexivity|]. split; [reflexivity|]. split; [reflexivity|]. split; [vm_compute; reflexivity|]. split; vm_compute; reflexivity. Qed.
Print Assumptions C109_longer_refuted.
Example C109_nonvacuous : wf (doc_forest xframe) /\ doc_top (doc_forest xframe) = Some (xroot xframe) /\ itag (xroot xframe) = true /\ iname (xroot xframe) = s "canvas" /\
  py_str (PT (mkT 36 (Some 24%Q))) = Ok (s "1s 12f").
Proof. destruct xframe_root as (A & B & C & D). split; [exact A|]. split; [exact B|]. split; [exact C|]. split; [exact D|]. vm_compute. reflexivity. Qed.

(** ** C60 keyframes, again: active and name *)

Theorem C60_active : forall k, kf_name k = node_text (forget k) /\
  (kf_active k = Ok true <-> aget (s "active") (iattrs k) = Some (AStr (s "true"))) /\
  (kf_active k = Err KeyError <-> aget (s "active") (iattrs k) = None).
Proof.
  intros k. split; [reflexivity|]. unfold kf_active, attr_item. destruct (aget (s "active") (iattrs k)) as [[x| | |]|]; cbn [bind]; (split; split; intros E); try discriminate E; try reflexivity.
  - destruct (pstr_eqb x (s "true")) eqn:Ex; [|discriminate E]. apply pstr_eqb_spec in Ex. now rewrite Ex.
  - injection E as ->. reflexivity.
Qed.
Print Assumptions C60_active.

(** ** C91, again: why a file is refused *)

(** Files of the format .sfg, files that are too short, and all others that are not known, are refused with ValueError. *)
Theorem C91_refused : forall fs x b, aget x fs = Some (Raw b) -> firstn 2 b <> s "<?" -> firstn 2 b <> gzip_magic -> load fs x = Err ValueError.
Proof.
  intros fs x b H H1 H2. unfold load. rewrite H. unfold kind_by_magic. change (magic (Raw b)) with (firstn 2 b). destruct (firstn 2 b) as [|c m]; [reflexivity|].
  destruct (pstr_eqb (c :: m) (s "<?")) eqn:E1; [apply pstr_eqb_spec in E1; contradiction|].
  destruct (pstr_eqb (c :: m) gzip_magic) eqn:E2; [apply pstr_eqb_spec in E2; contradiction|]. destruct (pstr_eqb (c :: m) (s "PK")); reflexivity.
Qed.
Print Assumptions C91_refused.
Example C91_refused_nonvacuous : load [(s "a.sfg", Raw (s "PK..")); (s "b.sif", Raw (s "<"))] (s "a.sfg") = Err ValueError /\ load [(s "a.sfg", Raw (s "PK..")); (s "b.sif", Raw (s "<"))] (s "b.sif") = Err ValueError.
Proof. split; reflexivity. Qed.
