(** Properties of the scripts in etc/ *)
From Coq Require Import Sorted Permutation Lia ZifyBool ZifyN ZifyNat.
From Verif Require Import XpProofs EtcModel RepSpec EtcSpec SerProofs AnimProofs AnimProofs2 RepProofs RepProofs2 RepProofs3 RepProofs4 RepProofs5 RepProps EtcProofs EtcProofs2 EtcProofs3.
Local Open Scope N_scope.

(** ** C120: the block BlendMethod lists the enumerators of the header. *)

(** Where the header is *)
Theorem C120_header : forall src, (forall p, src <> p ++ s "/") -> src <> [] ->
  header_name src = src ++ s "/synfig-core/src/synfig/color/color.h" /\ header_name (src ++ s "/") = src ++ s "/synfig-core/src/synfig/color/color.h".
Proof.
  assert (J : forall a b c, c <> 47 -> join_path (a ++ [c]) b = (a ++ [c]) ++ [47] ++ b).
  { intros a b c Hc. unfold join_path. rewrite rev_app_distr. cbn [rev app]. destruct (N.eqb_spec c 47); [contradiction|reflexivity]. }
  assert (K : forall x, fold_left join_path [s "src"; s "synfig"; s "color"; s "color.h"] (x ++ s "synfig-core") = x ++ s "synfig-core/src/synfig/color/color.h").
  { intros x. cbn [fold_left]. change (s "synfig-core") with (s "synfig-cor" ++ [101]) at 1. rewrite app_assoc. rewrite J by discriminate.
    replace (((x ++ s "synfig-cor") ++ [101]) ++ [47] ++ s "src") with ((x ++ s "synfig-core/sr") ++ [99]) by (rewrite <- !app_assoc; reflexivity). rewrite J by discriminate.
    replace (((x ++ s "synfig-core/sr") ++ [99]) ++ [47] ++ s "synfig") with ((x ++ s "synfig-core/src/synfi") ++ [103]) by (rewrite <- !app_assoc; reflexivity). rewrite J by discriminate.
    replace (((x ++ s "synfig-core/src/synfi") ++ [103]) ++ [47] ++ s "color") with ((x ++ s "synfig-core/src/synfig/colo") ++ [114]) by (rewrite <- !app_assoc; reflexivity). rewrite J by discriminate.
    rewrite <- !app_assoc. reflexivity. }
  intros src Hs Hne. destruct src as [|c src _] using rev_ind; [contradiction|]. assert (Hc : c <> 47) by (intros ->; now apply (Hs src)). unfold header_name.
  assert (F : forall x, fold_left join_path [s "synfig-core"; s "src"; s "synfig"; s "color"; s "color.h"] x = fold_left join_path [s "src"; s "synfig"; s "color"; s "color.h"] (join_path x (s "synfig-core"))) by reflexivity.
  rewrite !F. split.
  - rewrite J by exact Hc. rewrite app_assoc. rewrite (K ((src ++ [c]) ++ [47])). now rewrite <- !app_assoc.
  - assert (E : join_path ((src ++ [c]) ++ s "/") (s "synfig-core") = ((src ++ [c]) ++ s "/") ++ s "synfig-core") by (unfold join_path; rewrite rev_app_distr; reflexivity). rewrite E. rewrite (K ((src ++ [c]) ++ s "/")). now rewrite <- !app_assoc.
Qed.
Print Assumptions C120_header.

Theorem C120_partial : forall d src files ls, lines_in d (header_name src) ls -> no_gap ls ->
  exists t names, scan_source d src true files = handle_all [(s "BlendMethod", t)] d files /\
    (forall k name, is_name ls k name <-> nth_error names (N.to_nat k) = Some name) /\
    forall i new, value_in i t new -> table_block i names new.
Proof.
  intros d src files ls Hl Hg. destruct (scan_ok d src ls Hl Hg) as (names & E & Hn & Hk). exists ([10] ++ table_lines 0 names), names. split; [unfold scan_source; now rewrite E|]. split; [exact Hk|]. intros i new. now apply table_value.
Qed.
Print Assumptions C120_partial.
(** What becomes of a file *)
Theorem C120_files : forall d src files ls, lines_in d (header_name src) ls -> no_gap ls -> NoDup files -> (forall n, In n files -> exists r, n = r ++ s ".py") ->
  let o := scan_source d src true files in o_res o = Ok tt ->
  exists t names, (forall k name, is_name ls k name <-> nth_error names (N.to_nat k) = Some name) /\ (forall i new, value_in i t new -> table_block i names new) /\
    forall n x ps out, In n files -> file_text d n x -> lines_of x (flat_map piece_lines ps) -> Forall piece_ok ps -> pieces_out [(s "BlendMethod", t)] [] ps out ->
      block_in (flat_map piece_lines ps) (s "BlendMethod") -> contains (o_disk o) n (concat out).
Proof.
  intros d src files ls Hl Hg Hnd Hpy o Ho. unfold o in *. clear o. destruct (scan_ok d src ls Hl Hg) as (names & E & Hn & Hk). exists ([10] ++ table_lines 0 names), names. split; [exact Hk|]. split; [intros i new; now apply table_value|].
  unfold scan_source in *. rewrite E in *. set (fs := [(s "BlendMethod", [10] ++ table_lines 0 names)]) in *. intros n x ps out Hi Ht Hx Hok Hout Hb.
  assert (Hf : fs <> []) by discriminate.
  assert (He : fields_encodable fs).
  { intros k v. unfold fs. cbn [aget]. destruct (pstr_eqb k (s "BlendMethod")); [|discriminate]. intros Hv. apply Some_is in Hv. subst v. apply encodable_spec.
    constructor; [now apply okc_ascii|]. clear -Hn. generalize 0 as i. induction Hn as [|v l Hv _ IH]; intros i; cbn [table_lines]; [constructor|].
    apply Forall_app. split; [destruct Hv as [_ Hv]; revert Hv; apply Forall_impl; intros c Hc; apply okc_ascii; apply upper_char_spec in Hc; unfold upper_char in Hc; lia|].
    apply Forall_app. split; [repeat constructor; now apply okc_ascii|]. apply Forall_app. split; [|constructor; [now apply okc_ascii|apply IH]].
    destruct (dec_N_plain i) as [(_ & Hd & _) _]. revert Hd. apply Forall_impl. intros c Hc. apply okc_ascii. apply is_digit_spec in Hc. unfold is_digit in Hc. lia. }
  destruct (C110_all fs d files Hf Hnd Hpy) as [(_ & Hd & _)|(a & n' & b & e & _ & _ & _ & Hr & _)]; [|congruence].
  rewrite Forall_forall in Hd. destruct (Hd n Hi) as [_ Hsame].
  destruct (C66_partial fs d n x ps out Hf He Ht Hx Hok Hout) as (_ & Hrep & _).
  destruct Hrep as ((bs & Hc1 & Hc2) & _). { exists (s "BlendMethod"), ([10] ++ table_lines 0 names). split; [exact Hb|]. unfold fs. cbn [aget]. now rewrite pstr_eqb_refl. }
  exists bs. split; [|exact Hc2]. unfold same_file in Hsame. now rewrite <- Hsame.
Qed.
Print Assumptions C120_files.
(** Nothing is missing where no line has two enumerators, and no two have the same number. *)
Theorem C120_complete : forall ls,
  (forall l p r x p' r' x', In l ls -> l = p ++ r -> blend_at r x -> l = p' ++ r' -> blend_at r' x' -> p = p') ->
  (forall k name name', mentioned ls name k -> mentioned ls name' k -> name = name') ->
  forall k name, is_name ls k name <-> mentioned ls name k.
Proof.
  intros ls H1 H2 k name.
  assert (M : forall l n, counts l n k -> In l ls -> mentioned ls n k).
  { intros l n ((p & r & E & Hb & _) & He & Hy) Hi. exists l, p, r. repeat split; auto. }
  split.
  - intros (a & l & b & E & Hc & _). apply (M l); [exact Hc|]. rewrite E. apply in_or_app. right. now left.
  - intros Hm. pose proof Hm as (l & p & r & Hi & El & Hb & Hne & Hnb).
    assert (Hc : counts l name k).
    { split; [|now split]. exists p, r. split; [exact El|]. split; [exact Hb|]. intros p' r' x' E' L Hx'. rewrite (H1 l p r _ p' r' x' Hi El Hb E' Hx') in L. lia. }
    assert (X : exists a l' b n, ls = a ++ l' :: b /\ counts l' n k /\ Forall (fun m => forall n', ~ counts m n' k) b).
    { clear -Hc Hi. induction ls as [|l0 ls IH]; [destruct Hi|].
      assert (D : Forall (fun m => forall n', ~ counts m n' k) ls \/ exists a l' b n, ls = a ++ l' :: b /\ counts l' n k /\ Forall (fun m => forall n', ~ counts m n' k) b).
      { clear. induction ls as [|m ls [IH|(a & l' & b & n & -> & H)]]; [left; constructor| |right; exists (m :: a), l', b, n; auto].
        destruct (counted m) as [[n j]|] eqn:E; [destruct (N.eq_dec j k) as [->|Hj]|].
        - right. exists [], m, ls, n. split; [reflexivity|]. split; [now apply counted_spec|exact IH].
        - left. constructor; [|exact IH]. intros n' H. apply counted_spec in H. congruence.
        - left. constructor; [|exact IH]. intros n' H. apply counted_spec in H. congruence. }
      destruct D as [D|(a & l' & b & n & -> & H)]; [|exists (l0 :: a), l', b, n; auto]. destruct Hi as [->|Hi]; [exists [], l, ls, name; auto|]. rewrite Forall_forall in D. destruct (D l Hi name Hc). }
    destruct X as (a & l' & b & n & E & Hc' & Hb'). assert (Hi' : In l' ls) by (rewrite E; apply in_or_app; right; now left). rewrite (H2 k name n Hm (M l' n Hc' Hi')). exists a, l', b. auto.
Qed.
Print Assumptions C120_complete.

Definition lines_text (l : list pstr) : pstr := concat (map (fun x => x ++ [10]) l).
Definition hname : pstr := s "/src/synfig-core/src/synfig/color/color.h".
Definition xpy : pstr := s "sangfroid/t/blendmethod.py".
Definition hdr : pstr := lines_text [s "enum value_type {"; s "  BLEND_COMPOSITE=0, //!< Composite"; s "  BLEND_BY_LAYER=-1, BLEND_BY_LAYER=99,"; s "  BLEND_STRAIGHT=1,"; s "  BLEND_ADD_COMPOSITE=2,"; s "  BLEND_END=25"; s "};"].
Definition pyfile : pstr := lines_text [s "class BlendMethod(Enum):"; s "    ### {{{"; s "    OLD = 0"; s "    ### }}}"].
Definition edisk : disk := [(hname, hdr); (xpy, pyfile)].
Lemma edisk_lines d n x : aget n d = Some x -> utf8_out x = Some x -> norm_eol x = x -> lines_in d n (lines x).
Proof. intros H1 H2 H3. exists x. split; [exists x; split; [exists x; auto|now symmetry]|apply lines_of_lines]. Qed.
Lemma no_gap_table ls : all_keys (fold_left scan_line ls []) = true -> no_gap ls.
Proof.
  intros E. destruct (scan_spec ls) as [Hn Hd]. cbn zeta in Hn, Hd. pose proof (proj1 (all_keys_spec _ Hn) E) as K. intros j k name L H. apply Hd in H. apply (in_map fst) in H. cbn [fst] in H. apply K in H.
  assert (Hj : In j (map fst (fold_left scan_line ls []))) by (apply K; lia). apply in_map_iff in Hj as ([j' name'] & Ej & Hj). cbn [fst] in Ej. subst j'. exists name'. now apply Hd.
Qed.
Lemma is_name_table ls k name : In (k, name) (fold_left scan_line ls []) -> is_name ls k name.
Proof. intros H. now apply (proj2 (scan_spec ls)). Qed.
Example C120_nonvacuous : lines_in edisk (header_name (s "/src")) (lines hdr) /\ no_gap (lines hdr) /\ is_name (lines hdr) 2 (s "ADD_COMPOSITE") /\
  o_res (scan_source edisk (s "/src/") true [xpy]) = Ok tt /\
  contains (o_disk (scan_source edisk (s "/src/") true [xpy])) xpy
    (lines_text [s "class BlendMethod(Enum):"; s "    ### {{{"; []; s "    COMPOSITE = 0"; s "    STRAIGHT = 1"; s "    ADD_COMPOSITE = 2"; []; s "    ### }}}"]).
Proof.
  split; [apply edisk_lines; vm_compute; reflexivity|]. split; [apply no_gap_table; vm_compute; reflexivity|]. split; [apply is_name_table; vm_compute; auto|]. split; [vm_compute; reflexivity|]. eexists. split; vm_compute; reflexivity.
Qed.
(** Two enumerators in one line: the second is lost, and nobody is told. *)
Theorem C120_refuted : exists d src files n ls text, lines_in d (header_name src) ls /\ mentioned ls (s "STRAIGHT") 1 /\ o_res (scan_source d src true files) = Ok tt /\
  In n files /\ o_written (scan_source d src true files) = [n] /\ contains (o_disk (scan_source d src true files)) n text /\ forall p r, text <> p ++ s "STRAIGHT" ++ r.
Proof.
  set (h := lines_text [s "BLEND_COMPOSITE=0, BLEND_STRAIGHT=1"]). exists [(hname, h); (xpy, pyfile)], (s "/src"), [xpy], xpy, (lines h), (lines_text [s "class BlendMethod(Enum):"; s "    ### {{{"; []; s "    COMPOSITE = 0"; []; s "    ### }}}"]).
  split; [apply edisk_lines; vm_compute; reflexivity|]. split.
  { exists (s "BLEND_COMPOSITE=0, BLEND_STRAIGHT=1" ++ [10]), (s "BLEND_COMPOSITE=0, "), (s "BLEND_STRAIGHT=1" ++ [10]). split; [vm_compute; auto|]. split; [reflexivity|]. split; [|split; discriminate].
    apply blend_val_spec. vm_compute. reflexivity. }
  split; [vm_compute; reflexivity|]. split; [now left|]. split; [vm_compute; reflexivity|]. split; [eexists; split; vm_compute; reflexivity|].
  intros p r E. assert (S1 : search (after (s "STRAIGHT")) (p ++ s "STRAIGHT" ++ r) = None) by (rewrite <- E; vm_compute; reflexivity).
  assert (Q : forall (m : pstr -> option pstr) z p, m z <> None -> search m (p ++ z) <> None).
  { clear. intros m z p H. induction p as [|c p IH]; cbn [app]; [destruct z; cbn [search]; destruct (m _); congruence|]. cbn [search]. destruct (m (c :: p ++ z)); [discriminate|exact IH]. }
  refine (Q _ _ p _ S1). rewrite (proj2 (after_spec (s "STRAIGHT") _ r) eq_refl). discriminate.
Qed.
Print Assumptions C120_refuted.

(** ** C121: a header that can't be used changes nothing. *)
Theorem C121_gap : forall d src files ls, lines_in d (header_name src) ls -> ~ no_gap ls -> scan_source d src true files = mkO d [] [] (Err AssertionError).
Proof. intros d src files ls Hl Hg. unfold scan_source. now rewrite (scan_gap d src ls Hl Hg). Qed.
Print Assumptions C121_gap.
Theorem C121_header : forall d src files, (forall ls, ~ lines_in d (header_name src) ls) ->
  exists e, scan_source d src true files = mkO d [] [] (Err e) /\ (e = FileNotFoundError <-> aget (header_name src) d = None).
Proof.
  intros d src files H. unfold scan_source, scan_field. destruct (file_lines d (header_name src)) as [ls|e] eqn:E; [apply file_lines_spec in E; destruct (H ls E)|].
  cbn [bind]. exists e. split; [reflexivity|]. unfold file_lines in E. destruct (aget (header_name src) d) as [b|]; [|injection E as <-; split; auto]. destruct (decode b); [discriminate|]. injection E as <-. split; discriminate.
Qed.
Print Assumptions C121_header.
Theorem C121_no_directory : forall d src files, scan_source d src false files = mkO d [] [] (Ok tt).
Proof. reflexivity. Qed.
Print Assumptions C121_no_directory.
Example C121_nonvacuous : let h := lines_text [s "BLEND_COMPOSITE=0,"; s "BLEND_ONTO=2,"] in let d := [(hname, h)] in
  lines_in d (header_name (s "/src")) (lines h) /\ ~ no_gap (lines h) /\ forall ls, ~ lines_in d (header_name (s "/other")) ls.
Proof.
  intros h d. split; [apply edisk_lines; vm_compute; reflexivity|]. split.
  - intros G. destruct (G 1 2 (s "ONTO")) as (n & Hn); [reflexivity|apply is_name_table; vm_compute; auto|]. apply (proj2 (scan_spec (lines h))) in Hn. vm_compute in Hn. destruct Hn as [Hn|[Hn|[]]]; discriminate.
  - intros ls H. apply file_lines_spec in H. vm_compute in H. discriminate.
Qed.

(** ** C122: at every moment, each file is the old one or the new one. *)
Theorem C122_crash : forall d src isdir files d', NoDup files -> (forall n, In n files -> exists r, n = r ++ s ".py") -> In d' (scan_states d src isdir files) ->
  (forall n, ~ In n files -> (forall m, In m files -> n <> temp_name m) -> same_file d d' n) /\
  ((forall n, same_file d d' n) \/
   exists t, scan_source d src isdir files = handle_all [(s "BlendMethod", t)] d files /\
     forall n, In n files -> same_file d d' n \/ same_file (o_disk (handle [(s "BlendMethod", t)] d n)) d' n).
Proof.
  intros d src isdir files d' Hn Hp. unfold scan_states, scan_source. destruct isdir; [|intros [<-|[]]; split; [reflexivity|left; reflexivity]].
  destruct (scan_field d src) as [fs|e] eqn:E; [|intros [<-|[]]; split; [reflexivity|left; reflexivity]].
  intros H. destruct (C110_crash fs d files d' Hn Hp H) as [H1 H2]. split; [exact H2|]. right.
  unfold scan_field in E. destruct (file_lines d (header_name src)) as [ls|]; [|discriminate]. cbn [bind] in E. destruct (blend_table (fold_left scan_line ls [])) as [t|]; [|discriminate]. cbn [bind] in E. injection E as <-. exists t. split; [reflexivity|exact H1].
Qed.
Print Assumptions C122_crash.
Theorem C122_moments : forall d src isdir files, In d (scan_states d src isdir files) /\ In (o_disk (scan_source d src isdir files)) (scan_states d src isdir files).
Proof.
  intros d src isdir files. unfold scan_states, scan_source. destruct isdir; [|split; now left]. destruct (scan_field d src) as [fs|e] eqn:E; [|split; now left].
  assert (Hf : fs <> []). { unfold scan_field in E. destruct (file_lines d (header_name src)) as [ls|]; [|discriminate]. cbn [bind] in E. destruct (blend_table (fold_left scan_line ls [])) as [t|]; [|discriminate]. cbn [bind] in E. injection E as <-. discriminate. }
  destruct (C110_moments fs d files Hf) as (A & B & _). now split.
Qed.
Print Assumptions C122_moments.
Definition f_eqb (a b : option (list N)) : bool := match a, b with Some x, Some y => pstr_eqb x y | None, None => true | _, _ => false end.
Lemma f_eqb_refl a : f_eqb a a = true.
Proof. destruct a; [apply pstr_eqb_refl|reflexivity]. Qed.
Lemma xscan_some : match scan_field edisk (s "/src") with Ok (_ :: _) => true | _ => false end = true.
Proof. vm_compute. reflexivity. Qed.
Lemma scan_one_moments d src name : match scan_field d src with Ok (_ :: _) => true | _ => false end = true ->
  In d (scan_states d src true [name]) /\ In (o_disk (scan_source d src true [name])) (scan_states d src true [name]).
Proof.
  unfold scan_states, scan_source. destruct (scan_field d src) as [[|f fs]|]; try discriminate. intros _.
  cbn [handle_all_states]. destruct (C69_all_moments (f :: fs) d name) as [A B]. split; apply in_or_app; left; [exact A|]. cbn [handle_all]. destruct (o_res (handle (f :: fs) d name)); cbn [o_disk]; exact B.
Qed.
Lemma xscan_differs : f_eqb (aget xpy edisk) (aget xpy (o_disk (scan_source edisk (s "/src") true [xpy]))) = false.
Proof. vm_compute. reflexivity. Qed.
Example C122_nonvacuous : In edisk (scan_states edisk (s "/src") true [xpy]) /\ In (o_disk (scan_source edisk (s "/src") true [xpy])) (scan_states edisk (s "/src") true [xpy]) /\
  ~ same_file edisk (o_disk (scan_source edisk (s "/src") true [xpy])) xpy.
Proof.
  destruct (scan_one_moments edisk (s "/src") xpy xscan_some) as [A B]. split; [exact A|]. split; [exact B|]. intros C. assert (D := xscan_differs). unfold same_file in C. rewrite <- C, f_eqb_refl in D. discriminate.
Qed.

(** ** C123: the symbols of layers *)

(** Every text falls into sections. *)
Theorem C123_sections : forall ls, exists pre secs, sections ls pre secs.
Proof. exact sections_exist. Qed.
Print Assumptions C123_sections.
(** What the file says about a layer is the last symbol set after the beginning of that layer, and before the beginning of the next. *)
Theorem C123_exact : forall d files lss pre secs, Forall2 (lines_in d) files lss -> sections (concat lss) pre secs -> NoDup (map fst secs) ->
  let d' := fst (put_symbols d files) in
  exists text m, snd (put_symbols d files) = Ok tt /\ contains d' (s "layer-details.json") text /\ read_json text = Some (JObj m) /\
    StronglySorted not_after (map fst m) /\ NoDup (map fst m) /\
    (forall c v, In (c, v) m <-> exists sec o, In (c, sec) secs /\ last_symbol sec o /\ v = symbol_json o) /\
    forall n, n <> s "layer-details.json" -> same_file d d' n.
Proof.
  intros d files lss pre secs Hl Hs Hn d'. unfold d'. clear d'. destruct (put_ok d files lss pre secs Hl Hs Hn) as (b & Eb & ->). cbn [fst snd].
  exists (json_out (results secs)), (map symbol_member (sort by_name (results secs))). split; [reflexivity|]. split; [exists b; split; [apply aget_aset_same|exact Eb]|]. split; [apply read_out|].
  pose proof (sort_perm by_name (results secs)) as P.
  assert (F : map fst (map symbol_member (sort by_name (results secs))) = map fst (sort by_name (results secs))) by now rewrite map_map.
  split; [|split; [|split]].
  - rewrite F. pose proof (by_name_sorted (results secs)) as S. clear P F. induction S as [|x l S IH Hx]; cbn [map]; [constructor|]. constructor; [exact IH|]. apply Forall_map. revert Hx. apply Forall_impl. intros y Hy. now apply pstr_le_spec.
  - rewrite F. apply (Permutation_NoDup (Permutation_sym (Permutation_map fst P))). now rewrite results_fst.
  - intros c v. rewrite in_map_iff. split.
    + intros ([c' o] & E & Hi). unfold symbol_member in E. cbn [fst snd] in E. injection E as -> <-. apply (Permutation_in _ P) in Hi. unfold results in Hi. apply in_map_iff in Hi as ([c' sec] & E & Hi). cbn [fst snd] in E. injection E as -> E. exists sec, o. split; [exact Hi|]. split; [now apply last_sym_spec|reflexivity].
    + intros (sec & o & Hi & Ho & ->). exists (c, o). split; [reflexivity|]. apply (Permutation_in _ (Permutation_sym P)). unfold results. apply in_map_iff. exists (c, sec). split; [|exact Hi]. cbn [fst snd]. f_equal. now apply last_sym_spec.
  - intros n Hne. unfold same_file. symmetry. now apply aget_aset_other.
Qed.
Print Assumptions C123_exact.
(** Where symbols are only set in bodies of layers, it's the last symbol of its own body. *)
Theorem C123_partial : forall d files lss L1 ls L2 c body o, Forall2 (lines_in d) files lss -> Forall tidy lss -> lss = L1 ++ ls :: L2 -> flat ls ->
  snd (put_symbols d files) = Ok tt -> body_of ls c body -> last_symbol body o ->
  exists text m, contains (fst (put_symbols d files)) (s "layer-details.json") text /\ read_json text = Some (JObj m) /\ NoDup (map fst m) /\ In (c, symbol_json o) m.
Proof.
  intros d files lss L1 ls L2 c body o Hl T El Fl Hok Hb Ho. subst lss. destruct (body_section L1 ls L2 c body T Fl Hb) as (pre & secs & sec & Hs & Hi & E).
  destruct (ListDec.NoDup_dec (list_eq_dec N.eq_dec) (map fst secs)) as [Hn|Hn]; [|rewrite (put_twice d files _ pre secs Hl Hs Hn) in Hok; discriminate].
  destruct (C123_exact d files _ pre secs Hl Hs Hn) as (text & m & _ & H1 & H2 & _ & H3 & H4 & _). exists text, m. split; [exact H1|]. split; [exact H2|]. split; [exact H3|]. apply H4. exists sec, o. split; [exact Hi|]. split; [|reflexivity].
  apply last_sym_spec. rewrite E. now apply last_sym_spec.
Qed.
Print Assumptions C123_partial.

Definition xlayer : pstr := s "sangfroid/layer/layer.py".
Definition xrotate : pstr := s "sangfroid/layer/rotate.py".
Definition layer_py : pstr := lines_text [s "class Layer:"; s "    SYMBOL = '?'"; []].
Definition rotate_py : pstr := lines_text [s "from x import Layer"; []; s "class Rotate(Layer):"; []; s "    SYMBOL = 'R\'"; s "    x = 2"; s "def f(): pass"; s "class Zoom(Layer):"; s "    pass"; s "class Other(Rotate):"; s "    z = 1"].
Definition ldisk : disk := [(xlayer, layer_py); (xrotate, rotate_py)].
Definition rotate_secs : list (pstr * list pstr) :=
  [(s "Rotate", map (fun x => x ++ [10]) [s "class Rotate(Layer):"; []; s "    SYMBOL = 'R\'"; s "    x = 2"; s "def f(): pass"]);
   (s "Zoom", map (fun x => x ++ [10]) [s "class Zoom(Layer):"; s "    pass"; s "class Other(Rotate):"; s "    z = 1"])].
Definition rotate_body : list pstr := map (fun x => x ++ [10]) [s "class Rotate(Layer):"; []; s "    SYMBOL = 'R\'"; s "    x = 2"].
Lemma rotate_sections : sections (lines rotate_py) (map (fun x => x ++ [10]) [s "from x import Layer"; []]) rotate_secs.
Proof.
  assert (NL : forall l, layer_of l = None -> no_layer l) by (intros l; apply no_layer_spec).
  split; [vm_compute; reflexivity|]. split; [constructor; [apply NL; vm_compute; reflexivity|constructor; [apply NL; vm_compute; reflexivity|constructor]]|].
  constructor; [|constructor; [|constructor]]; (do 2 eexists; split; [reflexivity|]; split; [apply layer_of_spec; vm_compute; reflexivity|]).
  - do 4 (constructor; [apply NL; vm_compute; reflexivity|]). constructor.
  - do 3 (constructor; [apply NL; vm_compute; reflexivity|]). constructor.
Qed.
Lemma in_place {A} (x : A) : forall ls a b, ls = a ++ x :: b -> nth_error ls (length a) = Some x /\ a = firstn (length a) ls.
Proof. intros ls a b ->. split; [rewrite nth_error_app2, Nat.sub_diag by lia; reflexivity|]. now rewrite firstn_app, Nat.sub_diag, firstn_all, app_nil_r. Qed.
Lemma rotate_tidy : tidy (lines rotate_py).
Proof.
  intros a l b E Hs. destruct (in_place l _ _ _ E) as [Hn Ha]. remember (length a) as i eqn:Ei. clear Ei.
  assert (Sx : forall x, sym x = None -> silent [x]) by (intros x Hx; apply silent_spec; now repeat constructor).
  assert (D : i = 4%nat \/ sym l = None).
  { do 11 (destruct i as [|i]; [first [left; reflexivity|right; injection Hn as <-; vm_compute; reflexivity]|]). vm_compute in Hn. destruct i; discriminate. }
  destruct D as [->|D]; [|destruct (Hs (Sx l D))]. injection Hn as <-. right. split; [left; reflexivity|]. rewrite Ha.
  exists (map (fun x => x ++ [10]) [s "from x import Layer"; []]), (s "class Rotate(Layer):" ++ [10]), [[10]], (s "Rotate"). split; [vm_compute; reflexivity|]. split; [apply layer_of_spec; vm_compute; reflexivity|]. constructor; [right; reflexivity|constructor].
Qed.
Lemma rotate_flat : flat (lines rotate_py).
Proof.
  intros l c Hi Hc Hd. apply layer_of_spec in Hc. assert (X : existsb (fun x => match x with 32 :: _ | 10 :: _ => match layer_of x with Some _ => true | None => false end | _ => false end) (lines rotate_py) = false) by (vm_compute; reflexivity).
  assert (Y : existsb (fun x => match x with 32 :: _ | 10 :: _ => match layer_of x with Some _ => true | None => false end | _ => false end) (lines rotate_py) = true); [|congruence].
  apply existsb_exists. exists l. split; [exact Hi|]. destruct l as [|z l]; [destruct Hd|]. destruct Hd as [-> | ->]; now rewrite Hc.
Qed.
Lemma rotate_body_ok : body_of (lines rotate_py) (s "Rotate") rotate_body.
Proof.
  exists (map (fun x => x ++ [10]) [s "from x import Layer"; []]), (s "class Rotate(Layer):" ++ [10]), (map (fun x => x ++ [10]) [[]; s "    SYMBOL = 'R\'"; s "    x = 2"]),
    (map (fun x => x ++ [10]) [s "def f(): pass"; s "class Zoom(Layer):"; s "    pass"; s "class Other(Rotate):"; s "    z = 1"]).
  split; [vm_compute; reflexivity|]. split; [reflexivity|]. split; [apply layer_of_spec; vm_compute; reflexivity|]. split.
  - constructor; [right; reflexivity|]. constructor; [left; reflexivity|]. constructor; [left; reflexivity|constructor].
  - right. do 2 eexists. split; [reflexivity|]. intros [H|H]; discriminate.
Qed.
Definition rotate_json : pstr :=
  join [10] [s "{"; s "    ""Rotate"": {"; s "        ""symbol"": ""R\\"""; s "    },"; s "    ""Zoom"": {}"; s "}"].
Example C123_nonvacuous : Forall2 (lines_in ldisk) [xrotate] [lines rotate_py] /\ sections (lines rotate_py) (map (fun x => x ++ [10]) [s "from x import Layer"; []]) rotate_secs /\ NoDup (map fst rotate_secs) /\
  tidy (lines rotate_py) /\ flat (lines rotate_py) /\ body_of (lines rotate_py) (s "Rotate") rotate_body /\ last_symbol rotate_body (Some (s "R\")) /\
  exists text, contains (fst (put_symbols ldisk [xrotate])) (s "layer-details.json") text /\ read_json text = Some (JObj [(s "Rotate", JObj [(s "symbol", JStr (s "R\"))]); (s "Zoom", JObj [])]).
Proof.
  split; [constructor; [|constructor]; apply edisk_lines; vm_compute; reflexivity|]. split; [exact rotate_sections|]. split; [constructor; [intros [H|[]]; discriminate|constructor; [intros []|constructor]]|].
  split; [exact rotate_tidy|]. split; [exact rotate_flat|]. split; [exact rotate_body_ok|]. split; [apply last_sym_spec; vm_compute; reflexivity|].
  exists rotate_json. split; [exists rotate_json; split|]; vm_compute; reflexivity.
Qed.
(** Layer, the class that layers are made from, begins no layer: its symbol becomes that of the last layer in the file read before it. *)
Theorem C123_refuted : exists d files lss ls c body y, Forall2 (lines_in d) files lss /\ Forall flat lss /\ In ls lss /\ body_of ls c body /\ last_symbol body (Some y) /\
  snd (put_symbols d files) = Ok tt /\
  exists text m, contains (fst (put_symbols d files)) (s "layer-details.json") text /\ read_json text = Some (JObj m) /\ NoDup (map fst m) /\ ~ In (c, symbol_json (Some y)) m /\ In (c, symbol_json (Some (s "?"))) m.
Proof.
  set (r := lines_text [s "class Rotate(Layer):"; s "    SYMBOL = 'R'"]).
  exists [(xlayer, layer_py); (xrotate, r)], [xrotate; xlayer], [lines r; lines layer_py], (lines r), (s "Rotate"), (lines r), (s "R").
  split; [constructor; [|constructor; [|constructor]]; apply edisk_lines; vm_compute; reflexivity|]. split.
  { assert (G : forall ls, forallb (fun x => match layer_of x with Some _ => negb match x with 32 :: _ | 10 :: _ => true | _ => false end | None => true end) ls = true -> flat ls).
    { intros ls H l c Hi Hc Hd. rewrite forallb_forall in H. specialize (H l Hi). cbv beta in H. apply layer_of_spec in Hc. rewrite Hc in H. destruct l as [|z l]; [destruct Hd|]. destruct Hd as [-> | ->]; discriminate. }
    constructor; [|constructor; [|constructor]]; apply G; vm_compute; reflexivity. }
  split; [now left|]. split.
  { exists [], (s "class Rotate(Layer):" ++ [10]), [s "    SYMBOL = 'R'" ++ [10]], []. split; [vm_compute; reflexivity|]. split; [vm_compute; reflexivity|]. split; [apply layer_of_spec; vm_compute; reflexivity|]. split; [constructor; [left; reflexivity|constructor]|now left]. }
  split; [apply last_sym_spec; vm_compute; reflexivity|]. split; [vm_compute; reflexivity|].
  set (j := join [10] [s "{"; s "    ""Rotate"": {"; s "        ""symbol"": ""?"""; s "    }"; s "}"]). exists j, [(s "Rotate", symbol_json (Some (s "?")))].
  split; [exists j; split; vm_compute; reflexivity|]. split; [vm_compute; reflexivity|]. split; [repeat constructor; intros []|]. split; [|now left]. intros [H|[]]. discriminate H.
Qed.
Print Assumptions C123_refuted.

(** ** C124: the order of the files doesn't matter, if none of them sets a symbol before its first layer. *)
Theorem C124_partial : forall d files files' lss, Forall2 (lines_in d) files lss -> Forall starts_clean lss -> Permutation files files' -> put_symbols d files = put_symbols d files'.
Proof. exact put_order. Qed.
Print Assumptions C124_partial.
Definition zoom_py : pstr := lines_text [s "class Scale(Layer):"; s "    SYMBOL = 'S'"].
Definition odisk : disk := [(s "z.py", zoom_py); (xrotate, rotate_py)].
Example C124_nonvacuous : Forall2 (lines_in odisk) [s "z.py"; xrotate] [lines zoom_py; lines rotate_py] /\ Forall starts_clean [lines zoom_py; lines rotate_py] /\ snd (put_symbols odisk [xrotate; s "z.py"]) = Ok tt.
Proof.
  split; [constructor; [|constructor; [|constructor]]; apply edisk_lines; vm_compute; reflexivity|]. split; [|vm_compute; reflexivity].
  assert (Sx : forall x, sym x = None -> silent [x]) by (intros x Hx; apply silent_spec; now repeat constructor). constructor; [|constructor; [|constructor]].
  - intros a l b E Hn. destruct a as [|x a].
    + injection E as <- _. apply Sx. vm_compute. reflexivity.
    + injection E as <- _. inversion Hn as [|? ? Hx _]; subst. destruct (Hx (s "Scale")). apply layer_of_spec. vm_compute. reflexivity.
  - intros a l b E Hn. destruct a as [|x [|y [|z a]]].
    + injection E as <- _. apply Sx. vm_compute. reflexivity.
    + injection E as _ <- _. apply Sx. vm_compute. reflexivity.
    + injection E as _ _ <- _. apply Sx. vm_compute. reflexivity.
    + injection E as _ _ <- _. inversion Hn as [|? ? _ Hn1]; subst. inversion Hn1 as [|? ? _ Hn2]; subst. inversion Hn2 as [|? ? Hx _]; subst. destruct (Hx (s "Rotate")). apply layer_of_spec. vm_compute. reflexivity.
Qed.
(** With the class Layer, it does. *)
Theorem C124_refuted : exists d files files', Permutation files files' /\ snd (put_symbols d files) = Ok tt /\ snd (put_symbols d files') = Ok tt /\
  ~ same_file (fst (put_symbols d files)) (fst (put_symbols d files')) (s "layer-details.json").
Proof.
  set (r := lines_text [s "class Rotate(Layer):"; s "    SYMBOL = 'R'"]). exists [(xlayer, layer_py); (xrotate, r)], [xrotate; xlayer], [xlayer; xrotate]. split; [apply perm_swap|]. split; [vm_compute; reflexivity|]. split; [vm_compute; reflexivity|].
  unfold same_file. vm_compute. discriminate.
Qed.
Print Assumptions C124_refuted.

(** ** C125: nothing is written if a layer begins twice, or a file can't be read. *)
Theorem C125_twice : forall d files lss pre secs, Forall2 (lines_in d) files lss -> sections (concat lss) pre secs ->
  (NoDup (map fst secs) <-> snd (put_symbols d files) = Ok tt) /\ (~ NoDup (map fst secs) -> put_symbols d files = (d, Err AssertionError)).
Proof.
  intros d files lss pre secs Hl Hs. split; [|now apply (put_twice d files lss pre secs)]. split.
  - intros Hn. destruct (put_ok d files lss pre secs Hl Hs Hn) as (b & _ & ->). reflexivity.
  - intros H. destruct (ListDec.NoDup_dec (list_eq_dec N.eq_dec) (map fst secs)) as [Hn|Hn]; [exact Hn|]. rewrite (put_twice d files lss pre secs Hl Hs Hn) in H. discriminate.
Qed.
Print Assumptions C125_twice.
Lemma details_lines_error ls : forall st e, details_lines st ls = Err e -> e = AssertionError.
Proof.
  induction ls as [|l ls IH]; intros [r cur] e; cbn [details_lines]; [discriminate|]. destruct (details_line (r, cur) l) as [st'|e'] eqn:E; cbn [bind]; [apply IH|]. intros [= <-].
  unfold details_line in E. destruct (search layer_class_re l) as [[c b]|]; [|discriminate]. destruct (negb (pstr_eqb b (s "Layer"))); [discriminate|]. destruct (aget c r); congruence.
Qed.
(** The process stops with an exception exactly when a file can't be read or a layer begins twice, and then the disk is as before. *)
Theorem C125_error : forall d files e, snd (put_symbols d files) = Err e -> fst (put_symbols d files) = d /\
  ((e = AssertionError) \/ exists a n b, files = a ++ n :: b /\ (forall ls, ~ lines_in d n ls) /\ (e = FileNotFoundError <-> aget n d = None) /\ (e = ValueError <-> aget n d <> None)).
Proof.
  intros d files e.
  assert (G : forall names st, (exists lss, Forall2 (lines_in d) names lss) \/ forall e', details_files st d names = Err e' -> e' = AssertionError \/ exists a n b, names = a ++ n :: b /\ (forall ls, ~ lines_in d n ls) /\ (e' = FileNotFoundError <-> aget n d = None) /\ (e' = ValueError <-> aget n d <> None)).
  { induction names as [|n names IH]; intros st; [left; exists []; constructor|]. cbn [details_files]. destruct (file_lines d n) as [ls|e1] eqn:E; cbn [bind].
    - destruct (details_lines st ls) as [st'|e2] eqn:E2; cbn [bind].
      + destruct (IH st') as [(lss & H)|H]; [left; exists (ls :: lss); constructor; [now apply file_lines_spec|exact H]|]. right. intros e' He. destruct (H e' He) as [H1|(a & n' & b & -> & H1)]; [auto|]. right. exists (n :: a), n', b. auto.
      + right. intros e' [= <-]. left. exact (details_lines_error _ _ _ E2).
    - right. intros e' [= <-]. right. exists [], n, names. split; [reflexivity|]. split; [intros ls Hl; apply file_lines_spec in Hl; congruence|]. unfold file_lines in E. destruct (aget n d) as [b|]; [|injection E as <-; repeat split; auto; try discriminate; intros []; reflexivity].
      destruct (decode b); [discriminate|]. injection E as <-. repeat split; auto; discriminate. }
  destruct (G files ([], None)) as [(lss & Hl)|H].
  - destruct (sections_exist (concat lss)) as (pre & secs & Hs). destruct (C125_twice d files lss pre secs Hl Hs) as [C1 C2]. intros He. assert (Hn : ~ NoDup (map fst secs)) by (intros Hn; apply C1 in Hn; congruence).
    rewrite (C2 Hn) in *. cbn [fst snd] in *. injection He as <-. auto.
  - unfold put_symbols. destruct (details_files ([], None) d files) as [[r cur]|e1] eqn:E; cbn [fst snd].
    + (* every file could be read *) intros He. exfalso. assert (X : exists lss, Forall2 (lines_in d) files lss).
      { clear -E. revert E. generalize (([], None) : symbols * option pstr). induction files as [|n files IH]; intros st E; [exists []; constructor|]. cbn [details_files] in E. destruct (file_lines d n) as [ls|] eqn:E1; [|discriminate]. cbn [bind] in E.
        destruct (details_lines st ls) as [st'|]; [|discriminate]. cbn [bind] in E. destruct (IH _ E) as (lss & H). exists (ls :: lss). constructor; [now apply file_lines_spec|exact H]. }
      destruct X as (lss & Hl). destruct (sections_exist (concat lss)) as (pre & secs & Hs). rewrite (details_files_concat _ _ _ Hl) in E. destruct (details_all _ _ _ Hs) as [D1 D2].
      destruct (ListDec.NoDup_dec (list_eq_dec N.eq_dec) (map fst secs)) as [Hn|Hn]; [|rewrite (D2 Hn) in E; discriminate]. destruct (D1 Hn) as (cur' & D). rewrite D in E. injection E as <- _.
      destruct (put_ok d files lss pre secs Hl Hs Hn) as (b & Eb & _). rewrite Eb in He. discriminate.
    + intros [= <-]. split; [reflexivity|]. now apply H.
Qed.
Print Assumptions C125_error.
Example C125_nonvacuous : Forall2 (lines_in odisk) [s "z.py"; s "z.py"] [lines zoom_py; lines zoom_py] /\ (exists pre secs, sections (concat [lines zoom_py; lines zoom_py]) pre secs /\ ~ NoDup (map fst secs)) /\
  snd (put_symbols odisk [s "none.py"]) = Err FileNotFoundError.
Proof.
  split; [constructor; [|constructor; [|constructor]]; apply edisk_lines; vm_compute; reflexivity|]. split; [|vm_compute; reflexivity].
  assert (NL : forall l, layer_of l = None -> no_layer l) by (intros l; apply no_layer_spec).
  exists [], [(s "Scale", lines zoom_py); (s "Scale", lines zoom_py)]. split.
  - split; [reflexivity|]. split; [constructor|]. assert (K : section_ok (s "Scale", lines zoom_py)) by (do 2 eexists; split; [vm_compute; reflexivity|]; split; [apply layer_of_spec; vm_compute; reflexivity|]; constructor; [apply NL; vm_compute; reflexivity|constructor]). now repeat constructor.
  - intros H. inversion H as [|? ? Hx _]; subst. apply Hx. now left.
Qed.

(** ** C126: a crash of get-symbols.py *)
(** Other files stay, and the file that's written is the old one or a beginning of the new one. *)
Theorem C126_partial : forall d files d', In d' (put_states d files) ->
  (forall n, n <> s "layer-details.json" -> same_file d d' n) /\
  (same_file d d' (s "layer-details.json") \/
   exists new old rest, aget (s "layer-details.json") (fst (put_symbols d files)) = Some new /\ aget (s "layer-details.json") d' = Some old /\ new = old ++ rest).
Proof.
  intros d files d'. unfold put_states, put_symbols. destruct (details_files ([], None) d files) as [[r cur]|e]; cbn [fst]; [|intros [<-|[]]; split; [reflexivity|now left]].
  assert (K : forall b n, n <> s "layer-details.json" -> same_file d (aset details_name b d) n) by (intros b n Hn; unfold same_file; symmetry; now apply aget_aset_other).
  destruct (utf8_out (json_out r)) as [b|]; cbn [fst].
  - intros [<-|H]; [split; [reflexivity|now left]|]. apply in_map_iff in H as (i & <- & _). split; [now apply K|]. right. exists b, (firstn i b), (skipn i b). split; [apply aget_aset_same|]. split; [apply aget_aset_same|]. now rewrite firstn_skipn.
  - intros [<-|[<-|[]]]; [split; [reflexivity|now left]|]. split; [now apply K|]. right. exists [], [], []. split; [apply aget_aset_same|]. split; [apply aget_aset_same|reflexivity].
Qed.
Print Assumptions C126_partial.
Theorem C126_moments : forall d files, In d (put_states d files) /\ In (fst (put_symbols d files)) (put_states d files).
Proof.
  intros d files. unfold put_states, put_symbols. split; [now left|]. destruct (details_files ([], None) d files) as [[r cur]|e]; cbn [fst]; [|now left]. right. destruct (utf8_out (json_out r)) as [b|]; cbn [fst]; [|now left].
  apply in_map_iff. exists (length b). split; [now rewrite firstn_all|]. apply in_seq. lia.
Qed.
Print Assumptions C126_moments.
(** It may be neither: then it can't be read. *)
Theorem C126_refuted : exists d files d' old, In d' (put_states d files) /\ contains d (s "layer-details.json") (s "{}") /\ contains d' (s "layer-details.json") old /\ read_json old = None.
Proof.
  set (d := (details_name, s "{}") :: odisk). exists d, [s "z.py"], (aset details_name (firstn 3 (json_out [(s "Scale", Some (s "S"))])) d), (firstn 3 (json_out [(s "Scale", Some (s "S"))])).
  split; [|split; [exists (s "{}"); split; vm_compute; reflexivity|]; split; [exists (firstn 3 (json_out [(s "Scale", Some (s "S"))])); split; vm_compute; reflexivity|vm_compute; reflexivity]].
  right. assert (E : details_files ([], None) d [s "z.py"] = Ok ([(s "Scale", Some (s "S"))], Some (s "Scale"))) by (vm_compute; reflexivity). rewrite E.
  assert (U : utf8_out (json_out [(s "Scale", Some (s "S"))]) = Some (json_out [(s "Scale", Some (s "S"))])) by (vm_compute; reflexivity). rewrite U. apply in_map_iff. exists 3%nat. split; [reflexivity|]. apply in_seq. split; [lia|].
  assert (L : (3 < length (json_out [(s "Scale", Some (s "S"))]))%nat) by (apply Nat.ltb_lt; vm_compute; reflexivity). lia.
Qed.
Print Assumptions C126_refuted.
Example C126_nonvacuous : In odisk (put_states odisk [s "z.py"]) /\ exists d', In d' (put_states odisk [s "z.py"]) /\ ~ same_file odisk d' (s "layer-details.json").
Proof.
  destruct (C126_moments odisk [s "z.py"]) as [A B]. split; [exact A|]. exists (fst (put_symbols odisk [s "z.py"])). split; [exact B|]. unfold same_file. vm_compute. discriminate.
Qed.
