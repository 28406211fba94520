(** The theorems about making words appear in time with subtitles.

    A subtitle is (start, duration, text), in milliseconds. [letter] says whether letters appear one at a time, rather than words.
    [st] is the class of the layer that was constructed last (C94), and [order] the order in which Python goes through a set: the theorems
    hold for all of them. *)
From Coq Require Import Lia Lqa Qabs Permutation Sorting.Sorted.
From Verif Require Import DocProofs LaySpec LayProofs LayProofs5 AnimSpec AnimProofs2 AnimProofs4 AnimProofs5 TlSpec PyFloatProofs.
From Verif Require Import BywModel BywSpec BywProofs BywProofs2 BywProofs3 BywProofs4 BywProofs6 BywProofs7 BywProofs8 BywProofs9 BywProofs10 BywProofs11 BywProofs12 BywProofs15.
From Verif Require LayProps.
Local Open Scope N_scope.

(** ** Examples to use *)

Definition xtext (d : pstr) : node := El (s "layer") [(s "desc", AStr d); (s "type", AStr (s "text"))] [El (s "param") [(s "name", AStr (s "text"))] [El (s "string") [] [Txt d]]].
Definition xgroup (d : pstr) (ts : list node) : node :=
  El (s "layer") [(s "desc", AStr d); (s "type", AStr (s "group"))] [El (s "param") [(s "name", AStr (s "canvas"))] [El (s "canvas") [] ts]].
Definition xdoc (k : list node) : node := El (s "canvas") [(s "fps", AStr (s "24.000"))] k.
(** Two groups; the texts of the first are in the order of the file, which is from the back to the front *)
Definition xwords : node :=
  xdoc [xgroup (s "Bywords-1") [xtext (s "big, world"); xtext (s "Hello")]; xgroup (s "bywords-2") [xtext (s "Bye")]; xgroup (s "other") [xtext (s "No")]].
Definition xF : forest := doc_forest xwords.
Definition xroot_of (F : forest) : inode := match doc_top F with Some r => r | None => IT [] end.
Definition xroot : inode := xroot_of xF.
Definition xgs : list bgroup := match bywords_groups cls_Layer xF xroot with Ok l => l | Err _ => [] end.
Definition xsrt : list (Z * Z * pstr) := [(1000%Z, 2000%Z, s "Hello: big world!"); (4000%Z, 1000%Z, s "Who?")].

Definition text_tag (F : forest) (u : N) : option inode :=
  match fget u F with
  | Some n => match ifind (is_param (s "text")) n with
              | Some p => match filter itag (ikids p) with [x] => Some x | _ => None end
              | None => None
              end
  | None => None
  end.
Lemma text_tag_at F u x : text_tag F u = Some x -> text_at F u (iuid x) (forget x).
Proof.
  unfold text_tag. destruct (fget u F) as [n|] eqn:En; [|discriminate]. destruct (ifind (is_param (s "text")) n) as [p|] eqn:Ep; [|discriminate].
  destruct (filter itag (ikids p)) as [|y [|]] eqn:Ek; try discriminate. intros [= <-]. exists n, p, y. auto.
Qed.
Definition xval (F : forest) (u : N) : N := match text_tag F u with Some x => iuid x | None => 0 end.
Definition xold (F : forest) (u : N) : node := match text_tag F u with Some x => forget x | None => Txt [] end.
Definition apart_b (F : forest) (u u' : N) : bool :=
  match fget u F, fget u' F with Some n, Some n' => forallb (fun y => negb (existsb (N.eqb y) (uids n'))) (uids n) | _, _ => true end.
Lemma apart_check F u u' : apart_b F u u' = true -> apart F u u'.
Proof.
  unfold apart_b. intros H n n' y Hn Hn' Hy Hy'. rewrite Hn, Hn' in H. rewrite forallb_forall in H. specialize (H y Hy).
  assert (E : existsb (N.eqb y) (uids n') = true) by (apply existsb_exists; exists y; split; [exact Hy'|apply N.eqb_refl]). now rewrite E in H.
Qed.
(** Documents whose texts are not animated *)
Lemma suits_check (n : node) r gs (f : Q) : is_tag n = true -> doc_top (doc_forest n) = Some r -> iname r = s "canvas" -> ctx_fps (Some (iattrs r)) = Ok (Some f) -> (0 <= f)%Q ->
  bywords_groups cls_Layer (doc_forest n) r = Ok gs -> NoDup (map bt_layer (all_texts gs)) ->
  forallb (fun t => match text_tag (doc_forest n) (bt_layer t) with Some x => itag x && pstr_eqb (iname x) (s "string") | None => false end) (all_texts gs) = true ->
  forallb (fun t => forallb (fun t' => (bt_layer t =? bt_layer t') || apart_b (doc_forest n) (bt_layer t) (bt_layer t')) (all_texts gs)) (all_texts gs) = true ->
  suits cls_Layer (doc_forest n) r gs f (xval (doc_forest n)) (xold (doc_forest n)) (xold (doc_forest n)).
Proof.
  intros Ht Hr Hc Hf H0 Hg Hn H1 H2. destruct (doc_forest_root n r Ht Hr) as (Hw & Hro & _). rewrite forallb_forall in H1, H2. split; auto.
  - intros t Hi. specialize (H1 t Hi). unfold xval, xold. destruct (text_tag (doc_forest n) (bt_layer t)) as [x|] eqn:E; [|discriminate]. now apply text_tag_at.
  - intros t t' Hi Hi' Hne. specialize (H2 t Hi). rewrite forallb_forall in H2. specialize (H2 t' Hi'). apply Bool.orb_prop in H2 as [H2|H2]; [apply N.eqb_eq in H2; contradiction|]. now apply apart_check.
  - intros t Hi. specialize (H1 t Hi). unfold xold. destruct (text_tag (doc_forest n) (bt_layer t)) as [[|u nm a k]|] eqn:E; try discriminate. apply andb_prop in H1 as [_ H1].
    apply pstr_eqb_spec in H1. cbn [iname] in H1. subst nm. apply still_static; reflexivity.
Qed.
Lemma xwords_suit : suits cls_Layer xF xroot xgs 24 (xval xF) (xold xF) (xold xF).
Proof.
  apply suits_check; try (vm_compute; reflexivity); [discriminate|].
  assert (E : map bt_layer (all_texts xgs) = [8; 5; 14]) by (vm_compute; reflexivity). rewrite E. repeat constructor; cbn [In]; intuition discriminate.
Qed.
Definition xlines : list (Z * Z * pstr) := [(1000%Z, 2000%Z, s "hello big world"); (4000%Z, 1000%Z, s "who")].
Lemma xlines_are : map tidy_line xsrt = xlines.
Proof. vm_compute. reflexivity. Qed.
Definition xg : bgroup := match group_for xgs (s "hello big world") with Some g => g | None => mkGroup [] [] end.
Lemma xlines_match : group_for xgs (s "hello big world") = Some xg /\ group_for xgs (s "who") = None /\ map wd_text (shown false xg) = [s "Hello"; s "big,"; s "big, world"].
Proof. split; [|split]; vm_compute; reflexivity. Qed.
Lemma xlines_paced : Forall (line_paced false xgs) xlines /\ no_overlap xlines /\ (forall line g, In line xlines -> group_for xgs (snd line) = Some g -> shown false g <> []).
Proof.
  destruct xlines_match as (M1 & M2 & M3). revert M1 M2 M3. generalize xgs xg. intros gs g0 M1 M2 M3. split; [|split].
  - constructor; [|constructor; [|constructor]]; intros g Hg; [rewrite M1 in Hg|rewrite M2 in Hg; discriminate Hg]. injection Hg as <-. rewrite M3.
    split; [split; [lia|split]|].
    + repeat constructor; discriminate.
    + vm_compute. discriminate.
    + split; [vm_compute; discriminate|left; lia].
  - repeat constructor; vm_compute; discriminate.
  - intros line g [<-|[<-|[]]] Hg; cbn [snd] in Hg; [rewrite M1 in Hg|rewrite M2 in Hg; discriminate Hg]. injection Hg as <-. intros E. rewrite E in M3. discriminate M3.
Qed.
Lemma xtimely : timely false xgs xlines.
Proof. destruct xlines_paced as (P1 & _ & P3). rewrite <- xlines_are in *. exact (paced_timely false xsrt xgs P1 P3). Qed.

(** ** C62 the texts grow to the whole line *)

(** Each text is a beginning of the layer's, longer than the one before. *)
Theorem C62_texts_grow : forall letter desc, growing (word_texts letter desc) /\ Forall (fun p => p <> [] /\ prefix p desc) (word_texts letter desc).
Proof. intros letter desc. split; [apply word_texts_growing|]. apply Forall_forall. intros p Hp. now apply (word_texts_prefix letter). Qed.
Print Assumptions C62_texts_grow.
(** What is missing: if the text ends with a space, the last one shown lacks it. *)
Theorem C62_whole_line_partial : forall letter q c, is_space c = false -> last (word_texts letter (q ++ [c])) [] = q ++ [c].
Proof. exact word_texts_last. Qed.
Print Assumptions C62_whole_line_partial.
Theorem C62_whole_line_refuted : exists letter desc, last (word_texts letter desc) [] <> desc.
Proof. exists false, (s "a "). vm_compute. discriminate. Qed.
Print Assumptions C62_whole_line_refuted.
(** Which texts they are: the beginnings up to the end of a word, or up to a letter. *)
Theorem C62_words_partial : forall desc, plain_words desc -> forall p, In p (word_texts false desc) <-> up_to_word desc p.
Proof. exact word_texts_words. Qed.
Print Assumptions C62_words_partial.
Theorem C62_letters_partial : forall desc, single_spaces desc -> forall p, In p (word_texts true desc) <-> up_to_letter desc p.
Proof. exact word_texts_letters. Qed.
Print Assumptions C62_letters_partial.
(** A blank at the beginning counts as a word; with two spaces side by side, the second does as a letter. *)
Theorem C62_words_refuted : exists desc p, In p (word_texts false desc) /\ ~ up_to_word desc p.
Proof.
  exists (s " a"), (s " "). split; [left; reflexivity|]. intros (q & c & r & E & N & _). destruct q as [|x [|y q]]; cbn in E; try discriminate. injection E as <-. apply N. now left.
Qed.
Print Assumptions C62_words_refuted.
Theorem C62_letters_refuted : exists desc p, In p (word_texts true desc) /\ ~ up_to_letter desc p.
Proof.
  exists (s "a  b"), (s "a  "). split; [right; left; reflexivity|]. intros (q & c & r & E & N & _).
  destruct q as [|x1 [|x2 [|x3 [|x4 q]]]]; cbn in E; try discriminate. injection E as _ _ <-. discriminate N.
Qed.
Print Assumptions C62_letters_refuted.
(** On the timeline: if one subtitle only has the text of the group g, then the timeline of each of its text layers shows these texts, in their order,
    and nothing else, but for an empty text at the beginning. The subtitles don't overlap, and leave enough time. *)
Theorem C62_timeline_partial : forall st letter F root srt gs f val old calm order l1 line l2 g t,
  suits st F root gs f val old calm -> ((1 # 1000) <= f)%Q -> (forall l, Permutation (order l) l) ->
  Forall (line_paced letter gs) (map tidy_line srt) -> no_overlap (map tidy_line srt) ->
  (forall line' g', In line' (map tidy_line srt) -> group_for gs (snd line') = Some g' -> shown letter g' <> []) ->
  map tidy_line srt = l1 ++ line :: l2 -> group_for gs (snd line) = Some g -> (forall line', In line' (l1 ++ l2) -> group_for gs (snd line') <> Some g) ->
  In t (bg_texts g) -> bt_desc t <> [] ->
  exists F' first l, adjust order st letter F root srt = (F', Ok tt) /\ text_at F' (bt_layer t) (val (bt_layer t)) (animated_string (first ++ l)) /\ in_order (first ++ l) /\
    (first = [] \/ first = [shows f 0 []]) /\ map w_val l = map string_node (word_texts letter (bt_desc t)).
Proof.
  intros st letter F root srt gs f val old calm order l1 [[start duration] text] l2 g t Su Hf Ho P O Sh El G Hu Ht Hd. cbn [snd] in G.
  pose proof (group_for_In _ _ _ G) as Hg. assert (Hta : In t (all_texts gs)) by (unfold all_texts; apply in_flat_map; eauto).
  destruct (words_shown st letter F root srt gs f val old calm Su order Hf P O Sh Ho) as (F' & A & X). specialize (X t Hta).
  assert (Hl : In (start, duration, text) (map tidy_line srt)) by (rewrite El; apply in_or_app; right; now left).
  assert (Hm : In (bt_layer t) (matched gs (map tidy_line srt))).
  { unfold matched. apply in_flat_map. eexists. split; [exact Hl|]. cbn [snd]. rewrite G. now apply in_map. }
  specialize (X Hm). rewrite El in X. rewrite (only_line letter gs l1 (start, duration, text) l2 g t) in X; auto; [|apply Su].
  set (ws := filter (fun w => wd_layer w =? bt_layer t) (line_words letter gs (start, duration, text))) in *. cbv zeta in X.
  assert (L : letters (shown letter g) <> 0%Z).
  { rewrite letters_total. rewrite Forall_forall in P. destruct (P _ Hl g G) as ((_ & Ne & _) & _). pose proof (total_count _ Ne) as C. rewrite map_length in C.
    specialize (Sh _ _ Hl G). destruct (shown letter g); [contradiction|]. cbn [length] in C. lia. }
  assert (Ew : map wd_text ws = word_texts letter (bt_desc t)) by (apply (line_texts letter gs start duration text g t); auto; apply Su).
  assert (Hw : ws <> []).
  { intros E. rewrite E in Ew. cbn [map] in Ew. unfold word_texts in Ew. symmetry in Ew. apply map_eq_nil, word_ends_nil in Ew. apply Hd. rewrite <- (split_words_concat letter (bt_desc t)), Ew. reflexivity. }
  destruct (X Hw) as [X1 X2]. rewrite X2 in X1. exists F'. eexists. eexists. split; [exact A|]. split; [exact X1|]. split; [rewrite <- X2; apply showing_order|].
  split; [destruct ws; [contradiction|]; destruct (Qeq_bool _ 0); auto|]. rewrite map_map. rewrite <- Ew, map_map. reflexivity.
Qed.
Print Assumptions C62_timeline_partial.
Definition xt : btext := mkText (0, 1)%nat 5 (s "big, world").
Example C62_timeline_nonvacuous : exists F' first l, adjust (fun l => l) cls_Layer false xF xroot xsrt = (F', Ok tt) /\
  text_at F' 5 (xval xF 5) (animated_string (first ++ l)) /\ in_order (first ++ l) /\ (first = [] \/ first = [shows 24 0 []]) /\ map w_val l = map string_node [s "big,"; s "big, world"].
Proof.
  destruct xlines_paced as (P1 & P2 & P3). destruct xlines_match as (M1 & M2 & _).
  assert (Ht : In xt (bg_texts xg)) by (assert (E : nth_error (bg_texts xg) 1 = Some xt) by (vm_compute; reflexivity); exact (nth_error_In _ _ E)).
  rewrite <- xlines_are in P1, P2, P3.
  assert (Q1 : ((1 # 1000) <= 24)%Q) by (vm_compute; discriminate).
  assert (Q2 : forall l : list (nat * nat * N), Permutation l l) by (intros; apply Permutation_refl).
  assert (Q3 : forall line', In line' ([] ++ [(4000%Z, 1000%Z, s "who")]) -> group_for xgs (snd line') <> Some xg).
  { intros line' [<-|[]]. cbn [snd]. rewrite M2. discriminate. }
  assert (Q4 : bt_desc xt <> []) by discriminate.
  exact (C62_timeline_partial cls_Layer false xF xroot xsrt xgs 24 (xval xF) (xold xF) (xold xF) (fun l => l) [] (1000%Z, 2000%Z, s "hello big world") [(4000%Z, 1000%Z, s "who")] xg xt
    xwords_suit Q1 Q2 P1 P2 P3 xlines_are M1 Q3 Ht Q4).
Qed.
Example C62_nonvacuous : plain_words (s "big, world") /\ single_spaces (s "big w") /\ word_texts false (s "big, world") = [s "big,"; s "big, world"] /\
  word_texts true (s "big w") = [s "b"; s "bi"; s "big"; s "big w"].
Proof.
  split; [|split; [|split; vm_compute; reflexivity]].
  - split; [intros c H E; vm_compute in H; repeat (destruct H as [<-|H]; [first [discriminate E|now left]|]); contradiction|]. intros c r [= <- _] H. vm_compute in H. intuition discriminate.
  - split; [intros c r [= <- _]; reflexivity|]. intros q a b r E. destruct q as [|? [|? [|? [|? [|? q]]]]]; cbn in E; try discriminate E; injection E; intros; subst; auto. destruct q; discriminate.
Qed.

(** ** C63 the times of the words of a line *)

(** What is missing: a subtitle that ends before it begins. *)
Theorem C63_never_back_partial : forall letter gs start duration text, (Z.abs start <= 2 ^ 53)%Z -> (0 <= duration)%Z ->
  ascending (map wd_time (line_words letter gs (start, duration, text))).
Proof.
  intros letter gs start duration text H1 H2. unfold line_words. destruct (group_for gs text) as [g|]; [|exact I].
  destruct (timed start duration (shown letter g)) as [r|] eqn:E; [|exact I]. now apply (timed_ascending start duration (shown letter g)).
Qed.
Print Assumptions C63_never_back_partial.
Theorem C63_never_back_refuted : exists letter gs start duration text, ~ ascending (map wd_time (line_words letter gs (start, duration, text))).
Proof.
  exists false, [mkGroup (s "bywords") [mkText (0, 0)%nat 1 (s "a b")]], 2000%Z, (-1000)%Z, (s "a b"). vm_compute. intros [H _]. apply H. reflexivity.
Qed.
Print Assumptions C63_never_back_refuted.
(** The first word appears at the start, to the nearest float, the others not before and none after the end. What is missing: subtitles with very many letters for
    their time, or later than 49 days. *)
Theorem C63_within_partial : forall letter gs start duration text, line_paced letter gs (start, duration, text) ->
  Forall (fun w => (rnd64 (inject_Z start / 1000) <= wd_time w)%Q /\ (1000 * wd_time w <= inject_Z (start + duration))%Q) (line_words letter gs (start, duration, text)) /\
  match line_words letter gs (start, duration, text) with w :: _ => wd_time w = rnd64 (inject_Z start / 1000) | [] => True end.
Proof.
  intros letter gs start duration text P. unfold line_words. destruct (group_for gs text) as [g|] eqn:G; [|split; [constructor|exact I]].
  destruct (timed start duration (shown letter g)) as [r|] eqn:E; [|split; [constructor|exact I]]. destruct (P g G) as (Sl & Hg & _). rewrite map_length in Hg.
  pose proof (timed_gap _ _ _ _ Sl Hg E) as A. pose proof (timed_after_start _ _ _ _ Sl E) as B. split.
  - rewrite Forall_forall in *. intros w Hw. split; [now apply B|]. specialize (A w Hw). pose proof (pow2_pos (-18)). lra.
  - destruct (shown letter g) as [|w l]; [discriminate E|]. destruct (timed_first _ _ _ _ _ E) as (v & r' & -> & Ev). exact Ev.
Qed.
Print Assumptions C63_within_partial.
Theorem C63_within_refuted : exists letter gs start duration text w, (0 <= start /\ 0 <= duration)%Z /\ In w (line_words letter gs (start, duration, text)) /\
  (inject_Z (start + duration) < 1000 * wd_time w)%Q.
Proof.
  pose (gs := [mkGroup (s "bywords") (map (fun x => mkText (0, length x)%nat 1 x) [s "ab"; s "abc"; s "abcdefg"; s "abcdef"; s "abcdefgh"; s "a"])]).
  pose (ws := line_words false gs (4503599627370496%Z, 7%Z, s "ab abc abcdefg abcdef abcdefgh a")).
  assert (E : nth_error ws 5 = Some (nth 5 ws (mkWord [] (0, 0)%nat 0 0))) by (vm_compute; reflexivity).
  exists false, gs, 4503599627370496%Z, 7%Z, (s "ab abc abcdefg abcdef abcdefgh a"), (nth 5 ws (mkWord [] (0, 0)%nat 0 0)).
  split; [lia|]. split; [exact (nth_error_In _ _ E)|]. vm_compute. reflexivity.
Qed.
Print Assumptions C63_within_refuted.
(** The time of each word is close to the ideal one: the pause after a text is proportional to its length. *)
Theorem C63_close_partial : forall letter gs start duration text g l1 w l2, group_for gs text = Some g ->
  sane_line start duration (map wd_text (shown letter g)) -> total_length (map wd_text (shown letter g)) <> 0%Z -> shown letter g = l1 ++ w :: l2 ->
  exists v, nth_error (line_words letter gs (start, duration, text)) (length l1) = Some v /\ wd_text v = wd_text w /\ wd_layer v = wd_layer w /\
    (Qabs (1000 * wd_time v - ideal start duration (map wd_text l1) (map wd_text (shown letter g))) <= inject_Z (Z.of_nat (length l1) + 1) * (1 # 262144))%Q.
Proof.
  intros letter gs start duration text g l1 w l2 G Sl Hn E. unfold line_words. rewrite G. destruct (timed start duration (shown letter g)) as [r|] eqn:Et.
  - destruct (timed_close _ _ _ _ Sl Et l1 w l2 E) as (v & V1 & V2 & _ & V3 & V4). exists v. auto.
  - unfold timed in Et. rewrite letters_total in Et. destruct (_ =? 0)%Z eqn:E0; [apply Z.eqb_eq in E0; contradiction|discriminate].
Qed.
Print Assumptions C63_close_partial.
Example C63_nonvacuous : line_paced false xgs (1000%Z, 2000%Z, s "hello big world") /\ map wd_text (line_words false xgs (1000%Z, 2000%Z, s "hello big world")) = [s "Hello"; s "big,"; s "big, world"] /\
  sane_line 1000 2000 (map wd_text (shown false xg)) /\ total_length (map wd_text (shown false xg)) = 19%Z.
Proof.
  destruct xlines_paced as (P1 & _ & _). destruct xlines_match as (M1 & M2 & M3). split; [exact (Forall_inv P1)|]. split; [vm_compute; reflexivity|]. split.
  - apply (Forall_inv P1). exact M1.
  - rewrite M3. reflexivity.
Qed.

(** ** C64 no word is lost *)

(** The words that are kept: for each time, the last that has it. *)
Theorem C64_kept : forall st letter F root srt F1 words no, bywords st letter F root srt = (F1, Ok (words, no)) ->
  exists gs, bywords_groups st F root = Ok gs /\ StronglySorted (fun a b => (wd_time a < wd_time b)%Q) words /\
    forall w, In w words <-> last_at (flat_map (line_words letter gs) (map tidy_line srt)) w.
Proof. intros st letter F root srt F1 words no H. destruct (bywords_ok _ _ _ _ _ _ _ _ H) as (gs & H1 & _ & H2 & H3). eauto. Qed.
Print Assumptions C64_kept.
(** Each text that is to be shown has a time, and it is shown by its layer then. What is missing: subtitles that overlap, or that leave too little time. *)
Theorem C64_no_word_lost_partial : forall st letter F root srt gs f val old calm order,
  suits st F root gs f val old calm -> ((1 # 1000) <= f)%Q -> (forall l, Permutation (order l) l) ->
  Forall (line_paced letter gs) (map tidy_line srt) -> no_overlap (map tidy_line srt) ->
  (forall line g, In line (map tidy_line srt) -> group_for gs (snd line) = Some g -> shown letter g <> []) ->
  exists F', adjust order st letter F root srt = (F', Ok tt) /\
    forall line g, In line (map tidy_line srt) -> group_for gs (snd line) = Some g ->
      map wd_text (line_words letter gs line) = map wd_text (shown letter g) /\ map wd_layer (line_words letter gs line) = map wd_layer (shown letter g) /\
      forall w, In w (line_words letter gs line) ->
        exists l, text_at F' (wd_layer w) (val (wd_layer w)) (animated_string l) /\ In (shows f (rnd64 (wd_time w * f)) (wd_text w)) l.
Proof.
  intros st letter F root srt gs f val old calm order Su Hf Ho P O Sh. destruct (words_shown st letter F root srt gs f val old calm Su order Hf P O Sh Ho) as (F' & A & X).
  exists F'. split; [exact A|]. intros [[start duration] text] g Hl G. cbn [snd] in G.
  assert (L : letters (shown letter g) <> 0%Z).
  { rewrite letters_total. rewrite Forall_forall in P. destruct (P _ Hl g G) as ((_ & Ne & _) & _). pose proof (total_count _ Ne) as C. rewrite map_length in C.
    specialize (Sh _ _ Hl G). destruct (shown letter g); [contradiction|]. cbn [length] in C. lia. }
  assert (E : line_words letter gs (start, duration, text) = set_times (rnd64 (inject_Z duration / inject_Z (letters (shown letter g)))) (inject_Z start) (shown letter g)).
  { unfold line_words, timed. rewrite G. destruct (_ =? 0)%Z eqn:E0; [apply Z.eqb_eq in E0; contradiction|reflexivity]. }
  split; [rewrite E; apply set_times_texts|]. split; [rewrite E; apply set_times_layers|]. intros w Hw.
  pose proof (line_words_of letter gs (start, duration, text)) as Of. rewrite Forall_forall in Of. destruct (Of w Hw) as (_ & g' & Hg' & t & Ht & _ & Et).
  assert (Hta : In t (all_texts gs)) by (unfold all_texts; apply in_flat_map; exists g'; split; [now apply (group_for_In gs text)|exact Ht]).
  assert (Hm : In (bt_layer t) (matched gs (map tidy_line srt))) by (unfold matched; apply in_flat_map; eexists; split; [exact Hl|]; rewrite Hg'; now apply in_map).
  specialize (X t Hta Hm). cbv zeta in X. rewrite <- Et in X.
  assert (Hi : In w (filter (fun w' => wd_layer w' =? wd_layer w) (flat_map (line_words letter gs) (map tidy_line srt)))).
  { apply filter_In. split; [apply in_flat_map; eauto|apply N.eqb_refl]. }
  destruct X as [X1 X2]; [intros C; rewrite C in Hi; contradiction|]. eexists. split; [exact X1|]. rewrite X2. apply in_or_app. right. exact (in_map (showing_word f) _ _ Hi).
Qed.
Print Assumptions C64_no_word_lost_partial.
(** A subtitle with no duration loses all words but the last. *)
Theorem C64_refuted : exists st letter F root srt gs F1 words no w, bywords_groups st F root = Ok gs /\ bywords st letter F root srt = (F1, Ok (words, no)) /\
  In w (flat_map (line_words letter gs) (map tidy_line srt)) /\ ~ In (wd_text w) (map wd_text words).
Proof.
  pose (srt := [(1000%Z, 0%Z, s "Hello big world")]). pose (ws := flat_map (line_words false xgs) (map tidy_line srt)).
  destruct (bywords cls_Layer false xF xroot srt) as [F1 [[words no]|]] eqn:B; [|vm_compute in B; discriminate B].
  assert (E : map wd_text words = [s "big, world"]) by (change words with (fst (words, no)); assert (X : snd (bywords cls_Layer false xF xroot srt) = Ok (words, no)) by (now rewrite B); vm_compute in X; injection X as <- _; reflexivity).
  assert (E0 : nth_error ws 0 = Some (nth 0 ws (mkWord [] (0, 0)%nat 0 0))) by (vm_compute; reflexivity).
  assert (E1 : wd_text (nth 0 ws (mkWord [] (0, 0)%nat 0 0)) = s "Hello") by (vm_compute; reflexivity).
  exists cls_Layer, false, xF, xroot, srt, xgs, F1, words, no, (nth 0 ws (mkWord [] (0, 0)%nat 0 0)). split; [apply xwords_suit|]. split; [exact B|]. split; [exact (nth_error_In _ _ E0)|].
  rewrite E, E1. intros [C|[]]. discriminate C.
Qed.
Print Assumptions C64_refuted.
Example C64_nonvacuous : exists F', adjust (@rev _) cls_Layer false xF xroot xsrt = (F', Ok tt) /\
    forall line g, In line (map tidy_line xsrt) -> group_for xgs (snd line) = Some g ->
      map wd_text (line_words false xgs line) = map wd_text (shown false g) /\ map wd_layer (line_words false xgs line) = map wd_layer (shown false g) /\
      forall w, In w (line_words false xgs line) ->
        exists l, text_at F' (wd_layer w) (xval xF (wd_layer w)) (animated_string l) /\ In (shows 24 (rnd64 (wd_time w * 24)) (wd_text w)) l.
Proof.
  destruct xlines_paced as (P1 & P2 & P3). rewrite <- xlines_are in P1, P2, P3.
  assert (Q1 : ((1 # 1000) <= 24)%Q) by (vm_compute; discriminate).
  assert (Q2 : forall l : list (nat * nat * N), Permutation (rev l) l) by (intros; apply Permutation_sym, Permutation_rev).
  exact (C64_no_word_lost_partial cls_Layer false xF xroot xsrt xgs 24 (xval xF) (xold xF) (xold xF) (@rev _) xwords_suit Q1 Q2 P1 P2 P3).
Qed.

(** ** C65 only layers that match are touched *)

Lemma unmatched_is gs line : unmatched gs line = negb (existsb (fun g => pstr_eqb (snd line) (full_text g)) gs).
Proof. unfold unmatched, group_for. induction gs as [|g gs IH]; [reflexivity|]. cbn [find existsb]. destruct (pstr_eqb (snd line) (full_text g)); [reflexivity|]. exact IH. Qed.
Theorem C65_reported : forall st letter F root srt F1 words no, bywords st letter F root srt = (F1, Ok (words, no)) ->
  exists gs, bywords_groups st F root = Ok gs /\
    no = map snd (filter (fun line => negb (existsb (fun g => pstr_eqb (snd line) (full_text g)) gs)) (map tidy_line srt)).
Proof.
  intros st letter F root srt F1 words no H. destruct (bywords_ok _ _ _ _ _ _ _ _ H) as (gs & H1 & H2 & _). exists gs. split; [exact H1|]. rewrite H2. f_equal. apply filter_ext. apply unmatched_is.
Qed.
Print Assumptions C65_reported.
(** The text layers that don't match are as they were. So is every tag that neither has the text of a layer that matches in it nor is in one. What is missing:
    text layers that are in two bywords groups, or have no text; times below a tenth of a millisecond (C101). *)
Theorem C65_untouched_partial : forall st letter F root srt gs f val old calm order,
  suits st F root gs f val old calm -> timely letter gs (map tidy_line srt) -> (forall l, Permutation (order l) l) ->
  exists F', adjust order st letter F root srt = (F', Ok tt) /\ wf F' /\
    (forall t, In t (all_texts gs) -> ~ In (bt_layer t) (matched gs (map tidy_line srt)) -> exists n, fget (bt_layer t) F = Some n /\ fget (bt_layer t) F' = Some n) /\
    (forall u n, fget u F = Some n -> (forall w, In w (matched gs (map tidy_line srt)) -> ~ In (val w) (uids n)) ->
       (forall w x, In w (matched gs (map tidy_line srt)) -> fget (val w) F = Some x -> ~ In u (uids x)) -> fget u F' = Some n).
Proof.
  intros st letter F root srt gs f val old calm order Su T Ho. destruct (suits_adjust st letter F root srt gs f val old calm Su order T Ho) as (F1 & ws & no & new & B & F2 & A & W & H & _).
  exists F2. split; [exact A|]. split; [exact W|]. split.
  - intros t Ht Hm. destruct (unmatched_kept st F root srt gs f val old calm Su F2 t W H Ht Hm) as [E1 E2]. destruct (fget (bt_layer t) F) as [n|]; [|contradiction]. eauto.
  - intros u n Hn H1 H2. now apply (others_kept st F root srt gs f val old calm Su).
Qed.
Print Assumptions C65_untouched_partial.
Fixpoint texts_in (n : node) : list pstr := match n with Txt x => [x] | El _ _ k => flat_map texts_in k end.
Fixpoint labels (n : node) : list pstr := match n with Txt _ => [] | El nm _ k => nm :: flat_map labels k end.
Example C65_nonvacuous : exists F', adjust (@rev _) cls_Layer false xF xroot xsrt = (F', Ok tt) /\ wf F' /\
  (exists n, fget 14 xF = Some n /\ fget 14 F' = Some n) /\ map forget F' <> map forget xF.
Proof.
  assert (Q2 : forall l : list (nat * nat * N), Permutation (rev l) l) by (intros; apply Permutation_sym, Permutation_rev). pose proof xtimely as T. rewrite <- xlines_are in T.
  destruct (C65_untouched_partial cls_Layer false xF xroot xsrt xgs 24 (xval xF) (xold xF) (xold xF) (@rev _) xwords_suit T Q2) as (F' & A & W & U & _). exists F'. split; [exact A|]. split; [exact W|]. split.
  - assert (E : nth_error (all_texts xgs) 2 = Some (mkText (1, 0)%nat 14 (s "Bye"))) by (vm_compute; reflexivity).
    apply (U (mkText (1, 0)%nat 14 (s "Bye")) (nth_error_In _ _ E)). assert (M : matched xgs (map tidy_line xsrt) = [8; 5]) by (vm_compute; reflexivity). rewrite M. intros [C|[C|[]]]; discriminate C.
  - change F' with (fst (F', @Ok unit tt)). rewrite <- A. intros C. apply (f_equal (fun l => length (flat_map labels l))) in C. vm_compute in C. discriminate C.
Qed.

(** Whatever the document is and whether it works or not, all that may have changed is what is inside the text layers that match; any other tag that neither has one of
    them in it nor is in one is the same. If the groups can't be found, nothing changes. *)
Theorem C65_untouched : forall order st letter F root srt F' r, wf F -> (forall l, Permutation (order l) l) -> adjust order st letter F root srt = (F', r) ->
  (exists e, bywords_groups st F root = Err e /\ F' = F /\ r = Err e) \/
  exists gs, bywords_groups st F root = Ok gs /\ let M := matched gs (map tidy_line srt) in
    wf F' /\ map (hollow M) F' = map (hollow M) F /\
    (forall u n, fget u F = Some n -> (forall w, In w M -> ~ In w (uids n)) -> (forall w x, In w M -> fget w F = Some x -> ~ In u (uids x)) -> fget u F' = Some n).
Proof.
  intros order st letter F root srt F' r W O H. destruct (adjust_keeps order st letter F root srt F' r W O H) as [(gs & G & K1 & K2)|E]; [right|now left].
  exists gs. split; [exact G|]. cbv zeta. split; [exact K1|]. split; [exact K2|]. intros u n Hn H1 H2. exact (hollow_keeps _ F F' u n W K1 K2 Hn H1 H2).
Qed.
Print Assumptions C65_untouched.
(** A matched text layer in two groups has no text: adjusting raises KeyError. The layer that doesn't match is as before. *)
Definition xbroken : node :=
  xdoc [xgroup (s "bywords-1") [xgroup (s "bywords-2") [El (s "layer") [(s "desc", AStr (s "no")); (s "type", AStr (s "text"))] []]; xtext (s "hi")]; xgroup (s "bywords-3") [xtext (s "Bye")]].
Example C65_nonvacuous2 : let F := doc_forest xbroken in let r := xroot_of F in let gs := match bywords_groups cls_Layer F r with Ok l => l | Err _ => [] end in
  let srt := [(1000%Z, 2000%Z, s "hi no")] in wf F /\ bywords_groups cls_Layer F r = Ok gs /\ snd (adjust (fun l => l) cls_Layer false F r srt) = Err KeyError /\
  matched gs (map tidy_line srt) = [9; 8] /\ (exists n, fget 15 F = Some n /\ iname n = s "layer" /\ fget 15 (fst (adjust (fun l => l) cls_Layer false F r srt)) = Some n).
Proof.
  cbv zeta. split; [apply (doc_forest_root xbroken (xroot_of (doc_forest xbroken))); vm_compute; reflexivity|]. split; [vm_compute; reflexivity|]. split; [vm_compute; reflexivity|]. split; [vm_compute; reflexivity|].
  exists (match fget 15 (doc_forest xbroken) with Some n => n | None => IT [] end). split; [vm_compute; reflexivity|]. split; vm_compute; reflexivity.
Qed.

(** ** C95 the groups *)

(** The groups are the group layers whose descriptions begin with bywords, in the order of these, and their texts the text layers in them, the last in the file first. What is
    missing: layers of types that aren't known, and documents with a field type_. *)
Theorem C95_groups_partial : forall st F root gs, plainly root -> bywords_groups st F root = Ok gs ->
  exists gs0, Permutation gs gs0 /\ Forall2 is_group (filter bywords_layer (idesc root)) gs0 /\ Sorted (fun a b => pstr_le (bg_desc a) (bg_desc b) = true) gs.
Proof. exact groups_found. Qed.
Print Assumptions C95_groups_partial.
(** They can always be found, unless a text layer has no description. *)
Theorem C95_found_partial : forall st F root, plainly root ->
  (forall n m, In n (idesc root) -> bywords_layer n = true -> In m (idesc n) -> layer_of_type (s "text") m = true -> desc_of m <> None) ->
  exists gs, bywords_groups st F root = Ok gs.
Proof. exact groups_can_be_found. Qed.
Print Assumptions C95_found_partial.
Theorem C95_refuted : exists F root, plainly root /\ root_of F root /\ bywords_groups cls_Layer F root = Err AttributeError.
Proof.
  pose (d := xdoc [xgroup (s "bywords") [El (s "layer") [(s "type", AStr (s "text"))] [El (s "param") [(s "name", AStr (s "text"))] [El (s "string") [] [Txt (s "a")]]]]]).
  exists (doc_forest d), (xroot_of (doc_forest d)). split; [|split; [apply (doc_forest_root d (xroot_of (doc_forest d))); vm_compute; reflexivity|vm_compute; reflexivity]].
  split; [apply LayProps.all_known_check; vm_compute; reflexivity|]. apply no_type_check. vm_compute. reflexivity.
Qed.
Print Assumptions C95_refuted.
Lemma xwords_plainly : plainly xroot.
Proof. split; [apply LayProps.all_known_check; vm_compute; reflexivity|]. apply no_type_check. vm_compute. reflexivity. Qed.
Example C95_nonvacuous : plainly xroot /\ bywords_groups cls_Layer xF xroot = Ok xgs /\ length xgs = 2%nat /\
  (forall n m, In n (idesc xroot) -> bywords_layer n = true -> In m (idesc n) -> layer_of_type (s "text") m = true -> desc_of m <> None).
Proof.
  split; [exact xwords_plainly|]. split; [apply xwords_suit|]. split; [vm_compute; reflexivity|].
  assert (H : forallb (fun n => forallb (fun m => negb (layer_of_type (s "text") m) || match desc_of m with Some _ => true | None => false end) (idesc n)) (idesc xroot) = true) by (vm_compute; reflexivity).
  rewrite forallb_forall in H. intros n m Hn _ Hm Ht. specialize (H n Hn). rewrite forallb_forall in H. specialize (H m Hm). rewrite Ht in H. destruct (desc_of m); discriminate.
Qed.

(** ** C96 what adjusting does *)

(** The text of each layer that matches becomes a timeline with the words that were kept: nothing from the beginning, and each at its time. If none of its words was kept,
    it's no longer animated. *)
Theorem C96_exact_partial : forall st letter F root srt gs f val old calm order,
  suits st F root gs f val old calm -> timely letter gs (map tidy_line srt) -> (forall l, Permutation (order l) l) ->
  exists F1 words no F', bywords st letter F root srt = (F1, Ok (words, no)) /\ adjust order st letter F root srt = (F', Ok tt) /\
    forall t, In t (all_texts gs) -> In (bt_layer t) (matched gs (map tidy_line srt)) ->
      let ws := filter (fun w => wd_layer w =? bt_layer t) words in
      text_at F' (bt_layer t) (val (bt_layer t)) (match ws with [] => calm (bt_layer t) | _ => animated_string (showing f ws) end).
Proof.
  intros st letter F root srt gs f val old calm order Su T Ho. destruct (suits_adjust st letter F root srt gs f val old calm Su order T Ho) as (F1 & ws & no & new & B & F2 & A & W & H & X & Y).
  exists F1, ws, no, F2. split; [exact B|]. split; [exact A|]. intros t Ht Hm. pose proof (tx_at _ _ _ _ _ X (bt_layer t) (in_map _ _ _ Ht)) as X0. rewrite Y, (proj2 (mem_In _ _) Hm) in X0. cbv zeta. destruct (filter _ ws); exact X0.
Qed.
Print Assumptions C96_exact_partial.
(** The order in which Python goes through the set doesn't matter. *)
Theorem C96_order_partial : forall st letter F root srt gs f val old calm order order',
  suits st F root gs f val old calm -> timely letter gs (map tidy_line srt) -> (forall l, Permutation (order l) l) -> (forall l, Permutation (order' l) l) ->
  map forget (fst (adjust order st letter F root srt)) = map forget (fst (adjust order' st letter F root srt)).
Proof. intros st letter F root srt gs f val old calm order order' Su T O O'. exact (adjust_order st letter F root srt gs f val old calm Su order order' T O O'). Qed.
Print Assumptions C96_order_partial.
Example C96_nonvacuous : suits cls_Layer xF xroot xgs 24 (xval xF) (xold xF) (xold xF) /\ timely false xgs (map tidy_line xsrt) /\ In 5 (matched xgs (map tidy_line xsrt)) /\
  map forget (fst (adjust (fun l => l) cls_Layer false xF xroot xsrt)) = map forget (fst (adjust (@rev _) cls_Layer false xF xroot xsrt)).
Proof.
  pose proof xtimely as T. rewrite <- xlines_are in T. split; [exact xwords_suit|]. split; [exact T|]. split.
  - assert (M : matched xgs (map tidy_line xsrt) = [8; 5]) by (vm_compute; reflexivity). rewrite M. right. now left.
  - assert (Q2 : forall l : list (nat * nat * N), Permutation (rev l) l) by (intros; apply Permutation_sym, Permutation_rev).
    exact (C96_order_partial cls_Layer false xF xroot xsrt xgs 24 (xval xF) (xold xF) (xold xF) (fun l => l) (@rev _) xwords_suit T (fun l => Permutation_refl l) Q2).
Qed.

(** When a text layer is in two groups, its first word can be lost, depending on the order in which Python goes through a set: the other group's turn empties the beginning. *)
Definition xnested : node := xdoc [xgroup (s "bywords-1") [xtext (s "there"); xgroup (s "bywords-2") [xtext (s "hi")]]].
Definition xnested_srt : list (Z * Z * pstr) := [(0%Z, 1000%Z, s "Hi there"); (5000%Z, 1000%Z, s "Hi")].
Theorem C96_order_refuted : exists F root srt order order', wf F /\ root_of F root /\ plainly root /\ (forall l, Permutation (order l) l) /\ (forall l, Permutation (order' l) l) /\
  snd (adjust order cls_Layer false F root srt) = Ok tt /\ snd (adjust order' cls_Layer false F root srt) = Ok tt /\
  map forget (fst (adjust order cls_Layer false F root srt)) <> map forget (fst (adjust order' cls_Layer false F root srt)).
Proof.
  pose (F := doc_forest xnested). pose (r := xroot_of F). exists F, r, xnested_srt, (fun l => l), (@rev _).
  destruct (doc_forest_root xnested r) as (W & R & _); [reflexivity|vm_compute; reflexivity|]. split; [exact W|]. split; [exact R|].
  split; [split; [apply LayProps.all_known_check; vm_compute; reflexivity|apply no_type_check; vm_compute; reflexivity]|].
  split; [intros; apply Permutation_refl|]. split; [intros; apply Permutation_sym, Permutation_rev|]. split; [vm_compute; reflexivity|]. split; [vm_compute; reflexivity|].
  intros C. assert (E : flat_map texts_in (map forget (fst (adjust (fun l => l) cls_Layer false F r xnested_srt))) = flat_map texts_in (map forget (fst (adjust (@rev _) cls_Layer false F r xnested_srt)))) by (f_equal; exact C).
  vm_compute in E. discriminate E.
Qed.
Print Assumptions C96_order_refuted.

(** ** C97 twice is once *)

Theorem C97_twice_partial : forall st letter F root srt gs f val old calm order order',
  suits st F root gs f val old calm -> timely letter gs (map tidy_line srt) -> plainly root ->
  (forall t, In t (all_texts gs) -> inert (old (bt_layer t)) /\ inert (calm (bt_layer t))) -> (forall l, Permutation (order l) l) -> (forall l, Permutation (order' l) l) ->
  exists F2 root2 F4, adjust order st letter F root srt = (F2, Ok tt) /\ root_of F2 root2 /\ iuid root2 = iuid root /\
    adjust order' st letter F2 root2 srt = (F4, Ok tt) /\ map forget F4 = map forget F2.
Proof. intros st letter F root srt gs f val old calm order order' Su T P I O O'. exact (adjust_twice st letter F root srt gs f val old calm Su T P I order order' O O'). Qed.
Print Assumptions C97_twice_partial.
Example C97_nonvacuous : exists F2 root2 F4, adjust (fun l => l) cls_Layer false xF xroot xsrt = (F2, Ok tt) /\ root_of F2 root2 /\ iuid root2 = iuid xroot /\
    adjust (@rev _) cls_Layer false F2 root2 xsrt = (F4, Ok tt) /\ map forget F4 = map forget F2.
Proof.
  pose proof xtimely as T. rewrite <- xlines_are in T. assert (Q2 : forall l : list (nat * nat * N), Permutation (rev l) l) by (intros; apply Permutation_sym, Permutation_rev).
  assert (Q : forall t, In t (all_texts xgs) -> inert (xold xF (bt_layer t)) /\ inert (xold xF (bt_layer t))).
  { assert (E : forallb (fun t => match xold xF (bt_layer t) with El nm _ [Txt _] => pstr_eqb nm (s "string") | _ => false end) (all_texts xgs) = true) by (vm_compute; reflexivity).
    rewrite forallb_forall in E. intros t Ht. specialize (E t Ht). assert (Z : inert (xold xF (bt_layer t))); [|exact (conj Z Z)]. destruct (xold xF (bt_layer t)) as [|nm a [|[x|] [|]]]; try discriminate E.
    apply pstr_eqb_spec in E. subst nm. split; intros [C|[]]; discriminate C. }
  exact (C97_twice_partial cls_Layer false xF xroot xsrt xgs 24 (xval xF) (xold xF) (xold xF) (fun l => l) (@rev _) xwords_suit T xwords_plainly Q (fun l => Permutation_refl l) Q2).
Qed.
