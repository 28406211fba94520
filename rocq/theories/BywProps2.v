(** More theorems about the bywords tool: pauses, tidying, times, and the command itself. See BywProps. *)
From Coq Require Import Lia Lqa Qabs Permutation Sorting.Sorted.
From Verif Require Import DocProofs LaySpec LayProofs LayProofs5 AnimSpec XpSpec AnimProofs2 AnimProofs3 AnimProofs4 AnimProofs5 TlSpec PyFloatProofs.
From Verif Require Import BywModel BywSpec BywProofs BywProofs2 BywProofs3 BywProofs4 BywProofs6 BywProofs7 BywProofs8 BywProofs9 BywProofs10 BywProofs11 BywProofs12 BywProofs13 BywProofs14.
From Verif Require Import BywProps.
Local Open Scope N_scope.

(** ** C98 the pauses *)

(** When each layer has one word, the pause after a word is proportional to the number of its letters. What is missing: C98_refuted. *)
Theorem C98_weighted_partial : forall gs start duration text g i t t', group_for gs text = Some g ->
  (forall t, In t (bg_texts g) -> bt_desc t <> [] /\ forall c, In c (bt_desc t) -> ~ blank_char c) -> sane_line start duration (map bt_desc (bg_texts g)) ->
  nth_error (bg_texts g) i = Some t -> nth_error (bg_texts g) (S i) = Some t' ->
  exists v v', nth_error (line_words false gs (start, duration, text)) i = Some v /\ nth_error (line_words false gs (start, duration, text)) (S i) = Some v' /\
    wd_text v = bt_desc t /\ wd_layer v = bt_layer t /\ wd_text v' = bt_desc t' /\ wd_layer v' = bt_layer t' /\
    (Qabs (1000 * (wd_time v' - wd_time v) - inject_Z duration * (inject_Z (Z.of_nat (length (bt_desc t))) / inject_Z (total_length (map bt_desc (bg_texts g)))))
       <= inject_Z (2 * Z.of_nat i + 3) * (1 # 262144))%Q.
Proof.
  intros gs start duration text g i t t' G One Sl Ht Ht'. pose proof (one_word_each (bg_texts g) One) as E. fold (shown false g) in E. set (mk := fun t => mkWord (bt_desc t) (bt_obj t) (bt_layer t) 0) in E.
  assert (Etx : map wd_text (shown false g) = map bt_desc (bg_texts g)) by (rewrite E, map_map; reflexivity).
  destruct (nth_error_split _ _ Ht) as (l1 & l2 & E1 & L1). rewrite E1 in Ht'. rewrite nth_error_app2 in Ht' by lia. replace (S i - length l1)%nat with 1%nat in Ht' by lia. destruct l2 as [|t2 l2]; [discriminate|]. cbn in Ht'. injection Ht' as ->.
  assert (Es : shown false g = map mk l1 ++ mk t :: mk t' :: map mk l2) by (rewrite E, E1, map_app; reflexivity).
  assert (Es' : shown false g = map mk (l1 ++ [t]) ++ mk t' :: map mk l2) by (rewrite Es, map_app, <- app_assoc; reflexivity).
  assert (Tn : total_length (map wd_text (shown false g)) <> 0%Z).
  { rewrite Etx, E1, map_app, total_app. cbn [map total_length fold_right]. fold (total_length (map bt_desc (t' :: l2))). pose proof (total_nonneg (map bt_desc l1)). 
    pose proof (total_nonneg (map bt_desc (t' :: l2))) as P2. destruct (One t) as [H0 _]; [rewrite E1; apply in_or_app; right; now left|]. destruct (bt_desc t); [contradiction|]. unfold total_length in *. cbn [map fold_right length] in *. lia. }
  pose proof Sl as Sl'. rewrite <- Etx in Sl'.
  destruct (C63_close_partial false gs start duration text g _ _ _ G Sl' Tn Es) as (v & V1 & V2 & V3 & V4).
  destruct (C63_close_partial false gs start duration text g _ _ _ G Sl' Tn Es') as (v' & U1 & U2 & U3 & U4).
  rewrite !map_length in *. rewrite app_length in U1, U4. cbn [length] in U1, U4. rewrite L1 in *. replace (i + 1)%nat with (S i) in U1 by lia. exists v, v'. split; [exact V1|]. split; [exact U1|]. split; [exact V2|]. split; [exact V3|].
  split; [exact U2|]. split; [exact U3|]. rewrite Etx in *. unfold ideal in V4, U4. rewrite !map_map in V4, U4. change (fun x => wd_text (mk x)) with bt_desc in V4, U4.
  rewrite map_app, total_app in U4. assert (X : total_length (map bt_desc [t]) = Z.of_nat (length (bt_desc t))) by (cbn; unfold total_length; cbn; lia). rewrite X in U4. clear X.
  set (L := total_length (map bt_desc (bg_texts g))) in *. set (a := total_length (map bt_desc l1)) in *. set (b := Z.of_nat (length (bt_desc t))) in *.
  assert (HL : ~ inject_Z L == 0) by (intros C; apply Tn; now apply (inject_Z_injective L 0)).
  assert (D : (inject_Z duration * (inject_Z (a + b) / inject_Z L) == inject_Z duration * (inject_Z a / inject_Z L) + inject_Z duration * (inject_Z b / inject_Z L))%Q) by (rewrite inject_Z_plus; field; exact HL).
  apply Qabs_Qle_condition in V4, U4. apply Qabs_Qle_condition. rewrite D in U4. clear D. set (x := (inject_Z duration * (inject_Z a / inject_Z L))%Q) in *. set (y := (inject_Z duration * (inject_Z b / inject_Z L))%Q) in *.
  assert (N1 : (inject_Z (Z.of_nat (i + 1) + 1) == inject_Z (Z.of_nat i) + 2)%Q) by (replace (Z.of_nat (i + 1) + 1)%Z with (Z.of_nat i + 2)%Z by lia; rewrite inject_Z_plus; reflexivity).
  assert (N2 : (inject_Z (Z.of_nat i + 1) == inject_Z (Z.of_nat i) + 1)%Q) by (rewrite inject_Z_plus; reflexivity).
  assert (N3 : (inject_Z (2 * Z.of_nat i + 3) == 2 * inject_Z (Z.of_nat i) + 3)%Q) by (rewrite inject_Z_plus, inject_Z_mult; reflexivity).
  rewrite N1 in U4. rewrite N2 in V4. rewrite N3. clear N1 N2 N3. clearbody x y. set (j := inject_Z (Z.of_nat i)) in *. clearbody j. lra.
Qed.
Print Assumptions C98_weighted_partial.
(** The first word appears when the line begins. *)
Theorem C98_first : forall letter gs start duration text v, nth_error (line_words letter gs (start, duration, text)) 0 = Some v -> wd_time v = rnd64 (inject_Z start / 1000).
Proof.
  intros letter gs start duration text v. unfold line_words. destruct (group_for gs text) as [g|]; [|discriminate]. unfold timed. destruct (_ =? 0)%Z; [discriminate|].
  destruct (shown letter g) as [|w l]; [discriminate|]. cbn [set_times nth_error]. now intros [= <-].
Qed.
Print Assumptions C98_first.
(** In a layer of several words, they aren't: in "ab cd ef", the words have two letters each, but the pauses are as 2 to 5. *)
Theorem C98_refuted : exists gs start duration text v1 v2 v3, line_words false gs (start, duration, text) = [v1; v2; v3] /\
  map wd_text [v1; v2; v3] = [s "ab"; s "ab cd"; s "ab cd ef"] /\ (2 * (wd_time v2 - wd_time v1) < wd_time v3 - wd_time v2)%Q.
Proof.
  pose (gs := [mkGroup (s "bywords") [mkText (0, 0)%nat 1 (s "ab cd ef")]]).
  pose (ws := line_words false gs (0%Z, 15000%Z, s "ab cd ef")). pose (z := mkWord [] (0, 0)%nat 0 0).
  exists gs, 0%Z, 15000%Z, (s "ab cd ef"), (nth 0 ws z), (nth 1 ws z), (nth 2 ws z). split; [vm_compute; reflexivity|]. split; [vm_compute; reflexivity|]. vm_compute. reflexivity.
Qed.
Print Assumptions C98_refuted.
Example C98_nonvacuous : exists g, group_for [g] (s "never mind") = Some g /\ (forall t, In t (bg_texts g) -> bt_desc t <> [] /\ forall c, In c (bt_desc t) -> ~ blank_char c) /\
  sane_line 1000 2000 (map bt_desc (bg_texts g)) /\ length (bg_texts g) = 2%nat.
Proof.
  exists (mkGroup (s "bywords") [mkText (0, 0)%nat 1 (s "Never"); mkText (0, 1)%nat 2 (s "mind")]). split; [vm_compute; reflexivity|]. split.
  - intros t [<-|[<-|[]]]; (split; [discriminate|]); intros c Hc; vm_compute in Hc; intros [<-|[<-|[<-|[]]]]; intuition discriminate.
  - split; [|reflexivity]. split; [lia|]. split; [repeat constructor; discriminate|]. vm_compute. discriminate.
Qed.

(** ** C99 tidying *)

(** Tidying leaves lower case letters, digits and spaces, and what is tidy already is not changed. *)
Theorem C99_tidy : forall x, Forall (fun c => 97 <= c <= 122 \/ 48 <= c <= 57 \/ c = 32) (tidy_string x) /\ tidy_string (tidy_string x) = tidy_string x.
Proof. intros x. split; [apply tidy_letters|apply tidy_same, tidy_letters]. Qed.
Print Assumptions C99_tidy.
(** What is left of ASCII: its lower case, without the other characters. *)
Theorem C99_ascii : forall x, Forall (fun c => c < 128) x ->
  tidy_string x = filter (fun c => (97 <=? c) && (c <=? 122) || (48 <=? c) && (c <=? 57) || (c =? 32)) (lower x).
Proof. exact tidy_ascii. Qed.
Print Assumptions C99_ascii.
(** It can be done to parts. *)
Theorem C99_parts : forall x y, tidy_string (x ++ y) = tidy_string x ++ tidy_string y.
Proof. intros x y. unfold tidy_string. apply flat_map_app. Qed.
Print Assumptions C99_parts.
Example C99_nonvacuous : tidy_string (s "Hello, World no. 1!") = s "hello world no 1" /\ Forall (fun c => c < 128) (s "Hello, World no. 1!").
Proof. split; [reflexivity|]. apply Forall_forall. intros c Hc. assert (E : forallb (fun c => c <? 128) (s "Hello, World no. 1!") = true) by reflexivity. rewrite forallb_forall in E. apply N.ltb_lt. auto. Qed.

(** ** C100 no subtitle breaks it *)

(** What is missing: C100_refuted, C95_refuted; text layers in two groups or without a text; times below a tenth of a millisecond. *)
Theorem C100_works_partial : forall st letter F root srt gs f val old calm order,
  suits st F root gs f val old calm -> timely letter gs (map tidy_line srt) -> (forall l, Permutation (order l) l) -> snd (adjust order st letter F root srt) = Ok tt.
Proof.
  intros st letter F root srt gs f val old calm order Su T Ho. destruct (suits_adjust st letter F root srt gs f val old calm Su order T Ho) as (F1 & ws & no & new & B & F2 & A & _). now rewrite A.
Qed.
Print Assumptions C100_works_partial.
(** The division fails exactly when a line matches a group that shows nothing: all the descriptions in it are empty, or there are no text layers. *)
Theorem C100_zero : forall letter start duration g, timed start duration (shown letter g) = Err ZeroDivisionError <-> forall t, In t (bg_texts g) -> bt_desc t = [].
Proof.
  intros letter start duration g. rewrite <- (shown_nothing letter). unfold timed. assert (W : Forall (fun w => wd_text w <> []) (shown letter g)).
  { apply Forall_forall. intros w Hw. unfold shown in Hw. apply in_flat_map in Hw as (t & _ & Hw). unfold text_words in Hw. apply in_map_iff in Hw as (p & <- & Hp). now apply (word_texts_prefix letter) in Hp. }
  rewrite <- (letters_zero _ W). destruct (letters (shown letter g) =? 0)%Z eqn:E; [apply Z.eqb_eq in E; now rewrite E|]. apply Z.eqb_neq in E. split; [discriminate|contradiction].
Qed.
Print Assumptions C100_zero.
(** A subtitle of punctuation only, and a group without text layers *)
Theorem C100_refuted : exists F root srt order, plainly root /\ root_of F root /\ (forall l, Permutation (order l) l) /\ snd (adjust order cls_Layer false F root srt) = Err ZeroDivisionError.
Proof.
  pose (d := xdoc [xgroup (s "bywords") []]).
  exists (doc_forest d), (xroot_of (doc_forest d)), [(1000%Z, 2000%Z, s "...")], (fun l => l). split; [split; [apply LayProps.all_known_check; vm_compute; reflexivity|apply no_type_check; vm_compute; reflexivity]|].
  split; [apply (doc_forest_root d (xroot_of (doc_forest d))); vm_compute; reflexivity|]. split; [intros; apply Permutation_refl|vm_compute; reflexivity].
Qed.
Print Assumptions C100_refuted.

(** ** C101 times are understood *)

(** The time of a word, as it's written for the waypoint, is read as that time. What is missing: times below a tenth of a millisecond, other than 0. *)
Theorem C101_read_partial : forall q f cx text, rnd64 q = q -> plain_time q -> ctx_fps cx = Ok (Some f) ->
  constant_waypoint cx (repr_float q) text = Ok (shows f (rnd64 (q * f)) text).
Proof.
  intros q f cx text Hd Hp Hf. unfold constant_waypoint. cbn [new_value bind]. rewrite (repr_time q f cx Hd); [|now apply plain_pow|exact Hf]. reflexivity.
Qed.
Print Assumptions C101_read_partial.
(** The others are written with an exponent, which is not understood: a time of 0.01 ms becomes five seconds before the beginning. *)
Theorem C101_refuted : exists q f cx text w, rnd64 q = q /\ (0 < q)%Q /\ ctx_fps cx = Ok (Some f) /\ constant_waypoint cx (repr_float q) text = Ok w /\ (frames (w_time w) == -5 * f)%Q.
Proof.
  exists (rnd64 (1 # 100000)), 24%Q, (Some [(s "fps", AStr (s "24"))]), (s "x"). eexists. split; [vm_compute; reflexivity|]. split; [vm_compute; reflexivity|]. split; [vm_compute; reflexivity|].
  split; [vm_compute; reflexivity|]. vm_compute. reflexivity.
Qed.
Print Assumptions C101_refuted.
Example C101_nonvacuous : rnd64 (13 # 8) = 13 # 8 /\ plain_time (13 # 8) /\ ctx_fps (Some [(s "fps", AStr (s "24"))]) = Ok (Some 24%Q) /\
  constant_waypoint (Some [(s "fps", AStr (s "24"))]) (repr_float (13 # 8)) (s "x") = Ok (shows 24 39 (s "x")).
Proof. split; [vm_compute; reflexivity|]. split; [right; lra|]. split; vm_compute; reflexivity. Qed.

(** ** C102 the command *)

(** Only the .sif file is ever changed, and not before all the words have been adjusted. *)
Theorem C102_only_then : forall void can read_srt order st letter fs sif srt fs' r, main void can read_srt order st letter fs sif srt = (fs', r) ->
  only_changes sif fs fs' /\
  (fs' <> fs -> exists lines a root F', read_srt fs (srt_name sif srt) = Ok lines /\ load fs sif = Ok a /\ doc_top (doc_forest (am_root a)) = Some root /\
     adjust order st letter (doc_forest (am_root a)) root lines = (F', Ok tt)).
Proof.
  intros void can read_srt order st letter fs sif srt fs' r H. unfold main in H. assert (Z : only_changes sif fs fs) by (intros y _; reflexivity).
  destruct (read_srt fs (srt_name sif srt)) as [lines|]; [|injection H as <- <-; now split]. destruct (load fs sif) as [a|] eqn:El; [|injection H as <- <-; now split].
  destruct (fget 1 (doc_forest (am_root a))) as [root|] eqn:Er; [|injection H as <- <-; now split]. destruct (adjust order st letter (doc_forest (am_root a)) root lines) as [F' [[]|e]] eqn:Ea; [|injection H as <- <-; now split].
  destruct (fget 1 F') as [n|]; [|injection H as <- <-; now split]. destruct (save void can fs (mkAnim (forget n) (am_kind a) (am_file a)) (Some sif)) as [[fs2 a2] r2] eqn:Es. injection H as <- <-.
  split; [exact (save_only _ _ _ _ _ _ _ _ _ Es eq_refl)|]. intros _. exists lines, a, root, F'. split; [reflexivity|]. split; [reflexivity|]. split; [|exact Ea].
  apply load_is in El as (_ & _ & _ & Ht & _). destruct (am_root a) as [|nm at_ k]; [discriminate|]. destruct (doc_forest_top nm at_ k) as (k' & E & _ & _). rewrite E in Er |- *. cbn in Er |- *. exact Er.
Qed.
Print Assumptions C102_only_then.
(** When it works, the file has the document as adjusted. *)
Theorem C102_written : forall void can read_srt order st letter fs sif srt fs', main void can read_srt order st letter fs sif srt = (fs', Ok tt) ->
  exists lines a root F' n kd b, read_srt fs (srt_name sif srt) = Ok lines /\ load fs sif = Ok a /\ doc_top (doc_forest (am_root a)) = Some root /\
    adjust order st letter (doc_forest (am_root a)) root lines = (F', Ok tt) /\ fget (iuid root) F' = Some n /\ kind_named sif kd /\
    utf8_out (doc_out void (forget n)) = Some b /\ holds fs' sif kd b.
Proof.
  intros void can read_srt order st letter fs sif srt fs' H. unfold main in H.
  destruct (read_srt fs (srt_name sif srt)) as [lines|]; [|discriminate]. destruct (load fs sif) as [a|] eqn:El; [|discriminate].
  destruct (fget 1 (doc_forest (am_root a))) as [root|] eqn:Er; [|discriminate]. destruct (adjust order st letter (doc_forest (am_root a)) root lines) as [F' [[]|e]] eqn:Ea; [|discriminate].
  destruct (fget 1 F') as [n|] eqn:En; [|discriminate]. destruct (save void can fs (mkAnim (forget n) (am_kind a) (am_file a)) (Some sif)) as [[fs2 a2] r2] eqn:Es. injection H as <- ->.
  assert (X : exists kd b, kind_named sif kd /\ utf8_out (doc_out void (forget n)) = Some b /\ holds fs2 sif kd b).
  { unfold save in Es. destruct (kind_cases sif) as [[E K]|[[E K]|[[E K]|[E K]]]]; rewrite E in Es; cbn [am_root am_kind am_file format_save] in Es; try discriminate;
      unfold write_doc in Es; destruct (can sif); try discriminate; destruct (utf8_out (doc_out void (forget n))) as [b|]; try discriminate; injection Es as <- _.
    - exists FSif, b. split; [left; auto|]. split; [reflexivity|]. unfold holds. apply aget_aset_same.
    - exists FSifz, b. split; [right; auto|]. split; [reflexivity|]. unfold holds. apply aget_aset_same. }
  destruct X as (kd & b & X1 & X2 & X3). exists lines, a, root, F', n, kd, b. split; [reflexivity|]. split; [reflexivity|]. split.
  { apply load_is in El as (_ & _ & _ & Ht & _). destruct (am_root a) as [|nm at_ k]; [discriminate|]. destruct (doc_forest_top nm at_ k) as (k' & E & _ & _). rewrite E in Er |- *. cbn in Er |- *. exact Er. }
  split; [exact Ea|]. split; [|auto]. rewrite (fget_uid _ _ _ Er). exact En.
Qed.
Print Assumptions C102_written.
(** It works, and what was adjusted can be loaded again. What is missing: see C100. *)
Theorem C102_works_partial : forall void can read_srt order st letter fs sif srt lines a root gs f val old calm kd,
  read_srt fs (srt_name sif srt) = Ok lines -> load fs sif = Ok a -> doc_top (doc_forest (am_root a)) = Some root ->
  suits st (doc_forest (am_root a)) root gs f val old calm -> timely letter gs (map tidy_line lines) -> (forall l, Permutation (order l) l) -> kind_named sif kd -> can sif = true ->
  exists fs' F' n, main void can read_srt order st letter fs sif srt = (fs', Ok tt) /\ only_changes sif fs fs' /\
    adjust order st letter (doc_forest (am_root a)) root lines = (F', Ok tt) /\ root_of F' n /\ load fs' sif = Ok (mkAnim (reload (forget n)) kd (Some sif)).
Proof.
  intros void can read_srt order st letter fs sif srt lines a root gs f val old calm kd Hl Ha Hr Su T O K Hc. destruct (load_is _ _ _ Ha) as (_ & W & _ & Ht & _).
  destruct (doc_forest_root (am_root a) root Ht Hr) as (Wf & Ro & Ef & Eu). rewrite <- Ef in W.
  destruct (adjust_writable st letter _ root lines gs f val old calm Su T W order O) as (F2 & r2 & A & W2 & R2 & Eu2 & _ & Wr).
  assert (E1 : fget 1 (doc_forest (am_root a)) = Some root) by (rewrite <- Eu; apply fget_desc; [exact Wf|now apply root_in]).
  assert (E2 : fget 1 F2 = Some r2) by (rewrite <- Eu, <- Eu2; apply fget_desc; [exact W2|now apply root_in]).
  assert (Tg : target_of (mkAnim (forget r2) (am_kind a) (am_file a)) (Some sif) sif kd) by (split; [reflexivity|exact K]).
  assert (Tr : is_tag (forget r2) = true) by (destruct R2 as (d & _ & _ & _ & Hrt); destruct r2; [discriminate|reflexivity]).
  destruct (saved_loads void can fs _ (Some sif) sif kd Tg Hc Wr Tr) as (fs' & S1 & S2 & S3). cbn [am_root] in S1, S3. exists fs', F2, r2. split; [|auto].
  unfold main. rewrite Hl, Ha, E1, A, E2, S1. reflexivity.
Qed.
Print Assumptions C102_works_partial.
Definition xname : pstr := s "dir/song.sif".
Definition xvoid : pstr -> attrs -> bool := fun _ _ => true.
Definition xfiles : files := [(xname, Raw (match utf8_out (doc_out xvoid xwords) with Some b => b | None => [] end))].
Definition xread : files -> pstr -> res (list (Z * Z * pstr)) := fun _ x => if pstr_eqb x (s "dir/song.srt") then Ok xsrt else Err FileNotFoundError.
Lemma xname_sif : kind_named xname FSif.
Proof.
  left. split; [reflexivity|]. exists (s "dir/"), (s "song"), (s "sif"). repeat split.
  - right. exists (s "dir"). reflexivity.
  - vm_compute. intros H. repeat (destruct H as [H|H]; [discriminate|]). exact H.
  - exists 115. vm_compute. split; [now left|discriminate].
Qed.
Example C102_nonvacuous : exists fs' F' n, main xvoid (fun _ => true) xread (fun l => l) cls_Layer false xfiles xname None = (fs', Ok tt) /\ only_changes xname xfiles fs' /\
    adjust (fun l => l) cls_Layer false xF xroot xsrt = (F', Ok tt) /\ root_of F' n /\ load fs' xname = Ok (mkAnim (reload (forget n)) FSif (Some xname)).
Proof.
  assert (Ea : load xfiles xname = Ok (mkAnim xwords FSif (Some xname))) by (vm_compute; reflexivity). assert (Er : doc_top (doc_forest (am_root (mkAnim xwords FSif (Some xname)))) = Some xroot) by (vm_compute; reflexivity).
  assert (El : xread xfiles (srt_name xname None) = Ok xsrt) by (vm_compute; reflexivity).
  pose proof xtimely as T. rewrite <- xlines_are in T.
  exact (C102_works_partial xvoid (fun _ => true) xread (fun l => l) cls_Layer false xfiles xname None xsrt (mkAnim xwords FSif (Some xname)) xroot xgs 24 (xval xF) (xold xF) (xold xF) FSif
    El Ea Er xwords_suit T (fun l => Permutation_refl l) xname_sif eq_refl).
Qed.

(** ** C103 the name of the subtitles *)

(** dir/stem.ext gives dir/stem.srt. *)
Theorem C103_replaced : forall dir stem e, (dir = [] \/ exists d, dir = d ++ [47]) -> ~ In 47 stem -> (exists c, In c stem /\ c <> 46) -> ~ In 46 e -> ~ In 47 e ->
  srt_name (dir ++ stem ++ 46 :: e) None = dir ++ stem ++ s ".srt".
Proof.
  intros dir stem e Dir Hst Hc E1 E2. unfold srt_name. rewrite (ext_of dir stem e Dir Hst Hc E1 E2). rewrite app_assoc. rewrite firstn_app.
  replace (length ((dir ++ stem) ++ 46%N :: e) - length (46%N :: e) - length (dir ++ stem))%nat with 0%nat by (rewrite !app_length; lia).
  rewrite firstn_O, app_nil_r, firstn_all2 by (rewrite !app_length; lia). now rewrite <- app_assoc.
Qed.
Print Assumptions C103_replaced.
(** A name without a dot gets it at its end. *)
Theorem C103_added : forall dir stem, (dir = [] \/ exists d, dir = d ++ [47]) -> ~ In 47 stem -> ~ In 46 stem -> srt_name (dir ++ stem) None = dir ++ stem ++ s ".srt".
Proof. intros dir stem Dir H1 H2. unfold srt_name. rewrite (no_ext_of dir stem Dir H1 H2). cbn [length]. now rewrite Nat.sub_0_r, firstn_all, <- app_assoc. Qed.
Print Assumptions C103_added.
Theorem C103_given : forall sif x, srt_name sif (Some x) = x.
Proof. reflexivity. Qed.
Print Assumptions C103_given.
Example C103_nonvacuous : srt_name (s "a.b/song.take.2.sif") None = s "a.b/song.take.2.srt" /\ srt_name (s "a.b/song") None = s "a.b/song.srt".
Proof. split; reflexivity. Qed.

(** ** C104 how subtitles are compared *)

(** Only the letters, digits and spaces count, and not the case of the letters. *)
Theorem C104_same : forall st letter F root srt srt', Forall2 (fun a b => fst a = fst b /\ Forall (fun c => c < 128) (snd a) /\ Forall (fun c => c < 128) (snd b) /\
    filter (fun c => (97 <=? c) && (c <=? 122) || (48 <=? c) && (c <=? 57) || (c =? 32)) (lower (snd a)) = filter (fun c => (97 <=? c) && (c <=? 122) || (48 <=? c) && (c <=? 57) || (c =? 32)) (lower (snd b))) srt srt' ->
  bywords st letter F root srt = bywords st letter F root srt'.
Proof.
  intros st letter F root srt srt' H. assert (E : map tidy_line srt = map tidy_line srt').
  { induction H as [|[[a b] x] [[a' b'] x'] l l' (H1 & H2 & H3 & H4) _ IH]; [reflexivity|]. cbn [map tidy_line fst snd] in *. injection H1 as <- <-. rewrite IH, !tidy_ascii by assumption. now rewrite H4. }
  unfold bywords. now rewrite E.
Qed.
Print Assumptions C104_same.
(** A line break, unlike a space, does not separate words: the subtitle in two lines isn't found. *)
Theorem C104_refuted : exists gs, group_for gs (tidy_string (s "Hello big")) <> None /\ group_for gs (tidy_string (s "Hello" ++ [10] ++ s "big")) = None.
Proof. exists [mkGroup (s "bywords") [mkText (0, 0)%nat 1 (s "Hello big")]]. split; [vm_compute; discriminate|vm_compute; reflexivity]. Qed.
Print Assumptions C104_refuted.
Example C104_nonvacuous : bywords cls_Layer false xF xroot [(1000%Z, 2000%Z, s "Hello: big world!")] = bywords cls_Layer false xF xroot [(1000%Z, 2000%Z, s "HELLO big, 'World'")].
Proof.
  assert (A : forall x, forallb (fun c => c <? 128) x = true -> Forall (fun c => c < 128) x) by (intros x E; apply Forall_forall; intros c Hc; rewrite forallb_forall in E; apply N.ltb_lt; auto).
  apply C104_same. constructor; [|constructor]. split; [reflexivity|]. split; [now apply A|]. split; [now apply A|]. reflexivity.
Qed.
