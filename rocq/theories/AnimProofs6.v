(** Proofs about the size, the colours, the description and the times of animations. *)
From Verif Require Import AnimModel AnimSpec AnimSpec2 XpSpec XpProofs SerProofs AnimProofs AnimProofs2 AnimProofs3 AnimProofs4 AnimProofs5 DocProofs DocProofs2 LaySpec LayProofs LayProofs6 ClsProofs PyFloatProofs PyFmtProofs PyFmtProofs2 ValProofs ValProofs2.
From Coq Require Import Lia ZifyN ZifyBool.
Local Open Scope N_scope.

(** ** Splitting *)

Lemma split_no_blank x acc : ~ In 32 x -> split_spaces x acc = [rev acc ++ x].
Proof.
  revert acc. induction x as [|c x IH]; intros acc H; cbn [split_spaces]; [now rewrite app_nil_r|].
  destruct (N.eqb_spec c 32) as [->|_]; [destruct H; now left|]. rewrite IH by (intros Hi; apply H; now right). cbn [rev]. now rewrite <- app_assoc.
Qed.
Lemma split_first x y acc : ~ In 32 x -> split_spaces (x ++ 32 :: y) acc = (rev acc ++ x) :: split_spaces y [].
Proof.
  revert acc. induction x as [|c x IH]; intros acc H; cbn [split_spaces app]; [now rewrite N.eqb_refl, app_nil_r|].
  destruct (N.eqb_spec c 32) as [->|_]; [destruct H; now left|]. rewrite IH by (intros Hi; apply H; now right). cbn [rev]. now rewrite <- app_assoc.
Qed.
Lemma split_blanks_between xs : xs <> [] -> Forall (fun x => ~ In 32 x) xs -> split_spaces (blank_between xs) [] = xs.
Proof.
  intros Hne H. induction H as [|x xs Hx H IH]; [contradiction|]. unfold blank_between. destruct xs as [|y xs]; cbn [join].
  - now rewrite split_no_blank.
  - change (x ++ [32] ++ join [32] (y :: xs)) with (x ++ 32 :: blank_between (y :: xs)). etransitivity; [now apply (split_first x (blank_between (y :: xs)) [])|]. cbn [rev app]. f_equal. apply IH. discriminate.
Qed.
Lemma split_pieces x acc : ~ In 32 acc -> exists xs, split_spaces x acc = xs /\ xs <> [] /\ Forall (fun y => ~ In 32 y) xs /\ blank_between xs = rev acc ++ x.
Proof.
  revert acc. induction x as [|c x IH]; intros acc Ha; cbn [split_spaces].
  - exists [rev acc]. split; [reflexivity|]. split; [discriminate|]. split; [|now rewrite app_nil_r]. constructor; [|constructor]. intros Hi; apply in_rev in Hi; auto.
  - destruct (N.eqb_spec c 32) as [->|Hc].
    + destruct (IH [] (fun f => f)) as (xs & -> & Hne & Hf & E). exists (rev acc :: xs). split; [reflexivity|]. split; [discriminate|]. split; [constructor; [intros Hi; apply in_rev in Hi; auto|exact Hf]|].
      cbn [rev app] in E. rewrite <- E. destruct xs; [contradiction|reflexivity].
    + destruct (IH (c :: acc)) as (xs & -> & Hne & Hf & E); [intros [Hi|Hi]; auto|]. exists xs. split; [reflexivity|]. split; [exact Hne|]. split; [exact Hf|]. rewrite E. cbn [rev]. now rewrite <- app_assoc.
Qed.
Lemma mapM_Forall2 {A B} (f : A -> res B) l m : mapM f l = Ok m <-> Forall2 (fun x y => f x = Ok y) l m.
Proof.
  revert m. induction l as [|x l IH]; intros m; cbn [mapM].
  - split; [intros [= <-]; constructor|]. intros H. now inversion H.
  - split.
    + destruct (f x) as [y|] eqn:E; [|discriminate]. cbn [bind]. destruct (mapM f l) as [m'|] eqn:E2; [|discriminate]. cbn [bind]. intros [= <-]. constructor; [exact E|]. now apply IH.
    + intros H. inversion H as [|? y ? m' H1 H2]; subst. rewrite H1. cbn [bind]. apply IH in H2. now rewrite H2.
Qed.
Lemma Forall2_both {A B} (P : A -> Prop) (R : A -> B -> Prop) l m : Forall2 (fun x y => P x /\ R x y) l m <-> Forall P l /\ Forall2 R l m.
Proof.
  split.
  - induction 1 as [|x y l m [H1 H2] _ [IH1 IH2]]; split; constructor; auto.
  - intros [H1 H2]. induction H2; inversion H1; subst; constructor; auto.
Qed.
Lemma numbers_read n k qs : says_numbers n k qs <-> floats_at k n = Ok qs.
Proof.
  unfold says_numbers, floats_at, attr_item. split.
  - intros (xs & -> & Hne & H). cbn [bind]. apply Forall2_both in H as [H1 H2]. rewrite split_blanks_between by auto. now apply mapM_Forall2.
  - destruct (aget k (iattrs n)) as [[x| | |]|]; try discriminate. cbn [bind]. destruct (split_pieces x [] (fun f => f)) as (xs & -> & Hne & Hf & E). intros H. exists xs.
    cbn [rev app] in E. rewrite E. split; [reflexivity|]. split; [exact Hne|]. apply Forall2_both. split; [exact Hf|]. now apply mapM_Forall2.
Qed.
Lemma numbers_nonempty n k qs : says_numbers n k qs -> qs <> [].
Proof. intros (xs & _ & Hne & H). destruct H; [contradiction|discriminate]. Qed.
Lemma num_no_blank x : all_num x -> ~ In 32 x.
Proof. intros H Hi. unfold all_num in H. rewrite Forall_forall in H. apply H in Hi. vm_compute in Hi. discriminate Hi. Qed.
Lemma reprs_say n k qs : qs <> [] -> Forall is_dbl qs -> aget k (iattrs n) = Some (AStr (blank_between (map repr_float qs))) -> says_numbers n k qs.
Proof.
  intros Hne Hd Ha. exists (map repr_float qs). split; [exact Ha|]. split; [intros E; apply map_eq_nil in E; contradiction|].
  clear Hne Ha. induction Hd as [|q qs H _ IH]; constructor; auto. split; [apply num_no_blank, repr_float_num|now apply parse_repr].
Qed.

(** ** The description *)

Lemma first_found x n : itag n = true -> match ifind (named x) n with
  | Some t => first_called x n t
  | None => forall u, inside u n -> named x u = false
  end.
Proof.
  intros Ht. unfold ifind. pose proof (find_order (named x) n Ht) as Ho. pose proof (fun u => find_in (named x) n u Ht) as Hi.
  destruct (ifind_all (named x) n) as [|t l] eqn:E; cbn [hd_error].
  - intros u Hu. destruct (named x u) eqn:En; auto. destruct (proj2 (Hi u) (conj Hu En)).
  - destruct (proj1 (Hi t) (or_introl eq_refl)) as [H1 H2]. split; [exact H1|]. split; [exact H2|]. intros u Hu En. destruct (proj2 (Hi u) (conj Hu En)) as [<-|Hl]; [now left|right].
    inversion Ho as [|? ? Hf _]; subst. rewrite Forall_forall in Hf. now apply Hf.
Qed.
Lemma put_iat t x n : itag t = true -> NoDup (uids n) -> t = n \/ inside t n -> text_put t x n (iat (iuid t) (with_ikids (fun _ => [IT x])) n).
Proof.
  intros Ht Hnd [->|Hi].
  { destruct n as [|u nm a k]; [discriminate|]. cbn [iat iuid]. rewrite N.eqb_refl. apply put_here. }
  revert Hnd. induction Hi as [n Hk Htg|n y Hy Hi IH]; intros Hnd.
  - destruct n as [|u nm a k]; [destruct Hk|]. cbn [ikids] in Hk. rewrite uids_IE in Hnd. inversion Hnd as [|? ? Hu Hnk]; subst.
    destruct (in_split _ _ Hk) as (k1 & k2 & ->). cbn [iat]. assert (Hne : iuid t <> u). { intros Eu. rewrite <- Eu in Hu. apply Hu. rewrite fuids_app. apply in_or_app. right. destruct t; [discriminate|]. now left. }
    apply N.eqb_neq in Hne. rewrite Hne.
    rewrite map_app. cbn [map]. rewrite fuids_app in Hnk. change (fuids (t :: k2)) with (uids t ++ fuids k2) in Hnk.
    assert (Htu : In (iuid t) (uids t)) by now apply tag_uid.
    destruct (NoDup_app_parts _ _ Hnk) as (_ & Hn2 & Hd1). destruct (NoDup_app_parts _ _ Hn2) as (_ & _ & Hd2).
    assert (E1 : map (iat (iuid t) (with_ikids (fun _ => [IT x]))) k1 = k1). { apply (fat_notin (iuid t)). intros H. apply (Hd1 (iuid t) H). apply in_or_app. now left. }
    assert (E2 : map (iat (iuid t) (with_ikids (fun _ => [IT x]))) k2 = k2). { apply (fat_notin (iuid t)). intros H. exact (Hd2 (iuid t) Htu H). }
    rewrite E1, E2. apply (put_below t x (IE u nm a (k1 ++ t :: k2)) t _ k1 k2 eq_refl).
    destruct t as [|tu tn ta tk]; [discriminate|]. cbn [iat iuid]. rewrite N.eqb_refl. apply put_here.
  - destruct n as [|u nm a k]; [destruct Hy|]. cbn [ikids] in Hy. rewrite uids_IE in Hnd. inversion Hnd as [|? ? Hu Hnk]; subst.
    destruct (in_split _ _ Hy) as (k1 & k2 & ->). rewrite fuids_app in *. change (fuids (y :: k2)) with (uids y ++ fuids k2) in *.
    assert (Hty : In (iuid t) (uids y)). { apply desc_inside in Hi. destruct y as [|yu yn ya yk]; [destruct Hi|]. rewrite uids_IE. right. cbn [ikids] in Hi. apply (desc_uids _ _ Hi). now apply tag_uid. }
    assert (Hne : iuid t <> u). { intros Eu. rewrite <- Eu in Hu. apply Hu. apply in_or_app. right. apply in_or_app. now left. }
    apply N.eqb_neq in Hne. cbn [iat]. rewrite Hne. rewrite map_app. cbn [map].
    destruct (NoDup_app_parts _ _ Hnk) as (_ & Hn2 & Hd1). destruct (NoDup_app_parts _ _ Hn2) as (Hny & _ & Hd2).
    assert (E1 : map (iat (iuid t) (with_ikids (fun _ => [IT x]))) k1 = k1). { apply (fat_notin (iuid t)). intros H. apply (Hd1 (iuid t) H). apply in_or_app. now left. }
    assert (E2 : map (iat (iuid t) (with_ikids (fun _ => [IT x]))) k2 = k2). { apply (fat_notin (iuid t)). intros H. exact (Hd2 (iuid t) Hty H). }
    rewrite E1, E2. apply (put_below t x (IE u nm a (k1 ++ y :: k2)) y _ k1 k2 eq_refl). apply IH. exact Hny.
Qed.
Lemma put_tag t x n n' : text_put t x n n' -> itag t = true -> itag n = true.
Proof. destruct 1 as [|n c c' k1 k2 Hk _]; auto. intros _. destruct n; [|reflexivity]. cbn [ikids] in Hk. destruct k1; discriminate. Qed.
Lemma put_writable t x n n' : text_put t x n n' -> good_text x -> itag t = true -> writable (forget n) -> writable (forget n').
Proof.
  intros H Hx Ht. induction H as [|n c c' k1 k2 Hk Hp IH]; intros W.
  - destruct t as [|u nm a k]; [discriminate|]. cbn [forget iuid iname iattrs map] in *. apply writable_El in W. destruct W as (W1 & W2 & _). apply writable_El. split; [exact W1|]. split; [exact W2|]. constructor; [exact Hx|constructor].
  - destruct n as [|u nm a k]; [destruct k1; discriminate|]. cbn [ikids] in Hk. subst k. cbn [forget iuid iname iattrs] in *. apply writable_El in W. destruct W as (W1 & W2 & W3). apply writable_El. split; [exact W1|]. split; [exact W2|].
    unfold all_writable in *. rewrite map_app in *. cbn [map] in *. apply Forall_app in W3 as [A B]. inversion B; subst. apply Forall_app. split; [exact A|]. constructor; auto.
Qed.

Lemma iat_doc t x d n : itag d = true -> ikids d = [n] -> wf [d] -> inside t n -> itag t = true ->
  doc_top [d] = Some n -> exists n', set_string [d] (iuid t) x = [IE (iuid d) (iname d) (iattrs d) [n']] /\ text_put t x n n' /\
    n' = iat (iuid t) (with_ikids (fun _ => [IT x])) n.
Proof.
  intros Hd Hk Hw Hi Ht _. destruct d as [|u nm a k]; [discriminate|]. cbn [ikids] in Hk. subst k. unfold wf in Hw.
  change (fuids [IE u nm a [n]]) with (uids (IE u nm a [n]) ++ []) in Hw. rewrite app_nil_r, uids_IE in Hw. change (fuids [n]) with (uids n ++ []) in Hw. rewrite app_nil_r in Hw.
  inversion Hw as [|? ? Hu Hn]; subst. exists (iat (iuid t) (with_ikids (fun _ => [IT x])) n). split; [|split; [|reflexivity]].
  - unfold set_string, fat. cbn [map iat]. assert (E : iuid t <> u).
    { intros E. apply Hu. rewrite <- E. apply desc_inside in Hi. destruct n as [|nu nn na nk]; [destruct Hi|]. rewrite uids_IE. right. cbn [ikids] in Hi. apply (desc_uids _ _ Hi). now apply tag_uid. }
    apply N.eqb_neq in E. rewrite E. reflexivity.
  - apply put_iat; auto.
Qed.
Lemma with_text_shallow x : shallow_pres (with_ikids (fun _ => [IT x])).
Proof. intros []; repeat split; reflexivity. Qed.
Lemma found_after x y n t : itag n = true -> NoDup (uids n) -> ifind (named x) n = Some t ->
  ifind (named x) (iat (iuid t) (with_ikids (fun _ => [IT y])) n) = Some (IE (iuid t) (iname t) (iattrs t) [IT y]).
Proof.
  intros Hn Hnd Hf. pose proof (first_found x n Hn) as H. rewrite Hf in H. destruct H as (Hi & Hx & _).
  assert (Ht : itag t = true) by now apply named_tag in Hx.
  rewrite (ifind_iat (named x) n (iuid t) (with_ikids (fun _ => [IT y])) t (named_shallow x) (with_text_shallow y) Hnd Hf (tag_uid t Ht)).
  f_equal. destruct t as [|u nm a k]; [discriminate|]. cbn [iat iuid]. rewrite N.eqb_refl. reflexivity.
Qed.

(** ** The description after loading the file again *)

Lemma desc_tags_of nm a k : descendants (El nm a k) = flat_map (fun c => c :: descendants c) (filter is_tag k).
Proof. cbn [descendants]. induction k as [|[x|cn ca ck] k IH]; cbn [flat_map filter is_tag]; auto. rewrite IH. reflexivity. Qed.
Lemma desc_reload n : descendants (reload n) = map reload (descendants n).
Proof.
  induction n as [x|nm a k IH] using node_ind'; [reflexivity|]. cbn [reload]. rewrite !desc_tags_of, norm_tags_same.
  destruct (merge_own (map reload k)) as (_ & E & _). rewrite E, reload_tags_filter. clear E.
  induction IH as [|c k Hc _ IHk]; [reflexivity|]. cbn [filter]. destruct (is_tag c); [|exact IHk]. cbn [map flat_map]. rewrite Hc, map_app, IHk. reflexivity.
Qed.
Lemma ifind_forget x n : x <> [] -> option_map forget (ifind (named x) n) = hd_error (find_all (has_name x) (forget n)).
Proof.
  intros Hx. unfold ifind, ifind_all, find_all. rewrite desc_forget. induction (idesc n) as [|y l IH]; [reflexivity|]. cbn [filter map].
  assert (E : has_name x (forget y) = named x y) by (destruct y; [destruct x; [contradiction|reflexivity]|reflexivity]). rewrite E. destruct (named x y); [reflexivity|exact IH].
Qed.
Lemma find_reload x n : hd_error (find_all (has_name x) (reload n)) = option_map reload (hd_error (find_all (has_name x) n)).
Proof.
  unfold find_all. rewrite desc_reload. induction (descendants n) as [|y l IH]; [reflexivity|]. cbn [filter map].
  assert (E : has_name x (reload y) = has_name x y) by (destruct y; reflexivity). rewrite E. destruct (has_name x y); [reflexivity|exact IH].
Qed.

Lemma desc_loaded x n d : x <> [] -> is_tag n = true -> doc_top (doc_forest (reload n)) = Some d ->
  option_map forget (ifind (named x) d) = option_map reload (hd_error (find_all (has_name x) n)).
Proof.
  intros Hx Hn Hd. destruct (doc_forest_root (reload n) d) as (_ & _ & E & _); [now rewrite SerProofs.reload_is_tag|exact Hd|]. rewrite ifind_forget by auto. rewrite E. apply find_reload.
Qed.
Lemma text_reload nm a x : dark x <> [] -> Forall (fun c => c <> 13) x -> node_string (reload (El nm a [Txt x])) = Some x.
Proof.
  intros Hx H13. cbn [reload map merge_texts]. destruct x as [|c x]; [contradiction|]. cbn [map norm_node node_string]. f_equal. now apply norm_dark.
Qed.

Lemma desc_round_trip void can st fs a n x y kd :
  is_tag (am_root a) = true -> writable (am_root a) -> doc_top (doc_forest (am_root a)) = Some n ->
  (exists t, inside t n /\ named (s "desc") t = true) -> good_text x -> dark x <> [] -> kind_named y kd -> can y = true ->
  exists t F' n', first_called (s "desc") n t /\ text_put t x n n' /\
    anim_set (doc_forest (am_root a)) n (s "desc") (PStr x) = (F', Ok tt) /\ doc_top F' = Some n' /\ anim_get st F' n' (s "desc") = Ok (PStr x) /\
    exists fs' a' a2 n2, save void can fs (mkAnim (forget n') (am_kind a) (am_file a)) (Some y) = (fs', a', Ok tt) /\
      load fs' y = Ok a2 /\ doc_top (doc_forest (am_root a2)) = Some n2 /\ anim_get st (doc_forest (am_root a2)) n2 (s "desc") = Ok (PStr x).
Proof.
  intros Ht W Hd Hex Hg Hdk Hk Hc. destruct (doc_forest_root _ _ Ht Hd) as (Hw & Hr & Ef & _).
  destruct (am_root a) as [|nm at0 ks] eqn:Er; [discriminate|]. destruct (doc_forest_top nm at0 ks) as (k' & EF & Ek & _). rewrite EF in *. cbn [doc_top] in Hd. injection Hd as <-.
  set (n := IE 1 nm at0 k') in *. assert (Hn : itag n = true) by reflexivity.
  pose proof (first_found (s "desc") n Hn) as Hff. destruct (ifind (named (s "desc")) n) as [t|] eqn:Et.
  2:{ destruct Hex as (t & H1 & H2). rewrite (Hff t H1) in H2. discriminate. }
  assert (Htt : itag t = true) by (destruct Hff as (_ & H & _); now apply named_tag in H).
  destruct (iat_doc t x (IE 0 (s "[document]") [] [n]) n) as (n' & E1 & E2 & E3); auto; [apply Hff|].
  assert (Hnd : NoDup (uids n)). { unfold wf in Hw. change (fuids [IE 0 (s "[document]") [] [n]]) with (uids (IE 0 (s "[document]") [] [n]) ++ []) in Hw. rewrite app_nil_r, uids_IE in Hw. change (fuids [n]) with (uids n ++ []) in Hw. rewrite app_nil_r in Hw. now inversion Hw. }
  pose proof (found_after (s "desc") x n t Hn Hnd Et) as Hfa. rewrite <- E3 in Hfa.
  exists t, [IE 0 (s "[document]") [] [n']], n'. split; [exact Hff|]. split; [exact E2|]. split.
  { unfold anim_set. change (aget (s "desc") anim_attrs) with (@None (atype * pyval)). cbv iota. change (pstr_eqb (s "desc") (s "end_time")) with false. cbv iota.
    match goal with |- context [if existsb ?f ?l then _ else _] => change (existsb f l) with false end. cbv iota.
    match goal with |- context [if existsb ?f ?l then _ else _] => change (existsb f l) with false end. cbv iota.
    change (pstr_eqb (s "desc") (s "desc")) with true. cbv iota. rewrite Et. f_equal. exact E1. }
  split; [reflexivity|].
  assert (Hget : forall F m, anim_get st F m (s "desc") = desc_get m) by reflexivity.
  split. { rewrite Hget. unfold desc_get. rewrite Hfa. reflexivity. }
  assert (Wn : writable (forget n')) by (apply (put_writable t x n n'); auto; rewrite Ef; exact W).
  assert (Tn : is_tag (forget n') = true) by (inversion E2; reflexivity).
  destruct (saved_loads void can fs (mkAnim (forget n') (am_kind a) (am_file a)) (Some y) y kd) as (fs' & S1 & _ & S2); cbn [target_of am_root] in *; auto.
  destruct (forget n') as [|nm2 at2 ks2] eqn:En'; [discriminate|].
  destruct (doc_forest_top nm2 (reload_attrs at2) (map norm_node (merge_texts (map reload ks2)))) as (k2 & Ef2 & Ek2 & _).
  assert (Hd2 : doc_top (doc_forest (reload (El nm2 at2 ks2))) = Some (IE 1 nm2 (reload_attrs at2) k2)) by (cbn [reload]; rewrite Ef2; reflexivity).
  exists fs', (mkAnim (El nm2 at2 ks2) kd (Some y)), (mkAnim (reload (El nm2 at2 ks2)) kd (Some y)), (IE 1 nm2 (reload_attrs at2) k2).
  split; [exact S1|]. split; [exact S2|]. cbn [am_root]. split; [exact Hd2|]. rewrite Hget. unfold desc_get.
  pose proof (desc_loaded (s "desc") (El nm2 at2 ks2) _ ltac:(discriminate) eq_refl Hd2) as HL.
  rewrite <- En', <- ifind_forget, Hfa in HL by discriminate. cbn [option_map forget map] in HL.
  destruct (ifind (named (s "desc")) (IE 1 nm2 (reload_attrs at2) k2)) as [t2|]; [|discriminate]. cbn [option_map] in HL.
  assert (E4 : forget t2 = reload (El (iname t) (iattrs t) [Txt x])) by congruence. rewrite E4, (text_reload (iname t) (iattrs t) x Hdk); [reflexivity|now apply good_no13].
Qed.

(** ** end_time *)

Lemma T_init_same v a b : (forall k, In k [s "fps"; s "begin-time"; s "end-time"] -> aget k a = aget k b) -> T_init v (Some a) = T_init v (Some b).
Proof.
  intros H. unfold T_init, ctx_fps, root_time. rewrite !(H (s "fps")), !(H (s "begin-time")), !(H (s "end-time")) by (cbn [In]; tauto). reflexivity.
Qed.
Lemma top_is F n : doc_top F = Some n -> exists u nm a, F = [IE u nm a [n]].
Proof.
  unfold doc_top. destruct F as [|[y|u nm a [|m [|? ?]]] [|? ?]]; try discriminate. intros [= <-]. eauto.
Qed.
Lemma top_root F n : doc_top F = Some n -> itag n = true -> root_of F n.
Proof. intros H Ht. apply top_is in H as (u & nm & a & ->). exists (IE u nm a [n]). repeat split; auto. now left. Qed.
Lemma top_attr F n k v : wf F -> doc_top F = Some n -> itag n = true ->
  doc_top (fat (iuid n) (with_iattrs (aset k v)) F) = Some (with_iattrs (aset k v) n).
Proof.
  intros Hw Ht Htag. apply top_is in Ht as (u & nm & a & ->). unfold wf in Hw. rewrite fuids_IE in Hw. inversion Hw as [|? ? Hu _]; subst.
  unfold fat. cbn [map iat]. assert (E : (iuid n =? u) = false).
  { apply N.eqb_neq. intros E. apply Hu. rewrite <- E. apply in_or_app. left. change (fuids [n]) with (uids n ++ []). apply in_or_app. left. now apply tag_uid. }
  rewrite E. cbn [doc_top]. f_equal. destruct n as [|nu nn na nk]; [discriminate|]. cbn [iat iuid]. now rewrite N.eqb_refl.
Qed.
Lemma uids_attrs u g n : uids (iat u (with_iattrs g) n) = uids n.
Proof.
  induction n as [x|v nm a k IH] using inode_ind'; [reflexivity|]. cbn [iat]. destruct (u =? v); [reflexivity|]. rewrite !uids_IE. f_equal.
  unfold fuids. induction IH as [|c k Hc _ IHk]; [reflexivity|]. cbn [map flat_map]. rewrite Hc. f_equal. exact IHk.
Qed.
Lemma wf_attr F u g : wf F -> wf (fat u (with_iattrs g) F).
Proof.
  unfold wf. intros H. assert (E : fuids (fat u (with_iattrs g) F) = fuids F); [|now rewrite E].
  unfold fuids, fat. clear H. induction F as [|n F IH]; [reflexivity|]. cbn [map flat_map]. now rewrite uids_attrs, IH.
Qed.
Lemma set_end_time F n v x : wf F -> doc_top F = Some n -> itag n = true -> iname n = s "canvas" -> py_str v = Ok x ->
  exists F' n', anim_set F n (s "end_time") v = (F', Ok tt) /\ doc_top F' = Some n' /\ ikids n' = ikids n /\ iname n' = iname n /\
    aget (s "end_time") (iattrs n') = Some (AStr x) /\ (forall k, k <> s "end_time" -> aget k (iattrs n') = aget k (iattrs n)) /\
    end_time F' n' = T_init (TStr x) (Some (iattrs n)) /\ begin_time F' n' = begin_time F n /\ framecount F' n' = framecount F n.
Proof.
  intros Hw Ht Htag Hc Hv. exists (fat (iuid n) (with_iattrs (aset (s "end_time") (AStr x))) F), (with_iattrs (aset (s "end_time") (AStr x)) n).
  pose proof (top_attr F n (s "end_time") (AStr x) Hw Ht Htag) as Ht'. pose proof (wf_attr F (iuid n) (aset (s "end_time") (AStr x)) Hw) as Hw'.
  set (F' := fat _ _ F) in *. assert (Htag' : itag (with_iattrs (aset (s "end_time") (AStr x)) n) = true) by (destruct n; [discriminate|reflexivity]).
  set (n' := with_iattrs _ n) in *.
  assert (En : iname n' = iname n /\ ikids n' = ikids n /\ iuid n' = iuid n /\ iattrs n' = aset (s "end_time") (AStr x) (iattrs n)) by (destruct n; [discriminate|now repeat split]). destruct En as (En & Ek & Eu & Ea).
  split. { unfold anim_set. change (aget (s "end_time") anim_attrs) with (@None (atype * pyval)). cbv iota. change (pstr_eqb (s "end_time") (s "end_time")) with true. cbv iota. cbn [set_conv]. rewrite Hv. reflexivity. }
  split; [exact Ht'|]. split; [exact Ek|]. split; [exact En|]. rewrite Ea. split; [apply aget_aset_same|]. split; [intros k Hk; now apply aget_aset_other|].
  pose proof (ctx_in_doc F n n Hw (top_root F n Ht Htag) Hc (or_introl eq_refl)) as C.
  pose proof (ctx_in_doc F' n' n' Hw' (top_root F' n' Ht' Htag') (eq_trans En Hc) (or_introl eq_refl)) as C'.
  assert (S : forall v, T_init v (Some (iattrs n')) = T_init v (Some (iattrs n))).
  { intros w. apply T_init_same. intros k Hk. rewrite Ea. apply aget_aset_other. intros ->. cbn [In] in Hk. destruct Hk as [Hk|[Hk|[Hk|[]]]]; discriminate Hk. }
  split; [|split].
  - unfold end_time, time_of_str. rewrite C', S, Ea, aget_aset_same. reflexivity.
  - unfold begin_time, time_of_str, attr_item. rewrite C, C', Ea, aget_aset_other by discriminate. destruct (aget (s "begin-time") (iattrs n)) as [[y| | |]|]; cbn [bind]; auto. now rewrite <- Ea, S.
  - unfold framecount. rewrite C, C', S. reflexivity.
Qed.

(** ** size *)

Lemma set_size F n w h : wf F -> doc_top F = Some n -> itag n = true ->
  exists F1 n1 F2 n2, anim_set F n (s "width") (PInt w) = (F1, Ok tt) /\ doc_top F1 = Some n1 /\
    anim_set F1 n1 (s "height") (PInt h) = (F2, Ok tt) /\ doc_top F2 = Some n2 /\ size n2 = Ok (w, h).
Proof.
  intros Hw Ht Htag. exists (fat (iuid n) (with_iattrs (aset (s "width") (AInt w))) F), (with_iattrs (aset (s "width") (AInt w)) n).
  pose proof (top_attr F n (s "width") (AInt w) Hw Ht Htag) as Ht'. pose proof (wf_attr F (iuid n) (aset (s "width") (AInt w)) Hw) as Hw'. set (F' := fat _ _ F) in *.
  assert (Htag' : itag (with_iattrs (aset (s "width") (AInt w)) n) = true) by (destruct n; [discriminate|reflexivity]). set (n' := with_iattrs _ n) in *.
  exists (fat (iuid n') (with_iattrs (aset (s "height") (AInt h))) F'), (with_iattrs (aset (s "height") (AInt h)) n').
  split; [reflexivity|]. split; [exact Ht'|]. split; [reflexivity|]. split; [now apply top_attr|].
  assert (Ea : iattrs (with_iattrs (aset (s "height") (AInt h)) n') = aset (s "height") (AInt h) (aset (s "width") (AInt w) (iattrs n))) by (unfold n'; destruct n; [discriminate|reflexivity]).
  unfold size, attr_item. rewrite Ea. rewrite aget_aset_other by discriminate. rewrite !aget_aset_same. reflexivity.
Qed.
