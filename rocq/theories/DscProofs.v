(** Proofs about descriptions of any text, after saving and loading. *)
From Verif Require Import AnimModel AnimSpec AnimSpec2 XpSpec XpProofs SerProofs AnimProofs AnimProofs2 AnimProofs3 AnimProofs4 AnimProofs5 AnimProofs6 DscSpec DocProofs DocProofs2 LaySpec LayProofs LayProofs6 ClsProofs PyFloatProofs PyFmtProofs PyFmtProofs2 ValProofs ValProofs2.
From Coq Require Import Lia ZifyN ZifyBool.
Local Open Scope N_scope.

Lemma text_back nm a x z : Forall (fun c => c <> 13) x -> comes_back x z ->
  (match node_string (reload (El nm a [Txt x])) with Some y => PStr y | None => PNone end) = z.
Proof.
  intros H13 Hz. destruct Hz as [|x Hx|x Hx Hi|x He Hx Hi]; [reflexivity| | |].
  - now rewrite text_reload.
  - assert (En : existsb (N.eqb 10) x = true) by (apply existsb_exists; exists 10; split; [exact Hi|reflexivity]).
    cbn [reload map merge_texts]. destruct x as [|c x]; [destruct Hi|]. cbn [map norm_node node_string]. unfold norm_text. rewrite norm_eol_id by auto.
    unfold norm_blank. apply dark_white in Hx. rewrite Hx, En. reflexivity.
  - assert (En : existsb (N.eqb 10) x = false).
    { destruct (existsb (N.eqb 10) x) eqn:E; [|reflexivity]. apply existsb_exists in E. destruct E as (c & H1 & H2). apply N.eqb_eq in H2. subst c. contradiction. }
    cbn [reload map merge_texts]. destruct x as [|c x]; [contradiction|]. cbn [map norm_node node_string]. unfold norm_text. rewrite norm_eol_id by auto.
    unfold norm_blank. apply dark_white in Hx. rewrite Hx, En. reflexivity.
Qed.
Lemma back_all x : exists z, comes_back x z.
Proof.
  destruct x as [|c x]; [exists PNone; constructor|]. destruct (dark (c :: x)) as [|d l] eqn:E.
  - destruct (in_dec N.eq_dec 10 (c :: x)) as [H|H]; eexists; [now apply back_line|apply back_blank; auto; discriminate].
  - eexists. apply back_shown. rewrite E. discriminate.
Qed.

Lemma desc_any void can st fs a n x z y kd :
  is_tag (am_root a) = true -> writable (am_root a) -> doc_top (doc_forest (am_root a)) = Some n ->
  (exists t, inside t n /\ named (s "desc") t = true) -> good_text x -> comes_back x z -> kind_named y kd -> can y = true ->
  exists t F' n', first_called (s "desc") n t /\ text_put t x n n' /\
    anim_set (doc_forest (am_root a)) n (s "desc") (PStr x) = (F', Ok tt) /\ doc_top F' = Some n' /\ anim_get st F' n' (s "desc") = Ok (PStr x) /\
    exists fs' a' a2 n2, save void can fs (mkAnim (forget n') (am_kind a) (am_file a)) (Some y) = (fs', a', Ok tt) /\
      load fs' y = Ok a2 /\ doc_top (doc_forest (am_root a2)) = Some n2 /\ anim_get st (doc_forest (am_root a2)) n2 (s "desc") = Ok z.
Proof.
  intros Ht W Hd Hex Hg Hz Hk Hc. destruct (doc_forest_root _ _ Ht Hd) as (Hw & Hr & Ef & _).
  destruct (am_root a) as [|nm at0 ks] eqn:Er; [discriminate|]. destruct (doc_forest_top nm at0 ks) as (k' & EF & Ek & _). rewrite EF in *. cbn [doc_top] in Hd. injection Hd as <-.
  set (n := IE 1 nm at0 k') in *. assert (Hn : itag n = true) by reflexivity.
  pose proof (first_found (s "desc") n Hn) as Hff. destruct (ifind (named (s "desc")) n) as [t|] eqn:Et.
  2:{ destruct Hex as (t & H1 & H2). rewrite (Hff t H1) in H2. discriminate. }
  assert (Htt : itag t = true) by (destruct Hff as (_ & H & _); now apply named_tag in H).
  destruct (iat_doc t x (IE 0 (s "[document]") [] [n]) n) as (n' & E1 & E2 & E3); auto; [apply Hff|].
  assert (Hnd : NoDup (uids n)). { unfold wf in Hw. change (fuids [IE 0 (s "[document]") [] [n]]) with (uids (IE 0 (s "[document]") [] [n]) ++ []) in Hw. rewrite app_nil_r, uids_IE in Hw. change (fuids [n]) with (uids n ++ []) in Hw. rewrite app_nil_r in Hw. now inversion Hw. }
  pose proof (found_after (s "desc") x n t Hn Hnd Et) as Hfa. rewrite <- E3 in Hfa.
  exists t, [IE 0 (s "[document]") [] [n']], n'. split; [exact Hff|]. split; [exact E2|]. split.
  { unfold anim_set. change (aget (s "desc") anim_attrs) with (@None (atype * pyval)). cbv iota. change (pstr_eqb (s "desc") (s "end_time")) with false. cbv iota.
    match goal with |- context [if existsb ?f ?l then _ else _] => change (existsb f l) with false end. cbv iota.
    match goal with |- context [if existsb ?f ?l then _ else _] => change (existsb f l) with false end. cbv iota.
    change (pstr_eqb (s "desc") (s "desc")) with true. cbv iota. rewrite Et. f_equal. exact E1. }
  split; [reflexivity|].
  assert (Hget : forall F m, anim_get st F m (s "desc") = desc_get m) by reflexivity.
  split. { rewrite Hget. unfold desc_get. rewrite Hfa. reflexivity. }
  assert (Wn : writable (forget n')) by (apply (put_writable t x n n'); auto; rewrite Ef; exact W).
  assert (Tn : is_tag (forget n') = true) by (inversion E2; reflexivity).
  destruct (saved_loads void can fs (mkAnim (forget n') (am_kind a) (am_file a)) (Some y) y kd) as (fs' & S1 & _ & S2); cbn [target_of am_root] in *; auto.
  destruct (forget n') as [|nm2 at2 ks2] eqn:En'; [discriminate|].
  destruct (doc_forest_top nm2 (reload_attrs at2) (map norm_node (merge_texts (map reload ks2)))) as (k2 & Ef2 & Ek2 & _).
  assert (Hd2 : doc_top (doc_forest (reload (El nm2 at2 ks2))) = Some (IE 1 nm2 (reload_attrs at2) k2)) by (cbn [reload]; rewrite Ef2; reflexivity).
  exists fs', (mkAnim (El nm2 at2 ks2) kd (Some y)), (mkAnim (reload (El nm2 at2 ks2)) kd (Some y)), (IE 1 nm2 (reload_attrs at2) k2).
  split; [exact S1|]. split; [exact S2|]. cbn [am_root]. split; [exact Hd2|]. rewrite Hget. unfold desc_get.
  pose proof (desc_loaded (s "desc") (El nm2 at2 ks2) _ ltac:(discriminate) eq_refl Hd2) as HL.
  rewrite <- En', <- ifind_forget, Hfa in HL by discriminate. cbn [option_map forget map] in HL.
  destruct (ifind (named (s "desc")) (IE 1 nm2 (reload_attrs at2) k2)) as [t2|]; [|discriminate]. cbn [option_map] in HL.
  assert (E4 : forget t2 = reload (El (iname t) (iattrs t) [Txt x])) by congruence. rewrite E4. f_equal. apply text_back; [now apply good_no13|exact Hz].
Qed.