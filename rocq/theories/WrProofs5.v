(** bywords leaves a document that can be written. *)
From Coq Require Import Lia Permutation.
From Verif Require Import ValModel TlModel XpSpec DocProofs LaySpec AnimProofs5 BywModel BywSpec BywProofs8 BywProofs14 BywProofs15 WrSpec WrProofs WrProofs2 WrProofs3 WrProofs4.
Local Open Scope N_scope.

Definition sound (rn : pstr) (F : forest) : Prop := fgood F /\ inv rn F.

Lemma text_value_sound rn F u v c : sound rn F -> 1 < u -> text_value F u = Ok (v, c) -> gtag (forget v) /\ 1 < iuid v /\ fget (iuid v) F = Some v.
Proof.
  intros [G I] U. unfold text_value. destruct (fget u F) as [n|] eqn:E; [|discriminate]. intros H. apply getitem_below in H. assert (Hz : u <> 0) by lia.
  pose proof (below_get F u n v (proj1 I) E H) as Hv. pose proof (below rn F u n v I E Hz H) as Hb. split; [|auto]. apply (fget_gtag (iuid v) F v G); [lia|exact Hv].
Qed.
Lemma write_sound rn F w n m : sound rn F -> 1 < w -> fget w F = Some n -> gtag m -> sound rn (write_tag F w m).
Proof. intros [G I] W E H. split; [now apply write_tag_good|]. apply inv_write; [exact W|now exists n|exact I]. Qed.
Lemma unanimate_sound rn F u : sound rn F -> 1 < u -> sound rn (fst (text_unanimate F u)).
Proof.
  intros S U. unfold text_unanimate. destruct (text_value F u) as [[v c]|] eqn:E; [|exact S]. destruct (text_value_sound rn F u v c S U E) as (A & B & C). destruct (is_animated (forget v)); [|exact S].
  pose proof (is_animated_good c (forget v) (ctx_of F (iuid v)) true false A) as H. destruct (set_is_animated c (forget v) (ctx_of F (iuid v)) true false) as [m r]. cbn [fst] in *. now apply (write_sound rn F _ v).
Qed.
Lemma andthen_sound rn c k : sound rn (fst c) -> (forall F, sound rn F -> sound rn (fst (k F))) -> sound rn (fst (andthen c k)).
Proof. intros G H. destruct c as [F [x|e]]; cbn [andthen fst] in *; [now apply H|exact G]. Qed.
Lemma all_sound rn l : Forall (fun t => 1 < bt_layer t) l -> forall F, sound rn F -> sound rn (fst (unanimate_all F l)).
Proof. induction 1 as [|t l H _ IH]; intros F S; [exact S|]. cbn [unanimate_all]. apply andthen_sound; [now apply unanimate_sound|exact IH]. Qed.
Lemma try_sound rn letter gs line : Forall (fun g => Forall (fun t => 1 < bt_layer t) (bg_texts g)) gs -> forall F, sound rn F -> sound rn (fst (try_groups letter F gs line)).
Proof.
  intros H. destruct line as [[a b] x]. induction H as [|g gs H _ IH]; intros F S; [exact S|]. cbn [try_groups]. unfold group_matches. destruct (negb (pstr_eqb x (full_text g))); [now apply IH|].
  pose proof (all_sound rn _ H F S) as S1. destruct (unanimate_all F (bg_texts g)) as [F1 [[]|e]]; [|exact S1]. cbn [fst] in S1. destruct (timed a b _) as [[|w ws]|e]; [now apply IH|exact S1|exact S1].
Qed.
Lemma lines_sound rn letter gs lines : Forall (fun g => Forall (fun t => 1 < bt_layer t) (bg_texts g)) gs -> forall F d no, sound rn F -> sound rn (fst (run_lines letter F gs lines d no)).
Proof.
  intros H. induction lines as [|line lines IH]; intros F d no S; [exact S|]. cbn [run_lines]. pose proof (try_sound rn letter gs line H F S) as S1. destruct (try_groups letter F gs line) as [F1 [[|w ws]|e]]; cbn [fst] in S1; [now apply IH|now apply IH|exact S1].
Qed.

Lemma constant_good cx x text w : good_text text -> constant_waypoint cx x text = Ok w -> good_wp w.
Proof.
  intros T H. unfold constant_waypoint in H. apply bind_ok in H as (v & Ev & H). apply bind_ok in H as (t & _ & H). apply new_value_good in Ev; [|exact T]. apply waypoint_new_good in H; [exact H|exact Ev].
Qed.
Lemma waypoints_sound rn v c l : 1 < v -> Forall (fun p => good_text (snd p)) l -> forall F, sound rn F -> sound rn (fst (set_waypoints_of F v c l)).
Proof.
  intros V. induction 1 as [|[x text] l H _ IH]; intros F S; [exact S|]. cbn [set_waypoints_of snd] in *. apply andthen_sound; [|exact IH]. unfold set_constant_waypoint.
  destruct (fget v F) as [n|] eqn:E; [|exact S]. destruct (constant_waypoint (ctx_of F v) x text) as [w|] eqn:Ew; [|exact S]. apply constant_good in Ew; [|exact H].
  assert (A : gtag (forget n)) by (apply (fget_gtag v F n (proj1 S)); [lia|exact E]). pose proof (tl_add_good c (forget n) (ctx_of F v) true [w] true A ltac:(constructor; [exact Ew|constructor])) as G.
  destruct (tl_add c (forget n) (ctx_of F v) true [w] true) as [m r]. cbn [fst] in *. now apply (write_sound rn F v n).
Qed.
Lemma objs_sound rn words objs : Forall (fun w => good_text (wd_text w)) words -> Forall (fun o => 1 < snd o) objs -> forall F, sound rn F -> sound rn (fst (adjust_all words F objs)).
Proof.
  intros T. induction 1 as [|o objs H _ IH]; intros F S; [exact S|]. cbn [adjust_all]. apply andthen_sound; [|exact IH]. unfold adjust_one. destruct (text_value F (snd o)) as [[v c]|] eqn:E; [|exact S].
  destruct (text_value_sound rn F _ v c S H E) as (_ & B & _). apply waypoints_sound; [exact B| |exact S]. constructor; [constructor|]. rewrite Forall_map. cbn [snd]. rewrite Forall_forall in T |- *. intros w Hw. apply filter_In in Hw as [Hw _]. auto.
Qed.
Lemma adjust_sound rn order st letter F root srt : (forall l, Permutation (order l) l) -> fget 1 F = Some root -> sound rn F -> sound rn (fst (adjust order st letter F root srt)).
Proof.
  intros O R S. unfold adjust. destruct (bywords st letter F root srt) as [F1 r1] eqn:B. pose proof B as B'. unfold bywords in B. destruct (bywords_groups st F root) as [gs|e] eqn:Eg; [|injection B as <- <-; exact S].
  assert (X : forall t, In t (all_texts gs) -> 1 < bt_layer t).
  { intros t Ht. destruct (bywords_groups_texts _ _ _ _ Eg) as [_ H]. destruct (H t Ht) as (n & Hn & <-). apply (below rn F 1 root n (proj2 S) R); [discriminate|exact Hn]. }
  assert (Y : Forall (fun g => Forall (fun t => 1 < bt_layer t) (bg_texts g)) gs).
  { rewrite Forall_forall. intros g Hg. rewrite Forall_forall. intros t Ht. apply X. unfold all_texts. apply in_flat_map. eauto. }
  pose proof (lines_sound rn letter gs (map tidy_line srt) Y F [] [] S) as S1. destruct (run_lines letter F gs (map tidy_line srt) [] []) as [F2 r2] eqn:E. cbn [fst] in S1. destruct r2 as [[d no]|e]; injection B as <- <-; [|exact S1].
  assert (Z : incl (matched gs (map tidy_line srt)) (map bt_layer (all_texts gs))).
  { intros y Hy. unfold matched in Hy. apply in_flat_map in Hy as (line & _ & Hy). destruct (group_for gs (snd line)) as [g|] eqn:G; [|destruct Hy]. apply in_map_iff in Hy as (t & <- & Ht). apply in_map. unfold all_texts. apply in_flat_map. exists g. split; [now apply group_for_In in G|exact Ht]. }
  destruct (run_lines_keeps letter (map bt_layer (all_texts gs)) gs _ F [] [] F2 _ (proj1 (proj2 S)) Z ltac:(intros y []) E) as [_ L].
  apply objs_sound; [|apply Forall_forall; intros o Ho|exact S1].
  - apply (words_good st letter F root srt gs F2 (sort_words d) no Eg B'). intros x Hx. apply (writable_desc root); [|exact Hx]. apply (fget_good 1 F root (proj1 S)); [discriminate|exact R].
  - apply (Permutation_in o (O _)) in Ho. assert (Hi : In (snd o) (map bt_layer (all_texts gs))).
    { apply (objs_layers_in _ (sort_words d)); [|now apply in_map]. intros z Hz. apply (L d no eq_refl). apply in_map_iff in Hz as (w & <- & Hw). apply in_map. exact (sort_In _ _ _ Hw). }
    apply in_map_iff in Hi as (t & <- & Ht). now apply X.
Qed.
