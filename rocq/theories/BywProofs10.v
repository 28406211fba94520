(** Adjusting the words of a document: which order they are taken in, and what is left as it is. *)
From Coq Require Import Lqa ZifyBool ZifyN ZifyNat Permutation Sorting.Sorted.
From Verif Require Import DocProofs LaySpec LayProofs LayProofs5 LayProofs6 AnimSpec TlSpec PyFloatProofs SerProofs.
From Verif Require Import BywModel BywSpec BywProofs BywProofs2 BywProofs3 BywProofs4 BywProofs5 BywProofs6 BywProofs7 BywProofs8 BywProofs9.
Local Open Scope N_scope.

(** ** The whole document *)

Lemma hollow_forgets V (F : forest) : forall F' : forest, map (hollow V) F = map (hollow V) F' ->
  (forall v x x', In v V -> In x (fdesc F) -> In x' (fdesc F') -> iuid x = v -> iuid x' = v -> forget x = forget x') -> map forget F = map forget F'.
Proof.
  induction F as [|x F IH|u nm a k F IHk IH] using forest_ind; intros F' E H.
  - destruct F'; [reflexivity|discriminate].
  - destruct F' as [|[x'|u' nm' a' k'] F']; cbn [map hollow] in E; [discriminate| |destruct (existsb _ V); discriminate].
    injection E as <- E. cbn [map forget]. f_equal. apply IH; [exact E|exact H].
  - destruct F' as [|[x'|u' nm' a' k'] F']; cbn [map hollow] in E; [discriminate|destruct (existsb _ V); discriminate|].
    injection E as E1 E2. assert (u' = u) as -> by (destruct (existsb (N.eqb u) V), (existsb (N.eqb u') V); now injection E1).
    cbn [map]. assert (Ht : map forget F = map forget F').
    { apply IH; [exact E2|]. intros v x x' Hv Hx Hx'. apply (H v); auto; rewrite fdesc_IE; right; apply in_or_app; now right. }
    rewrite Ht. f_equal. destruct (existsb (N.eqb u) V) eqn:Ev.
    + apply existsb_exists in Ev as (v & Hv & Eu). apply N.eqb_eq in Eu. subst v. apply (H u); auto; rewrite fdesc_IE; now left.
    + injection E1 as <- <- Ek. cbn [forget]. f_equal. apply IHk; [exact Ek|]. intros v x x' Hv Hx Hx'. apply (H v); auto; rewrite fdesc_IE; right; apply in_or_app; now left.
Qed.

Section Suits.
  Context (st : lcls) (letter : bool) (F : forest) (root : inode) (srt : list (Z * Z * pstr)) (gs : list bgroup) (f : Q) (val : N -> N) (old calm : N -> node).
  Let lines := map tidy_line srt.
  Let V := map val (matched gs lines).
  Context (Su : suits st F root gs f val old calm).

  Lemma layer_text u : In u (map bt_layer (all_texts gs)) -> exists t, In t (all_texts gs) /\ bt_layer t = u.
  Proof. intros H. apply in_map_iff in H as (t & <- & Ht). eauto. Qed.

  Lemma suits_adjust order : timely letter gs lines -> (forall l, Permutation (order l) l) ->
    exists F' words no new, bywords st letter F root srt = (F', Ok (words, no)) /\
    exists F'', adjust order st letter F root srt = (F'', Ok tt) /\ wf F'' /\ map (hollow V) F'' = map (hollow V) F /\
      texts (iattrs root) (map bt_layer (all_texts gs)) val F'' new /\
      (forall u, new u = if mem u (matched gs lines)
                         then match filter (fun w => wd_layer w =? u) words with [] => calm u | ws => animated_string (showing f ws) end
                         else old u).
  Proof.
    intros [T1 T2]. destruct Su. apply adjust_is; auto.
    - intros u Hu. apply layer_text in Hu as (t & Ht & <-). auto.
    - intros u u' Hu Hu'. apply layer_text in Hu as (t & Ht & <-). apply layer_text in Hu' as (t' & Ht' & <-). auto.
    - intros u Hu. apply layer_text in Hu as (t & Ht & <-). auto.
    - intros line g Hl Hg. rewrite letters_total. eauto.
  Qed.

  Lemma matched_layers u : In u (matched gs lines) -> In u (map bt_layer (all_texts gs)).
  Proof.
    intros Hu. unfold matched in Hu. apply in_flat_map in Hu as (line & _ & Hu). destruct (group_for gs (snd line)) as [g|] eqn:E; [|contradiction].
    apply group_for_In in E. apply in_map_iff in Hu as (t & <- & Ht). apply in_map. unfold all_texts. apply in_flat_map. eauto.
  Qed.

  (** The order of the set doesn't matter. *)
  Lemma adjust_order order order' : timely letter gs lines -> (forall l, Permutation (order l) l) -> (forall l, Permutation (order' l) l) ->
    map forget (fst (adjust order st letter F root srt)) = map forget (fst (adjust order' st letter F root srt)).
  Proof.
    intros T O O'. destruct (suits_adjust order T O) as (F1 & ws & no & new & B & F2 & A & W & H & X & Y).
    destruct (suits_adjust order' T O') as (F1' & ws' & no' & new' & B' & F2' & A' & W' & H' & X' & Y'). rewrite A, A'. cbn [fst].
    rewrite B in B'. injection B' as <- <- <-. apply (hollow_forgets V); [now rewrite H, H'|].
    intros v x x' Hv Hx Hx' Ex Ex'. unfold V in Hv. apply in_map_iff in Hv as (u & <- & Hu). apply matched_layers in Hu.
    destruct (text_at_desc _ _ _ _ W (tx_at _ _ _ _ _ X u Hu)) as (n & y & _ & Hy & Fy & _). destruct (text_at_desc _ _ _ _ W' (tx_at _ _ _ _ _ X' u Hu)) as (n' & y' & _ & Hy' & Fy' & _).
    pose proof (fget_desc _ _ W Hx) as G. rewrite Ex, Hy in G. injection G as ->. pose proof (fget_desc _ _ W' Hx') as G. rewrite Ex', Hy' in G. injection G as ->.
    rewrite Fy, Fy', Y, Y'. reflexivity.
  Qed.

  (** A tag with no text of a matched layer in it, and not in one, stays as it is. *)
  Lemma others_kept F'' u n : wf F'' -> map (hollow V) F'' = map (hollow V) F -> fget u F = Some n ->
    (forall w, In w (matched gs lines) -> ~ In (val w) (uids n)) -> (forall w x, In w (matched gs lines) -> fget (val w) F = Some x -> ~ In u (uids x)) -> fget u F'' = Some n.
  Proof.
    intros W H Hn H1 H2. apply (hollow_keeps V F); auto; [apply Su| |].
    - intros y Hy. unfold V in Hy. apply in_map_iff in Hy as (w & <- & Hw). auto.
    - intros v x Hv. unfold V in Hv. apply in_map_iff in Hv as (w & <- & Hw). eauto.
  Qed.
  (** So do the layers that don't match. *)
  Lemma unmatched_kept F'' t : wf F'' -> map (hollow V) F'' = map (hollow V) F -> In t (all_texts gs) -> ~ In (bt_layer t) (matched gs lines) -> 
    fget (bt_layer t) F'' = fget (bt_layer t) F /\ fget (bt_layer t) F <> None.
  Proof.
    intros W H Ht Hm. destruct (text_at_desc _ _ _ _ (su_wf _ _ _ _ _ _ _ _ Su) (su_text _ _ _ _ _ _ _ _ Su t Ht)) as (n & x & Hn & _). rewrite Hn. split; [|discriminate].
    apply others_kept; auto.
    - intros w Hw Hin. destruct (layer_text w (matched_layers w Hw)) as (t' & Ht' & <-).
      destruct (text_at_desc _ _ _ _ (su_wf _ _ _ _ _ _ _ _ Su) (su_text _ _ _ _ _ _ _ _ Su t' Ht')) as (n' & x' & Hn' & Hx' & _ & _ & Hi & _).
      apply (su_apart _ _ _ _ _ _ _ _ Su t' t Ht' Ht) with (y := val (bt_layer t')) (n := n') (n' := n); auto; [intros C; rewrite C in Hw; contradiction|].
      apply Hi. pose proof (fget_In _ _ _ Hx') as (_ & E & Et). rewrite <- E. now apply tag_uid.
    - intros w y Hw Hy Hin. destruct (layer_text w (matched_layers w Hw)) as (t' & Ht' & <-).
      destruct (text_at_desc _ _ _ _ (su_wf _ _ _ _ _ _ _ _ Su) (su_text _ _ _ _ _ _ _ _ Su t' Ht')) as (n' & x' & Hn' & Hx' & _ & _ & Hi & _).
      rewrite Hy in Hx'. injection Hx' as <-.
      apply (su_apart _ _ _ _ _ _ _ _ Su t' t Ht' Ht) with (y := bt_layer t) (n := n') (n' := n); auto; [intros C; rewrite C in Hw; contradiction|].
      pose proof (fget_In _ _ _ Hn) as (_ & E & Et). rewrite <- E at 1. now apply tag_uid.
  Qed.

  (** ** Lines that leave enough time *)

  Lemma paced_timely : Forall (line_paced letter gs) lines -> (forall line g, In line lines -> group_for gs (snd line) = Some g -> shown letter g <> []) -> timely letter gs lines.
  Proof.
    intros P S. rewrite Forall_forall in P. split.
    - intros [[a b] x] g Hl Hg. destruct (P _ Hl g Hg) as (Sl & _). destruct Sl as (_ & Ne & _). pose proof (total_count _ Ne) as C. rewrite map_length in C.
      specialize (S _ _ Hl Hg). destruct (shown letter g); [contradiction|]. cbn [length] in C. lia.
    - intros [[a b] x] w Hl Hw. specialize (P _ Hl). unfold line_words in Hw. destruct (group_for gs x) as [g|] eqn:Eg; [|contradiction].
      destruct (timed a b (shown letter g)) as [r|] eqn:Et; [|contradiction]. pose proof (paced_plain _ _ _ _ (P g Eg) Et) as Q. rewrite Forall_forall in Q. now apply Q.
  Qed.

  (** Every word is on the timeline of its layer, and the timeline has nothing but the words and the empty text. *)
  Lemma words_shown order : ((1 # 1000) <= f)%Q -> Forall (line_paced letter gs) lines -> no_overlap lines ->
    (forall line g, In line lines -> group_for gs (snd line) = Some g -> shown letter g <> []) -> (forall l, Permutation (order l) l) ->
    exists F'', adjust order st letter F root srt = (F'', Ok tt) /\
      forall t, In t (all_texts gs) -> In (bt_layer t) (matched gs lines) ->
        let ws := filter (fun w => wd_layer w =? bt_layer t) (flat_map (line_words letter gs) lines) in
        ws <> [] -> text_at F'' (bt_layer t) (val (bt_layer t)) (animated_string (showing f ws)) /\
          showing f ws = (match ws with w :: _ => if Qeq_bool (frame_of f w) 0 then [] else [shows f 0 []] | [] => [] end) ++ map (showing_word f) ws.
  Proof.
    intros Hf P O S Ho. destruct (suits_adjust order (paced_timely P S) Ho) as (F1 & words & no & new & B & F2 & A & W & H & X & Y). exists F2. split; [exact A|].
    intros t Ht Hm ws Hws. pose proof (paced_bywords st letter F root srt gs F1 words no (su_groups _ _ _ _ _ _ _ _ Su) B P O) as E. fold lines in E. split.
    - pose proof (tx_at _ _ _ _ _ X (bt_layer t) (in_map _ _ _ Ht)) as X0. rewrite Y, (proj2 (mem_In _ _) Hm), E in X0. fold ws in X0. destruct ws; [contradiction|exact X0].
    - destruct (frames_sorted letter gs lines f Hf P O) as [S1 S2]. rewrite showing_exact; [|now apply filter_sorted|now apply filter_forall]. destruct ws; [contradiction|reflexivity].
  Qed.
End Suits.
