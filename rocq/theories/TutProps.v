(** C158 and C159: the programs of the tutorial do what it says (TutSpec.v). *)
From Coq Require Import Lia.
From Verif Require AnimProofs2.
From Verif Require Import XpSpec SerModel SerProofs SavSpec SavSpec2 SavProofs2 SavProofs3 SavProofs4 SavProps2 WrProofs4 EndSpec.
From Verif Require Import XpSpec AnimModel AnimSpec AnimProofs5 AnimProps LayModel DocProofs DocProofs2 LaySpec LayProofs LayProofs2 LayProofs3 LayProofs4 LayProofs5 LayProofs6 LayProofs7 VarSpec VarProofs LoopModel MovSpec MovProofs MovProofs2 MovProps MixSpec MixProofs WrSpec ClsTable ClsProofs PrmSpec PrmProofs PrmProofs2 PrmProofs3 PrmProps WldSpec WldProofs WldProofs2 WldProps EndProps TutModel TutSpec TutProofs TutFile.
Local Open Scope N_scope.

(** The variables which the layers that say x call k *)
Definition meant (F : forest) (w : world) (n : inode) (x k : pstr) (q : N) : Prop := exists y, In y (idesc n) /\ says F w y x /\ place F (iuid y) k = Some q.

Lemma recolour_is st F w n x k c v m : usual F -> depicts F w -> fget 1 F = Some n -> texts_said F w n ->
  (forall y, In y (idesc n) -> says F w y x -> exists q t, called F w y k q c t) -> bare_val v -> new_value c v = Ok m -> from_tag m = Ok c ->
  exists us l', (forall u, In u us -> exists y, In y (idesc n) /\ iuid y = u) /\ wacts_mean F w (prog k (fun _ => v) us) l' /\ recolour st F x k v = (fst (wacts F (prog k (fun _ => v) us)), Ok tt) /\
    only w (fst (list_wacts w l')) (meant F w n x k) /\ (forall q, meant F w n x k q -> snd (fst (fst (list_wacts w l'))) q = Some m) /\
    (forall u f q, place F u f = Some q -> place (fst (wacts F (prog k (fun _ => v) us))) u f = Some q).
Proof.
  intros U D Hn Ht Hk Hv Hm Hc. destruct (find_texts st F w n x U D Hn Ht) as (l & El & Nd & Hl). exists (map iuid l).
  destruct (loop (fun G u => layer_setitem G u k (SPlain v)) k c (fun _ => v) (fun _ => m) (map iuid l) F w U D Nd) as (l' & M & E & (O1 & O2 & O3) & S & P).
  - intros u Hu. apply in_map_iff in Hu as (y & <- & Hy). apply Hl in Hy as [Hy Hs]. exact (Hk y Hy Hs).
  - auto.
  - auto.
  - auto.
  - exists l'. split; [intros u Hu; apply in_map_iff in Hu as (y & <- & Hy); apply Hl in Hy as [Hy _]; eauto|]. split; [exact M|]. split; [unfold recolour; now rewrite Hn, El|]. split; [|split; [|exact P]].
    + split; [exact O1|]. split; [exact O2|]. intros q Hq. apply O3. intros (u & Hu & Hp). apply Hq. apply in_map_iff in Hu as (y & <- & Hy). apply Hl in Hy as [Hy Hs]. exists y. auto.
    + intros q (y & Hy & Hs & Hp). apply (S (iuid y) q); [|exact Hp]. apply in_map, Hl. auto.
Qed.

(** C158: [for item in animation.find_all(text=x): item[k] = v] gives v to the parameter k of the layers that say x, wherever they are, and changes nothing else: no other
    parameter of these or other layers, no attribute, no group. *)
Theorem C158_recolour : forall st F w n x k c v m, usual F -> depicts F w -> fget 1 F = Some n -> texts_said F w n ->
  (forall y, In y (idesc n) -> says F w y x -> exists q t, called F w y k q c t) -> bare_val v -> new_value c v = Ok m -> from_tag m = Ok c ->
  exists F' w', recolour st F x k v = (F', Ok tt) /\ usual F' /\ depicts F' w' /\
    only w w' (meant F w n x k) /\ (forall q, meant F w n x k q -> snd (fst w') q = Some m) /\
    (forall u f q, place F u f = Some q -> place F' u f = Some q).
Proof.
  intros st F w n x k c v m U D Hn Ht Hk Hv Hm Hc. destruct (recolour_is st F w n x k c v m U D Hn Ht Hk Hv Hm Hc) as (us & l' & _ & M & E & O & S & P).
  destruct (wacts_right _ _ F w U D M) as (_ & U' & D'). exists (fst (wacts F (prog k (fun _ => v) us))), (fst (list_wacts w l')).
  split; [exact E|]. split; [exact U'|]. split; [exact D'|]. split; [exact O|]. split; [exact S|exact P].
Qed.
Print Assumptions C158_recolour.

Lemma told_fewer w pl pl' cx G : (forall u f q, pl' u f = Some q -> pl u f = Some q) -> forall u m, told w pl cx G u m -> told w pl' cx G u m.
Proof.
  intros H. fix IH 3. intros u m [u' m' A B C D E]. constructor; [exact A|exact B|intros f q t c Hp; apply (C f q t c (H _ _ _ Hp))|intros f q t c Hp; apply (D f q t c (H _ _ _ Hp))|].
  intros c Hc Hk. destruct (E c Hc Hk) as (ch & Hch & Fa). exists ch. split; [exact Hch|]. clear -IH Fa. induction Fa as [|x y l l' Hx Hl IHl]; constructor; [now apply IH|exact IHl].
Qed.

(** From the file [from] with the animation a, something is done to which the lists, variables and dictionaries w' are right. Then the file [to] has an animation in which all layers
    are as those say, from the top. Nothing else is written. *)
Definition made (void : pstr -> attrs -> bool) (can : pstr -> bool) (work : forest -> change) (fs : files) (a : anim) (from to : pstr) (w w' : world) : Prop :=
  exists fs' a2 r2 ch, main void can work fs from to = (fs', Ok tt) /\ (forall z, z <> to -> aget z fs' = aget z fs) /\
    load fs' to = Ok a2 /\ doc_top (doc_forest (am_root a2)) = Some r2 /\ children KAnim r2 = Ok ch /\
    (forall k, aget k (iattrs r2) = option_map (fun v => AStr (aval_str v)) (aget k (tag_attrs (am_root a)))) /\
    Forall2 (told w' (place (doc_forest (am_root a))) (Some (tag_attrs (am_root a))) (doc_forest (am_root a2))) (fst (fst w) 1) ch.

Lemma save_others void can fs a x fs' a' r z : save void can fs a (Some x) = (fs', a', r) -> z <> x -> aget z fs' = aget z fs.
Proof.
  unfold save, format_save, write_doc. intros H Hz. destruct (kind_by_name x) as [kd|e]; [|injection H as <- _ _; reflexivity]. cbn [am_kind am_file am_root] in H.
  destruct kd, (can x); try destruct (utf8_out (doc_out void (am_root a))); injection H as <- _ _; try reflexivity; now apply AnimProofs2.aget_aset_other.
Qed.
Lemma main_made void can work fs a from to kd w k vf us l' : load fs from = Ok a -> tidy (am_root a) ->
  let F := doc_forest (am_root a) in usual F -> depicts F w -> wacts_mean F w (prog k vf us) l' -> work F = (fst (wacts F (prog k vf us)), Ok tt) ->
  (forall u, In u us -> u <> 0 /\ good_val (vf u) /\ tidy_val (vf u)) -> kind_named to kd -> can to = true ->
  fst (fst (fst (list_wacts w l'))) = fst (fst w) -> (forall u f q, place F u f = Some q -> place (fst (wacts F (prog k vf us))) u f = Some q) ->
  made void can work fs a from to w (fst (list_wacts w l')).
Proof.
  intros L T F U D M E Hs Hk Hc Hf P.
  destruct (C156_saved void can a fs w (prog k vf us) l' (Some to) to kd) as (r & fs' & a2 & r2 & ch & Hr & Sv & L2 & T2 & Ch & At & Fa); auto.
  - right. eauto.
  - unfold prog. apply Forall_forall. intros x Hx. apply in_map_iff in Hx as (u & <- & Hu). exact (Hs u Hu).
  - intros n. split; [reflexivity|exact Hk].
  - exists fs', a2, r2, ch. fold F in Hr. split; [unfold main; rewrite L; fold F; rewrite E, Hr, Sv; reflexivity|]. split; [intros z Hz; exact (save_others _ _ _ _ _ _ _ _ z Sv Hz)|].
    split; [exact L2|]. split; [exact T2|]. split; [exact Ch|]. split; [exact At|]. rewrite Hf in Fa. fold F in Fa. clear -Fa P. induction Fa as [|x y l l2 Hx Hl IHl]; constructor; [|exact IHl].
    revert Hx. apply told_fewer. exact P.
Qed.

Lemma below_root F n y : usual F -> fget 1 F = Some n -> In y (idesc n) -> fget (iuid y) F = Some y.
Proof. intros U Hn Hy. pose proof (fget_In _ _ _ Hn) as (Hd & _). exact (fget_desc F y (us_wf F U) (desc_trans F n y Hd Hy)). Qed.
Lemma not_document a n y : let F := doc_forest (am_root a) in usual F -> fget 1 F = Some n -> In y (idesc n) -> iuid y <> 0.
Proof.
  intros F U Hn Hy E. pose proof (below_root F n y U Hn Hy) as Hu. rewrite E in Hu. pose proof (fget_In _ _ _ Hn) as (Hd & Hi & _).
  assert (X : exists k, F = [IE 0 (s "[document]") [] k]).
  { subst F. unfold doc_forest. cbn [label]. destruct (label (N.succ 0) (am_root a)) as [c u1]. cbn [fst]. eauto. }
  destruct X as (k & EF). assert (Ey : y = IE 0 (s "[document]") [] k). { assert (H : fget 0 F = Some (IE 0 (s "[document]") [] k)) by (apply (fget_desc F (IE 0 (s "[document]") [] k) (us_wf F U)); rewrite EF; left; reflexivity). congruence. }
  apply (idesc_not_self y n Hy (NoDup_inside F n (us_wf F U) Hd)). rewrite Hi, Ey. pose proof (fget_uids _ _ _ Hn) as H. rewrite EF in H. unfold fuids in H. cbn [flat_map] in H. now rewrite app_nil_r in H.
Qed.

(** stroop.py as a whole *)
Theorem C158_saved : forall st void can fs a from to kd w n x k c v m, load fs from = Ok a -> tidy (am_root a) ->
  let F := doc_forest (am_root a) in usual F -> depicts F w -> fget 1 F = Some n -> texts_said F w n ->
  (forall y, In y (idesc n) -> says F w y x -> exists q t, called F w y k q c t) -> bare_val v -> good_val v -> tidy_val v -> new_value c v = Ok m -> from_tag m = Ok c -> kind_named to kd -> can to = true ->
  exists w', only w w' (meant F w n x k) /\ (forall q, meant F w n x k q -> snd (fst w') q = Some m) /\
    made void can (fun F => recolour st F x k v) fs a from to w w'.
Proof.
  intros st void can fs a from to kd w n x k c v m L T F U D Hn Ht Hk Hv Gv Tv Hm Hc Kn Cn. destruct (recolour_is st F w n x k c v m U D Hn Ht Hk Hv Hm Hc) as (us & l' & Hu & M & E & O & S & P).
  exists (fst (list_wacts w l')). split; [exact O|]. split; [exact S|]. apply (main_made void can _ fs a from to kd w k (fun _ => v) us l'); auto; [|apply O].
  intros u Hi. destruct (Hu u Hi) as (y & Hy & <-). split; [exact (not_document a n y U Hn Hy)|auto].
Qed.
Print Assumptions C158_saved.

(** ** french.py *)

(** A layer of the type text *)
Definition text_typed (y : inode) : Prop := is_layer y = true /\ type_is y (s "text").
Lemma text_typed_is y : text_typed y -> is_text y.
Proof. intros [Hl Ht]. split; [exact Hl|]. unfold layer_class. unfold type_is in Ht. rewrite Ht. vm_compute. reflexivity. Qed.
(** The variables which the layers of the type text call text *)
Definition texts (F : forest) (n : inode) (q : N) : Prop := exists y, In y (idesc n) /\ text_typed y /\ place F (iuid y) (s "text") = Some q.
(** It is the text x. *)
Definition text_tag (x : pstr) : node := El (s "string") [] [Txt x].

Lemma find_typed st F n : usual F -> fget 1 F = Some n -> (forall z, In z (idesc n) -> is_param (s "type_") z = false) ->
  exists l, layer_find_all st F n [PaStr (s "text")] true [] None = Ok l /\ NoDup (map iuid l) /\ forall y, In y l <-> In y (idesc n) /\ text_typed y.
Proof.
  intros U Hn Hp. pose proof (fget_In _ _ _ Hn) as (Hd & _).
  assert (HK : all_known (idesc n)). { apply Forall_forall. intros y Hy Hl. apply (us_known F U (iuid y) y); [|exact Hl]. now apply (below_root F n). }
  exists (filter (typed (normalise (s "text"))) (idesc n)). split; [now apply find_type|]. split; [apply (nodup_filter_uids F); [exact Hd|apply U]|].
  destruct (find_type_exact st F n (s "text") HK Hp) as (l & El & Hl). rewrite find_type in El by auto. injection El as <-. intros y. rewrite (Hl y). change (normalise (s "text")) with (s "text"). split.
  - intros (A & B & C & _). split; [exact A|]. now split.
  - intros (A & B). pose proof (text_typed_is y B) as [_ Hc]. destruct B as [B C]. split; [exact A|]. split; [exact B|]. split; [exact C|]. exists cls_Text. split; [exact Hc|]. vm_compute. reflexivity.
Qed.

Lemma translate_is st F w n d default : usual F -> depicts F w -> fget 1 F = Some n -> (forall z, In z (idesc n) -> is_param (s "type_") z = false) -> texts_said F w n ->
  (forall y q t, In y (idesc n) -> is_text y -> called F w y (s "text") q VString t -> is_animated t = false) ->
  (forall y z q, In y (idesc n) -> In z (idesc n) -> text_typed y -> text_typed z -> place F (iuid y) (s "text") = Some q -> place F (iuid z) (s "text") = Some q -> y = z) ->
  exists us vf l', (forall u, In u us -> exists y x, In y (idesc n) /\ iuid y = u /\ vf u = PStr (lookup d default x)) /\ wacts_mean F w (prog (s "text") vf us) l' /\ translate st F d default = (fst (wacts F (prog (s "text") vf us)), Ok tt) /\
    only w (fst (list_wacts w l')) (texts F n) /\
    (forall y x q, In y (idesc n) -> text_typed y -> says F w y x -> place F (iuid y) (s "text") = Some q -> snd (fst (fst (list_wacts w l'))) q = Some (text_tag (lookup d default x))) /\
    (forall u f q, place F u f = Some q -> place (fst (wacts F (prog (s "text") vf us))) u f = Some q).
Proof.
  intros U D Hn Hp Ht Hs Hd. destruct (find_typed st F n U Hn Hp) as (l & El & Nd & Hl). exists (map iuid l).
  set (xf := fun u => match place F u (s "text") with Some q => match snd (fst w) q with Some t => string_val t | None => [] end | None => [] end).
  set (vf := fun u => PStr (lookup d default (xf u))). set (mf := fun u => text_tag (lookup d default (xf u))). exists vf.
  assert (X : forall y x, says F w y x -> xf (iuid y) = x).
  { intros y x H. destruct (says_string _ _ _ _ H) as (q & t & (A & B & _) & E). unfold xf. now rewrite A, B. }
  assert (Y : forall y, In y l -> In y (idesc n) /\ text_typed y /\ says F w y (xf (iuid y))).
  { intros y Hy. apply Hl in Hy as [Hy Hty]. split; [exact Hy|]. split; [exact Hty|]. destruct (Ht y Hy (text_typed_is y Hty)) as (x & Hx). now rewrite (X y x Hx). }
  destruct (loop (translate_one d default) (s "text") VString vf mf (map iuid l) F w U D Nd) as (l' & M & E & (O1 & O2 & O3) & S & P).
  - intros u Hu. apply in_map_iff in Hu as (y & <- & Hy). apply Y in Hy as (Hy & _ & (_ & q & t & C & _)). exists q, t. exact C.
  - intros u _. split; [exact I|]. split; reflexivity.
  - intros u u' q _ _ A B. unfold mf, xf. now rewrite A, B.
  - intros G w1 u q t Hu UG DG PG QG CG Hor. apply in_map_iff in Hu as (y & <- & Hy). destruct (Y y Hy) as (Hy1 & Hy2 & Hy3). destruct Hor as [[PF QF]|(u' & I1 & I2 & I3)].
    + destruct (read_value G (snd (fst w1)) (iuid y) (s "text") q t (us_wf G UG) (proj2 (proj1 DG)) PG QG) as (n' & v & Hu' & Ev & Hg & _). rewrite CG in Hg. cbn [bind] in Hg.
      unfold translate_one. rewrite Hu', Hg, Ev. unfold py_str. rewrite (Hs y q t Hy1 (text_typed_is y Hy2) (conj PF (conj QF CG))). unfold vf, xf. now rewrite PF, QF.
    + exfalso. apply in_map_iff in I1 as (z & <- & Hz). destruct (Y z Hz) as (Hz1 & Hz2 & (_ & q' & t' & (A & _) & _)). apply I2. rewrite A in I3. f_equal. apply (Hd z y q'); auto.
  - exists l'. split; [intros u Hu; apply in_map_iff in Hu as (y & <- & Hy); exists y, (xf (iuid y)); split; [now apply Y|auto]|]. split; [exact M|]. split; [unfold translate; now rewrite Hn, El|]. split; [|split; [|exact P]].
    + split; [exact O1|]. split; [exact O2|]. intros q Hq. apply O3. intros (u & Hu & Hpl). apply Hq. apply in_map_iff in Hu as (y & <- & Hy). exists y. split; [now apply Y|]. split; [now apply Y|exact Hpl].
    + intros y x q Hy Hty Hx Hpl. rewrite (S (iuid y) q); [|apply in_map, Hl; auto|exact Hpl]. unfold mf. now rewrite (X y x Hx).
Qed.

(** C159: [for item in animation.find_all('text'): item['text'] = TRANSLATION.get(str(item['text']), default)] translates each text with the dictionary, or puts the default
    where the dictionary has no word, and changes nothing else. The texts aren't animated, and no two layers share one. *)
Theorem C159_translate : forall st F w n d default, usual F -> depicts F w -> fget 1 F = Some n -> (forall z, In z (idesc n) -> is_param (s "type_") z = false) -> texts_said F w n ->
  (forall y q t, In y (idesc n) -> is_text y -> called F w y (s "text") q VString t -> is_animated t = false) ->
  (forall y z q, In y (idesc n) -> In z (idesc n) -> text_typed y -> text_typed z -> place F (iuid y) (s "text") = Some q -> place F (iuid z) (s "text") = Some q -> y = z) ->
  exists F' w', translate st F d default = (F', Ok tt) /\ usual F' /\ depicts F' w' /\ only w w' (texts F n) /\
    (forall y x q, In y (idesc n) -> text_typed y -> says F w y x -> place F (iuid y) (s "text") = Some q ->
       exists t, snd (fst w') q = Some t /\ from_tag t = Ok VString /\ forall cx, get_value VString t cx = Ok (PStr (match aget x d with Some x' => x' | None => default end))) /\
    (forall u f q, place F u f = Some q -> place F' u f = Some q).
Proof.
  intros st F w n d default U D Hn Hp Ht Hs Hd. destruct (translate_is st F w n d default U D Hn Hp Ht Hs Hd) as (us & vf & l' & _ & M & E & O & S & P).
  destruct (wacts_right _ _ F w U D M) as (_ & U' & D'). exists (fst (wacts F (prog (s "text") vf us))), (fst (list_wacts w l')). split; [exact E|]. split; [exact U'|]. split; [exact D'|]. split; [exact O|]. split; [|exact P].
  intros y x q Hy Hty Hx Hpl. eexists. split; [apply (S y x q); auto|]. split; reflexivity.
Qed.
Print Assumptions C159_translate.

(** french.py as a whole *)
Theorem C159_saved : forall st void can fs a from to kd w n d default, load fs from = Ok a -> tidy (am_root a) ->
  let F := doc_forest (am_root a) in usual F -> depicts F w -> fget 1 F = Some n -> (forall z, In z (idesc n) -> is_param (s "type_") z = false) -> texts_said F w n ->
  (forall y q t, In y (idesc n) -> is_text y -> called F w y (s "text") q VString t -> is_animated t = false) ->
  (forall y z q, In y (idesc n) -> In z (idesc n) -> text_typed y -> text_typed z -> place F (iuid y) (s "text") = Some q -> place F (iuid z) (s "text") = Some q -> y = z) ->
  (forall x y, In (x, y) d -> good_text y) -> good_text default -> kind_named to kd -> can to = true ->
  exists w', only w w' (texts F n) /\
    (forall y x q, In y (idesc n) -> text_typed y -> says F w y x -> place F (iuid y) (s "text") = Some q -> snd (fst w') q = Some (text_tag (match aget x d with Some x' => x' | None => default end))) /\
    made void can (fun F => translate st F d default) fs a from to w w'.
Proof.
  intros st void can fs a from to kd w n d default L T F U D Hn Hp Ht Hs Hd Gd Gx Kn Cn. destruct (translate_is st F w n d default U D Hn Hp Ht Hs Hd) as (us & vf & l' & Hu & M & E & O & S & P).
  exists (fst (list_wacts w l')). split; [exact O|]. split; [exact S|]. apply (main_made void can _ fs a from to kd w (s "text") vf us l'); auto; [|apply O].
  intros u Hi. destruct (Hu u Hi) as (y & x & Hy & <- & ->). split; [exact (not_document a n y U Hn Hy)|]. split; [|exact I]. change (good_text (lookup d default x)).
  unfold lookup. destruct (aget x d) as [z|] eqn:Ez; [|exact Gx]. apply (Gd x). now apply aget_In.
Qed.
Print Assumptions C159_saved.

(** ** The file of the tutorial *)

Definition cF : forest := doc_forest colours_root.
Definition cnode : inode := match fget 1 cF with Some n => n | None => IT [] end.
Definition cworld : world := ((fun u => if u =? 1 then match children KAnim cnode with Ok ch => ids ch | Err _ => [] end else [], values cF), attributes cF).
Lemma cF_usual : usual cF.
Proof.
  eapply usual_checked; [|vm_compute; reflexivity|vm_compute; reflexivity|vm_compute; reflexivity].
  unfold cF. destruct colours_root as [|nm at_ k] eqn:E; [discriminate E|]. apply (doc_inv nm at_ k).
Qed.
Lemma cF_depicts : depicts cF cworld.
Proof. split; [split; [apply shows_checked; [exact cF_usual|vm_compute; reflexivity]|apply values_hold]|apply attributes_tell]. Qed.
Lemma cF_root : fget 1 cF = Some cnode.
Proof. vm_compute. reflexivity. Qed.
(** Checking what a parameter is *)
Definition called_check (F : forest) (w : world) (y : inode) (k : pstr) (c : vcls) : bool :=
  match place F (iuid y) k with
  | Some q => match snd (fst w) q with Some t => match from_tag t with Ok c' => vcls_eqb c' c && negb (is_animated t) | Err _ => false end | None => false end
  | None => false
  end.
Definition text_check (y : inode) : bool := is_layer y && match layer_class y with Ok c => pstr_eqb (c_name c) (s "Text") | Err _ => false end.
Lemma text_checked y : is_text y -> text_check y = true.
Proof. intros [A B]. unfold text_check. rewrite A, B. vm_compute. reflexivity. Qed.
Lemma called_checked F w y k c : called_check F w y k c = true -> exists q t, called F w y k q c t /\ is_animated t = false.
Proof.
  unfold called_check, called. destruct (place F (iuid y) k) as [q|]; [|discriminate]. destruct (snd (fst w) q) as [t|] eqn:Et; [|discriminate]. destruct (from_tag t) as [c'|] eqn:Ec; [|discriminate].
  intros H. apply andb_prop in H as [H1 H2]. exists q, t. split; [|now apply negb_true_iff]. split; [reflexivity|]. split; [exact Et|]. rewrite Ec. f_equal. revert H1. clear. destruct c', c; cbn; try discriminate; auto.
  intros H. apply pstr_eqb_spec in H. congruence.
Qed.
Lemma all_checked F w n k c : forallb (fun y => negb (text_check y) || called_check F w y k c) (idesc n) = true -> forall y, In y (idesc n) -> is_text y -> exists q t, called F w y k q c t /\ is_animated t = false.
Proof. intros H y Hy Ht. rewrite forallb_forall in H. specialize (H y Hy). rewrite (text_checked y Ht) in H. now apply called_checked. Qed.
Lemma cF_texts : texts_said cF cworld cnode.
Proof.
  intros y Hy Ht. destruct (all_checked cF cworld cnode (s "text") VString ltac:(vm_compute; reflexivity) y Hy Ht) as (q & t & C & _).
  exists (string_val t). split; [exact Ht|]. exists q, t. split; [exact C|]. reflexivity.
Qed.
Definition magenta : node := El (s "color") [] (map (fun kx => El (s (fst kx)) [] [Txt (s (snd kx))]) [("r", "1.000000"); ("g", "0.000000"); ("b", "1.000000"); ("a", "1.000000")]%string).
(** The variables of the two layers that say blue *)
Definition blue_check (y : inode) : bool :=
  negb (text_check y) ||
  match place cF (iuid y) (s "text") with
  | Some q => match snd (fst cworld) q with
              | Some t => negb (pstr_eqb (string_val t) (s "blue")) || match place cF (iuid y) (s "color") with Some q => (q =? 87) || (q =? 177) | None => true end
              | None => true
              end
  | None => true
  end.
Lemma cF_blue q : meant cF cworld cnode (s "blue") (s "color") q -> q = 87 \/ q = 177.
Proof.
  intros (y & Hy & Hs & Hp). assert (H : forallb blue_check (idesc cnode) = true) by (vm_compute; reflexivity). rewrite forallb_forall in H. specialize (H y Hy).
  destruct (says_string _ _ _ _ Hs) as (p & t & (A & B & _) & E). unfold blue_check in H. rewrite (text_checked y (proj1 Hs)), A, B, E, Hp, pstr_eqb_refl in H. cbn [negb orb] in H.
  apply Bool.orb_true_iff in H as [H|H]; apply N.eqb_eq in H; auto.
Qed.
Definition in_doc (u : N) : inode := match fget u cF with Some y => y | None => IT [] end.
Lemma cF_meant u x q : existsb (fun y => iuid y =? u) (idesc cnode) = true -> text_check (in_doc u) = true -> layer_class (in_doc u) = Ok cls_Text ->
  (exists p t, place cF u (s "text") = Some p /\ values cF p = Some t /\ from_tag t = Ok VString /\ string_val t = x) -> place cF u (s "color") = Some q -> meant cF cworld cnode x (s "color") q.
Proof.
  intros H1 H2 H3 (p & t & A & B & C & E) Hq. apply existsb_exists in H1 as (y & Hy & H1). apply N.eqb_eq in H1. pose proof (below_root cF cnode y cF_usual cF_root Hy) as Hu. rewrite H1 in Hu.
  assert (Ey : in_doc u = y) by (unfold in_doc; now rewrite Hu). rewrite Ey in *. apply andb_prop in H2 as [H2 _]. exists y. split; [exact Hy|]. subst u x. split; [|exact Hq].
  split; [split; assumption|]. exists p, t. split; [split; [exact A|split; [exact B|exact C]]|]. reflexivity.
Qed.
Lemma sif_named x : x <> [] -> existsb (fun c => (c =? 46) || (c =? 47)) x = false -> kind_named (x ++ s ".sif") FSif.
Proof.
  intros H1 H2. assert (N : forall c, In c x -> c <> 46 /\ c <> 47).
  { intros c Hc. split; intros ->; assert (existsb (fun c => (c =? 46) || (c =? 47)) x = true) by (apply existsb_exists; eexists; split; [exact Hc|reflexivity]); congruence. }
  left. split; [reflexivity|]. exists [], x, (s "sif"). split; [reflexivity|]. split; [reflexivity|]. split; [now left|]. split; [intros H; now apply (N _ H)|].
  destruct x as [|c x]; [congruence|]. exists c. split; [now left|]. apply N. now left.
Qed.
Lemma cF_colours y : In y (idesc cnode) -> is_text y -> exists q t, called cF cworld y (s "color") q VColor t.
Proof. intros Hy Ht. destruct (all_checked cF cworld cnode (s "color") VColor ltac:(vm_compute; reflexivity) y Hy Ht) as (q & t & C & _). eauto. Qed.
Lemma colours_tidy : tidy (am_root colours).
Proof. apply tidyb_ok. vm_compute. reflexivity. Qed.
Lemma cF_87 : meant cF cworld cnode (s "blue") (s "color") 87.
Proof. apply (cF_meant 78); [vm_compute; reflexivity|vm_compute; reflexivity|vm_compute; reflexivity| |vm_compute; reflexivity]. eexists _, _. split; [vm_compute; reflexivity|]. split; [vm_compute; reflexivity|]. split; vm_compute; reflexivity. Qed.
Lemma cF_177 : meant cF cworld cnode (s "blue") (s "color") 177.
Proof. apply (cF_meant 168); [vm_compute; reflexivity|vm_compute; reflexivity|vm_compute; reflexivity| |vm_compute; reflexivity]. eexists _, _. split; [vm_compute; reflexivity|]. split; [vm_compute; reflexivity|]. split; vm_compute; reflexivity. Qed.

(** The file meets what the theorems ask for: the program stroop.py as it is, with the file as it is. Two of the four texts are blue, and their colours are the variables 87 and 177;
    neither was magenta before. *)
Example C158_nonvacuous : forall st void can, can (s "stroop.sif") = true ->
  exists w', (forall q, q <> 87 -> q <> 177 -> snd (fst w') q = snd (fst cworld) q) /\ snd (fst w') 87 = Some magenta /\ snd (fst w') 177 = Some magenta /\
    snd (fst cworld) 87 <> Some magenta /\ snd (fst cworld) 177 <> Some magenta /\ solid magenta /\ length (fst (fst cworld) 1) = 5%nat /\
    made void can (fun F => recolour st F (s "blue") (s "color") (PStr (s "#FF00FF"))) colours_files colours (s "colours.sif") (s "stroop.sif") cworld w'.
Proof.
  intros st void can Hc. destruct (C158_saved st void can colours_files colours (s "colours.sif") (s "stroop.sif") FSif cworld cnode (s "blue") (s "color") VColor (PStr (s "#FF00FF")) magenta) as (w' & (_ & _ & O) & S & M).
  - exact colours_loaded.
  - exact colours_tidy.
  - exact cF_usual.
  - exact cF_depicts.
  - exact cF_root.
  - exact cF_texts.
  - intros y Hy Hs. exact (cF_colours y Hy (proj1 Hs)).
  - exact I.
  - change (good_text (s "#FF00FF")). repeat constructor.
  - exact I.
  - vm_compute. reflexivity.
  - vm_compute. reflexivity.
  - apply (sif_named (s "stroop")); [discriminate|vm_compute; reflexivity].
  - exact Hc.
  - exists w'. split; [intros q H1 H2; apply O; intros H; now destruct (cF_blue q H)|]. split; [exact (S 87 cF_87)|]. split; [exact (S 177 cF_177)|]. split; [vm_compute; discriminate|]. split; [vm_compute; discriminate|].
    split; [apply solidb_ok; vm_compute; reflexivity|]. split; [vm_compute; reflexivity|exact M].
Qed.

(** french.py as it is: the first three texts become rouge, bleu and "je ne sais pas quoi". *)
Definition french : list (pstr * pstr) := [(s "blue", s "bleu"); (s "red", s "rouge")].
Definition quoi : pstr := s "je ne sais pas quoi".
Lemma cF_apart y z q : In y (idesc cnode) -> In z (idesc cnode) -> text_typed y -> text_typed z -> place cF (iuid y) (s "text") = Some q -> place cF (iuid z) (s "text") = Some q -> y = z.
Proof.
  intros Hy Hz Ty Tz Py Pz.
  assert (H : forallb (fun y => forallb (fun z => (iuid y =? iuid z) || match place cF (iuid y) (s "text"), place cF (iuid z) (s "text") with Some p, Some q => negb (p =? q) | _, _ => true end) (filter text_check (idesc cnode))) (filter text_check (idesc cnode)) = true) by (vm_compute; reflexivity).
  rewrite forallb_forall in H. specialize (H y ltac:(apply filter_In; split; [exact Hy|now apply text_checked, text_typed_is])). rewrite forallb_forall in H. specialize (H z ltac:(apply filter_In; split; [exact Hz|now apply text_checked, text_typed_is])).
  rewrite Py, Pz, N.eqb_refl in H. cbn [negb] in H. rewrite Bool.orb_false_r in H. apply N.eqb_eq in H.
  pose proof (below_root cF cnode y cF_usual cF_root Hy) as A. pose proof (below_root cF cnode z cF_usual cF_root Hz) as B. rewrite H in A. congruence.
Qed.
Lemma cF_typed u : existsb (fun y => iuid y =? u) (idesc cnode) = true -> text_check (in_doc u) = true -> aget (s "type") (iattrs (in_doc u)) = Some (AStr (s "text")) ->
  exists y, In y (idesc cnode) /\ iuid y = u /\ text_typed y.
Proof.
  intros H1 H2 H3. apply existsb_exists in H1 as (y & Hy & H1). apply N.eqb_eq in H1. pose proof (below_root cF cnode y cF_usual cF_root Hy) as Hu. rewrite H1 in Hu.
  assert (Ey : in_doc u = y) by (unfold in_doc; now rewrite Hu). rewrite Ey in *. apply andb_prop in H2 as [H2 _]. exists y. split; [exact Hy|]. split; [exact H1|]. now split.
Qed.
Example C159_nonvacuous : forall st void can, can (s "french.sif") = true ->
  exists w' q1 q2 q3, place cF 33 (s "text") = Some q1 /\ place cF 78 (s "text") = Some q2 /\ place cF 123 (s "text") = Some q3 /\
    snd (fst w') q1 = Some (text_tag (s "rouge")) /\ snd (fst w') q2 = Some (text_tag (s "bleu")) /\ snd (fst w') q3 = Some (text_tag quoi) /\ solid (text_tag quoi) /\
    only cworld w' (texts cF cnode) /\ made void can (fun F => translate st F french quoi) colours_files colours (s "colours.sif") (s "french.sif") cworld w'.
Proof.
  intros st void can Hc. destruct (C159_saved st void can colours_files colours (s "colours.sif") (s "french.sif") FSif cworld cnode french quoi) as (w' & O & S & M).
  - exact colours_loaded.
  - exact colours_tidy.
  - exact cF_usual.
  - exact cF_depicts.
  - exact cF_root.
  - intros z Hz. assert (H : forallb (fun z => negb (is_param (s "type_") z)) (idesc cnode) = true) by (vm_compute; reflexivity). rewrite forallb_forall in H. specialize (H z Hz). now apply negb_true_iff in H.
  - exact cF_texts.
  - intros y q t Hy Ht (A & B & _). destruct (all_checked cF cworld cnode (s "text") VString ltac:(vm_compute; reflexivity) y Hy Ht) as (q' & t' & (A' & B' & _) & E). change (place cF (iuid y) (s "text") = Some q) in A. rewrite A' in A. injection A as ->. rewrite B' in B. injection B as ->. exact E.
  - exact cF_apart.
  - intros x y [E|[E|[]]]; injection E as _ <-; repeat constructor.
  - repeat constructor.
  - apply (sif_named (s "french")); [discriminate|vm_compute; reflexivity].
  - exact Hc.
  - assert (G : forall u x q t, existsb (fun y => iuid y =? u) (idesc cnode) = true -> text_check (in_doc u) = true -> aget (s "type") (iattrs (in_doc u)) = Some (AStr (s "text")) ->
      place cF u (s "text") = Some q -> values cF q = Some t -> from_tag t = Ok VString -> string_val t = x -> snd (fst w') q = Some (text_tag (match aget x french with Some x' => x' | None => quoi end))).
    { intros u x q t H1 H2 H3 A B C E. destruct (cF_typed u H1 H2 H3) as (y & Hy & <- & Hty). apply (S y x q Hy Hty); [|exact A]. split; [now apply text_typed_is|]. exists q, t. split; [split; [exact A|split; [exact B|exact C]]|]. intros cx. cbn [get_value]. now rewrite E. }
    exists w'. do 3 eexists. split; [vm_compute; reflexivity|]. split; [vm_compute; reflexivity|]. split; [vm_compute; reflexivity|].
    split; [apply (G 33 (s "red") _ (text_tag (s "red"))); vm_compute; reflexivity|]. split; [apply (G 78 (s "blue") _ (text_tag (s "blue"))); vm_compute; reflexivity|]. split; [apply (G 123 (s "green") _ (text_tag (s "green"))); vm_compute; reflexivity|].
    split; [apply solidb_ok; vm_compute; reflexivity|]. split; [exact O|exact M].
Qed.

(** ** When something goes wrong *)

(** The layers of l1 got v one after another, without an exception. *)
Inductive one_by_one (k : pstr) (v : pyval) : forest -> list inode -> forest -> Prop :=
| obo_end F : one_by_one k v F [] F
| obo_next F y F1 l F2 : layer_setitem F (iuid y) k (SPlain v) = (F1, Ok tt) -> one_by_one k v F1 l F2 -> one_by_one k v F (y :: l) F2.
(** If a layer can't take v, then those before it have it, those after it are as they were, and nothing is written. *)
Theorem C158_stops : forall st F n x k v l1 y l2 F1 F2 e, fget 1 F = Some n -> layer_find_all st F n [] true [(s "text", WVal (PStr x))] None = Ok (l1 ++ y :: l2) ->
  one_by_one k v F l1 F1 -> layer_setitem F1 (iuid y) k (SPlain v) = (F2, Err e) ->
  recolour st F x k v = (F2, Err e) /\
  forall void can fs a from to, load fs from = Ok a -> F = doc_forest (am_root a) -> main void can (fun F => recolour st F x k v) fs from to = (fs, Err e).
Proof.
  intros st F n x k v l1 y l2 F1 F2 e Hn El Ho He. assert (R : recolour st F x k v = (F2, Err e)).
  { unfold recolour. rewrite Hn, El. clear El Hn. induction Ho as [F|F z F1 l F3 Hz Ho IH]; cbn [app map for_each]; [now rewrite He|]. rewrite Hz. now apply IH. }
  split; [exact R|]. intros void can fs a from to L ->. unfold main. now rewrite L, R.
Qed.
Print Assumptions C158_stops.
(** A text layer has no radius. *)
Definition found : list inode := match layer_find_all cls_Group cF cnode [] true [(s "text", WVal (PStr (s "blue")))] None with Ok l => l | Err _ => [] end.
Example C158_stops_nonvacuous : exists y l, fget 1 cF = Some cnode /\ layer_find_all cls_Group cF cnode [] true [(s "text", WVal (PStr (s "blue")))] None = Ok (y :: l) /\
  length l = 1%nat /\ layer_setitem cF (iuid y) (s "radius") (SPlain (PFlo 1)) = (cF, Err KeyError).
Proof.
  exists (hd (IT []) found), (tl found). split; [exact cF_root|]. split; [vm_compute; reflexivity|]. split; [vm_compute; reflexivity|]. vm_compute. reflexivity.
Qed.
