(** C147: what was edited is the same after saving and loading. *)
From Coq Require Import Lia.
From Verif Require Import XpSpec AnimModel AnimSpec AnimProofs3 AnimProofs5 LayModel LaySpec SerModel SavSpec SavProofs DocProofs SerProofs ValModel WrSpec XpProofs AnimProofs2 AnimProps WrProofs2 WrProofs3 WrProofs4 WrProofs5 WrProps SavProps.
From Verif Require TlSpec.
From Verif Require Import DocProofs2 PyFmtProofs2 SavSpec2 SavProofs2 SavProofs3 SavProofs4.
Local Open Scope N_scope.

Lemma tidy_clean n : tidy (forget n) -> clean n.
Proof.
  intros T x [->|I]; [|apply (tidy_desc n T) in I]; [destruct n as [|u nm a k]|destruct x as [|u nm a k]]; try (split; constructor); cbn [iattrs]; [apply ti_IE in T as (_ & T & _)|apply ti_IE in I as (_ & I & _)]; assumption.
Qed.
Lemma root_depth rn F r : inv rn F -> fget 1 F = Some r -> depth_of F 1 = Ok 0%Z.
Proof.
  intros [W (a & k & ra & rk & Hd & Hr)] G. destruct (top_anc F (IE 0 dname a k) W Hd eq_refl) as [E Hi].
  destruct (child_anc F 0 (IE 0 dname a k) (IE 1 rn ra rk) W (fget_desc F (IE 0 dname a k) W Hi) Hr eq_refl) as (l & E1 & E2). cbn [iuid] in *. rewrite E in E1. injection E1 as <-.
  unfold depth_of. rewrite E2. reflexivity.
Qed.

(** The animation is edited with any calls whose strings are XML, and of one line if they are for attributes; then it is saved, and the file is
    loaded. All layers are there, in the same order, each with the same class, attributes, length, depth, parent, children and parameters. *)
Lemma edited_layers void can fs n kind file es name x kd : writable n -> tidy n -> is_tag n = true -> Forall meant es -> Forall good_edit es -> Forall tidy_edit es ->
  (forall m, target_of (mkAnim m kind file) name x kd) -> can x = true ->
  exists r fs' a2 r2, let F := edits (doc_forest n) es in fget 1 F = Some r /\
    save void can fs (mkAnim (forget r) kind file) name = (fs', mkAnim (forget r) kd (Some x), Ok tt) /\ load fs' x = Ok a2 /\
    doc_top (doc_forest (am_root a2)) = Some r2 /\
    Forall2 (fun l m => same_layer F l (doc_forest (am_root a2)) m) (ifind_all is_layer r) (ifind_all is_layer r2).
Proof.
  intros W T Ht M G D Tg C. pose proof (edits_good es _ (doc_good _ W) M G) as Gf. pose proof (edits_tidy es _ (doc_tidy _ T) M D) as Tf. destruct n as [|nm at_ k]; [discriminate|].
  pose proof (edits_inv nm es _ M (doc_inv nm at_ k)) as Iv. destruct (root_there nm _ Iv) as (ra & rk & Hr). set (r := IE 1 nm ra rk) in *.
  assert (W2 : writable (forget r)) by (apply (fget_good 1 _ _ Gf); [discriminate|exact Hr]). assert (T2 : tidy (forget r)) by (apply (fget_tidy 1 _ _ Tf); [discriminate|exact Hr]).
  destruct (C146_layers void can fs (mkAnim (forget r) kind file) name x kd (edits (doc_forest (El nm at_ k)) es) r (Tg _) C eq_refl W2 (proj1 Iv) Hr eq_refl (root_depth nm _ r Iv Hr) (tidy_clean r T2)) as (fs' & a2 & r2 & S1 & S2 & S3 & S4).
  exists r, fs', a2, r2. cbv zeta. repeat (split; [assumption|]). exact S4.
Qed.
(** An animation that was loaded. Nothing in its file writes tabs or ends of lines in attributes as numbers. *)
Theorem C147_loaded : forall void can fs0 file a fs es name x kd, load fs0 file = Ok a -> tidy (am_root a) -> Forall meant es -> Forall good_edit es -> Forall tidy_edit es ->
  (forall n, target_of (mkAnim n (am_kind a) (am_file a)) name x kd) -> can x = true ->
  exists r fs' a2 r2, let F := edits (doc_forest (am_root a)) es in fget 1 F = Some r /\
    save void can fs (mkAnim (forget r) (am_kind a) (am_file a)) name = (fs', mkAnim (forget r) kd (Some x), Ok tt) /\ load fs' x = Ok a2 /\
    doc_top (doc_forest (am_root a2)) = Some r2 /\
    Forall2 (fun l m => same_layer F l (doc_forest (am_root a2)) m) (ifind_all is_layer r) (ifind_all is_layer r2).
Proof. intros void can fs0 file a fs es name x kd L T M G D Tg C. apply load_is in L as (_ & W & _ & Ht & _). now apply edited_layers. Qed.
Print Assumptions C147_loaded.
(** A new animation *)
Theorem C147_new : forall void can a fs es x kd, new_anim = Ok a -> Forall meant es -> Forall good_edit es -> Forall tidy_edit es -> kind_named x kd -> can x = true ->
  exists r fs' a2 r2, let F := edits (doc_forest (am_root a)) es in fget 1 F = Some r /\
    save void can fs (mkAnim (forget r) (am_kind a) (am_file a)) (Some x) = (fs', mkAnim (forget r) kd (Some x), Ok tt) /\ load fs' x = Ok a2 /\
    doc_top (doc_forest (am_root a2)) = Some r2 /\
    Forall2 (fun l m => same_layer F l (doc_forest (am_root a2)) m) (ifind_all is_layer r) (ifind_all is_layer r2).
Proof.
  intros void can a fs es x kd L M G D K C. assert (Ea : am_root a = xblank) by (unfold xblank; now rewrite L). destruct xblank_ok as (W & _ & Ht). rewrite <- Ea in W, Ht. apply edited_layers; auto.
  - rewrite Ea. apply tidyb_ok. vm_compute. reflexivity.
  - intros m. split; [reflexivity|exact K].
Qed.
Print Assumptions C147_new.

(** *** Values *)

Lemma root_anc1 rn F r : inv rn F -> fget 1 F = Some r -> exists d, fanc 1 F = Some [d].
Proof.
  intros [W (a & k & ra & rk & Hd & Hr)] G. destruct (top_anc F (IE 0 dname a k) W Hd eq_refl) as [E Hi].
  destruct (child_anc F 0 (IE 0 dname a k) (IE 1 rn ra rk) W (fget_desc F (IE 0 dname a k) W Hi) Hr eq_refl) as (l & E1 & E2). cbn [iuid] in *. rewrite E in E1. injection E1 as <-. eexists. exact E2.
Qed.
Lemma ctx_top F n d x : wf F -> fanc (iuid n) F = Some [d] -> fget (iuid n) F = Some n -> In x (idesc n) -> ctx_of F (iuid x) = if pstr_eqb (iname n) (s "canvas") then Some (iattrs n) else None.
Proof.
  intros Hw E1 E2 Hx. pose proof E2 as E2'. apply fget_In in E2' as (Hin & _ & Hn). destruct (forget_attrs n Hn) as [Fa Fn]. unfold ctx_of.
  assert (HxF : In x (fdesc F)) by (now apply desc_trans with n).
  rewrite (fget_desc F x Hw HxF). destruct (fanc_ex (iuid x) F) as (l & El); [rewrite <- uids_desc; now apply in_map|].
  rewrite El. assert (Hl : In n l).
  { apply (LayProofs3.anc_iff (iuid x) F l n Hw El). split; [exact Hin|]. rewrite <- uids_desc. apply in_map. destruct n; [destruct Hx|]. now rewrite idesc_IE in Hx. }
  apply in_split in Hl as (l1 & r & ->). destruct (LayProofs3.anc_suffix _ _ _ _ _ Hw El) as [E3 _]. rewrite E1 in E3. injection E3 as <-.
  unfold canvas_root. rewrite map_app. cbn [map].
  assert (G : forall (m : list node) a b (y : node), match m ++ [a; b] with [] => None | [_] => Some y | _ :: _ :: _ => nth_error (m ++ [a; b]) (length (m ++ [a; b]) - 2) end = Some a).
  { clear. intros m a b y. assert (E : nth_error (m ++ [a; b]) (length (m ++ [a; b]) - 2) = Some a).
    { rewrite app_length. cbn [length]. replace (length m + 2 - 2)%nat with (length m) by lia. rewrite nth_error_app2 by lia. now rewrite Nat.sub_diag. }
    rewrite E. destruct m as [|c [|? ?]]; reflexivity. }
  rewrite G, Fn. destruct (pstr_eqb (iname n) (s "canvas")); [|reflexivity]. cbn [option_map]. now rewrite Fa.
Qed.
Lemma same_fps r r2 : clean r -> plain_fps r -> image r r2 -> same_times (Some (iattrs r)) (Some (iattrs r2)).
Proof.
  intros C P H x. apply image_tag in H as (_ & _ & H). unfold T_init. assert (E : ctx_fps (Some (iattrs r2)) = ctx_fps (Some (iattrs r))); [|now rewrite E].
  unfold ctx_fps, plain_fps in *. rewrite H, clean_get by (now apply clean_own). destruct (aget (s "fps") (iattrs r)) as [[y|q|z|t]|]; try reflexivity; try contradiction. cbn [option_map aval_str float_of_aval]. now rewrite parse_repr.
Qed.
Lemma values_same F r d G r2 d2 n m : wf F -> fanc (iuid r) F = Some [d] -> fget (iuid r) F = Some r -> wf G -> fanc (iuid r2) G = Some [d2] -> fget (iuid r2) G = Some r2 ->
  clean r -> plain_fps r -> image r r2 -> In n (idesc r) -> In m (idesc r2) -> same_layer F n G m -> same_values F n G m.
Proof.
  intros WF AF GF WG AG GG C P H In_ Im S f v c Ev Sv. pose proof (sl_param _ _ _ _ S f) as X. rewrite Ev in X. destruct (layer_getitem m f) as [[w c']|] eqn:Ew; [|contradiction]. cbn [same_result] in X. destruct X as [Xi Xc]. cbn [fst snd] in *. subst c'.
  exists w. split; [reflexivity|]. rewrite Xi. apply solid_value; [exact Sv|].
  assert (Iv : In v (idesc r)) by (apply (LayProofs.idesc_trans n v r In_); now apply (getitem_below n f v c)). assert (Iw : In w (idesc r2)) by (apply (LayProofs.idesc_trans m w r2 Im); now apply (getitem_below m f w c)).
  rewrite (ctx_top F r d v), (ctx_top G r2 d2 w) by assumption. destruct (image_tag r r2 H) as (_ & N2 & _). rewrite N2. destruct (pstr_eqb (iname r) (s "canvas")); [now apply same_fps|]. intros x. reflexivity.
Qed.
(** After any edits, saving and loading: every parameter of a layer whose tag is solid has the value it had. *)
Theorem C147_values : forall void can a fs es name x kd, starts a -> Forall meant es -> Forall good_edit es -> Forall tidy_edit es ->
  (forall n, target_of (mkAnim n (am_kind a) (am_file a)) name x kd) -> can x = true ->
  exists r fs' a2 r2, let F := edits (doc_forest (am_root a)) es in fget 1 F = Some r /\
    save void can fs (mkAnim (forget r) (am_kind a) (am_file a)) name = (fs', mkAnim (forget r) kd (Some x), Ok tt) /\ load fs' x = Ok a2 /\
    doc_top (doc_forest (am_root a2)) = Some r2 /\
    (plain_fps r -> Forall2 (fun l m => same_values F l (doc_forest (am_root a2)) m) (ifind_all is_layer r) (ifind_all is_layer r2)).
Proof.
  intros void can a fs es name x kd St M G D Tg C.
  assert (X : writable (am_root a) /\ tidy (am_root a) /\ is_tag (am_root a) = true).
  { destruct St as [L|(T & fs0 & file & L)].
    - assert (Ea : am_root a = xblank) by (unfold xblank; now rewrite L). destruct xblank_ok as (W & _ & Ht). rewrite <- Ea in W, Ht. split; [exact W|]. split; [|exact Ht]. rewrite Ea. apply tidyb_ok. vm_compute. reflexivity.
    - apply load_is in L as (_ & W & _ & Ht & _). auto. }
  destruct X as (W & T & Ht). destruct (edited_layers void can fs (am_root a) (am_kind a) (am_file a) es name x kd W T Ht M G D Tg C) as (r & fs' & a2 & r2 & Hr & S1 & S2 & S3 & S4).
  exists r, fs', a2, r2. cbv zeta. repeat (split; [assumption|]). intros P.
  pose proof (edits_good es _ (doc_good _ W) M G) as Gf. pose proof (edits_tidy es _ (doc_tidy _ T) M D) as Tf. assert (Iv : inv (tag_name (am_root a)) (edits (doc_forest (am_root a)) es)) by (destruct (am_root a) as [|nm at_ k]; [discriminate|]; apply edits_inv; [exact M|apply doc_inv]).
  assert (W2 : writable (forget r)) by (apply (fget_good 1 _ _ Gf); [discriminate|exact Hr]). assert (T2 : tidy (forget r)) by (apply (fget_tidy 1 _ _ Tf); [discriminate|exact Hr]).
  assert (Eu : iuid r = 1 /\ itag r = true) by (apply fget_In in Hr as (_ & E1 & E2); auto). destruct Eu as [Eu Er].
  assert (Tr : is_tag (forget r) = true) by (destruct r; [discriminate|reflexivity]).
  assert (E2 : am_root a2 = reload (forget r)).
  { destruct (saved_loads void can fs (mkAnim (forget r) (am_kind a) (am_file a)) name x kd (Tg _) C W2 Tr) as (fs2 & Y1 & _ & Y2). cbn [am_root] in *. rewrite S1 in Y1. injection Y1 as <-. rewrite S2 in Y2. injection Y2 as ->. reflexivity. }
  assert (Ta : is_tag (am_root a2) = true) by (rewrite E2, SerProofs.reload_is_tag; exact Tr). destruct (doc_forest_root _ _ Ta S3) as (WG & RG & FG & _). destruct (root_anc _ _ WG RG) as (d2 & AG & GG & _).
  destruct (root_anc1 _ _ r Iv Hr) as (d & AF). assert (Im : image r r2) by (unfold image; now rewrite FG, E2).
  assert (Z : forall L1 L2 (R S : inode -> inode -> Prop), Forall2 R L1 L2 -> (forall p q, In p L1 -> In q L2 -> R p q -> S p q) -> Forall2 S L1 L2).
  { clear. intros L1 L2 R S H. induction H as [|p q L1 L2 H _ IH]; intros K; constructor; [apply K; auto; now left|]. apply IH. intros; apply K; auto; now right. }
  apply (Z _ _ _ _ S4). intros p q Ip Iq Sp. unfold ifind_all in Ip, Iq. apply filter_In in Ip as [Ip _]. apply filter_In in Iq as [Iq _].
  apply (values_same _ r d _ r2 d2); try assumption; try (rewrite Eu; assumption); [apply Iv|]. now apply tidy_clean.
Qed.
Print Assumptions C147_values.
(** The parts of those values that are values themselves (in gradients and transformations) have the value they had, too. *)
Theorem C147_parts : forall c n cx d m cy, kept (PVal c n cx) (PVal d m cy) -> c = d /\ (m = n /\ cy = cx \/ same_result kept (get_value c n cx) (get_value d m cy)).
Proof.
  intros c n cx d m cy K. inversion K as [| c' n' cx' cy' Sn T | |]; subst; split; try reflexivity; [left; split; reflexivity|]. right. now apply solid_value.
Qed.
Print Assumptions C147_parts.
Fixpoint solidb (n : node) : bool :=
  match n with
  | Txt x => negb (pstr_eqb x []) && pstr_eqb (norm_text x) x
  | El nm a k => nodupb (map fst a) && forallb (fun kv => match snd kv with AStr y => forallb (fun c => 32 <=? c) y | _ => false end) a &&
      (fix ap k := match k with Txt _ :: (Txt _ :: _) => false | _ :: k' => ap k' | [] => true end) k && forallb solidb k
  end.
Lemma solidb_ok n : solidb n = true -> solid n.
Proof.
  induction n as [x|nm a k IH] using node_ind'; cbn [solidb]; intros H.
  - apply andb_true_iff in H as [A B]. split; [|now apply pstr_eqb_spec]. apply negb_true_iff in A. now apply pstr_eqb_neq in A.
  - apply andb_true_iff in H as [H D]. apply andb_true_iff in H as [H C]. apply andb_true_iff in H as [A B]. rewrite forallb_forall in B. apply solid_El. split; [|split; [|split]].
    + split; [now apply nodupb_ok|]. apply Forall_forall. intros kv I. specialize (B kv I). destruct (snd kv) as [y| | |]; try discriminate. split; [now apply line_check|]. now exists y.
    + apply Forall_forall. intros kv I. specialize (B kv I). destruct (snd kv) as [y| | |]; try discriminate. now exists y.
    + clear - C. induction k as [|[x|nm a k'] k IH]; [exact I| |exact (IH C)]. destruct k as [|[x2|? ? ?] k]; [exact I|discriminate|]. exact (IH C).
    + clear - IH D. induction k as [|c k IHk]; constructor; cbn [forallb] in D; apply andb_true_iff in D as [D1 D2]; inversion_clear IH as [|? ? I1 I2]; auto.
Qed.
(** The tags of all parameters of all layers are solid when the layers are made, so the values of new layers are kept. *)
Theorem C147_new_layers : forall c n f v k, In c layer_classes -> new_tag c = Ok (forget n) -> layer_getitem n f = Ok (v, k) -> solid (forget v).
Proof.
  intros c n f v k Hc Hn H. apply LayProofs5.getitem_inv in H as (p & Hp & H). apply DocProofs2.ifind_In in Hp as [Hp Hq]. apply LayProofs5.value_of_inv in H as (H & _).
  assert (C : forallb (fun c => match new_tag c with Ok t => forallb (fun p => forallb solidb (child_tags p)) (filter (fun p => pstr_eqb (tag_name p) (s "param")) (descendants t)) | Err _ => true end) layer_classes = true) by (vm_compute; reflexivity).
  rewrite forallb_forall in C. specialize (C c Hc). rewrite Hn, ClsProofs.desc_forget in C. rewrite forallb_forall in C. specialize (C (forget p)). rewrite forallb_forall in C. apply solidb_ok, C.
  - apply filter_In. split; [now apply in_map|]. destruct p as [|u nm a kk]; [discriminate|]. unfold is_param in Hq. cbn [itag iname andb] in Hq. apply andb_true_iff in Hq as [Hq _]. exact Hq.
  - destruct p as [|u nm a kk]; [discriminate|]. cbn [forget ikids] in *. unfold child_tags. cbn [tag_kids].
    assert (I : In v (filter itag kk)) by (rewrite H; now left). apply filter_In in I as [I1 I2]. apply filter_In. split; [|destruct v; [discriminate|reflexivity]]. now apply in_map.
Qed.
Print Assumptions C147_new_layers.
(** The calls of C127: a text with a description, an animated amount, and a group; some of them raise. *)
Example C147_nonvacuous : exists a, load xfs xsif = Ok a /\ tidy (am_root a) /\ Forall meant xcalls /\ Forall good_edit xcalls /\ Forall tidy_edit xcalls /\
  (forall n, target_of (mkAnim n (am_kind a) (am_file a)) (Some xsifz) xsifz FSifz) /\ new_anim = Ok (mkAnim xblank FBlank None) /\ kind_named xsifz FSifz /\
  (exists r, fget 1 (edits (doc_forest xblank) xcalls) = Some r /\ length (ifind_all is_layer r) = 2%nat).
Proof.
  exists (mkAnim (reload xblank) FSif (Some xsif)). split; [exact xfs_loads|]. split; [apply tidyb_ok; vm_compute; reflexivity|]. split; [exact xcalls_meant|]. split; [exact xcalls_good|]. split; [|split; [|split; [|split]]].
  - unfold xcalls. repeat match goal with |- Forall tidy_edit _ => constructor end; cbn [tidy_edit tidy_val tidy_vedit]; try exact I.
    + split; [exact I|]. intros _ y E. cbn [py_str] in E. injection E as <-. apply line_check. vm_compute. reflexivity.
    + split; [exact I|]. intros _ y E. cbn [py_str] in E. injection E as <-. apply line_check. vm_compute. reflexivity.
    + split; [exact I|]. intros _ y E. cbn [py_str] in E. injection E as <-. apply line_check. vm_compute. reflexivity.
    + constructor; [|constructor]. split; [reflexivity|]. split; [reflexivity|]. apply tidyb_ok. vm_compute. reflexivity.
  - intros n. split; [reflexivity|apply xsifz_name].
  - vm_compute. reflexivity.
  - apply xsifz_name.
  - exists (match fget 1 xF with Some r => r | None => IT [] end). split; vm_compute; reflexivity.
Qed.
(** After those calls: the FPS is that of the blank animation, and the layers have parameters with solid tags. *)
Example C147_values_nonvacuous : exists r l f v c, starts (mkAnim xblank FBlank None) /\ fget 1 (edits (doc_forest xblank) xcalls) = Some r /\ plain_fps r /\
  In l (ifind_all is_layer r) /\ layer_getitem l f = Ok (v, c) /\ solid (forget v).
Proof.
  set (r := match fget 1 xF with Some r => r | None => IT [] end). set (l := match ifind_all is_layer r with l :: _ => l | [] => IT [] end).
  set (v := match layer_getitem l (s "z_depth") with Ok (v, _) => v | Err _ => IT [] end). exists r, l, (s "z_depth"), v, VReal. split; [left; vm_compute; reflexivity|]. split; [vm_compute; reflexivity|]. split; [vm_compute; reflexivity|].
  split; [vm_compute; now left|]. split; [vm_compute; reflexivity|]. apply solidb_ok. vm_compute. reflexivity.
Qed.

(** ** C76 The values of waypoints *)

(** A waypoint is read from the file as [reload_wp] says (C76_timelines_survive_saving): with a solid tag it has the value it had. *)
Theorem C76_values : forall w cx, solid (w_val w) -> same_result kept (get_value (w_cls w) (w_val w) cx) (get_value (w_cls w) (w_val (TlSpec.reload_wp w)) cx).
Proof. intros w cx H. apply solid_value; [exact H|]. intros x. reflexivity. Qed.
Print Assumptions C76_values.
Example C76_values_nonvacuous : solid (El (s "real") [(s "value", AStr (s "3.5000000000"))] []) /\ solid (El (s "vector") [] [El (s "x") [] [Txt (s "1.0")]; El (s "y") [] [Txt (s "2.0")]]).
Proof. split; apply solidb_ok; vm_compute; reflexivity. Qed.
