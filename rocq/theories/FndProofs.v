(** Values compared with what was assigned to them, and found by it. *)
From Coq Require Import Lia Lqa ZifyBool Permutation.
From Verif Require Import TimeProofs SerModel ValSpec PyFloatProofs PyFmtProofs PyFmtProofs2 PyRoundProofs ValProofs ValProofs2 ValProps TightProps4 ViewModel ViewSpec ViewProofs FndModel FndSpec.
Local Open Scope Z_scope.

(** ** Rounding *)
Lemma dec_fixed k tt x : (0 <= tt)%Z -> (pow10 (Z.of_nat k) * pow2 (tt - 54) < 1#2)%Q -> ((1#2) * pow10 (- Z.of_nat k) < pow2 (tt - 53))%Q -> is_dbl (pow2 tt) ->
  has_decimals k x -> round_dec k x = x.
Proof.
  intros Ht H1 H2 Hd (m & ->). set (d := decimal k m).
  assert (E : round_dec k d = rnd64 d).
  { unfold round_dec. pose proof (pow10_inv_l (Z.of_nat k)) as I. unfold d.
    assert (X : (decimal k m * pow10 (Z.of_nat k) == inject_Z m)%Q) by (rewrite pow10_decimal, <- Qmult_assoc, I; ring).
    rewrite (round_he_comp _ _ X), round_he_Z. apply rnd64_comp. symmetry. apply pow10_decimal. }
  destruct (Qlt_le_dec (Qabs d) (pow2 tt)) as [L|L].
  - rewrite <- E. pose proof (round_dec_small k tt Ht H1 d L) as S. unfold round_dec at 1. rewrite S. reflexivity.
  - apply (round_dec_large k tt Ht H2); [apply rnd64_is_dbl|]. rewrite rnd64_abs. unfold is_dbl in Hd. rewrite <- Hd. now apply rnd64_mono.
Qed.
Lemma fixed10 x : has_decimals 10 x -> round_dec 10 x = x.
Proof. apply (dec_fixed 10 19); [lia|reflexivity|reflexivity|vm_compute; reflexivity]. Qed.
Lemma fixed6 x : has_decimals 6 x -> round_dec 6 x = x.
Proof. apply (dec_fixed 6 33); [lia|reflexivity|reflexivity|vm_compute; reflexivity]. Qed.

Lemma fmt_parse k x : parse_float (fmt_f k x) = Ok (round_dec k x).
Proof. apply parse_fmt_f. Qed.

Lemma xy_iter prior x y : begins_with_x prior -> reads (fst (set_value VXY prior (PTuple [PFlo x; PFlo y]))) [round_dec 10 x; round_dec 10 y].
Proof.
  intros [O B]. rewrite vector_set_pair. cbn [fst]. unfold reads, vector_iter, vector_values. change (is_animated (El (s "vector") [] (tag_kids prior ++ xy_tags x y))) with false. cbn iota.
  unfold vector_items. rewrite vector_dict_pair. set (d := vector_dict (El (s "vector") [] (tag_kids prior))).
  assert (E : aset (s "y") (Some (fmt_f 10 y)) (aset (s "x") (Some (fmt_f 10 x)) d) = [(s "x", Some (fmt_f 10 x)); (s "y", Some (fmt_f 10 y))]).
  { assert (D : d = [] \/ (exists p, d = [(s "x", p)]) \/ exists p q, d = [(s "x", p); (s "y", q)]).
    { unfold d, vector_dict. change (child_tags (El (s "vector") [] (tag_kids prior))) with (child_tags prior). clear - O B. unfold only_xy in O.
      destruct (child_tags prior) as [|t l]; [now left|]. right. apply Forall_cons_iff in O as [_ O]. cbn [map]. rewrite B. unfold adict. cbn [fold_left].
      change (aset (s "x") (node_string t) []) with [(s "x", node_string t)].
      assert (X : forall l, Forall (fun t => tag_name t = s "x" \/ tag_name t = s "y") l -> forall d, (exists p, d = [(s "x", p)]) \/ (exists p q, d = [(s "x", p); (s "y", q)]) ->
                  let d' := fold_left (fun d kv => aset (fst kv) (snd kv) d) (map (fun t => (tag_name t, node_string t)) l) d in (exists p, d' = [(s "x", p)]) \/ (exists p q, d' = [(s "x", p); (s "y", q)])).
      { clear. intros l. induction l as [|t l IH]; intros O d Hd; [exact Hd|]. apply Forall_cons_iff in O as [Ht O]. cbn [map fold_left fst snd]. apply (IH O).
        destruct Ht as [-> | ->], Hd as [(p & ->)|(p & q & ->)]; [left; eexists; reflexivity|right; do 2 eexists; reflexivity..]. }
      apply X; [exact O|left; eexists; reflexivity]. }
    destruct D as [-> |[(p & ->)|(p & q & ->)]]; reflexivity. }
  rewrite E. cbn [mapM fst snd float_opt]. rewrite !fmt_parse. reflexivity.
Qed.

(** ** Values with parts *)
Lemma all_strs {A B} (f : A -> res B) l : (forall x, In x l -> exists y, f x = Ok y) -> exists r, mapM f l = Ok r.
Proof. induction l as [|x l IH]; intros H; [now exists []|]. cbn [mapM]. destruct (H x (or_introl eq_refl)) as (y & ->). cbn [bind]. destruct IH as (r & ->); [intros z Hz; apply H; now right|]. cbn [bind]. eauto. Qed.

Lemma xy_plain x y : has_decimals 10 x -> has_decimals 10 y -> reads (El (s "vector") [] (xy_tags x y)) [x; y].
Proof.
  intros Hx Hy. pose proof (xy_iter (El (s "vector") [] []) x y) as R. rewrite vector_set_pair, fixed10, fixed10 in R by assumption. cbn [fst tag_kids app] in R. apply R. split; [constructor|exact I].
Qed.
Lemma xy_shown pr x y cx : exists z, flat_repr pr (PVal VXY (El (s "vector") [] (xy_tags x y)) cx) = Ok z.
Proof.
  unfold flat_repr, flat_str, vector_str. change (is_animated (El (s "vector") [] (xy_tags x y))) with false. cbn iota. rewrite xy_reads. destruct (vector_keys _) as [|k1 [|k2 [|k3 l]]]; cbn [bind]; eauto. destruct (_ && _); cbn [bind]; eauto.
Qed.
Lemma angle_shown pr a cx : is_dbl a -> exists z, flat_repr pr (PVal VAngle (value_tag VAngle (repr_float a)) cx) = Ok z.
Proof.
  intros H. unfold flat_repr, flat_str, py_str. change (is_animated (value_tag VAngle (repr_float a))) with false. pose proof (angle_reads a cx H) as R. cbn [get_value] in R. cbn iota. rewrite R. cbn [bind]. eauto.
Qed.

Lemma trans_kept prior l ox oy a k sx sy : has_name (s "composite") prior = true -> from_tag prior = Ok VTransformation -> has_decimals 10 ox -> has_decimals 10 oy -> is_dbl a -> is_dbl k -> has_decimals 10 sx -> has_decimals 10 sy ->
  Permutation l (full ox oy a k sx sy) ->
  exists m, set_value VTransformation prior (PDict l) = (m, Ok tt) /\ from_tag m = Ok VTransformation /\ is_animated m = false /\ forall printable cx, trans_eq m cx (PDict l) = Ok true /\ exists x, value_str printable VTransformation m cx = Ok x.
Proof.
  intros Hn Hf Hox Hoy Ha Hk Hsx Hsy P. destruct prior as [x|nm at_ kids]; [discriminate Hn|]. unfold has_name in Hn. cbn [is_tag tag_name andb] in Hn. apply pstr_eqb_spec in Hn. subst nm.
  set (tg := fun v => match v with PTuple [PFlo x; PFlo y] => El (s "vector") [] (xy_tags x y) | PFlo q => value_tag VAngle (repr_float q) | _ => Txt [] end).
  assert (Nd : NoDup (map fst l)) by (eapply Permutation_NoDup; [apply Permutation_map, Permutation_sym; exact P|]; repeat (constructor; [cbn; intuition discriminate|]); constructor).
  assert (Q : forall kk v, In (kk, v) l -> exists c, aget kk transformation_keys = Some c /\ new_value c v = Ok (tg v) /\ from_tag (tg v) = Ok c /\ (forall cx, flat_eq c (tg v) cx v = Ok true) /\ (forall pr cx, exists z, flat_repr pr (PVal c (tg v) cx) = Ok z) /\ match v with PT _ | PVal _ _ _ => False | _ => True end).
  { intros kk v Hi. apply (Permutation_in _ P) in Hi.
    assert (V : forall x y cx, has_decimals 10 x -> has_decimals 10 y -> flat_eq VXY (El (s "vector") [] (xy_tags x y)) cx (PTuple [PFlo x; PFlo y]) = Ok true).
    { intros x y cx Hx Hy. cbn [flat_eq]. destruct (vec_eq_tuple _ _ [x; y] (xy_plain x y Hx Hy)) as (e & Ee & X). cbn [map] in Ee. rewrite Ee. f_equal. apply X. repeat constructor; reflexivity. }
    assert (W : forall q cx, is_dbl q -> flat_eq VAngle (value_tag VAngle (repr_float q)) cx (PFlo q) = Ok true).
    { intros q cx Hq. cbn [flat_eq]. pose proof (angle_reads q cx Hq) as R. cbn [get_value] in R. unfold simple_eq. cbn [is_instance py_float conv_or_keep bind]. rewrite R. cbn [bind]. f_equal. apply Qeq_bool_iff. reflexivity. }
    destruct Hi as [[= <- <-]|[[= <- <-]|[[= <- <-]|[[= <- <-]|[]]]]]; eexists; (split; [reflexivity|]); (split; [reflexivity|]); (split; [first [apply xy_tag|apply angle_tag]|]); (split; [intros cx; first [now apply V|now apply W]|]); (split; [intros pr cx; first [apply xy_shown|now apply angle_shown]|]); exact I. }
  destruct (composite_set_reads (El (s "composite") at_ kids) l eq_refl Nd) as (m & S & G & _).
  { intros kk v Hi. destruct (Q kk v Hi) as (c & A & B & C & _). exists c, (tg v). auto. }
  exists m. split; [exact S|].
  assert (M : m = El (s "composite") at_ (map (fun kt => subtag (fst kt) (snd kt)) (combine (map fst l) (map (fun kv => tg (snd kv)) l)))).
  { cbn [set_value] in S. unfold composite_set in S. cbn [py_items] in S. rewrite str_keys_dict in S.
    replace (forallb _ l) with true in S.
    2:{ symmetry. apply forallb_forall. intros [kk v] Hi. cbn [fst]. destruct (Q kk v Hi) as (c & -> & _). reflexivity. }
    rewrite (composite_append_ok l [] (map (fun kv => tg (snd kv)) l)) in S; [injection S as <-; reflexivity|].
    clear - Q. induction l as [|[kk v] l IH]; cbn [map]; constructor; [|apply IH; intros; apply Q; now right].
    destruct (Q kk v (or_introl eq_refl)) as (c & A & B & _). exists c. cbn [fst snd]. split; [exact A|]. now rewrite <- (new_flat_value c kk). }
  assert (A : is_animated m = false) by (rewrite M; reflexivity).
  split; [rewrite M; exact Hf|]. split; [exact A|]. intros pr cx.
  assert (K : composite_keys m = map fst l).
  { unfold composite_keys. rewrite M, child_tags_subtags. clear. induction l as [|[kk v] l IH]; [reflexivity|]. cbn [map fst snd combine subtag tag_name]. f_equal. exact IH. }
  assert (Gi : forall kk v, In (kk, v) l -> exists c, aget kk transformation_keys = Some c /\ composite_getitem m cx kk = Ok (PVal c (tg v) cx)).
  { intros kk v Hi. destruct (Q kk v Hi) as (c & X & B & _). exists c. split; [exact X|]. now apply (G kk v c (tg v) cx Hi X B). }
  destruct (trans_fields m cx) as (d & Ed & Kd & Hd).
  { rewrite K. exact (Permutation_map fst P). }
  { intros kk Hkk. assert (I : In kk (map fst l)) by (apply (Permutation_in _ (Permutation_sym (Permutation_map fst P))); exact Hkk). apply in_map_iff in I as ([k0 v] & <- & I). destruct (Gi k0 v I) as (c & _ & X). cbn [fst]. eauto. }
  assert (It : forall kk v, In (kk, v) d -> exists o c, In (kk, o) l /\ aget kk transformation_keys = Some c /\ v = PVal c (tg o) cx).
  { intros kk v Hi. assert (I : In kk (map fst l)) by (rewrite <- K, <- Kd; now apply (in_map fst _ (kk, v))). apply in_map_iff in I as ([k0 o] & E & I). cbn [fst] in E. subst k0. destruct (Gi kk o I) as (c & X & Y). rewrite (Hd kk v Hi) in Y. injection Y as ->. eauto. }
  split.
  - unfold trans_eq. cbn [py_items py_len bind]. assert (Ln : length l = length (child_tags m)) by (apply (f_equal (@length pstr)) in K; unfold composite_keys in K; rewrite !map_length in K; auto). rewrite Ln, Z.eqb_refl. cbn [negb]. unfold composite_items. rewrite Ed. cbn [bind].
    destruct (items_spec (PDict l) (fun _ => True) d) as (r & Er & Hr).
    { intros kk v Hi. destruct (It kk v Hi) as (o & c & Io & X & ->). destruct (Q kk o Io) as (c' & X' & _ & _ & E & _ & Kind). rewrite X in X'. injection X' as <-. exists o, true.
      split; [cbn [py_getitem]; now rewrite (In_aget kk o l Nd Io)|]. split; [|tauto]. specialize (E cx). clear - E Kind. destruct o; try contradiction; exact E. }
    rewrite Er. f_equal. apply Hr. auto.
  - cbn [value_str]. rewrite A, Ed. cbn [bind].
    assert (X : exists r, mapM (fun kv => let* x := flat_repr pr (snd kv) in Ok (repr_str pr (fst kv) ++ s ": " ++ x)) d = Ok r).
    { apply all_strs. intros [kk v] Hi. destruct (It kk v Hi) as (o & c & Io & X & ->). destruct (Q kk o Io) as (c' & X' & _ & _ & _ & E & _). rewrite X in X'. injection X' as <-. destruct (E pr cx) as (z & Ez). cbn [fst snd]. rewrite Ez. cbn [bind]. eauto. }
    destruct X as (r & ->). cbn [bind]. eauto.
Qed.

Lemma six_each_id d : Forall (fun a : stop => Forall (has_decimals 6) (snd a)) d -> six_each d = d.
Proof.
  intros H. unfold six_each. induction H as [|[m c] d Hc _ IH]; [reflexivity|]. cbn [map fst snd] in *. rewrite IH. do 2 f_equal. unfold six_decimals. clear - Hc. induction Hc as [|x c Hx _ IH]; [reflexivity|]. cbn [map]. now rewrite fixed6, IH.
Qed.
Lemma grad_kept prior l d : has_name (s "gradient") prior = true -> gradient_ok d -> Forall (fun a => Forall (has_decimals 6) (snd a)) d -> Permutation l d ->
  exists m, set_value VGradient prior (PDictF (map (fun a => (position (fst a), colour_arg (snd a))) l)) = (m, Ok tt) /\ from_tag m = Ok VGradient /\ is_animated m = false /\
    forall printable cx, grad_eq m cx (PDictF (map (fun a => (position (fst a), colour_arg (snd a))) l)) = Ok true /\ exists x, value_str printable VGradient m cx = Ok x.
Proof.
  intros Hn Hok Hd P. destruct (gradient_dict_shows prior l d P Hok) as (m & S & T & Tg & Sh). rewrite (six_each_id d Hd) in Sh.
  assert (N : tag_name m = s "gradient") by (rewrite T; unfold has_name in Hn; now apply pstr_eqb_spec in Hn).
  assert (A : is_animated m = false) by (unfold is_animated, has_name; rewrite N; reflexivity).
  exists m. split; [exact S|]. split; [unfold from_tag; rewrite A, N; reflexivity|]. split; [exact A|]. intros pr cx. destruct (Sh cx) as ((g & Eg & F) & _). cbn [get_value] in Eg.
  destruct (gradient_val m cx) as [g'|] eqn:E; [|discriminate Eg]. cbn [bind] in Eg. injection Eg as ->. destruct Hok as (Hi & Ho & _).
  set (L := map (fun a : stop => (position (fst a), colour_arg (snd a))) l). split.
  - change (grad_eq m cx (PDictF L) = Ok true). unfold grad_eq. rewrite E. cbn [bind]. assert (Ln : length L = length g) by (unfold L; rewrite map_length, (Permutation_length P); symmetry; exact (F2_length _ _ _ F)). rewrite Ln, Z.eqb_refl. cbn [negb].
    assert (D : distinct L).
    { unfold distinct, L. rewrite !map_map. cbn [fst]. assert (Nd : NoDup (map (fun a : stop => fst a) l)).
      { apply (Permutation_NoDup (Permutation_map fst (Permutation_sym P))). clear - Hi. induction d as [|a d IH]; [constructor|]. cbn [map]. constructor; [|apply IH; eapply increasing_tail; eassumption]. intros X. apply in_map_iff in X as (b & Eb & Hb). pose proof (increasing_lt a d Hi b Hb). lia. }
      assert (O : forall a, In a l -> stop_ok a) by (intros a Ia; rewrite Forall_forall in Ho; apply Ho; exact (Permutation_in _ P Ia)). clear - Nd O.
      induction l as [|a l IH]; [constructor|]. cbn [map] in *. apply NoDup_cons_iff in Nd as [N1 N2]. constructor; [|apply IH; [exact N2|intros; apply O; now right]]. intros X. apply in_map_iff in X as (b & Eb & Hb). apply N1.
      assert (Z : (position (fst b) == position (fst a))%Q) by (rewrite <- (Qred_correct (position (fst b))), Eb; apply Qred_correct).
      apply position_eq in Z; [|apply (O b); now right|apply (O a); now left]. rewrite <- Z. now apply in_map. }
    assert (X : forall kv, In kv g -> exists t c, snd kv = PVal VColor t cx /\ color_tuple t = Ok c /\ length c = 4%nat /\ In (fst kv, colour_arg c) L).
    { assert (I : forall b, In b d -> In (position (fst b), colour_arg (snd b)) L) by (intros b Hb; unfold L; apply (in_map (fun a : stop => (position (fst a), colour_arg (snd a)))); now apply (Permutation_in _ (Permutation_sym P))).
      assert (O : forall b, In b d -> length (snd b) = 4%nat) by (intros b Hb; rewrite Forall_forall in Ho; apply (Ho b Hb)). clear - F I O.
      induction F as [|kv b g d (K1 & t & K2 & K3) _ IH]; intros y [].
      - subst y. exists t, (snd b). rewrite K1. split; [exact K2|]. split; [exact K3|]. split; [apply O; now left|apply I; now left].
      - apply IH; [intros; apply I; now right|intros; apply O; now right|assumption]. }
    clear - X D. induction g as [|[q v] g IH]; [reflexivity|]. cbn [entries_eq]. destruct (X (q, v) (or_introl eq_refl)) as (t & c & Ev & Ct & Lc & IL). cbn [fst snd] in Ev, IL. subst v. rewrite (qget_here q _ L D IL). cbn [stop_eq].
    destruct c as [|c1 [|c2 [|c3 [|c4 [|? ?]]]]]; try discriminate Lc. unfold colour_arg. cbn [map]. destruct (C72_colour_tuples t c1 c2 c3 c4 (PFlo c1) (PFlo c2) (PFlo c3) (PFlo c4) Ct) as ((e & -> & Xe) & _). replace e with true by (symmetry; apply Xe; cbn [number_is]; repeat split; reflexivity). cbn [bind]. apply IH. intros kv Hkv. apply X. now right.
  - cbn [value_str]. rewrite E. cbn [bind].
    assert (X : exists r, mapM (fun kv : Q * pyval => match snd kv with PVal c m0 cy => let* x := flat_str pr c m0 cy in Ok (repr_float (fst kv) ++ s ":" ++ x) | _ => Err EUnmodelled end) g = Ok r).
    { apply all_strs. clear - F Ho. revert Ho. induction F as [|[q v] b g d (K1 & t & K2 & K3) _ IH]; intros Ho y []; [|apply IH; [now inversion Ho|assumption]]. subst y. cbn [fst snd] in *. subst v. cbn [flat_str]. unfold py_str. destruct (is_animated t); [cbn [bind]; eauto|].
      inversion Ho as [|? ? (_ & Lb & _) _]; subst. unfold color_hex. rewrite K3. destruct (snd b) as [|c1 [|c2 [|c3 [|c4 [|? ?]]]]]; try discriminate Lb. cbn [bind]. eauto. }
    destruct X as (r & ->). cbn [bind]. eauto.
Qed.

(** ** A value is equal to what was assigned *)
Lemma kept_equal c prior v : kept c prior v ->
  exists m, set_value c prior v = (m, Ok tt) /\ from_tag m = Ok c /\ is_animated m = false /\ forall printable cx, val_eq c m cx v = Ok true /\ exists x, value_str printable c m cx = Ok x.
Proof.
  intros K. destruct K as [prior z|prior b|prior x Hx|prior x Hx|prior x Hn|prior hash x Hh Hl|prior r g b a Hr Hg Hb Ha|prior r g b Hr Hg Hb|prior x y B Hx Hy|prior l ox oy a k sx sy H1 H2 H3 H4 H5 H6 H7 H8 HP|prior l d H1 H2 H3 HP].
  - destruct (C15_integers_survive prior z) as (m & S & G). exists m. split; [exact S|]. split; [apply (G None)|].
    assert (A : is_animated m = false) by (cbn [set_value] in S; unfold simple_set in S; cbn in S; injection S as <-; reflexivity). split; [exact A|]. intros pr cx. destruct (G cx) as (G1 & _). cbn [get_value] in G1. split.
    + cbn [val_eq]. unfold simple_eq. cbn [is_instance py_int conv_or_keep bind]. rewrite G1. cbn [bind]. now rewrite Z.eqb_refl.
    + cbn [value_str flat_str]. unfold py_str. rewrite A, G1. cbn [bind]. eauto.
  - destruct (C16_bools_survive prior b) as (m & S & G). exists m. split; [exact S|]. split; [apply (G None)|].
    assert (A : is_animated m = false) by (cbn [set_value] in S; unfold simple_set in S; cbn in S; injection S as <-; reflexivity). split; [exact A|]. intros pr cx. destruct (G cx) as (G1 & _). cbn [get_value] in G1. split.
    + cbn [val_eq]. unfold simple_eq. cbn [is_instance py_bool bind]. rewrite G1. cbn [bind]. now destruct b.
    + cbn [value_str flat_str]. unfold py_str. rewrite A, G1. cbn [bind]. eauto.
  - destruct (C17_reals_to_ten_decimals prior x) as (w & (m & S & G) & _ & D). exists m. split; [exact S|]. split; [apply (G None)|].
    assert (A : is_animated m = false) by (cbn [set_value] in S; unfold simple_set in S; cbn in S; injection S as <-; reflexivity). split; [exact A|]. intros pr cx. destruct (G cx) as (G1 & _). cbn [get_value] in G1. split.
    + cbn [val_eq]. unfold simple_eq. cbn [is_instance py_float conv_or_keep bind]. rewrite G1. cbn [bind]. f_equal. apply Qle_bool_iff. unfold fsub. rewrite rnd64_abs. unfold near. apply rnd64_mono.
      eapply Qle_trans; [exact D|]. assert (P : (pow2 (-52) == 1 # 4503599627370496)%Q) by reflexivity. rewrite P. clear - Hx. lra.
    + cbn [value_str flat_str]. unfold py_str. rewrite A, G1. cbn [bind]. eauto.
  - destruct (C18_angles_survive prior x Hx) as (m & S & G). exists m. split; [exact S|]. split; [apply (G None)|].
    assert (A : is_animated m = false) by (cbn [set_value] in S; unfold simple_set in S; cbn in S; injection S as <-; reflexivity). split; [exact A|]. intros pr cx. destruct (G cx) as (G1 & _). cbn [get_value] in G1. split.
    + cbn [val_eq]. unfold simple_eq. cbn [is_instance py_float conv_or_keep bind]. rewrite G1. cbn [bind]. f_equal. apply Qeq_bool_iff. reflexivity.
    + cbn [value_str flat_str]. unfold py_str. rewrite A, G1. cbn [bind]. eauto.
  - destruct prior as [|nm a k]; [discriminate|]. unfold has_name in Hn. cbn [is_tag tag_name andb] in Hn. apply pstr_eqb_spec in Hn. rewrite <- ?Hn in *. try rewrite Hn in *. eexists. split; [reflexivity|]. split; [reflexivity|]. split; [reflexivity|]. intros pr cx. split.
    + cbn [val_eq]. f_equal. apply pstr_eqb_spec. reflexivity.
    + eexists. reflexivity.
  - destruct (C22_colours_survive_hex prior hash x Hh Hl) as (m & S & G). exists m. split; [exact S|]. split; [apply (G None)|]. destruct (G None) as (G1 & _).
    assert (A : is_animated m = false) by (cbn [set_value] in S; unfold color_set in S; destruct (color_conv _); [injection S as <-; reflexivity|discriminate]). split; [exact A|]. intros pr cx. split.
    + cbn [val_eq]. rewrite (C22_comparing_with_hex m _ hash x G1 A Hh Hl). f_equal. now apply pstr_eqb_spec.
    + cbn [value_str flat_str]. unfold py_str. rewrite A. cbn [get_value] in G1. destruct (color_hex m); [eauto|discriminate].
  - destruct (color_tuple_stores prior r g b a) as (m & S & T & C & _). rewrite !fixed6 in C by assumption. exists m. split; [exact S|]. split; [exact T|].
    assert (A : is_animated m = false) by (cbn [set_value] in S; unfold color_set in S; destruct (color_conv _); [injection S as <-; reflexivity|discriminate]). split; [exact A|]. intros pr cx. split.
    + cbn [val_eq]. destruct (C72_colour_tuples m r g b a (PFlo r) (PFlo g) (PFlo b) (PFlo a) C) as ((e & -> & X) & _). f_equal. apply X. cbn [number_is]. repeat split; reflexivity.
    + cbn [value_str flat_str]. unfold py_str. rewrite A. unfold color_hex. rewrite C. cbn [bind]. eauto.
  - destruct (color_tuple3_stores prior r g b) as (m & S & T & C & _). rewrite !fixed6 in C by assumption. exists m. split; [exact S|]. split; [exact T|].
    assert (A : is_animated m = false) by (cbn [set_value] in S; unfold color_set in S; destruct (color_conv _); [injection S as <-; reflexivity|discriminate]). split; [exact A|]. intros pr cx. split.
    + cbn [val_eq]. destruct (C72_colour_tuples m r g b 1%Q (PFlo r) (PFlo g) (PFlo b) PNone C) as (_ & (e & -> & X)). f_equal. apply X. cbn [number_is]. repeat split; reflexivity.
    + cbn [value_str flat_str]. unfold py_str. rewrite A. unfold color_hex. rewrite C. cbn [bind]. eauto.
  - pose proof (xy_iter prior x y B) as R. rewrite (fixed10 x Hx), (fixed10 y Hy) in R. rewrite vector_set_pair in *. cbn [fst] in R. set (m := El (s "vector") [] (tag_kids prior ++ xy_tags x y)) in *. exists m. split; [reflexivity|].
    assert (A : is_animated m = false) by reflexivity.
    assert (TT : vector_tuple m = Ok [x; y]).
    { pose proof (vector_tuple_last prior x y (proj1 B)) as L. rewrite vector_set_pair in L. cbn [fst] in L. fold m in L. now rewrite (fixed10 x Hx), (fixed10 y Hy) in L. }
    split; [|split; [exact A|]].
    + unfold from_tag. rewrite A. cbn [bind]. change (from_name value_registry (tag_name m)) with (@Ok vcls VXY). cbn [bind]. unfold vector_construct. rewrite A.
      assert (N : map tag_name (child_tags m) = map tag_name (child_tags prior) ++ [s "x"; s "y"]).
      { unfold m. rewrite child_tags_app, map_app. reflexivity. }
      rewrite N. destruct B as [O _]. unfold only_xy in O. set (l := child_tags prior) in *. clearbody l.
      assert (X : forallb (fun k => pstr_eqb k (s "x") || pstr_eqb k (s "y")) (map tag_name l ++ [s "x"; s "y"]) && existsb (pstr_eqb (s "x")) (map tag_name l ++ [s "x"; s "y"]) && existsb (pstr_eqb (s "y")) (map tag_name l ++ [s "x"; s "y"]) = true).
      { rewrite forallb_app, !existsb_app. apply andb_true_iff. split; [apply andb_true_iff; split|]; [|apply orb_true_iff; right; reflexivity..]. rewrite andb_true_r.
        apply forallb_forall. intros k Hk. apply in_map_iff in Hk as (t & <- & Ht). rewrite Forall_forall in O. apply orb_true_iff. destruct (O t Ht) as [-> | ->]; [left|right]; reflexivity. }
      destruct (map tag_name l ++ [s "x"; s "y"]) as [|k0 l0]; [discriminate X|]. now rewrite X.
    + intros pr cx. split.
      * cbn [val_eq]. destruct (vec_eq_tuple m _ [x; y] R) as (e & Ee & X). cbn [map] in Ee. rewrite Ee. f_equal. apply X. repeat constructor; reflexivity.
      * cbn [value_str flat_str]. unfold vector_str. rewrite A, TT. destruct (vector_keys m) as [|k1 [|k2 [|k3 l]]]; eauto. destruct (_ && _); cbn [bind]; eauto.
  - exact (trans_kept prior l ox oy a k sx sy H1 H2 H3 H4 H5 H6 H7 H8 HP).
  - exact (grad_kept prior l d H1 H2 H3 HP).
Qed.

(** Times: what was assigned must be whole frames, and the canvas must say how many there are in a second. *)
Lemma time_kept prior n p : 0 <= n < 10 ^ 6 -> 0 < p ->
  exists m, set_value VTime prior (PInt n) = (m, Ok tt) /\ from_tag m = Ok VTime /\ is_animated m = false /\
    forall printable cx, TimeSpec.at_fps (inject_Z p) cx -> val_eq VTime m cx (PInt n) = Ok true /\ exists x, value_str printable VTime m cx = Ok x.
Proof.
  intros Hn Hp. assert (C0 : TimeSpec.at_fps (inject_Z p) (Some [(s "fps", AFlo (inject_Z p))])) by (exists [(s "fps", AFlo (inject_Z p))], (AFlo (inject_Z p)); repeat split).
  destruct (time_stores prior n p _ Hn Hp C0) as (m & S & T & _ & _). exists m. split; [exact S|]. split; [exact T|].
  assert (A : is_animated m = false) by (cbn [set_value] in S; unfold simple_set in S; destruct (simple_str VTime (PInt n)); [injection S as <-; reflexivity|discriminate S]). split; [exact A|].
  intros pr cx Hc. destruct (time_stores prior n p cx Hn Hp Hc) as (m' & S' & _ & G & _). rewrite S in S'. injection S' as <-. cbn [get_value] in G. split.
  - cbn [val_eq]. unfold simple_eq. cbn [is_instance]. unfold py_T, py_float. rewrite f_of_Z_exact by lia. unfold T_init. cbn [ctx_fps bind]. change 0%Q with (inject_Z 0). rewrite Qlt_bool_Z. replace (n <? 0) with false by lia. cbn [conv_or_keep bind]. rewrite G. cbn [bind].
    unfold T_eq, T_compare. cbn [fps frames]. f_equal. apply Qeq_bool_iff. reflexivity.
  - cbn [value_str flat_str]. unfold py_str. rewrite A, G. cbn [bind]. eauto.
Qed.

(** Rounding changes the other numbers. *)
Lemma round_has k x : has_decimals k (round_dec k x).
Proof. unfold round_dec. eexists. apply rnd64_comp. symmetry. apply pow10_decimal. Qed.
Lemma round_same k x : is_dbl x -> (round_dec k x == x)%Q -> has_decimals k x.
Proof.
  intros Hd E. destruct (round_has k x) as (m & Em). exists m. unfold is_dbl in Hd. transitivity (rnd64 x); [now symmetry|]. rewrite <- (rnd64_comp _ _ E), Em. apply rnd64_is_dbl.
Qed.
