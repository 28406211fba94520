(** Printing layers and keyframes. *)
From Coq Require Import Lia.
From Verif Require Import PyFmtProofs SerProofs LayProofs5 PexSpec PexProofs StrModel StrSpec.
Local Open Scope N_scope.

(** ** Characters *)
Lemma breaks_cases c : breaks_line c = true -> (10 <= c <= 13) \/ (28 <= c <= 30) \/ c = 133 \/ c = 8232 \/ c = 8233.
Proof. unfold breaks_line. lia. Qed.
Lemma one_line_app x y : one_line x -> one_line y -> one_line (x ++ y).
Proof. intros. now apply Forall_app. Qed.
Lemma one_lineb x : forallb (fun c => negb (breaks_line c)) x = true -> one_line x.
Proof. rewrite forallb_forall. intros H. apply Forall_forall. intros c Hc. apply H in Hc. now apply negb_true_iff. Qed.

Lemma hex_char_ascii d : (d < 16) -> 48 <= hex_char d < 127.
Proof. unfold hex_char. intros H. destruct (d <? 10) eqn:E; lia. Qed.
Lemma hex_aux_ascii f : forall n acc, Forall (fun c => 48 <= c < 127) acc -> Forall (fun c => 48 <= c < 127) (hex_aux f n acc).
Proof.
  induction f as [|f IH]; intros n acc H; cbn [hex_aux]; [exact H|].
  assert (G : Forall (fun c => 48 <= c < 127) (hex_char (n mod 16) :: acc)) by (constructor; [apply hex_char_ascii; apply N.mod_lt; discriminate|exact H]).
  destruct (n <? 16); [exact G|]. apply IH, G.
Qed.
Lemma hex_pad_ascii k n : Forall (fun c => 48 <= c < 127) (hex_pad k n).
Proof.
  unfold hex_pad, pad0. apply Forall_app. split.
  - apply Forall_forall. intros c H. apply repeat_spec in H. subst. lia.
  - apply hex_aux_ascii. constructor.
Qed.
Lemma ascii_one_line x : Forall (fun c => 48 <= c < 127) x -> one_line x.
Proof. apply Forall_impl. intros c H. destruct (breaks_line c) eqn:E; [|reflexivity]. apply breaks_cases in E. lia. Qed.
Lemma repr_char_line pr q c : sane pr -> q = 39 \/ q = 34 -> one_line (repr_char pr q c).
Proof.
  intros S Q. unfold repr_char. destruct ((c =? q) || (c =? 92)) eqn:E1.
  { apply one_lineb. cbn [forallb]. replace (breaks_line c) with false; [reflexivity|]. symmetry. destruct (breaks_line c) eqn:E; [|reflexivity]. apply breaks_cases in E. lia. }
  destruct (c =? 9); [now apply one_lineb|]. destruct (c =? 10); [now apply one_lineb|]. destruct (c =? 13); [now apply one_lineb|].
  destruct ((c <? 32) || (c =? 127)) eqn:E2; [apply one_line_app; [now apply one_lineb|apply ascii_one_line, hex_pad_ascii]|].
  destruct (c <? 127) eqn:E3; [apply one_lineb; cbn [forallb]; destruct (breaks_line c) eqn:E; [apply breaks_cases in E; lia|reflexivity]|].
  destruct (pr c) eqn:E4; [apply one_lineb; cbn [forallb]; destruct (breaks_line c) eqn:E; [rewrite S in E4 by (auto; lia); discriminate|reflexivity]|].
  destruct (c <? 256); [apply one_line_app; [now apply one_lineb|apply ascii_one_line, hex_pad_ascii]|].
  destruct (c <? 65536); (apply one_line_app; [now apply one_lineb|apply ascii_one_line, hex_pad_ascii]).
Qed.
Lemma repr_line pr x : sane pr -> one_line (repr_str pr x).
Proof.
  intros S. unfold repr_str. cbv zeta. assert (Q := repr_quote_cases x). set (q := repr_quote x) in *. clearbody q. assert (Lq : breaks_line q = false) by (destruct Q; subst; reflexivity).
  constructor; [exact Lq|]. apply one_line_app; [|constructor; [exact Lq|constructor]]. induction x as [|c x IH]; [constructor|]. cbn [flat_map]. apply one_line_app; [now apply repr_char_line|exact IH].
Qed.
Lemma repr_inj pr x y r r' : code_points x -> code_points y -> repr_str pr x ++ r = repr_str pr y ++ r' -> x = y /\ r = r'.
Proof. intros Cx Cy H. assert (A := read_string pr 0 x r Cx). assert (B := read_string pr 0 y r' Cy). rewrite H in A. rewrite B in A. injection A as <- <-. auto. Qed.

(** ** Times *)
Definition tchar (c : N) : bool := numchar c || (c =? 32) || (c =? 104) || (c =? 109) || (c =? 115) || (c =? 102).
Definition tword (x : pstr) : Prop := x <> [] /\ Forall (fun c => tchar c = true /\ c <> 32) x.
Lemma num_tchar x : all_num x -> Forall (fun c => tchar c = true /\ c <> 32) x.
Proof. apply Forall_impl. intros c H. unfold tchar. rewrite H. apply numchar_cases in H. split; [reflexivity|lia]. Qed.
Lemma tword_snoc x c : all_num x -> tchar c = true -> c <> 32 -> tword (x ++ [c]).
Proof. intros H C D. split; [destruct x; discriminate|]. apply Forall_app. split; [now apply num_tchar|]. constructor; [auto|constructor]. Qed.
Lemma join_words l : Forall tword l -> Forall (fun c => tchar c = true) (join (s " ") l).
Proof.
  intros H. induction H as [|x l [_ Hx] Hl IH]; [constructor|]. cbn [join]. assert (X : Forall (fun c => tchar c = true) x) by (revert Hx; apply Forall_impl; tauto).
  destruct l; [exact X|]. apply Forall_app. split; [exact X|]. apply Forall_app. split; [repeat constructor|exact IH].
Qed.
Lemma join_head l : Forall tword l -> l <> [] -> match join (s " ") l with [] => False | c :: _ => c <> 32 end.
Proof.
  intros H N. destruct H as [|x l [Hx Wx] Hl]; [congruence|]. cbn [join]. destruct x as [|c x]; [congruence|]. inversion_clear Wx. destruct l; cbn [app]; tauto.
Qed.
Lemma T_str_shape t : exists (neg : bool) l, T_str t = (if neg then s "-" else []) ++ join (s " ") l /\ Forall tword l /\ l <> [].
Proof.
  unfold T_str. destruct (fps t) as [f|].
  - assert (U : forall us st, Forall (fun u => tchar (fst u) = true /\ fst u <> 32) us -> Forall tword (fst st) -> Forall tword (fst (fold_left str_unit us st))).
    { induction us as [|u us IH]; intros [out sec] Hu H; [exact H|]. inversion_clear Hu as [|? ? [U1 U2] U3]. cbn [fold_left]. apply IH; [assumption|]. unfold str_unit. destruct (Qle_bool _ sec); [|exact H]. cbn [fst] in *.
      apply Forall_app. split; [exact H|]. constructor; [|constructor]. apply tword_snoc; [apply dec_Z_num|exact U1|exact U2]. }
    specialize (U unit_sizes ([], Qabs (fdiv (frames t) f))). destruct (fold_left str_unit unit_sizes ([], Qabs (fdiv (frames t) f))) as [out rest]. cbn [fst] in U.
    assert (Ho : Forall tword out) by (apply U; [repeat constructor; discriminate|constructor]). exists (Qlt_bool (frames t) 0).
    destruct (negb (Qeq_bool rest 0) || match out with [] => true | _ => false end) eqn:E.
    + exists (out ++ [fmt_g 6 (fmod_pos (Qabs (frames t)) f) ++ s "f"]). split; [unfold minus_if; destruct (Qlt_bool (frames t) 0); reflexivity|]. split.
      * apply Forall_app. split; [exact Ho|]. constructor; [|constructor]. apply tword_snoc; [apply fmt_g_num|reflexivity|discriminate].
      * destruct out; discriminate.
    + exists out. split; [unfold minus_if; destruct (Qlt_bool (frames t) 0); reflexivity|]. split; [exact Ho|]. destruct out; [now rewrite orb_true_r in E|discriminate].
  - exists false, [fmt_g 6 (frames t) ++ s "f"]. split; [reflexivity|]. split; [|discriminate]. constructor; [|constructor]. apply tword_snoc; [apply fmt_g_num|reflexivity|discriminate].
Qed.
Lemma T_str_chars t : Forall (fun c => tchar c = true) (T_str t).
Proof. destruct (T_str_shape t) as (neg & l & -> & W & _). apply Forall_app. split; [destruct neg; repeat constructor|now apply join_words]. Qed.
Lemma T_str_head t : match T_str t with [] => False | c :: _ => c <> 32 end.
Proof. destruct (T_str_shape t) as (neg & l & -> & W & N). destruct neg; [discriminate|]. now apply join_head. Qed.
Lemma tchar_cases c : tchar c = true -> c = 32 \/ (43 <= c < 58) \/ (97 <= c < 123).
Proof. unfold tchar. rewrite !orb_true_iff. intros [[[[[H|H]|H]|H]|H]|H]; [apply numchar_cases in H; lia|lia|lia|lia|lia|lia]. Qed.
Lemma T_str_line t : one_line (T_str t).
Proof. generalize (T_str_chars t). apply Forall_impl. intros c H. apply tchar_cases in H. destruct (breaks_line c) eqn:E; [|reflexivity]. apply breaks_cases in E. lia. Qed.

(** ** Parts that end at a character not in them *)
Lemma part_end {A} (p : A -> bool) x y r r' : Forall (fun c => p c = true) x -> Forall (fun c => p c = true) y ->
  match r with [] => True | c :: _ => p c = false end -> match r' with [] => True | c :: _ => p c = false end -> x ++ r = y ++ r' -> x = y /\ r = r'.
Proof.
  intros Hx. revert y. induction Hx as [|c x Hc Hx IH]; intros y Hy R R' E.
  - destruct Hy as [|d y Hd _]; [auto|]. cbn [app] in E. subst r. congruence.
  - destruct Hy as [|d y Hd Hy]; cbn [app] in E.
    + subst r'. congruence.
    + injection E as -> E. destruct (IH y Hy R R' E) as [-> ->]. auto.
Qed.

(** ** Keyframes *)
Lemma kf_has_str pr F k t x a : keyframe_has F k t x a -> kf_str pr F k = Ok (T_str t ++ s " " ++ repr_str pr x ++ (if a then [] else s " (inactive)")).
Proof. intros (Ht & Hn & Ha & _). unfold kf_str. rewrite Ha. cbn [bind]. rewrite Ht. cbn [bind]. now rewrite Hn. Qed.
Lemma repr_head pr x : exists q r, repr_str pr x = q :: r /\ (q = 39 \/ q = 34).
Proof. unfold repr_str. cbv zeta. assert (Q := repr_quote_cases x). eauto. Qed.
Lemma snoc_part (x r : pstr) : x ++ s " " ++ r = (x ++ s " ") ++ r.
Proof. now rewrite app_assoc. Qed.
Lemma kf_inj pr t x (a : bool) t' x' (a' : bool) : code_points x -> code_points x' ->
  T_str t ++ s " " ++ repr_str pr x ++ (if a then [] else s " (inactive)") = T_str t' ++ s " " ++ repr_str pr x' ++ (if a' then [] else s " (inactive)") ->
  T_str t = T_str t' /\ x = x' /\ a = a'.
Proof.
  intros C C' E. rewrite !snoc_part in E. apply (part_end tchar) in E as [E1 E2].
  - apply app_inv_tail in E1. apply repr_inj in E2 as [-> E2]; [|assumption|assumption]. split; [exact E1|]. split; [reflexivity|]. destruct a, a'; auto; discriminate.
  - apply Forall_app. split; [apply T_str_chars|repeat constructor].
  - apply Forall_app. split; [apply T_str_chars|repeat constructor].
  - destruct (repr_head pr x) as (q & r & -> & Q). cbn [app]. destruct Q; subst; reflexivity.
  - destruct (repr_head pr x') as (q & r & -> & Q). cbn [app]. destruct Q; subst; reflexivity.
Qed.
Lemma kf_line pr F k x : sane pr -> kf_str pr F k = Ok x -> one_line x.
Proof.
  intros S H. unfold kf_str in H. destruct (kf_active k) as [a|]; [|discriminate]. cbn [bind] in H. destruct (kf_time F k) as [t|]; [|discriminate]. cbn [bind] in H. injection H as <-.
  apply one_line_app; [apply T_str_line|]. apply (one_line_app (s " ")); [now apply one_lineb|]. apply (one_line_app (repr_str pr _)); [now apply repr_line|]. destruct a; now apply one_lineb.
Qed.

(** ** Layers *)
Definition head_of (c : lcls) : pstr := symbol_of c ++ lower (c_name c).
Lemma heads_ok : forallb (fun c => match head_of c with [] => false | d :: _ => negb (d =? 45) end && forallb (fun d => negb (d =? 32) && negb (d =? 93) && negb (breaks_line d)) (head_of c)) layer_classes = true.
Proof. vm_compute. reflexivity. Qed.
Fixpoint distinctb (l : list pstr) : bool := match l with [] => true | x :: l' => negb (existsb (pstr_eqb x) l') && distinctb l' end.
Lemma distinctb_ok l : distinctb l = true -> NoDup l.
Proof.
  induction l as [|x l IH]; cbn [distinctb]; intros H; [constructor|]. apply andb_true_iff in H as [H1 H2]. constructor; [|now apply IH]. intros C. apply negb_true_iff in H1.
  assert (T : existsb (pstr_eqb x) l = true) by (apply existsb_exists; exists x; split; [exact C|apply pstr_eqb_refl]). congruence.
Qed.
Lemma heads_distinct : NoDup (map head_of layer_classes).
Proof. apply distinctb_ok. vm_compute. reflexivity. Qed.
Lemma NoDup_map_in {A B} (f : A -> B) l a b : NoDup (map f l) -> In a l -> In b l -> f a = f b -> a = b.
Proof.
  induction l as [|x l IH]; intros N Ha Hb E; [destruct Ha|]. cbn [map] in N. inversion_clear N as [|? ? N1 N2]. destruct Ha as [->|Ha], Hb as [->|Hb]; auto.
  - destruct N1. rewrite E. now apply in_map.
  - destruct N1. rewrite <- E. now apply in_map.
Qed.
Lemma repeat_part (n m : nat) (x y : pstr) : match x with [] => True | d :: _ => d <> 45 end -> match y with [] => True | d :: _ => d <> 45 end -> repeat 45 n ++ x = repeat 45 m ++ y -> n = m /\ x = y.
Proof.
  revert m. induction n as [|n IH]; intros [|m] X Y E; cbn [repeat app] in E; [auto| | |]; try (subst; congruence). injection E as E. destruct (IH m X Y E) as [-> ->]. auto.
Qed.
Definition opt_text (pr : N -> bool) (o : option pstr) : pstr := match o with None => [] | Some x => s " " ++ repr_str pr x end.
Lemma has_repr pr F n d c ds tx : layer_has F n d c ds tx ->
  layer_repr pr F n = Ok (s "[" ++ repeat 45 (Z.to_nat d) ++ head_of c ++ opt_text pr ds ++ opt_text pr tx ++ s "]").
Proof.
  intros [C D (v & V & Hv) X]. unfold layer_repr. rewrite C. cbn [bind]. rewrite D. cbn [bind]. rewrite V. cbn [no_key_error bind].
  assert (L : layer_line pr d (symbol_of c) (c_name c) v = Ok (s "[" ++ repeat 45 (Z.to_nat d) ++ head_of c ++ opt_text pr ds ++ s "]")).
  { unfold layer_line, head_of. assert (E : shown_desc pr v = Ok (opt_text pr ds)).
    { destruct ds as [x|]; cbn [desc_is] in Hv; [destruct Hv as (-> & N & _); destruct x; [congruence|reflexivity]|destruct Hv as [-> | ->]; reflexivity]. }
    rewrite E. cbn [bind]. now rewrite <- !app_assoc. }
  rewrite L. cbn [bind]. destruct tx as [x|].
  - destruct X as (E & _ & t & m & cx & G & Gv). rewrite E, pstr_eqb_refl. cbn [bind]. rewrite G. cbn [bind]. rewrite Gv. cbn [bind]. f_equal.
    assert (RL : forall p : pstr, removelast (p ++ s "]") = p) by (intros p; apply removelast_last).
    replace (s "[" ++ repeat 45 (Z.to_nat d) ++ head_of c ++ opt_text pr ds ++ s "]") with ((s "[" ++ repeat 45 (Z.to_nat d) ++ head_of c ++ opt_text pr ds) ++ s "]") by (now rewrite <- !app_assoc).
    rewrite RL. unfold opt_text at 3. now rewrite <- !app_assoc.
  - replace (pstr_eqb (c_name c) (s "Text")) with false by (symmetry; now apply pstr_eqb_neq). reflexivity.
Qed.
Lemma two_texts pr ds tx ds' tx' : (forall x, ds = Some x -> code_points x) -> (forall x, tx = Some x -> code_points x) -> (forall x, ds' = Some x -> code_points x) -> (forall x, tx' = Some x -> code_points x) ->
  (tx = None <-> tx' = None) -> opt_text pr ds ++ opt_text pr tx ++ s "]" = opt_text pr ds' ++ opt_text pr tx' ++ s "]" -> ds = ds' /\ tx = tx'.
Proof.
  intros C1 C2 C3 C4 N E.
  assert (R : forall x y r r', code_points x -> code_points y -> (s " " ++ repr_str pr x) ++ r = (s " " ++ repr_str pr y) ++ r' -> x = y /\ r = r').
  { intros x y r r' Cx Cy H. rewrite <- !app_assoc in H. apply app_inv_head in H. now apply repr_inj in H. }
  destruct tx as [b|], tx' as [b'|]; try (exfalso; destruct N as [N1 N2]; (discriminate (N1 eq_refl) || discriminate (N2 eq_refl))).
  - destruct ds as [a|], ds' as [a'|]; cbn [opt_text] in E.
    + apply R in E as [-> E]; [|auto|auto]. apply R in E as [-> _]; auto.
    + change ([] ++ (s " " ++ repr_str pr b') ++ s "]") with ((s " " ++ repr_str pr b') ++ s "]") in E. apply R in E as [_ E]; [|auto|auto]. discriminate.
    + change ([] ++ (s " " ++ repr_str pr b) ++ s "]") with ((s " " ++ repr_str pr b) ++ s "]") in E. apply R in E as [_ E]; [|auto|auto]. discriminate.
    + cbn [app] in E. change ((s " " ++ repr_str pr b) ++ s "]" = (s " " ++ repr_str pr b') ++ s "]") in E. apply R in E as [-> _]; auto.
  - destruct ds as [a|], ds' as [a'|]; cbn [opt_text] in E; try discriminate; auto. apply R in E as [-> _]; auto.
Qed.
Lemma has_codes F n d c ds tx : layer_has F n d c ds tx -> (forall x, ds = Some x -> code_points x) /\ (forall x, tx = Some x -> code_points x) /\ (tx = None <-> c_name c <> s "Text") /\ (0 <= d)%Z /\ In c layer_classes.
Proof.
  intros [C D (v & V & Hv) X]. split; [intros x ->; exact (proj2 (proj2 Hv))|]. split; [intros x ->; exact (proj1 (proj2 X))|]. split.
  - destruct tx; [destruct X as (E & _); split; [discriminate|congruence]|tauto].
  - split; [|exact (layer_class_in _ _ C)]. unfold depth_of in D. destruct (fanc (iuid n) F); [|discriminate]. injection D as <-. lia.
Qed.
Lemma head_facts c : In c layer_classes -> (exists d r, head_of c = d :: r /\ d <> 45) /\ Forall (fun d => negb (d =? 32) && negb (d =? 93) = true) (head_of c) /\ one_line (head_of c).
Proof.
  intros H. assert (K := heads_ok). rewrite forallb_forall in K. apply K in H. clear K. apply andb_true_iff in H as [H1 H2]. split.
  - destruct (head_of c) as [|d r]; [discriminate|]. exists d, r. split; [reflexivity|]. lia.
  - rewrite forallb_forall in H2. split; apply Forall_forall; intros d Hd; apply H2 in Hd; [|destruct (breaks_line d); [|reflexivity]]; lia.
Qed.
Lemma layer_line_inj pr F G n m d c ds tx d' c' ds' tx' a : layer_has F n d c ds tx -> layer_has G m d' c' ds' tx' -> layer_repr pr F n = Ok a -> layer_repr pr G m = Ok a ->
  d = d' /\ c = c' /\ ds = ds' /\ tx = tx'.
Proof.
  intros H H' E E'. rewrite (has_repr pr _ _ _ _ _ _ H) in E. rewrite (has_repr pr _ _ _ _ _ _ H') in E'. rewrite <- E' in E. clear E'. injection E as E.
  destruct (has_codes _ _ _ _ _ _ H) as (C1 & C2 & N1 & P & I). destruct (has_codes _ _ _ _ _ _ H') as (C1' & C2' & N1' & P' & I').
  destruct (head_facts c I) as ((k & r & K & Kd) & Kc & _). destruct (head_facts c' I') as ((k' & r' & K' & Kd') & Kc' & _).
  apply repeat_part in E as [Ed E]; [|rewrite K; exact Kd|rewrite K'; exact Kd'].
  apply (part_end (fun d => negb (d =? 32) && negb (d =? 93))) in E as [Eh E]; [|assumption|assumption|destruct ds, tx; reflexivity|destruct ds', tx'; reflexivity].
  assert (Ec : c = c') by exact (NoDup_map_in head_of layer_classes c c' heads_distinct I I' Eh). subst c'.
  destruct (two_texts pr ds tx ds' tx') as [-> ->]; auto; [tauto|]. split; [lia|auto].
Qed.
Lemma layer_one_line pr F n a : sane pr -> layer_repr pr F n = Ok a -> one_line a.
Proof.
  intros S H. unfold layer_repr in H. destruct (layer_class n) as [c|] eqn:C; [|discriminate]. cbn [bind] in H. apply layer_class_in in C. destruct (head_facts c C) as (_ & _ & L).
  destruct (depth_of F (iuid n)) as [d|]; [|discriminate]. cbn [bind] in H. destruct (no_key_error _) as [v|]; [|discriminate]. cbn [bind] in H.
  destruct (layer_line pr d (symbol_of c) (c_name c) v) as [l|] eqn:E; [|discriminate]. cbn [bind] in H.
  assert (Ll : one_line l).
  { unfold layer_line in E. destruct (shown_desc pr v) as [x|] eqn:Ex; [|discriminate]. cbn [bind] in E. injection E as <-.
    apply (one_line_app (s "[")); [now apply one_lineb|]. apply one_line_app; [apply Forall_forall; intros y Hy; apply repeat_spec in Hy; now subst|]. rewrite app_assoc. apply one_line_app; [exact L|]. apply one_line_app; [|now apply one_lineb].
    destruct v as [| | | |x'| | | | | | |]; try discriminate; [injection Ex as <-; constructor|]. destruct x'; injection Ex as <-; [constructor|]. apply (one_line_app (s " ")); [now apply one_lineb|now apply repr_line]. }
  destruct (pstr_eqb (c_name c) (s "Text")); [|now injection H as <-].
  destruct (field_get c F n c (s "text")) as [w|]; [|discriminate]. cbn [bind] in H. destruct w as [| | | | | | | | | |t m cx|]; try discriminate. destruct (get_value t m cx) as [y|]; [|discriminate]. cbn [bind] in H. destruct y; try discriminate. injection H as <-.
  apply one_line_app.
  - clear - Ll. induction Ll as [|e l He Ll IH]; [constructor|]. cbn [removelast]. destruct l; [constructor|]. constructor; [exact He|exact IH].
  - apply (one_line_app (s " ")); [now apply one_lineb|]. apply (one_line_app (repr_str pr x)); [now apply repr_line|now apply one_lineb].
Qed.
