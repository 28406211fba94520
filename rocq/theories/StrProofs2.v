(** Printing waypoints, lists of keyframes, and values. *)
From Coq Require Import Lia.
From Verif Require Import PyFmtProofs SerProofs PexSpec PexProofs PexProofs2 LayProofs5 WrProofs StrModel StrSpec StrProofs.
Local Open Scope N_scope.

(** ** Waypoints *)
Lemma spaces_part (n m : nat) (x y : pstr) : match x with [] => False | d :: _ => d <> 32 end -> match y with [] => False | d :: _ => d <> 32 end -> repeat 32 n ++ x = repeat 32 m ++ y -> x = y.
Proof.
  revert m. induction n as [|n IH]; intros [|m] X Y E; cbn [repeat app] in E; [exact E|subst x; congruence|subst y; congruence|]. injection E as E. exact (IH m X Y E).
Qed.
Lemma pad3_inj t t' : pad3 (T_str t) = pad3 (T_str t') -> T_str t = T_str t'.
Proof. apply spaces_part; apply T_str_head. Qed.
Lemma pad3_chars t : Forall (fun c => tchar c = true) (pad3 (T_str t)).
Proof. unfold pad3. apply Forall_app. split; [|apply T_str_chars]. apply Forall_forall. intros c H. apply repeat_spec in H. now subst. Qed.
Lemma emoji_cases i x : emoji_of i = Ok x -> In (i, x) emoji.
Proof. unfold emoji_of. destruct (aget i emoji) as [y|] eqn:E; [|discriminate]. intros [= <-]. exact (aget_In _ _ _ E). Qed.
Lemma emoji_one i x : emoji_of i = Ok x -> exists c, x = [c] /\ 127 <= c.
Proof. intros H. apply emoji_cases in H. cbn in H. destruct H as [H|[H|[H|[H|[H|[]]]]]]; injection H as <- <-; eexists; (split; [reflexivity|lia]). Qed.
Lemma emoji_inj i j x : emoji_of i = Ok x -> emoji_of j = Ok x -> i = j.
Proof.
  intros H K. apply emoji_cases in H, K. cbn in H, K.
  destruct H as [H|[H|[H|[H|[H|[]]]]]]; injection H as <- <-; destruct K as [K|[K|[K|[K|[K|[]]]]]]; try discriminate K; injection K as <-; reflexivity.
Qed.
Lemma wp_str_ok pr w cx a : wp_str pr w cx = Ok a -> exists b e x, emoji_of (w_before w) = Ok b /\ emoji_of (w_after w) = Ok e /\ value_str pr (w_cls w) (w_val w) cx = Ok x /\
  a = s "[" ++ pad3 (T_str (w_time w)) ++ s " " ++ b ++ s "-" ++ e ++ s " - " ++ x ++ s "]".
Proof.
  unfold wp_str. intros H. apply bind_ok in H as (b & Hb & H). apply bind_ok in H as (e & He & H). apply bind_ok in H as (x & Hx & H). injection H as <-. exists b, e, x. auto.
Qed.
Lemma wp_inj pr w w' cx cx' a b : wp_str pr w cx = Ok a -> wp_str pr w' cx' = Ok b ->
  (a = b <-> T_str (w_time w) = T_str (w_time w') /\ w_before w = w_before w' /\ w_after w = w_after w' /\
             value_str pr (w_cls w) (w_val w) cx = value_str pr (w_cls w') (w_val w') cx').
Proof.
  intros A B. apply wp_str_ok in A as (b1 & e1 & x1 & Hb1 & He1 & Hx1 & ->). apply wp_str_ok in B as (b2 & e2 & x2 & Hb2 & He2 & Hx2 & ->). split.
  - intros E. apply app_inv_head in E. rewrite !snoc_part in E.
    destruct (emoji_one _ _ Hb1) as (c1 & -> & L1). destruct (emoji_one _ _ Hb2) as (c2 & -> & L2). destruct (emoji_one _ _ He1) as (d1 & -> & _). destruct (emoji_one _ _ He2) as (d2 & -> & _).
    assert (NC : forall c, 127 <= c -> tchar c = false) by (intros c Hc; destruct (tchar c) eqn:Ec; [apply tchar_cases in Ec; lia|reflexivity]).
    apply (part_end tchar) in E as [E1 E2]; [|apply Forall_app; split; [apply pad3_chars|repeat constructor]|apply Forall_app; split; [apply pad3_chars|repeat constructor]|cbn; auto|cbn; auto].
    apply app_inv_tail, pad3_inj in E1. cbn [app] in E2. injection E2 as <- <- E2. apply app_inv_tail in E2. subst x2.
    split; [exact E1|]. split; [exact (emoji_inj _ _ _ Hb1 Hb2)|]. split; [exact (emoji_inj _ _ _ He1 He2)|]. now rewrite Hx1, Hx2.
  - intros (-> & Eb & Ee & Ex). rewrite Eb, Hb2 in Hb1. injection Hb1 as ->. rewrite Ee, He2 in He1. injection He1 as ->. rewrite Ex, Hx2 in Hx1. injection Hx1 as ->. reflexivity.
Qed.
Lemma emoji_all i : In i interpolation_types -> exists x, emoji_of i = Ok x.
Proof. cbn. intros [<-|[<-|[<-|[<-|[<-|[]]]]]]; eexists; vm_compute; reflexivity. Qed.

(** ** Lists of keyframes *)
Lemma anim_line pr F n a : sane pr -> anim_repr pr F n = Ok a -> one_line a.
Proof.
  intros S H. unfold anim_repr in H. apply bind_ok in H as (d & _ & H). apply bind_ok in H as (v & _ & H). unfold layer_line in H. apply bind_ok in H as (x & Ex & H). injection H as <-.
  apply (one_line_app (s "[")); [now apply one_lineb|]. apply one_line_app; [apply Forall_forall; intros y Hy; apply repeat_spec in Hy; now subst|].
  apply (one_line_app (symbol_of cls_Group)); [apply one_lineb; vm_compute; reflexivity|]. apply (one_line_app (lower (s "Animation"))); [now apply one_lineb|]. apply one_line_app; [|now apply one_lineb].
  destruct v as [| | | |x'| | | | | | |]; try discriminate; [injection Ex as <-; constructor|]. destruct x'; injection Ex as <-; [constructor|]. apply (one_line_app (s " ")); [now apply one_lineb|now apply repr_line].
Qed.
Lemma concat_join h l : concat (map (fun x => nl ++ s "  - " ++ x) l) = match l with [] => [] | _ => nl ++ join nl (map (fun x => s "  - " ++ x) l) end ->
  h ++ concat (map (fun x => nl ++ s "  - " ++ x) l) = join nl (h :: map (fun x => s "  - " ++ x) l).
Proof. intros ->. destruct l; cbn [map join]; [now rewrite app_nil_r|reflexivity]. Qed.
Lemma concat_items l : concat (map (fun x => nl ++ s "  - " ++ x) l) = match l with [] => [] | _ => nl ++ join nl (map (fun x => s "  - " ++ x) l) end.
Proof.
  induction l as [|x l IH]; [reflexivity|]. cbn [map concat]. rewrite IH. destruct l as [|y l]; [cbn [map join]; now rewrite app_nil_r|].
  change (join nl (map (fun x0 => s "  - " ++ x0) (x :: y :: l))) with ((s "  - " ++ x) ++ nl ++ join nl (map (fun x0 => s "  - " ++ x0) (y :: l))). now rewrite <- !app_assoc.
Qed.
Lemma mapM_wrap {A} (f : A -> res pstr) (g : pstr -> pstr) l m : mapM (fun k => let* x := f k in Ok (g x)) l = Ok m -> exists ls, mapM f l = Ok ls /\ m = map g ls.
Proof.
  revert m. induction l as [|a l IH]; intros m H; cbn [mapM] in H; [injection H as <-; exists []; auto|]. apply bind_ok in H as (y & Hy & H). apply bind_ok in H as (r & Hr & H). injection H as <-.
  apply bind_ok in Hy as (x & Hx & Hy). injection Hy as <-. destruct (IH _ Hr) as (ls & E & ->). exists (x :: ls). split; [cbn [mapM]; rewrite Hx; cbn [bind]; rewrite E; reflexivity|reflexivity].
Qed.
Lemma keyframes_lines pr F n x : sane pr -> keyframes_str pr F n = Ok x ->
  exists a ls, anim_repr pr F n = Ok a /\ mapM (kf_str pr F) (keyframes n) = Ok ls /\ one_line (s "Keyframes of " ++ a ++ s ":") /\ Forall one_line ls /\
    x = join nl ((s "Keyframes of " ++ a ++ s ":") :: match ls with [] => [s "  (none)"] | _ => map (fun y => s "  - " ++ y) ls end).
Proof.
  intros S H. unfold keyframes_str in H. apply bind_ok in H as (a & Ha & H). assert (La : one_line (s "Keyframes of " ++ a ++ s ":")).
  { apply (one_line_app (s "Keyframes of ")); [now apply one_lineb|]. apply one_line_app; [exact (anim_line pr F n a S Ha)|now apply one_lineb]. }
  unfold keyframes_len in H. destruct (keyframes n) as [|k l] eqn:K.
  - cbn [length Z.of_nat Z.eqb] in H. injection H as <-. exists a, []. repeat split; auto.
  - cbn [length] in H. destruct (Z.of_nat _ =? 0)%Z eqn:E; [apply Z.eqb_eq in E; discriminate|]. apply bind_ok in H as (m & Hm & H). injection H as <-. apply (mapM_wrap (kf_str pr F) (fun x => nl ++ s "  - " ++ x)) in Hm as (ls & Els & ->).
    exists a, ls. split; [exact Ha|]. split; [exact Els|]. split; [exact La|]. split.
    + clear - S Els. revert ls Els. induction (k :: l) as [|k0 l0 IH]; intros ls Els; cbn [mapM] in Els; [injection Els as <-; constructor|]. apply bind_ok in Els as (y & Hy & H). apply bind_ok in H as (r & Hr & H). injection H as <-. constructor; [exact (kf_line pr F k0 y S Hy)|now apply IH].
    + rewrite (concat_join _ ls (concat_items ls)). destruct ls; [|reflexivity]. cbn [mapM] in Els. apply bind_ok in Els as (y & Hy & H). apply bind_ok in H as (r & Hr & H). discriminate.
Qed.

(** ** Values *)
Lemma str_real pr n cx x : value_str pr VReal n cx = Ok x -> is_animated n = false -> exists q, get_value VReal n cx = Ok (PFlo q) /\ is_dbl q /\ x = repr_float q.
Proof.
  cbn [value_str flat_str py_str get_value]. intros H A. rewrite A in H. clear A. unfold simple_val in *. destruct (aget (s "value") (tag_attrs n)) as [[v| | |]|]; try discriminate. cbn [bind] in H.
  destruct (parse_float v) as [q|] eqn:E; [|discriminate]. cbn [bind] in H. injection H as <-. exists q. split; [reflexivity|]. split; [exact (parse_float_dbl _ _ E)|reflexivity].
Qed.
Lemma repr_float_inj q q' : is_dbl q -> is_dbl q' -> repr_float q = repr_float q' -> q = q'.
Proof. intros D D' E. apply number_repr in D. apply number_repr in D'. rewrite E in D. rewrite D' in D. now injection D. Qed.
Lemma dec_Z_inj z z' : dec_Z z = dec_Z z' -> z = z'.
Proof. intros E. assert (A := number_dec z). rewrite E, number_dec in A. now injection A. Qed.
Lemma str_int pr c n cx x : c = VInteger \/ c = VBlendMethod -> value_str pr c n cx = Ok x -> is_animated n = false -> exists z, get_value c n cx = Ok (PInt z) /\ x = dec_Z z.
Proof.
  intros C H A. assert (K : simple_val c n cx = (match aget (s "value") (tag_attrs n) with None => Err ValueError | Some (AStr v) => let* z := parse_int v in Ok (PInt z) | Some _ => Err AssertionError end)) by (destruct C; subst; reflexivity).
  assert (V : get_value c n cx = simple_val c n cx) by (destruct C; subst; reflexivity). rewrite V.
  assert (H' : (let* r := simple_val c n cx in match r with PFlo q => Ok (repr_float q) | PInt z => Ok (dec_Z z) | PBool b => Ok (if b then s "True" else s "False") | PT t => Ok (T_str t) | _ => Err EUnmodelled end) = Ok x).
  { destruct C; subst; cbn [value_str flat_str py_str] in H; rewrite A in H; exact H. }
  rewrite K in *. destruct (aget (s "value") (tag_attrs n)) as [[v| | |]|]; try discriminate. destruct (parse_int v) as [z|]; [|discriminate]. cbn [bind] in *. injection H' as <-. eauto.
Qed.
Lemma str_bool pr n cx x : value_str pr VBool n cx = Ok x -> is_animated n = false -> exists b : bool, get_value VBool n cx = Ok (PBool b) /\ x = if b then s "True" else s "False".
Proof.
  cbn [value_str flat_str py_str get_value]. intros H A. rewrite A in H. clear A. unfold simple_val in *. destruct (aget (s "value") (tag_attrs n)) as [[v| | |]|]; try discriminate. cbn [bind] in H. injection H as <-. eauto.
Qed.
Lemma values_inj pr c n m cx cy x y : In c [VReal; VInteger; VBool; VString; VColor; VBlendMethod] -> is_animated n = false -> is_animated m = false ->
  value_str pr c n cx = Ok x -> value_str pr c m cy = Ok y -> (x = y <-> get_value c n cx = get_value c m cy).
Proof.
  intros C A B H K. cbn in C. destruct C as [<-|[<-|[<-|[<-|[<-|[<-|[]]]]]]].
  - apply str_real in H as (q & -> & D & ->); [|assumption]. apply str_real in K as (q' & -> & D' & ->); [|assumption]. split; [intros E; f_equal; f_equal; now apply repr_float_inj|intros [= ->]; reflexivity].
  - apply str_int in H as (q & -> & ->); [|auto|assumption]. apply str_int in K as (q' & -> & ->); [|auto|assumption]. split; [intros E; f_equal; f_equal; now apply dec_Z_inj|intros [= ->]; reflexivity].
  - apply str_bool in H as (q & -> & ->); [|assumption]. apply str_bool in K as (q' & -> & ->); [|assumption]. destruct q, q'; split; intros E; try reflexivity; discriminate.
  - cbn [value_str flat_str py_str] in H, K. rewrite A in H. rewrite B in K. injection H as <-. injection K as <-. cbn [get_value]. split; [intros ->; reflexivity|intros [= ->]; reflexivity].
  - cbn [value_str flat_str py_str] in H, K. rewrite A in H. rewrite B in K. cbn [get_value]. rewrite H, K. cbn [bind]. split; [intros ->; reflexivity|intros [= ->]; reflexivity].
  - apply str_int in H as (q & -> & ->); [|auto|assumption]. apply str_int in K as (q' & -> & ->); [|auto|assumption]. split; [intros E; f_equal; f_equal; now apply dec_Z_inj|intros [= ->]; reflexivity].
Qed.
Lemma xy_inj pr n m cx cy l l' x y : from_tag n = Ok VXY -> from_tag m = Ok VXY -> is_animated n = false -> is_animated m = false -> vector_tuple n = Ok l -> vector_tuple m = Ok l' ->
  value_str pr VXY n cx = Ok x -> value_str pr VXY m cy = Ok y -> (x = y <-> l = l').
Proof.
  intros F G A B L L' H K.
  assert (T : forall n cx l x, from_tag n = Ok VXY -> is_animated n = false -> vector_tuple n = Ok l -> value_str pr VXY n cx = Ok x -> x = tuple_str l /\ Forall is_dbl l /\ length l = 2%nat).
  { clear. intros n cx l x F A L H. cbn [value_str flat_str] in H. unfold vector_str in H. rewrite A, (xy_keys n F A) in H. cbn [pstr_eqb s] in H. rewrite L in H.
    change (Ok (tuple_str l) = Ok x) in H. injection H as <-. split; [reflexivity|]. split; [exact (vector_tuple_dbl n l L)|]. unfold vector_tuple in L. rewrite (xy_keys n F A) in L. cbn [mapM] in L.
    apply bind_ok in L as (a & _ & L). apply bind_ok in L as (r & R & L). injection L as <-. apply bind_ok in R as (b & _ & R). injection R as <-. reflexivity. }
  destruct (T n cx l x F A L H) as (-> & D & N). destruct (T m cy l' y G B L' K) as (-> & D' & N'). split; [|intros ->; reflexivity]. intros E.
  assert (R := read_tuple_str l 10 [] ltac:(lia) D ltac:(lia)). assert (R' := read_tuple_str l' 10 [] ltac:(lia) D' ltac:(lia)). rewrite E, R' in R. injection R as R.
  clear - R. revert l R. induction l' as [|q l' IH]; intros [|p l] R; try discriminate; [reflexivity|]. cbn [map] in R. injection R as -> R. f_equal. now apply IH.
Qed.
Lemma class_name_word c : In c all_vcls -> Forall (fun d => negb (d =? 32) = true) (class_name c).
Proof. cbn [all_vcls In]. intros H. repeat (destruct H as [<-|H]; [repeat constructor|]). destruct H. Qed.
Lemma class_name_inj c d : In c all_vcls -> In d all_vcls -> class_name c = class_name d -> c = d.
Proof. apply (NoDup_map_in class_name). apply distinctb_ok. vm_compute. reflexivity. Qed.
Lemma repr_value_inj pr c d n m cx cy x y : In c all_vcls -> In d all_vcls -> value_repr pr c n cx = Ok x -> value_repr pr d m cy = Ok y -> (x = y <-> c = d /\ value_str pr c n cx = value_str pr d m cy).
Proof.
  intros C D H K. unfold value_repr in *. apply bind_ok in H as (a & Ea & H). apply bind_ok in K as (b & Eb & K). injection H as <-. injection K as <-. split.
  - intros E. change (s "[" ++ class_name c ++ s " " ++ a ++ s "]" = s "[" ++ class_name d ++ s " " ++ b ++ s "]") in E. apply app_inv_head in E. apply (part_end (fun d => negb (d =? 32))) in E as [E1 E2]; [|now apply class_name_word|now apply class_name_word|reflexivity|reflexivity].
    apply app_inv_head in E2. apply app_inv_tail in E2. subst b. split; [now apply class_name_inj|]. now rewrite Ea, Eb.
  - intros [-> E]. rewrite Ea, Eb in E. now injection E as ->.
Qed.
