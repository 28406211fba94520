(** Printing gradients, transformations and timelines. *)
From Coq Require Import Lia.
From Verif Require Import PyFmtProofs SerProofs PexSpec PexProofs PexProofs2 PexProofs3 LayProofs5 WrProofs TlModel StrModel StrSpec StrProofs StrProofs2.
Local Open Scope N_scope.

(** ** Joined strings *)

(** Parts which all end with a character that is nowhere else in them *)
Lemma join_stop (stop : N) (sep r : pstr) l : forall l', match sep, r with a :: _, b :: _ => a <> b | _, _ => False end ->
  Forall (fun x => ~ In stop x) l -> Forall (fun x => ~ In stop x) l' ->
  join sep (map (fun x => x ++ [stop]) l) ++ r = join sep (map (fun x => x ++ [stop]) l') ++ r -> l = l'.
Proof.
  assert (P : forall x y u v, ~ In stop x -> ~ In stop y -> (x ++ [stop]) ++ u = (y ++ [stop]) ++ v -> x = y /\ u = v).
  { intros x y u v X Y E. rewrite <- !app_assoc in E. apply (part_end (fun c => negb (c =? stop))) in E as [-> E].
    - split; [reflexivity|]. now injection E.
    - apply Forall_forall. intros c Hc. destruct (N.eqb_spec c stop); [subst; contradiction|reflexivity].
    - apply Forall_forall. intros c Hc. destruct (N.eqb_spec c stop); [subst; contradiction|reflexivity].
    - cbn. now rewrite N.eqb_refl.
    - cbn. now rewrite N.eqb_refl. }
  assert (Q : forall x l, join sep (map (fun x => x ++ [stop]) (x :: l)) = (x ++ [stop]) ++ match l with [] => [] | _ => sep ++ join sep (map (fun x => x ++ [stop]) l) end).
  { intros x [|y m]; cbn [map join]; [now rewrite app_nil_r|reflexivity]. }
  assert (Z : forall x l, [] ++ r = join sep (map (fun x => x ++ [stop]) (x :: l)) ++ r -> False).
  { intros x m E. apply (f_equal (@length N)) in E. rewrite Q, !app_length in E. cbn [length] in E. lia. }
  induction l as [|x l IH]; intros [|y l'] S A B E; [reflexivity|now apply Z in E|symmetry in E; now apply Z in E|].
  inversion_clear A as [|? ? A1 A2]. inversion_clear B as [|? ? B1 B2]. rewrite !Q, <- !(app_assoc (_ ++ [stop])) in E. apply P in E as [-> E]; [|assumption|assumption]. f_equal.
  destruct l as [|x' l], l' as [|y' l']; [reflexivity| | |].
  - exfalso. destruct sep as [|a sep], r as [|b r]; try contradiction. cbn [app] in E. injection E as E _. now subst.
  - exfalso. destruct sep as [|a sep], r as [|b r]; try contradiction. cbn [app] in E. injection E as E _. now subst.
  - rewrite <- !(app_assoc sep) in E. apply app_inv_head in E. now apply IH.
Qed.
(** Parts without the separator and what comes after them *)
Lemma join_parts (a b : N) (r : pstr) l : forall l', a <> b -> Forall (fun x => x <> [] /\ ~ In a x /\ ~ In b x) l -> Forall (fun x => x <> [] /\ ~ In a x /\ ~ In b x) l' ->
  join [a] l ++ b :: r = join [a] l' ++ b :: r -> l = l'.
Proof.
  assert (P : forall x y u v, ~ In a x -> ~ In b x -> ~ In a y -> ~ In b y -> match u with [] => False | c :: _ => c = a \/ c = b end -> match v with [] => False | c :: _ => c = a \/ c = b end ->
    x ++ u = y ++ v -> x = y /\ u = v).
  { intros x y u v X1 X2 Y1 Y2 U V E. apply (part_end (fun c => negb (c =? a) && negb (c =? b))) in E as [-> E]; [auto| | | |].
    - apply Forall_forall. intros c Hc. destruct (N.eqb_spec c a), (N.eqb_spec c b); subst; try contradiction; reflexivity.
    - apply Forall_forall. intros c Hc. destruct (N.eqb_spec c a), (N.eqb_spec c b); subst; try contradiction; reflexivity.
    - destruct u as [|c u]; [easy|]. destruct U; subst; rewrite N.eqb_refl, ?andb_false_r; reflexivity.
    - destruct v as [|c v]; [easy|]. destruct V; subst; rewrite N.eqb_refl, ?andb_false_r; reflexivity. }
  assert (Q : forall x l, join [a] (x :: l) ++ b :: r = x ++ match l with [] => b :: r | _ => a :: join [a] l ++ b :: r end).
  { intros x [|y m]; cbn [join]; [reflexivity|]. now rewrite <- !app_assoc. }
  assert (H : forall l, match match l with [] => b :: r | _ => a :: join [a] l ++ b :: r end with [] => False | c :: _ => c = a \/ c = b end) by (intros [|]; auto).
  induction l as [|x l IH]; intros [|y l'] S A B E; [reflexivity| | |].
  - exfalso. rewrite Q in E. inversion_clear B as [|? ? (B1 & B2 & B3) _]. change (join [a] [] ++ b :: r) with ([] ++ b :: r) in E. apply P in E as [E _]; [congruence|auto; try (now right); try (now intros []); apply H..].
  - exfalso. rewrite Q in E. inversion_clear A as [|? ? (B1 & B2 & B3) _]. change (join [a] [] ++ b :: r) with ([] ++ b :: r) in E. apply P in E as [E _]; [congruence|auto; try (now right); try (now intros []); apply H..].
  - rewrite !Q in E. inversion_clear A as [|? ? (A1 & A2 & A3) A4]. inversion_clear B as [|? ? (B1 & B2 & B3) B4]. apply P in E as [-> E]; [|auto; apply H..]. f_equal.
    destruct l as [|x' l], l' as [|y' l']; [reflexivity| | |].
    + injection E as E _. congruence.
    + injection E as E _. congruence.
    + injection E as E. now apply IH.
Qed.

(** ** Characters *)
Definition plainc (c : N) : bool := (c <? 58) && negb (c =? 44) || (97 <=? c) && (c <? 123).
Lemma plain_no x : Forall (fun c => plainc c = true) x -> ~ In 93 x /\ ~ In 44 x /\ ~ In 125 x /\ ~ In 58 x.
Proof. intros H. rewrite Forall_forall in H. repeat split; intros I; apply H in I; discriminate I. Qed.
Lemma num_plain x : all_num x -> Forall (fun c => plainc c = true) x.
Proof. apply Forall_impl. intros c H. apply numchar_cases in H. unfold plainc. destruct H as [H|[H|[H|[H|H]]]]; subst; try reflexivity. lia. Qed.
Lemma hex_aux_plain n : forall fuel acc, Forall (fun c => plainc c = true) acc -> Forall (fun c => plainc c = true) (hex_aux fuel n acc).
Proof.
  intros fuel. revert n. induction fuel as [|f IH]; intros n acc H; [exact H|]. cbn [hex_aux].
  assert (G : Forall (fun c => plainc c = true) (hex_char (n mod 16) :: acc)).
  { constructor; [|exact H]. pose proof (N.mod_lt n 16). generalize dependent (n mod 16). intros d Hd. unfold hex_char, plainc. destruct (d <? 10) eqn:E; [apply N.ltb_lt in E|apply N.ltb_ge in E]; lia. }
  destruct (n <? 16); [exact G|]. now apply IH.
Qed.
Lemma pad0_plain k x : Forall (fun c => plainc c = true) x -> Forall (fun c => plainc c = true) (pad0 k x).
Proof. intros H. unfold pad0. apply Forall_app. split; [|exact H]. apply Forall_forall. intros c Hc. apply repeat_spec in Hc. now subst. Qed.
Lemma color_plain n x : color_hex n = Ok x -> Forall (fun c => plainc c = true) x.
Proof.
  unfold color_hex. destruct (color_tuple n) as [l|]; [|discriminate]. cbn [bind]. intros H. injection H as <-.
  assert (G : Forall (fun c => plainc c = true) (35 :: flat_map (fun q => fmt_02x (round_he (fmul q 255))) l)).
  { constructor; [reflexivity|]. induction l as [|q l IH]; [constructor|]. cbn [flat_map]. apply Forall_app. split; [|exact IH]. unfold fmt_02x, hex_N.
    destruct (_ <? 0)%Z; [constructor; [reflexivity|]|]; apply pad0_plain, hex_aux_plain; constructor. }
  set (r := 35 :: _) in *. destruct (ends_with _ r); [|exact G]. rewrite <- (firstn_skipn (length r - 2) r) in G. now apply Forall_app in G.
Qed.
Lemma color_str_hex pr n cx x : is_animated n = false -> flat_str pr VColor n cx = Ok x -> color_hex n = Ok x.
Proof. intros A H. cbn [flat_str py_str] in H. now rewrite A in H. Qed.

(** ** Gradients *)
Definition stop_str pr (kv : Q * pyval) : res pstr :=
  match snd kv with PVal c m cy => let* x := flat_str pr c m cy in Ok (repr_float (fst kv) ++ s ":" ++ x) | _ => Err EUnmodelled end.
Lemma mapM_two {A B} (f : A -> res B) (P : A -> B -> Prop) l m : (forall a b, In a l -> f a = Ok b -> P a b) -> mapM f l = Ok m -> Forall2 P l m.
Proof.
  revert m. induction l as [|a l IH]; intros m K H; cbn [mapM] in H; [injection H as <-; constructor|]. apply bind_ok in H as (b & Hb & H). apply bind_ok in H as (r & Hr & H). injection H as <-.
  constructor; [apply K; [now left|exact Hb]|]. apply IH; [|exact Hr]. intros a' b' I. apply K. now right.
Qed.
Lemma float_no_colon q : Forall (fun c => negb (c =? 58) = true) (repr_float q).
Proof. apply Forall_forall. intros c Hc. destruct (N.eqb_spec c 58); [|reflexivity]. subst. now apply (plain_no _ (num_plain _ (repr_float_num q))) in Hc. Qed.
Lemma stop_inj q q' x x' : is_dbl q -> is_dbl q' -> repr_float q ++ s ":" ++ x = repr_float q' ++ s ":" ++ x' -> q = q' /\ x = x'.
Proof.
  intros D D' E. apply (part_end (fun c => negb (c =? 58))) in E as [E1 E2]; [|apply float_no_colon|apply float_no_colon|reflexivity|reflexivity].
  apply app_inv_head in E2. split; [now apply repr_float_inj|exact E2].
Qed.
Lemma gradient_str_inj pr n m cx cy d d' x y l l' : gradient_val n cx = Ok d -> gradient_val m cy = Ok d' -> Forall2 stop_has d l -> Forall2 stop_has d' l' ->
  value_str pr VGradient n cx = Ok x -> value_str pr VGradient m cy = Ok y -> (x = y <-> l = l').
Proof.
  intros Hd Hd' L L' H K. cbn [value_str] in H, K. rewrite Hd in H. rewrite Hd' in K. cbn [bind] in H, K. fold (stop_str pr) in H, K.
  assert (T : forall d l, Forall2 stop_has d l -> mapM (stop_str pr) d = Ok (map (fun e => repr_float (fst e) ++ s ":" ++ snd e) l)).
  { clear. intros d l F. induction F as [|kv e d l F _ IH]; [reflexivity|]. cbn [mapM map]. rewrite IH. destruct kv as [q v], e as [q' h]. destruct F as (F1 & _ & c & cx & F2 & A & E). cbn [fst snd] in F1, F2, E. subst q v. cbn [fst snd] in *.
    unfold stop_str. cbn [snd fst flat_str py_str]. rewrite A, E. reflexivity. }
  assert (Tk : forall d l, mapM (fun kv : Q * pyval => match snd kv with PVal c m cy => let* x := flat_str pr c m cy in Ok (repr_float (fst kv) ++ s ":" ++ x) | _ => Err EUnmodelled end) d = Ok l -> mapM (stop_str pr) d = Ok l) by (intros; assumption).
  apply bind_ok in H as (u & Hu & H). apply bind_ok in K as (v & Hv & K). apply Tk in Hu. apply Tk in Hv. rewrite (T _ _ L) in Hu. rewrite (T _ _ L') in Hv. injection Hu as <-. injection Hv as <-. injection H as <-. injection K as <-.
  assert (G : forall d l, Forall2 stop_has d l -> Forall (fun x => x <> [] /\ ~ In 44 x /\ ~ In 125 x) (map (fun e => repr_float (fst e) ++ s ":" ++ snd e) l)).
  { clear. intros d l F. induction F as [|kv e d l F _ IH]; constructor; [|exact IH]. destruct kv as [q v], e as [q' h]. destruct F as (F1 & _ & c & cx & F2 & A & E). cbn [fst snd] in F1, F2, E. subst q v. cbn [fst snd]. split; [intros C; apply (f_equal (@length N)) in C; rewrite !app_length in C; cbn [length s] in C; cbn in C; lia|].
    destruct (plain_no _ (num_plain _ (repr_float_num q'))) as (_ & P1 & P2 & _). destruct (plain_no _ (color_plain _ _ E)) as (_ & Q1 & Q2 & _).
    split; intros I; apply in_app_or in I as [I|I]; try contradiction; apply in_app_or in I as [[I|[]]|I]; try discriminate; contradiction. }
  split; [|now intros <-]. intros E. apply (app_inv_head (s "{")) in E. apply join_parts in E; [|discriminate|exact (G _ _ L)|exact (G _ _ L')].
  clear - E L L'. revert d' l' L' E. induction L as [|kv e d l F _ IH]; intros d' l' L' E.
  - destruct L' as [|kv' e' d' l' F' L']; [reflexivity|discriminate].
  - destruct L' as [|kv' e' d' l' F' L']; [discriminate|]. cbn [map] in E. pose proof (f_equal (@tl _) E) as E2. apply (f_equal (hd [])) in E. cbn [hd tl] in E, E2. destruct kv as [q v], e as [q1 h], kv' as [q' v'], e' as [q1' h']. destruct F as (F1 & D & _). destruct F' as (F1' & D' & _). cbn [fst snd] in *.
    apply stop_inj in E as [-> ->]; [|exact D|exact D']. f_equal. exact (IH _ _ L' E2).
Qed.

(** ** Values without brackets *)
Lemma time_no_bracket t : ~ In 93 (T_str t).
Proof. intros I. pose proof (T_str_chars t) as H. rewrite Forall_forall in H. apply H in I. discriminate I. Qed.
Lemma num_no_bracket x : all_num x -> ~ In 93 x.
Proof. intros H. apply (plain_no _ (num_plain _ H)). Qed.
Lemma join_no_bracket l : Forall (fun x => ~ In 93 x) l -> ~ In 93 (join (s ", ") l).
Proof.
  induction 1 as [|x l H F IH]; [intros []|]. destruct l as [|y l]; [exact H|]. change (join (s ", ") (x :: y :: l)) with (x ++ s ", " ++ join (s ", ") (y :: l)).
  intros I. apply in_app_or in I as [I|I]; [contradiction|]. apply in_app_or in I as [I|I]; [|contradiction]. cbn in I. repeat destruct I as [I|I]; try discriminate; contradiction.
Qed.
Lemma tuple_no_bracket l : ~ In 93 (tuple_str l).
Proof.
  assert (F : Forall (fun x => ~ In 93 x) (map repr_float l)) by (apply Forall_forall; intros x Hx; apply in_map_iff in Hx as (q & <- & _); apply num_no_bracket, repr_float_num).
  unfold tuple_str. destruct l as [|x [|y l]]; [intros I; cbn in I; repeat destruct I as [I|I]; try discriminate; contradiction| |].
  - intros I. apply (in_app_or (s "(")) in I as [[I|[]]|I]; [discriminate|]. apply in_app_or in I as [I|I]; [|cbn in I; repeat destruct I as [I|I]; try discriminate; contradiction]. now apply (num_no_bracket _ (repr_float_num x)).
  - apply join_no_bracket in F. set (j := join _ _) in *. intros I. apply (in_app_or (s "(")) in I as [[I|[]]|I]; [discriminate|]. apply in_app_or in I as [I|I]; [contradiction|]. destruct I as [I|[]]. discriminate.
Qed.
Lemma flat_no_bracket pr c n cx x : bracketless c n -> flat_str pr c n cx = Ok x -> ~ In 93 x.
Proof.
  intros C H. assert (N1 : ~ In 93 (s "(animated)")) by (intros I; vm_compute in I; repeat destruct I as [I|I]; try discriminate; contradiction).
  destruct C as [C|[-> C]].
  - assert (E : flat_str pr c n cx = py_str (PVal c n cx)) by (cbn in C; repeat destruct C as [<-|C]; try reflexivity; contradiction). rewrite E in H. clear E. cbn [py_str] in H. destruct (is_animated n); [injection H as <-; exact N1|].
    cbn in C. repeat destruct C as [<-|C]; try contradiction.
    1-3, 5, 7: apply bind_ok in H as ([| |z|q| | | | | |t| |] & _ & H); try discriminate; injection H as <-; try (apply num_no_bracket; apply repr_float_num || apply dec_Z_num); try apply time_no_bracket;
      destruct b; intros I; vm_compute in I; repeat destruct I as [I|I]; try discriminate; contradiction.
    + apply bind_ok in H as ([| | |q| | | | | | | |] & _ & H); try discriminate. injection H as <-. intros I. apply in_app_or in I as [I|[I|[]]]; [|discriminate]. now apply (num_no_bracket _ (fmt_g_num 6 q)).
    + apply (plain_no _ (color_plain _ _ H)).
  - cbn [flat_str] in H. unfold vector_str in H. destruct (is_animated n) eqn:A; [injection H as <-; exact N1|]. rewrite (xy_keys n C A) in H. cbn [pstr_eqb s] in H. change ((let* l := vector_tuple n in Ok (tuple_str l)) = Ok x) in H.
    apply bind_ok in H as (l & _ & H). injection H as <-. apply tuple_no_bracket.
Qed.

(** ** Transformations *)
Definition part_body pr (kv : pstr * pyval) : res pstr :=
  match snd kv with PVal c n cx => let* x := flat_str pr c n cx in Ok (repr_str pr (fst kv) ++ s ": [" ++ class_name c ++ s " " ++ x) | _ => Err EUnmodelled end.
Definition part_str pr (kv : pstr * pyval) : res pstr := let* x := flat_repr pr (snd kv) in Ok (repr_str pr (fst kv) ++ s ": " ++ x).
Lemma part_str_body pr kv : part_str pr kv = (let* b := part_body pr kv in Ok (b ++ [93])).
Proof.
  unfold part_str, part_body, flat_repr. destruct (snd kv) as [| | | | | | | | | |c n cx|]; try reflexivity. destruct (flat_str pr c n cx) as [x|]; [|reflexivity]. cbn [bind]. f_equal. change (s ": [") with (s ": " ++ s "["). now rewrite <- !app_assoc.
Qed.
Lemma mapM_ext_in {A B} (f g : A -> res B) l : (forall a, In a l -> f a = g a) -> mapM f l = mapM g l.
Proof. induction l as [|a l IH]; intros H; [reflexivity|]. cbn [mapM]. rewrite (H a) by now left. rewrite IH by (intros b I; apply H; now right). reflexivity. Qed.
Lemma trans_key_in n cx d k v : composite_val n cx = Ok d -> In (k, v) d -> In k (map fst transformation_keys).
Proof.
  unfold composite_val. intros H I. apply bind_ok in H as (l & _ & H). destruct (same_keys _ _) eqn:E; [|discriminate]. injection H as <-. unfold same_keys in E. apply andb_true_iff in E as [E _].
  rewrite forallb_forall in E. specialize (E k (in_map fst _ _ I)). apply existsb_exists in E as (k' & E & K). apply pstr_eqb_spec in K. now subst.
Qed.
Lemma key_no_bracket pr k : In k (map fst transformation_keys) -> ~ In 93 (repr_str pr k) /\ code_points k.
Proof.
  assert (A : forall k, forallb (fun c => c <? 127) k = true -> code_points k) by (intros k' Hk; apply Forall_forall; intros c Hc; rewrite forallb_forall in Hk; apply Hk in Hc; lia).
  cbn [map fst transformation_keys In]. intros [<-|[<-|[<-|[<-|[]]]]]; (split; [|now apply A]); intros I; cbn in I; repeat destruct I as [I|I]; try discriminate; contradiction.
Qed.
Lemma in_vc c : In c [VXY; VAngle] -> In c all_vcls.
Proof. cbn. intuition (subst; auto 20). Qed.
Lemma part_inj pr k c n cx x k' c' n' cx' x' : code_points k -> code_points k' -> In c all_vcls -> In c' all_vcls -> flat_str pr c n cx = Ok x -> flat_str pr c' n' cx' = Ok x' ->
  (repr_str pr k ++ s ": [" ++ class_name c ++ s " " ++ x = repr_str pr k' ++ s ": [" ++ class_name c' ++ s " " ++ x' <-> k = k' /\ flat_repr pr (PVal c n cx) = flat_repr pr (PVal c' n' cx')).
Proof.
  intros K K' C C' X X'. unfold flat_repr. rewrite X, X'. cbn [bind]. split.
  - intros E. apply repr_inj in E as [-> E]; [|assumption|assumption]. apply app_inv_head in E. split; [reflexivity|]. do 2 f_equal. rewrite !(app_assoc (class_name _)), !(app_assoc _ x), !(app_assoc _ x'). f_equal. rewrite <- !app_assoc. exact E.
  - intros [-> E]. f_equal. f_equal. apply Ok_inj in E. apply (app_inv_head (s "[")) in E. rewrite !(app_assoc (class_name _)), !(app_assoc _ x), !(app_assoc _ x') in E. apply app_inv_tail in E. now rewrite <- !app_assoc in E.
Qed.
Lemma trans_str_inj pr n m cx cy d d' x y : composite_val n cx = Ok d -> composite_val m cy = Ok d' -> Forall flat_part d -> Forall flat_part d' -> is_animated n = false -> is_animated m = false ->
  value_str pr VTransformation n cx = Ok x -> value_str pr VTransformation m cy = Ok y ->
  (x = y <-> map fst d = map fst d' /\ mapM (flat_repr pr) (map snd d) = mapM (flat_repr pr) (map snd d')).
Proof.
  intros D D' P P' A A' H K. cbn [value_str] in H, K. rewrite A, D in H. rewrite A', D' in K. cbn [bind] in H, K.
  assert (T : forall d x, (let* l := mapM (fun kv : pstr * pyval => let* x0 := flat_repr pr (snd kv) in Ok (repr_str pr (fst kv) ++ s ": " ++ x0)) d in Ok (s "{" ++ join (s ", ") l ++ s "}")) = Ok x ->
    exists l, mapM (part_body pr) d = Ok l /\ x = s "{" ++ join (s ", ") (map (fun b => b ++ [93]) l) ++ s "}").
  { clear. intros d x H. apply bind_ok in H as (l & L & H). change (mapM (part_str pr) d = Ok l) in L. rewrite (mapM_ext_in _ _ d (fun kv _ => part_str_body pr kv)) in L. apply (mapM_wrap _ (fun b => b ++ [93])) in L as (bs & E & ->). injection H as <-. eauto. }
  apply T in H as (l & L & ->). apply T in K as (l' & L' & ->). clear T.
  assert (G : forall n cx d l, composite_val n cx = Ok d -> Forall flat_part d -> mapM (part_body pr) d = Ok l -> Forall (fun x => ~ In 93 x) l).
  { clear. intros n cx d l D P L. apply (mapM_two (part_body pr) (fun _ b => ~ In 93 b)) in L; [clear - L; induction L; constructor; auto|]. intros [k v] b I E.
    rewrite Forall_forall in P. destruct (P _ I) as (c & m & cy & V & Hf & C). cbn [snd] in V. subst v. unfold part_body in E. cbn [snd fst] in E. apply bind_ok in E as (x & Hx & E). apply Ok_inj in E. subst b.
    intros J. apply in_app_or in J as [J|J]; [now apply (key_no_bracket pr _ (trans_key_in _ _ _ _ _ D I))|]. apply in_app_or in J as [J|J]; [cbn in J; repeat destruct J as [J|J]; try discriminate; contradiction|].
    apply in_app_or in J as [J|J]; [destruct C as [<-|[<-|[]]]; cbn in J; repeat destruct J as [J|J]; try discriminate; contradiction|]. apply in_app_or in J as [[J|[]]|J]; [discriminate|].
    revert J. apply (flat_no_bracket pr c m cy x); [|exact Hx]. destruct C as [<-|[<-|[]]]; [now right|left; cbn; auto 10]. }
  assert (M : forall l', mapM (part_body pr) d' = Ok l' -> (l = l' <-> map fst d = map fst d' /\ mapM (flat_repr pr) (map snd d) = mapM (flat_repr pr) (map snd d'))).
  { clear L' l'. intros l' L'. assert (C1 : forall k v, In (k, v) d -> code_points k) by (intros k v I; now apply (key_no_bracket pr), (trans_key_in _ _ _ _ _ D I)). assert (C2 : forall k v, In (k, v) d' -> code_points k) by (intros k v I; now apply (key_no_bracket pr), (trans_key_in _ _ _ _ _ D' I)).
    clear - P P' L L' C1 C2. revert d' l' l P' L' L C2. induction P as [|[k v] d Hp P IH]; intros d' l' l P' L' L C2.
    - cbn in L. injection L as <-. destruct d' as [|kv' d']; [cbn in L'; injection L' as <-; cbn; tauto|]. cbn [mapM] in L'. apply bind_ok in L' as (? & _ & L'). apply bind_ok in L' as (? & _ & L'). injection L' as <-. split; [discriminate|]. intros [E _]. discriminate.
    - cbn [mapM] in L. apply bind_ok in L as (b & Hb & L). apply bind_ok in L as (l1 & Hl & L). injection L as <-. destruct d' as [|[k' v'] d'].
      + cbn in L'. injection L' as <-. split; [discriminate|]. intros [E _]. discriminate.
      + cbn [mapM] in L'. apply bind_ok in L' as (b' & Hb' & L'). apply bind_ok in L' as (l1' & Hl' & L'). injection L' as <-. inversion_clear P' as [|? ? Hp' P'']. specialize (IH (fun k v I => C1 k v (or_intror I)) d' l1' l1 P'' Hl' Hl (fun k v I => C2 k v (or_intror I))).
        destruct Hp as (c & n & cx & V & _ & C). destruct Hp' as (c' & n' & cx' & V' & _ & C'). cbn [snd] in V, V'. subst v v'. unfold part_body in Hb, Hb'. cbn [snd fst] in Hb, Hb'. apply bind_ok in Hb as (x & Hx & Hb). apply bind_ok in Hb' as (x' & Hx' & Hb'). apply Ok_inj in Hb, Hb'. subst b b'.
        assert (J := part_inj pr k c n cx x k' c' n' cx' x' (C1 _ _ (or_introl eq_refl)) (C2 _ _ (or_introl eq_refl)) (in_vc _ C) (in_vc _ C') Hx Hx').
        cbn [map fst snd mapM].
        assert (F1 : exists r, flat_repr pr (PVal c n cx) = Ok r) by (unfold flat_repr; rewrite Hx; cbn [bind]; eauto). assert (F2 : exists r, flat_repr pr (PVal c' n' cx') = Ok r) by (unfold flat_repr; rewrite Hx'; cbn [bind]; eauto).
        assert (F3 : forall d l, mapM (part_body pr) d = Ok l -> exists rs, mapM (flat_repr pr) (map snd d) = Ok rs).
        { clear. induction d as [|kv d IH]; intros l L; [exists []; reflexivity|]. cbn [mapM map] in *. apply bind_ok in L as (b & Hb & L). apply bind_ok in L as (r & Hr & _). destruct (IH _ Hr) as (rs & ->). unfold part_body in Hb. unfold flat_repr.
          destruct (snd kv) as [| | | | | | | | | |c n cx|]; try discriminate. apply bind_ok in Hb as (x & -> & _). cbn [bind]. eauto. }
        destruct F1 as (r1 & R1), F2 as (r2 & R2), (F3 _ _ Hl) as (rs & Rs), (F3 _ _ Hl') as (rs' & Rs'). rewrite R1, R2 in J |- *. rewrite Rs, Rs' in IH |- *. cbn [bind].
        split.
        * intros E. pose proof (f_equal (@tl _) E) as E2. apply (f_equal (hd [])) in E. cbn [hd tl] in E, E2. apply J in E as [-> E]. injection E as ->. apply IH in E2 as [-> E2]. injection E2 as ->. auto.
        * intros [E1 E2]. injection E1 as -> E1. injection E2 as -> E2. f_equal; [now apply J|]. apply IH. split; [exact E1|now f_equal]. }
  rewrite <- (M l' L'). split; [|now intros <-]. intros E. apply (app_inv_head (s "{")) in E. apply join_stop in E; [exact E|discriminate|exact (G _ _ _ _ D P L)|exact (G _ _ _ _ D' P' L')].
Qed.

(** ** Timelines *)
Lemma wp_no_bracket pr w cx a : (forall x, value_str pr (w_cls w) (w_val w) cx = Ok x -> ~ In 93 x) -> wp_str pr w cx = Ok a -> exists b, a = b ++ [93] /\ ~ In 93 b.
Proof.
  intros V H. apply wp_str_ok in H as (b & e & x & Hb & He & Hx & ->). exists (s "[" ++ pad3 (T_str (w_time w)) ++ s " " ++ b ++ s "-" ++ e ++ s " - " ++ x). split; [now rewrite <- !app_assoc|].
  destruct (emoji_one _ _ Hb) as (c1 & -> & L1). destruct (emoji_one _ _ He) as (c2 & -> & L2). apply V in Hx. set (p := pad3 _). assert (Hp : ~ In 93 p).
  { intros I. pose proof (pad3_chars (w_time w)) as F. fold p in F. rewrite Forall_forall in F. apply F in I. discriminate I. }
  clearbody p. intros I. apply (in_app_or (s "[")) in I as [[I|[]]|I]; [discriminate|]. apply in_app_or in I as [I|I]; [contradiction|]. apply (in_app_or (s " ")) in I as [[I|[]]|I]; [discriminate|].
  apply (in_app_or [c1]) in I as [[I|[]]|I]; [lia|]. apply (in_app_or (s "-")) in I as [[I|[]]|I]; [discriminate|]. apply (in_app_or [c2]) in I as [[I|[]]|I]; [lia|].
  apply (in_app_or (s " - ")) in I as [I|I]; [cbn in I; repeat destruct I as [I|I]; try discriminate; contradiction|contradiction].
Qed.
Definition line_str pr cx (kv : T * wp) : res pstr := let* x := wp_str pr (snd kv) cx in Ok (T_str (fst kv) ++ s ": " ++ x).
Lemma line_inj (t t' : T) (a a' : pstr) : T_str t ++ s ": " ++ a = T_str t' ++ s ": " ++ a' <-> T_str t = T_str t' /\ a = a'.
Proof.
  split; [|now intros [-> ->]]. intros E. apply (part_end tchar) in E as [E1 E2]; [|apply T_str_chars|apply T_str_chars|reflexivity|reflexivity]. apply app_inv_head in E2. auto.
Qed.
Lemma lines_inj pr cx cx' : forall d d' l l', mapM (line_str pr cx) d = Ok l -> mapM (line_str pr cx') d' = Ok l' ->
  (l = l' <-> map (fun kv => T_str (fst kv)) d = map (fun kv => T_str (fst kv)) d' /\ mapM (fun w => wp_str pr w cx) (map snd d) = mapM (fun w => wp_str pr w cx') (map snd d')).
Proof.
  assert (O : forall cx d l, mapM (line_str pr cx) d = Ok l -> exists r, mapM (fun w => wp_str pr w cx) (map snd d) = Ok r).
  { clear. intros cx. induction d as [|kv d IH]; intros l L; [exists []; reflexivity|]. cbn [mapM map] in *. apply bind_ok in L as (b & Hb & L). apply bind_ok in L as (r & Hr & _). destruct (IH _ Hr) as (rs & ->). apply bind_ok in Hb as (a & -> & _). cbn [bind]. eauto. }
  induction d as [|[t w] d IH]; intros d' l l' L L'.
  - cbn in L. injection L as <-. destruct d' as [|kv' d']; [cbn in L'; injection L' as <-; cbn; tauto|]. cbn [mapM] in L'. apply bind_ok in L' as (? & _ & L'). apply bind_ok in L' as (? & _ & L'). injection L' as <-. split; [discriminate|]. intros [E _]. discriminate.
  - cbn [mapM] in L. apply bind_ok in L as (b & Hb & L). apply bind_ok in L as (l1 & Hl & L). injection L as <-. destruct d' as [|[t' w'] d'].
    + cbn in L'. injection L' as <-. split; [discriminate|]. intros [E _]. discriminate.
    + cbn [mapM] in L'. apply bind_ok in L' as (b' & Hb' & L'). apply bind_ok in L' as (l1' & Hl' & L'). injection L' as <-. specialize (IH d' l1 l1' Hl Hl'). unfold line_str in Hb, Hb'. cbn [fst snd] in Hb, Hb'.
      apply bind_ok in Hb as (a & Ha & Hb). apply bind_ok in Hb' as (a' & Ha' & Hb'). apply Ok_inj in Hb, Hb'. subst b b'. destruct (O _ _ _ Hl) as (r & R), (O _ _ _ Hl') as (r' & R'). cbn [map fst snd mapM]. rewrite Ha, Ha'. rewrite R, R' in IH |- *. cbn [bind].
      split.
      * intros E. pose proof (f_equal (@tl _) E) as E2. apply (f_equal (hd [])) in E. cbn [hd tl] in E, E2. apply line_inj in E as [-> ->]. apply IH in E2 as [-> E2]. injection E2 as ->. auto.
      * intros [E1 E2]. injection E1 as E1 E3. injection E2 as -> E2. f_equal; [now apply line_inj|]. apply IH. split; [exact E3|now f_equal].
Qed.
Lemma timeline_inj pr c c' n n' cx cx' d d' x y : In c all_vcls -> In c' all_vcls -> waypoints n cx = Ok d -> waypoints n' cx' = Ok d' ->
  (forall w x, In w (map snd d) -> value_str pr (w_cls w) (w_val w) cx = Ok x -> ~ In 93 x) -> (forall w x, In w (map snd d') -> value_str pr (w_cls w) (w_val w) cx' = Ok x -> ~ In 93 x) ->
  timeline_str pr c n cx = Ok x -> timeline_str pr c' n' cx' = Ok y ->
  (x = y <-> c = c' /\ map (fun kv => T_str (fst kv)) d = map (fun kv => T_str (fst kv)) d' /\ mapM (fun w => wp_str pr w cx) (map snd d) = mapM (fun w => wp_str pr w cx') (map snd d')).
Proof.
  intros C C' D D' V V' H K. unfold timeline_str in H, K. rewrite D in H. rewrite D' in K. cbn [bind] in H, K. apply bind_ok in H as (l & L & H). apply bind_ok in K as (l' & L' & K). apply Ok_inj in H, K. subst x y.
  change (mapM (line_str pr cx) d = Ok l) in L. change (mapM (line_str pr cx') d' = Ok l') in L'. rewrite <- (lines_inj pr cx cx' d d' l l' L L').
  assert (G : forall cx d l, (forall w x, In w (map snd d) -> value_str pr (w_cls w) (w_val w) cx = Ok x -> ~ In 93 x) -> mapM (line_str pr cx) d = Ok l -> exists bs, l = map (fun b => b ++ [93]) bs /\ Forall (fun b => ~ In 93 b) bs).
  { clear. intros cx. induction d as [|[t w] d IH]; intros l V L; [cbn in L; injection L as <-; exists []; auto|]. cbn [mapM] in L. apply bind_ok in L as (b & Hb & L). apply bind_ok in L as (l1 & Hl & L). injection L as <-.
    destruct (IH l1 (fun w x I => V w x (or_intror I)) Hl) as (bs & -> & F). unfold line_str in Hb. cbn [fst snd] in Hb. apply bind_ok in Hb as (a & Ha & Hb). apply Ok_inj in Hb. subst b. destruct (wp_no_bracket pr w cx a (fun x => V w x (or_introl eq_refl)) Ha) as (z & -> & Z).
    exists ((T_str t ++ s ": " ++ z) :: bs). split; [cbn [map]; now rewrite <- !app_assoc|]. constructor; [|exact F]. intros I. apply in_app_or in I as [I|I]; [now apply time_no_bracket in I|]. apply (in_app_or (s ": ")) in I as [I|I]; [cbn in I; repeat destruct I as [I|I]; try discriminate; contradiction|contradiction]. }
  destruct (G _ _ _ V L) as (bs & Eb & Fb). destruct (G _ _ _ V' L') as (bs' & Eb' & Fb'). split.
  - intros E. apply (app_inv_head (s "[timeline of ")) in E. apply (part_end (fun d => negb (d =? 58))) in E as [E1 E2]; [| | |reflexivity|reflexivity].
    + apply class_name_inj in E1; [|assumption|assumption]. split; [exact E1|]. apply (app_inv_head (s ":{")) in E2. subst l l'. apply join_stop in E2; [now subst|discriminate|exact Fb|exact Fb'].
    + clear - C. cbn [all_vcls In] in C. repeat (destruct C as [<-|C]; [repeat constructor|]). destruct C.
    + clear - C'. cbn [all_vcls In] in C'. repeat (destruct C' as [<-|C']; [repeat constructor|]). destruct C'.
  - intros [-> E]. now rewrite E.
Qed.
Lemma value_no_bracket pr c n cx x : bracketless c n -> value_str pr c n cx = Ok x -> ~ In 93 x.
Proof. intros B H. apply (flat_no_bracket pr c n cx x B). destruct B as [B|[-> B]]; [|exact H]. cbn in B. repeat destruct B as [<-|B]; try exact H. contradiction. Qed.
