(** Proofs about reading UTF-8 in an encoding where each byte is a character. *)
From Verif Require Import AnimModel XpSpec SerProofs PyFmtProofs StrProofs XpProofs AnimSpec AnimProofs AnimProofs2 AnimProofs3 EncModel EncSpec.
From Coq Require Import Lia ZifyN ZifyBool Permutation.
Local Open Scope N_scope.

(** ** Characters *)

Lemma high_consts c : 128 <= c -> space c = false /\ name_char c = true /\ forall k, k < 128 -> (c =? k) = false.
Proof.
  intros H. assert (E : forall k, k < 128 -> (c =? k) = false) by (intros k Hk; apply N.eqb_neq; lia).
  assert (S : space c = false) by (unfold space; rewrite !E by lia; reflexivity).
  split; [exact S|]. split; [|exact E]. unfold name_char. rewrite S. cbn [existsb]. rewrite !E by lia. reflexivity.
Qed.
Lemma div_lt a b q : 0 < b -> a < b * q -> a / b < q.
Proof. intros Hb H. apply N.div_lt_upper_bound; lia. Qed.
Lemma utf8_high' c : 128 <= c -> match utf8_char c with Some b => (2 <= length b)%nat /\ Forall (fun d => 128 <= d < 256) b | None => True end.
Proof.
  intros H. unfold utf8_char. destruct (c <? 128) eqn:E1; [lia|].
  assert (M : forall a, a mod 64 < 64) by (intros a; apply N.mod_lt; lia).
  destruct (c <? 2048) eqn:E2; [split; [cbn [length]; lia|]|].
  { pose proof (div_lt c 64 32 ltac:(lia) ltac:(lia)). pose proof (M c). repeat constructor; lia. }
  destruct ((55296 <=? c) && (c <=? 57343)) eqn:E3; [exact I|].
  destruct (c <? 65536) eqn:E4; [split; [cbn [length]; lia|]|].
  { pose proof (div_lt c 4096 16 ltac:(lia) ltac:(lia)). pose proof (M c). pose proof (M (c / 64)). repeat constructor; lia. }
  destruct (c <? 1114112) eqn:E5; [split; [cbn [length]; lia|]|exact I].
  pose proof (div_lt c 262144 8 ltac:(lia) ltac:(lia)). pose proof (M c). pose proof (M (c / 64)). pose proof (M (c / 4096)). repeat constructor; lia.
Qed.
Lemma utf8_high c b : utf8_char c = Some b -> 128 <= c -> (2 <= length b)%nat /\ Forall (fun d => 128 <= d < 256) b.
Proof. intros E H. pose proof (utf8_high' c H) as X. now rewrite E in X. Qed.
Lemma utf8_low c : c < 128 -> utf8_char c = Some [c].
Proof. intros H. unfold utf8_char. apply N.ltb_lt in H. now rewrite H. Qed.
Lemma utf8_bytes c b : utf8_char c = Some b -> Forall (fun d => d < 256) b.
Proof.
  intros E. destruct (N.lt_ge_cases c 128) as [L|L]; [rewrite utf8_low in E by exact L; injection E as <-; repeat constructor; lia|]. apply utf8_high in E as [_ E]; [|exact L]. eapply Forall_impl; [|exact E]. cbv beta. lia.
Qed.
Lemma utf8_xml c : xml_char c = true -> exists b, utf8_char c = Some b.
Proof.
  intros X. unfold utf8_char. destruct (c <? 128); [eauto|]. destruct (c <? 2048); [eauto|]. destruct ((55296 <=? c) && (c <=? 57343)) eqn:E3; [unfold xml_char in X; lia|]. destruct (c <? 65536); [eauto|].
  destruct (c <? 1114112) eqn:E5; [eauto|unfold xml_char in X; lia].
Qed.

Section Page.
Context (page : N -> option N) (Hp : good_page page).
Local Notation shown := (EncSpec.shown page).
Local Notation garble_char := (EncSpec.garble_char page).
Local Notation garble := (EncSpec.garble page).
Local Notation garble_attr := (EncSpec.garble_attr page).
Local Notation garbled := (EncSpec.garbled page).

Lemma shown_low c : c < 128 -> shown c = c.
Proof. intros H. unfold EncSpec.shown. now rewrite (proj1 Hp). Qed.
Lemma shown_high b : 128 <= b < 256 -> 128 <= shown b /\ xml_char (shown b) = true.
Proof.
  intros H. unfold EncSpec.shown. destruct (page b) as [c|] eqn:E; [|unfold xml_char; lia]. destruct (proj1 (proj2 Hp) b c H E) as [A B]. split; [lia|exact B].
Qed.
Lemma shown_inj a b : a < 256 -> b < 256 -> shown a = shown b -> a = b.
Proof.
  intros Ha Hb. unfold EncSpec.shown.
  assert (B : forall d c, d < 256 -> page d = Some c -> c < 65536).
  { intros d c Hd E. destruct (N.lt_ge_cases d 128) as [L|L]; [rewrite (proj1 Hp d L) in E; injection E as <-; lia|]. destruct (proj1 (proj2 Hp) d c ltac:(lia) E). lia. }
  destruct (page a) as [c|] eqn:Ea; destruct (page b) as [d|] eqn:Eb.
  - intros ->. exact (proj2 (proj2 Hp) a b d Ea Eb).
  - apply B in Ea; [lia|exact Ha].
  - apply B in Eb; [lia|exact Hb].
  - lia.
Qed.
Lemma low_char c : c < 128 -> garble_char c = [c].
Proof. intros H. unfold EncSpec.garble_char. rewrite utf8_low by exact H. cbn [map]. now rewrite shown_low. Qed.
Lemma high_char c : 128 <= c -> xml_char c = true -> garble_char c <> [] /\ Forall (fun b => 128 <= b /\ xml_char b = true) (garble_char c).
Proof.
  intros H X. destruct (utf8_xml c X) as [b Eb]. unfold EncSpec.garble_char. rewrite Eb. destruct (utf8_high c b Eb H) as [A B]. split; [destruct b; [cbn in A; lia|discriminate]|].
  apply Forall_map. eapply Forall_impl; [|exact B]. cbv beta. intros d Hd. now apply shown_high.
Qed.
Lemma garble_app x y : garble (x ++ y) = garble x ++ garble y. Proof. apply flat_map_app. Qed.

(** What is read in reverse *)
Definition rgarble (x : pstr) : pstr := rev (garble (rev x)).
Lemma rgarble_cons c x : rgarble (c :: x) = rev (garble_char c) ++ rgarble x.
Proof. unfold rgarble. cbn [rev]. rewrite garble_app, rev_app_distr. unfold EncSpec.garble at 1. cbn [flat_map]. now rewrite app_nil_r. Qed.
Lemma rev_rgarble x : rev (rgarble x) = garble (rev x). Proof. apply rev_involutive. Qed.

(** ** Garbling can be undone *)
Definition good (x : pstr) : Prop := Forall (fun c => xml_char c = true) x.
Lemma encodes_garble x b : utf8_out x = Some b -> garble x = map shown b.
Proof.
  revert b. induction x as [|c x IH]; intros b E; [injection E as <-; reflexivity|]. cbn [utf8_out] in E. destruct (utf8_char c) as [h|] eqn:Ec; [|discriminate].
  destruct (utf8_out x) as [r|]; [|discriminate]. injection E as <-. change (garble (c :: x)) with (garble_char c ++ garble x). unfold EncSpec.garble_char at 1. rewrite Ec, map_app. f_equal. now apply IH.
Qed.
Lemma out_bytes x b : utf8_out x = Some b -> Forall (fun d => d < 256) b.
Proof.
  revert b. induction x as [|c x IH]; intros b E; [injection E as <-; constructor|]. cbn [utf8_out] in E. destruct (utf8_char c) as [h|] eqn:Ec; [|discriminate].
  destruct (utf8_out x) as [r|]; [|discriminate]. injection E as <-. apply Forall_app. split; [now apply utf8_bytes in Ec|now apply IH].
Qed.
Lemma map_shown_inj a : forall b, Forall (fun d => d < 256) a -> Forall (fun d => d < 256) b -> map shown a = map shown b -> a = b.
Proof.
  induction a as [|c a IH]; intros [|d b] Ha Hb E; try discriminate; [reflexivity|]. inversion_clear Ha. inversion_clear Hb. cbn [map] in E. injection E as E1 E2. f_equal; [now apply shown_inj|now apply IH].
Qed.
Lemma garble_inj x y : good x -> good y -> garble x = garble y -> x = y.
Proof.
  intros Hx Hy E. destruct (utf8_out_xml x Hx) as [a Ea]. destruct (utf8_out_xml y Hy) as [b Eb]. rewrite (encodes_garble x a Ea), (encodes_garble y b Eb) in E.
  apply map_shown_inj in E; [|now apply out_bytes in Ea|now apply out_bytes in Eb]. subst b. apply utf8_in_out in Ea, Eb. congruence.
Qed.
Lemma garble_eqb x y : good x -> good y -> pstr_eqb (garble x) (garble y) = pstr_eqb x y.
Proof.
  intros Hx Hy. destruct (pstr_eqb x y) eqn:E.
  - apply pstr_eqb_spec in E. subst. apply pstr_eqb_refl.
  - destruct (pstr_eqb (garble x) (garble y)) eqn:E2; [|reflexivity]. apply pstr_eqb_spec in E2. apply garble_inj in E2; auto. subst. now rewrite pstr_eqb_refl in E.
Qed.
Lemma garble_low c x : c < 128 -> garble (c :: x) = c :: garble x.
Proof. intros H. change (garble (c :: x)) with (garble_char c ++ garble x). now rewrite low_char. Qed.
Lemma ascii_garble x : ascii x -> garble x = x.
Proof. induction 1 as [|c x H _ IH]; [reflexivity|]. cbn [EncSpec.garble flat_map]. rewrite low_char by exact H. cbn [app]. now f_equal. Qed.
Lemma garble_len x : good x -> (length x <= length (garble x))%nat /\ (length (garble x) = length x -> ascii x).
Proof.
  induction 1 as [|c x Hc _ [IH1 IH2]]; [split; [constructor|constructor]|]. cbn [EncSpec.garble flat_map]. rewrite app_length. cbn [length].
  destruct (N.lt_ge_cases c 128) as [L|L].
  - rewrite low_char by exact L. cbn [length]. fold (garble x). split; [lia|]. intros E. constructor; [exact L|]. apply IH2. lia.
  - fold (garble x). assert (X : (2 <= length (garble_char c))%nat).
    { destruct (utf8_xml c Hc) as [b Eb]. unfold EncSpec.garble_char. rewrite Eb, map_length. now apply utf8_high in Eb. }
    split; [lia|]. intros E. lia.
Qed.
Lemma garble_id x : good x -> garble x = x -> ascii x.
Proof. intros G E. apply garble_len in G as [_ H]. apply H. now rewrite E. Qed.

(** ** The reader, on the garbled text *)

Definition gframe (f : frame) : frame := mkFr (garble (f_name f)) (map garble_attr (f_attrs f)) (map garbled (f_kids f)).
Definition gstate (st : pst) : pst :=
  match st with
  | PDecl q => PDecl q
  | PProlog => PProlog
  | POpen l => POpen (map gframe l)
  | PName l nm => PName (map gframe l) (rgarble nm)
  | PAttrs l nm a => PAttrs (map gframe l) (garble nm) (map garble_attr a)
  | PKey l nm a k => PKey (map gframe l) (garble nm) (map garble_attr a) (rgarble k)
  | PQuote l nm a k => PQuote (map gframe l) (garble nm) (map garble_attr a) (garble k)
  | PQVal l nm a k q v => PQVal (map gframe l) (garble nm) (map garble_attr a) (garble k) q (rgarble v)
  | PQEnt l nm a k q v e => PQEnt (map gframe l) (garble nm) (map garble_attr a) (garble k) q (rgarble v) (rgarble e)
  | PSlash l nm a => PSlash (map gframe l) (garble nm) (map garble_attr a)
  | PText l b => PText (map gframe l) (rgarble b)
  | PTEnt l b e => PTEnt (map gframe l) (rgarble b) (rgarble e)
  | PClose l nm => PClose (map gframe l) (rgarble nm)
  | PDone n => PDone (garbled n)
  | PErr => PErr
  end.
Definition low_quote (st : pst) : Prop := match st with PQVal _ _ _ _ q _ | PQEnt _ _ _ _ q _ _ => q < 128 | _ => True end.

Lemma low_step st c : low_quote st -> low_quote (pstep st c).
Proof.
  intros H. unfold pstep. destruct (negb (xml_char c)); [exact I|].
  destruct st as [q| |l|l nm|l nm a|l nm a k|l nm a k|l nm a k q v|l nm a k q v e|l nm a|l b|l b e|l nm|n|]; cbn [low_quote] in H;
    try (destruct l as [|f l]);
    repeat match goal with |- context [if ?b then _ else _] => destruct b eqn:? end; repeat match goal with |- context [match entity ?e with _ => _ end] => destruct (entity e) end;
    cbn [low_quote]; try exact I; try exact H; try lia; unfold close; try destruct l; exact I.
Qed.
Lemma err_run x : prun PErr x = PErr.
Proof. induction x as [|c x IH]; [reflexivity|]. rewrite prun_cons. unfold pstep. destruct (negb (xml_char c)); exact IH. Qed.

Lemma garble_nil_iff x : good x -> garble x = [] -> x = [].
Proof. intros G E. apply garble_inj; auto. constructor. Qed.
Lemma high_blank b : 128 <= b -> ascii_space b = false /\ (10 =? b) = false.
Proof. intros H. unfold ascii_space. destruct (high_consts b H) as (_ & _ & E). rewrite (N.eqb_sym 10), !E by lia. now split. Qed.
Lemma garble_blank x : good x -> garble (norm_blank x) = norm_blank (garble x).
Proof.
  intros G. assert (A : forallb ascii_space (garble x) = forallb ascii_space x /\ existsb (N.eqb 10) (garble x) = existsb (N.eqb 10) x).
  { induction G as [|c x Hc _ [IH1 IH2]]; [now split|]. cbn [EncSpec.garble flat_map]. rewrite forallb_app, existsb_app. fold (garble x). rewrite IH1, IH2. cbn [forallb existsb].
    destruct (N.lt_ge_cases c 128) as [L|L].
    - rewrite low_char by exact L. cbn [forallb existsb]. now rewrite andb_true_r, orb_false_r.
    - destruct (high_char c L Hc) as [Hn Hf]. destruct (high_blank c L) as [E1 E2]. rewrite E1, E2. split.
      + destruct (garble_char c) as [|b bs]; [contradiction|]. inversion_clear Hf as [|? ? Hb _]. cbn [forallb]. now rewrite (proj1 (high_blank b (proj1 Hb))).
      + f_equal. clear Hn. induction Hf as [|b bs Hb _ IH]; [reflexivity|]. cbn [existsb]. now rewrite (proj2 (high_blank b (proj1 Hb))), IH. }
  destruct A as [A1 A2]. unfold norm_blank. rewrite A1, A2. destruct (forallb ascii_space x); [|reflexivity]. destruct (existsb (N.eqb 10) x); apply ascii_garble; repeat constructor.
Qed.
Lemma gflush f b : good b -> gframe (flush f b) = flush (gframe f) (rgarble b).
Proof.
  intros G. destruct b as [|c b]; [reflexivity|]. unfold flush at 1. unfold flush. destruct (rgarble (c :: b)) as [|d r] eqn:E.
  - exfalso. unfold rgarble in E. apply (f_equal (@rev N)) in E. rewrite rev_involutive in E. apply garble_nil_iff in E; [|now apply Forall_rev]. cbn [rev] in E. now destruct (rev b).
  - rewrite <- E, rev_rgarble, <- garble_blank by now apply Forall_rev. reflexivity.
Qed.
Lemma gclose f l : gstate (close f l) = close (gframe f) (map gframe l).
Proof. unfold close. cbv zeta. destruct l as [|g l]; cbn [gstate map]; unfold gframe; cbn [map garbled f_name f_attrs f_kids]; rewrite map_rev; reflexivity. Qed.
Lemma name_good x : good_name x -> good x.
Proof. intros [_ H]. eapply Forall_impl; [|exact H]. cbv beta; tauto. Qed.
Lemma garbled_keys a k : attrs_ok a -> good k ->
  existsb (fun kv => pstr_eqb (fst kv) (garble k)) (map garble_attr a) = existsb (fun kv => pstr_eqb (fst kv) k) a.
Proof.
  intros [[_ H] _] Gk. apply Forall_rev in H. rewrite rev_involutive in H. induction H as [|kv a [Hn _] _ IH]; [reflexivity|]. cbn [map existsb garble_attr fst].
  rewrite garble_eqb, IH; auto. now apply name_good.
Qed.
Lemma entity_garble e x : entity e = Some x -> garble e = e /\ x < 128.
Proof.
  unfold entity. repeat match goal with |- context [pstr_eqb e ?l] => destruct (pstr_eqb e l) eqn:?; [intros [= <-]; match goal with H : pstr_eqb _ _ = true |- _ => apply pstr_eqb_spec in H; subst end; split; [apply ascii_garble; repeat constructor|reflexivity]|] end. discriminate.
Qed.
Lemma rg_low c x : c < 128 -> rgarble (c :: x) = c :: rgarble x.
Proof. intros H. now rewrite rgarble_cons, low_char. Qed.
Lemma grev_attrs a : rev (map garble_attr a) = map garble_attr (rev a). Proof. symmetry. apply map_rev. Qed.

(** A character of ASCII *)
Lemma step_low st c : state_ok st -> c < 128 -> pstep st c <> PErr -> pstep (gstate st) c = gstate (pstep st c).
Proof.
  intros H L. unfold pstep. destruct (negb (xml_char c)); [now intros []|].
  destruct st as [q| |l|l nm|l nm a|l nm a k|l nm a k|l nm a k q v|l nm a k q v e|l nm a|l b|l b e|l nm|n|]; cbn [gstate state_ok] in *; intros NE.
  - destruct ((c =? 62) && q); reflexivity.
  - destruct (space c); [reflexivity|]. destruct (c =? 60); [reflexivity|]. now destruct NE.
  - destruct (c =? 47); [reflexivity|]. destruct (name_char c); [cbn [gstate]; now rewrite rg_low|reflexivity].
  - destruct (name_char c); [cbn [gstate]; now rewrite rg_low|]. rewrite rev_rgarble. destruct (space c); [reflexivity|]. destruct (c =? 62); [reflexivity|]. destruct (c =? 47); reflexivity.
  - destruct (space c); [reflexivity|]. rewrite grev_attrs. destruct (c =? 62); [reflexivity|]. destruct (c =? 47); [reflexivity|]. destruct (name_char c); [cbn [gstate]; now rewrite rg_low|reflexivity].
  - destruct H as (_ & _ & Ha & Hk). destruct (name_char c); [cbn [gstate]; now rewrite rg_low|]. rewrite rev_rgarble, garbled_keys; [|exact Ha|apply Forall_rev; now apply name_good].
    destruct ((c =? 61) && _); reflexivity.
  - destruct ((c =? 34) || (c =? 39)); reflexivity.
  - destruct (c =? q); [cbn [gstate map garble_attr fst snd]; now rewrite rev_rgarble|]. destruct (c =? 38); [reflexivity|]. destruct (c =? 60); [reflexivity|].
    cbn [gstate]. rewrite rg_low; [reflexivity|]. destruct (space c); [reflexivity|exact L].
  - destruct (c =? 59); [|cbn [gstate]; now rewrite rg_low]. rewrite rev_rgarble. destruct (entity (rev e)) as [x|] eqn:E; [|now destruct NE].
    destruct (entity_garble _ _ E) as [-> Lx]. rewrite E. cbn [gstate]. now rewrite rg_low.
  - destruct (c =? 62); [|reflexivity]. rewrite gclose, grev_attrs. reflexivity.
  - destruct l as [|f l]; [reflexivity|]. cbn [map]. destruct H as (_ & _ & G). destruct (c =? 60); [cbn [gstate map]; now rewrite gflush|]. destruct (c =? 38); [reflexivity|]. cbn [gstate map]. now rewrite rg_low.
  - destruct (c =? 59); [|cbn [gstate]; now rewrite rg_low]. rewrite rev_rgarble. destruct (entity (rev e)) as [x|] eqn:E; [|now destruct NE].
    destruct (entity_garble _ _ E) as [-> Lx]. rewrite E. cbn [gstate]. now rewrite rg_low.
  - destruct l as [|f l]; [reflexivity|]. cbn [map]. destruct (name_char c); [cbn [gstate map]; now rewrite rg_low|]. destruct (c =? 62); [|now destruct NE]. cbn [andb] in *.
    destruct (pstr_eqb (rev nm) (f_name f)) eqn:E; [|now destruct NE]. apply pstr_eqb_spec in E. rewrite rev_rgarble, E. cbn [gframe f_name]. rewrite pstr_eqb_refl, gclose. reflexivity.
  - destruct (space c); reflexivity.
  - reflexivity.
Qed.

(** Bytes outside ASCII are only ever added to what is being read. *)
Lemma push_bytes (K : pstr -> pst) bs : (forall b acc, 128 <= b -> xml_char b = true -> pstep (K acc) b = K (b :: acc)) ->
  Forall (fun b => 128 <= b /\ xml_char b = true) bs -> forall acc, prun (K acc) bs = K (rev bs ++ acc).
Proof.
  intros HK H. induction H as [|b bs [Hb Xb] _ IH]; intros acc; [reflexivity|]. rewrite prun_cons, HK by assumption. rewrite IH. cbn [rev]. now rewrite <- app_assoc.
Qed.
Ltac high b H := let S := fresh "S" in let N := fresh "N" in let E := fresh "E" in
  destruct (high_consts b H) as (S & N & E); rewrite ?S, ?N, ?E by lia.
Lemma step_high st c : low_quote st -> 128 <= c -> pstep st c <> PErr -> prun (gstate st) (garble_char c) = gstate (pstep st c).
Proof.
  intros Lq L. destruct (xml_char c) eqn:X; [|intros H; exfalso; apply H; unfold pstep; now rewrite X]. destruct (high_char c L X) as [Hn Hf].
  unfold pstep. rewrite X. cbn [negb].
  destruct st as [q| |l|l nm|l nm a|l nm a k|l nm a k|l nm a k q v|l nm a k q v e|l nm a|l b|l b e|l nm|n|]; cbn [gstate low_quote] in *; high c L; cbn [andb orb]; intros NE; try (now destruct NE).
  - assert (D : forall bs q, bs <> [] -> Forall (fun b => 128 <= b /\ xml_char b = true) bs -> prun (PDecl q) bs = PDecl false).
    { clear. induction bs as [|d ds IH]; intros q Hn Hf; [contradiction|]. inversion_clear Hf as [|? ? [Ld Hx] Hf']. rewrite prun_cons.
      unfold pstep. rewrite Hx. cbn [negb]. high d Ld. cbn [andb]. destruct ds; [reflexivity|]. apply IH; [discriminate|exact Hf']. }
    now apply D.
  - cbn [gstate]. rewrite rgarble_cons. destruct (garble_char c) as [|d ds]; [contradiction|]. inversion_clear Hf as [|? ? [Ld Hx] Hf'].
    rewrite prun_cons. unfold pstep at 1. rewrite Hx. cbn [negb]. high d Ld. rewrite (push_bytes (PName (map gframe l))); [|intros b acc Hb Xb; unfold pstep; rewrite Xb; cbn [negb]; high b Hb; reflexivity|exact Hf'].
    cbn [rev]. rewrite <- app_assoc. reflexivity.
  - cbn [gstate]. rewrite rgarble_cons. apply (push_bytes (PName (map gframe l))); [|exact Hf]. intros b acc Hb Xb; unfold pstep; rewrite Xb; cbn [negb]; high b Hb; reflexivity.
  - cbn [gstate]. rewrite rgarble_cons. destruct (garble_char c) as [|d ds]; [contradiction|]. inversion_clear Hf as [|? ? [Ld Hx] Hf'].
    rewrite prun_cons. unfold pstep at 1. rewrite Hx. cbn [negb]. high d Ld. rewrite (push_bytes (PKey (map gframe l) (garble nm) (map garble_attr a))); [|intros b acc Hb Xb; unfold pstep; rewrite Xb; cbn [negb]; high b Hb; reflexivity|exact Hf'].
    cbn [rev]. rewrite <- app_assoc. reflexivity.
  - cbn [gstate]. rewrite rgarble_cons. apply (push_bytes (PKey (map gframe l) (garble nm) (map garble_attr a))); [|exact Hf]. intros b acc Hb Xb; unfold pstep; rewrite Xb; cbn [negb]; high b Hb; reflexivity.
  - cbn [gstate]. rewrite rgarble_cons. apply (push_bytes (PQVal (map gframe l) (garble nm) (map garble_attr a) (garble k) q)); [|exact Hf]. intros b acc Hb Xb; unfold pstep; rewrite Xb; cbn [negb]; high b Hb; reflexivity.
  - cbn [gstate]. rewrite rgarble_cons. apply (push_bytes (PQEnt (map gframe l) (garble nm) (map garble_attr a) (garble k) q (rgarble v))); [|exact Hf]. intros b acc Hb Xb; unfold pstep; rewrite Xb; cbn [negb]; high b Hb; reflexivity.
  - destruct l as [|f l]; [now destruct NE|]. cbn [gstate map]. rewrite rgarble_cons. apply (push_bytes (PText (gframe f :: map gframe l))); [|exact Hf]. intros d acc Hb Xb; unfold pstep; rewrite Xb; cbn [negb]; high d Hb; reflexivity.
  - cbn [gstate]. rewrite rgarble_cons. apply (push_bytes (PTEnt (map gframe l) (rgarble b))); [|exact Hf]. intros d acc Hb Xb; unfold pstep; rewrite Xb; cbn [negb]; high d Hb; reflexivity.
  - destruct l as [|f l]; [now destruct NE|]. cbn [gstate map]. rewrite rgarble_cons. apply (push_bytes (PClose (gframe f :: map gframe l))); [|exact Hf]. intros d acc Hb Xb; unfold pstep; rewrite Xb; cbn [negb]; high d Hb; reflexivity.
Qed.

Lemma run_garbled x : forall st n, state_ok st -> low_quote st -> prun st x = PDone n -> prun (gstate st) (garble x) = PDone (garbled n).
Proof.
  induction x as [|c x IH]; intros st n Ho Hl E; [cbn [prun fold_left] in E; subst; reflexivity|]. rewrite prun_cons in E.
  assert (NE : pstep st c <> PErr) by (intros Z; rewrite Z, err_run in E; discriminate E).
  cbn [EncSpec.garble flat_map]. fold (garble x). rewrite prun_app.
  assert (S : prun (gstate st) (garble_char c) = gstate (pstep st c)).
  { destruct (N.lt_ge_cases c 128) as [L|L]; [|now apply step_high]. rewrite low_char by exact L. rewrite prun_cons. now apply step_low. }
  rewrite S. apply IH; [now apply step_ok|now apply low_step|exact E].
Qed.

Lemma garble_char_head c : c <> 13 -> c <> 10 -> Forall (fun b => b <> 13 /\ b <> 10) (garble_char c).
Proof.
  intros H1 H2. destruct (N.lt_ge_cases c 128) as [L|L]; [rewrite low_char by exact L; repeat constructor; assumption|]. unfold EncSpec.garble_char. destruct (utf8_char c) as [b|] eqn:E; [|repeat constructor; assumption].
  destruct (utf8_high c b E L) as [_ B]. apply Forall_map. eapply Forall_impl; [|exact B]. cbv beta. intros d Hd. apply shown_high in Hd as [Hd _]. lia.
Qed.
Lemma garble_char_some c : garble_char c <> [].
Proof.
  destruct (N.lt_ge_cases c 128) as [L|L]; [now rewrite low_char|]. unfold EncSpec.garble_char. destruct (utf8_char c) as [b|] eqn:E; [|discriminate]. apply utf8_high in E as [E _]; [|exact L]. destruct b; [cbn in E; lia|discriminate].
Qed.
Lemma norm_eol_app b y : Forall (fun c => c <> 13 /\ c <> 10) b -> norm_eol (b ++ y) = b ++ norm_eol y.
Proof. induction 1 as [|c b [H _] _ IH]; [reflexivity|]. cbn [app]. rewrite norm_eol_cons by exact H. now rewrite IH. Qed.
Lemma norm_eol_13 x : match x with 10 :: _ => False | _ => True end -> norm_eol (13 :: x) = 10 :: norm_eol x.
Proof.
  intros H. destruct x as [|d x]; [reflexivity|]. cbn [norm_eol]. destruct d as [|p]; [reflexivity|]. destruct p; try reflexivity. destruct p; try reflexivity. destruct p; try reflexivity. destruct p; try reflexivity. destruct H.
Qed.
Lemma garble_eol x : norm_eol (garble x) = garble (norm_eol x).
Proof.
  remember (length x) as m eqn:Em. assert (L : (length x <= m)%nat) by lia. clear Em. revert x L. induction m as [|m IH]; intros x L; [destruct x; [reflexivity|cbn in L; lia]|].
  destruct x as [|c x]; [reflexivity|]. cbn [length] in L. destruct (N.eq_dec c 13) as [->|H13].
  - rewrite garble_low by reflexivity. destruct x as [|d x]; [symmetry; now apply (garble_low 10 [])|]. cbn [length] in L. destruct (N.eq_dec d 10) as [->|H10].
    + rewrite garble_low by reflexivity. change (norm_eol (13 :: 10 :: garble x)) with (10 :: norm_eol (garble x)). change (norm_eol (13 :: 10 :: x)) with (10 :: norm_eol x).
      rewrite IH by lia. symmetry. now apply garble_low.
    + rewrite !norm_eol_13.
      * rewrite IH by (cbn [length]; lia). symmetry. now apply garble_low.
      * destruct d as [|p]; [exact I|]. destruct p; try exact I. destruct p; try exact I. destruct p; try exact I. destruct p; try exact I. now apply H10.
      * cbn [EncSpec.garble flat_map]. destruct (N.eq_dec d 13) as [->|H13]; [rewrite low_char by reflexivity; exact I|]. pose proof (garble_char_head d H13 H10) as F. pose proof (garble_char_some d) as Hs. destruct (garble_char d) as [|b bs]; [contradiction|].
        inversion_clear F as [|? ? [_ Hb] _]. cbn [app]. destruct b as [|p]; [exact I|]. destruct p; try exact I. destruct p; try exact I. destruct p; try exact I. destruct p; try exact I. now apply Hb.
  - rewrite norm_eol_cons by exact H13. cbn [EncSpec.garble flat_map]. fold (garble x) (garble (norm_eol x)). destruct (N.eq_dec c 10) as [->|H10].
    + rewrite low_char by reflexivity. cbn [app]. change (norm_eol (10 :: garble x)) with (10 :: norm_eol (garble x)). rewrite IH by lia. reflexivity.
    + rewrite norm_eol_app by now apply garble_char_head. rewrite IH by lia. reflexivity.
Qed.
Lemma starts_garbled p x : ascii p -> starts_with p x = true -> starts_with p (garble x) = true.
Proof.
  intros A. revert x. induction A as [|c p Hc _ IH]; intros x E; [reflexivity|]. destruct x as [|d x]; [discriminate|]. cbn [starts_with] in E. apply andb_true_iff in E as [E1 E2]. apply N.eqb_eq in E1. subst d.
  cbn [EncSpec.garble flat_map]. rewrite low_char by exact Hc. cbn [app starts_with]. rewrite N.eqb_refl. now apply IH.
Qed.
Lemma doc_in_garbled x n : doc_in x = Some n -> doc_in (garble x) = Some (garbled n).
Proof.
  unfold doc_in. destruct (starts_with (s "<?xml") x) eqn:E; [|discriminate]. rewrite starts_garbled; [|repeat constructor|exact E]. rewrite garble_eol.
  destruct (prun (PDecl false) (norm_eol x)) eqn:R; try discriminate. intros [= ->]. apply run_garbled in R; [|exact I|exact I]. cbn [gstate] in R. now rewrite R.
Qed.

(** ** Trees that are the same when garbled *)
Lemma ascii_garbled n : ascii_tree n -> garbled n = n.
Proof.
  induction n as [x|nm a k IH] using node_ind'; intros H; cbn [ascii_tree garbled] in *; [now rewrite ascii_garble|]. destruct H as (H1 & H2 & H3). rewrite ascii_garble by exact H1. f_equal.
  - clear -H2 Hp. induction H2 as [|[key v] a [Hk Hv] _ IH]; [reflexivity|]. cbn [map]. rewrite IH. f_equal. unfold EncSpec.garble_attr. cbn [fst snd] in *. rewrite ascii_garble by exact Hk. destruct v; try reflexivity. now rewrite ascii_garble.
  - induction IH as [|c k Hc _ IHk]; [reflexivity|]. destruct H3 as [H3 H4]. cbn [map]. rewrite Hc, IHk; auto.
Qed.
Lemma garbled_same n : writable n -> garbled n = n -> ascii_tree n.
Proof.
  induction n as [x|nm a k IH] using node_ind'; intros W H; cbn [garbled ascii_tree] in *.
  - injection H as H. now apply garble_id.
  - apply writable_El in W as (W1 & [_ W2] & W3). injection H as H1 H2 H3. split; [apply garble_id; [now apply name_good|exact H1]|]. split.
    + clear -W2 H2 Hp. induction W2 as [|[key v] a [Hk Hv] _ IH]; [constructor|]. cbn [map] in H2. unfold EncSpec.garble_attr at 1 in H2. cbn [fst snd aval_str] in *. injection H2 as E1 E2 E3. constructor; [|auto]. cbn [fst snd]. split; [apply garble_id; [now apply name_good|exact E1]|].
      destruct v; try exact I. injection E2 as E2. now apply garble_id.
    + unfold all_writable in W3. clear -IH W3 H3 Hp. induction IH as [|c k Hc _ IHk]; [exact I|]. inversion_clear W3 as [|? ? V1 V2]. cbn [map] in H3. injection H3 as E1 E2. split; [exact (Hc V1 E1)|exact (IHk V2 E2)].
Qed.

(** ** What is written *)
Lemma num_ascii x : all_num x -> ascii x.
Proof. intros H. eapply Forall_impl; [|exact H]. cbv beta. intros c Hc. apply numchar_cases in Hc. lia. Qed.
Lemma value_ascii v : match v with AStr x => ascii x | _ => True end -> ascii (aval_str v).
Proof.
  destruct v as [x|q|z|t]; intros H; cbn [aval_str]; [exact H|apply num_ascii, repr_float_num|apply num_ascii, dec_Z_num|].
  eapply Forall_impl; [|apply T_str_chars]. cbv beta. intros c Hc. apply tchar_cases in Hc. lia.
Qed.
Lemma esc_ascii c : c < 128 -> ascii (esc c).
Proof. intros H. unfold esc. destruct (c =? 38); [repeat constructor|]. destruct (c =? 60); [repeat constructor|]. destruct (c =? 62); repeat constructor. exact H. Qed.
Lemma text_ascii x : ascii x -> ascii (text_out x).
Proof. intros H. apply Forall_flat_map. eapply Forall_impl; [|exact H]. intros; now apply esc_ascii. Qed.
Lemma attr_ascii x : ascii x -> ascii (attr_out x).
Proof.
  intros H. unfold attr_out. assert (Q : forall q y, q < 128 -> ascii y -> ascii ([q] ++ y ++ [q])).
  { intros q y Hq Hy. constructor; [exact Hq|]. apply Forall_app; split; [exact Hy|]. now repeat constructor. }
  destruct (existsb (N.eqb 34) x); [destruct (existsb (N.eqb 39) x)|]; apply Q; try reflexivity; try now apply text_ascii.
  apply Forall_flat_map. eapply Forall_impl; [|exact H]. intros c Hc. cbv beta. destruct (c =? 34); [repeat constructor|now apply esc_ascii].
Qed.
Lemma node_ascii void n : ascii_tree n -> ascii (node_out void n).
Proof.
  induction n as [x|nm a k IH] using node_ind'; intros W; [now apply text_ascii|]. cbn [ascii_tree] in W. destruct W as (Wn & Wa & Wk). cbn [node_out].
  constructor; [reflexivity|]. apply Forall_app; split; [exact Wn|]. apply Forall_app; split.
  { unfold attrs_out. apply Forall_flat_map. apply Forall_forall. intros kv Hk. assert (Hi : In kv a) by (eapply Permutation_in; [apply sort_perm|exact Hk]). rewrite Forall_forall in Wa. destruct (Wa kv Hi) as [A B].
    constructor; [reflexivity|]. apply Forall_app; split; [exact A|]. constructor; [reflexivity|]. apply attr_ascii. now apply value_ascii. }
  assert (T : ascii ([60; 47] ++ nm ++ [62])).
  { constructor; [reflexivity|]. constructor; [reflexivity|]. apply Forall_app; split; [exact Wn|]. now repeat constructor. }
  assert (K : ascii ([62] ++ flat_map (node_out void) k ++ [60; 47] ++ nm ++ [62])).
  { constructor; [reflexivity|]. apply Forall_app; split; [|exact T]. apply Forall_flat_map. clear -IH Wk. induction IH as [|c k Hc _ IHk]; [constructor|]. destruct Wk as [W1 W2]. constructor; [exact (Hc W1)|exact (IHk W2)]. }
  destruct k; [|exact K]. destruct (void nm a); [repeat constructor|]. constructor; [reflexivity|exact T].
Qed.
Lemma decl_ascii : ascii decl.
Proof. apply Forall_forall. intros c Hc. apply N.ltb_lt. apply (proj1 (forallb_forall (fun c => c <? 128) decl) eq_refl c Hc). Qed.

(** ** Files *)
Lemma ascii_out b : ascii b -> utf8_out b = Some b.
Proof. induction 1 as [|c b H _ IH]; [reflexivity|]. cbn [utf8_out]. unfold utf8_char. apply N.ltb_lt in H. rewrite H, IH. reflexivity. Qed.
Lemma load_in_ascii dec fs x b : knows_ascii dec -> ascii b -> aget x fs = Some (Raw b) -> load_in dec fs x = load fs x.
Proof.
  intros K A E. unfold load_in, load. rewrite E. destruct (kind_by_magic (Raw b)) as [kd|]; [|reflexivity]. cbn [bind]. destruct kd; try reflexivity. cbn [main_file_in main_file]. unfold parse_bytes.
  rewrite (K b A), (decode_out b b) by now apply ascii_out. reflexivity.
Qed.
Lemma load_in_gz dec fs x b : aget x fs = Some (Gz b) -> load_in dec fs x = load fs x.
Proof. intros E. unfold load_in, load. rewrite E. destruct (kind_by_magic (Gz b)) as [kd|]; [|reflexivity]. cbn [bind]. destruct kd; reflexivity. Qed.
Lemma decode_by_all b x : decode_by page b = Some x -> x = map shown b.
Proof.
  revert x. induction b as [|c b IH]; intros x E; [injection E as <-; reflexivity|]. cbn [decode_by] in E. destruct (page c) as [d|] eqn:Ec; [|discriminate]. destruct (decode_by page b) as [r|]; [|discriminate].
  injection E as <-. cbn [map]. unfold EncSpec.shown at 1. rewrite Ec. f_equal. now apply IH.
Qed.
Lemma decode_by_none b : decode_by page b = None <-> exists c, In c b /\ page c = None.
Proof.
  induction b as [|c b IH]; [split; [discriminate|intros (? & [] & _)]|]. cbn [decode_by]. destruct (page c) as [d|] eqn:Ec.
  - destruct (decode_by page b) as [r|].
    + split; [discriminate|]. intros (e & [<-|He] & Ee); [congruence|]. destruct IH as [_ IH]. discriminate IH. now exists e.
    + split; [|reflexivity]. intros _. destruct (proj1 IH eq_refl) as (e & A & B). exists e. split; [now right|exact B].
  - split; [|reflexivity]. intros _. exists c. split; [now left|exact Ec].
Qed.
Lemma load_page fs x b a : aget x fs = Some (Raw b) -> load fs x = Ok a ->
  load_in (decode_by page) fs x = match decode_by page b with Some _ => Ok (mkAnim (garbled (am_root a)) (am_kind a) (am_file a)) | None => Err ValueError end.
Proof.
  unfold load_in, load. intros ->. destruct (kind_by_magic (Raw b)) as [kd|]; [|discriminate]. cbn [bind]. destruct kd; try discriminate. cbn [main_file_in main_file]. unfold parse_bytes, parse_doc.
  destruct (decode b) as [y|] eqn:D; [|discriminate]. destruct (doc_in y) as [n|] eqn:P; [|discriminate]. cbn [bind]. intros [= <-]. cbn [am_root am_kind am_file].
  destruct (decode_by page b) as [w|] eqn:Dw; [|reflexivity]. apply decode_by_all in Dw. subst w.
  assert (G : garble y = map shown b). { unfold decode in D. destruct (utf8_in b) as [z|]; [|discriminate]. destruct (utf8_out z) as [b'|] eqn:O; [|discriminate]. destruct (pstr_eqb b b') eqn:Eb; [|discriminate]. injection D as ->. apply pstr_eqb_spec in Eb. subst. now apply encodes_garble. }
  apply doc_in_garbled in P. rewrite G in P. now rewrite P.
Qed.
Lemma page_ascii : knows_ascii (decode_by page).
Proof. intros b H. induction H as [|c b Hc _ IH]; [reflexivity|]. cbn [decode_by]. now rewrite (proj1 Hp c Hc), IH. Qed.
End Page.

(** ** Two such encodings *)
Lemma latin1_good : good_page latin1.
Proof.
  unfold latin1. split; [intros c H; now replace (c <? 256) with true by (symmetry; apply N.ltb_lt; lia)|]. split.
  - intros b c H. replace (b <? 256) with true by (symmetry; apply N.ltb_lt; lia). intros [= <-]. split; [lia|]. unfold xml_char. lia.
  - intros a b c. destruct (a <? 256); [|discriminate]. destruct (b <? 256); [|discriminate]. congruence.
Qed.
Definition all_bytes : list N := map N.of_nat (seq 0 256).
Lemma in_bytes c : c < 256 -> In c all_bytes.
Proof. intros H. apply in_map_iff. exists (N.to_nat c). split; [apply N2Nat.id|]. apply in_seq. lia. Qed.
Definition page_check (page : N -> option N) : bool :=
  forallb (fun c => if c <? 128 then match page c with Some d => d =? c | None => false end else match page c with Some d => (128 <=? d) && (d <? 65536) && xml_char d | None => true end) all_bytes &&
  forallb (fun a => forallb (fun b => match page a, page b with Some c, Some d => negb (c =? d) || (a =? b) | _, _ => true end) all_bytes) all_bytes.
Lemma page_checked page : (forall c, 256 <= c -> page c = None) -> page_check page = true -> good_page page.
Proof.
  intros Hn H. unfold page_check in H. apply andb_true_iff in H as [H1 H2]. rewrite forallb_forall in H1, H2. split; [|split].
  - intros c Hc. specialize (H1 c (in_bytes c ltac:(lia))). cbv beta in H1. replace (c <? 128) with true in H1 by (symmetry; apply N.ltb_lt; lia). destruct (page c) as [d|]; [|discriminate]. apply N.eqb_eq in H1. now subst.
  - intros b c Hb E. specialize (H1 b (in_bytes b ltac:(lia))). cbv beta in H1. replace (b <? 128) with false in H1 by (symmetry; apply N.ltb_ge; lia). rewrite E in H1. split; [lia|]. now apply andb_true_iff in H1 as [_ H1].
  - intros a b c Ea Eb. assert (L : forall d e, page d = Some e -> d < 256) by (intros d e E; destruct (N.lt_ge_cases d 256) as [?|X]; [assumption|]; rewrite (Hn d X) in E; discriminate).
    specialize (H2 a (in_bytes a (L _ _ Ea))). cbv beta in H2. rewrite forallb_forall in H2. specialize (H2 b (in_bytes b (L _ _ Eb))). cbv beta in H2. rewrite Ea, Eb, N.eqb_refl in H2. now apply N.eqb_eq.
Qed.
Lemma cp1252_good : good_page cp1252.
Proof.
  apply page_checked; [|vm_compute; reflexivity]. intros c H. unfold cp1252. replace (c <? 128) with false by (symmetry; apply N.ltb_ge; lia). replace (c <? 160) with false by (symmetry; apply N.ltb_ge; lia). now replace (c <? 256) with false by (symmetry; apply N.ltb_ge; lia).
Qed.
