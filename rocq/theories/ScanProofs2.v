(** The text that the scan makes has no markers in it. *)
From Verif Require Import ScanModel ScanSpec ScanProofs RepSpec RepProofs RepProofs4 PyFmtProofs PyFmtProofs2 StrProofs PexProofs2 SerProofs.
From Coq Require Import Lia.
Local Open Scope N_scope.

Definition flatc (c : N) : Prop := utf8_char c <> None /\ c <> 10 /\ c <> 13.
Definition flat (x : pstr) : Prop := Forall flatc x.
(** A line that begins with white space, and then not with "#" *)
Definition calm (l : pstr) : Prop := exists i c r, l = repeat 32 (S i) ++ c :: r /\ c <> 32 /\ c <> 35.
Definition calm_lines (x : pstr) : Prop := exists ls, value_lines x ls /\ Forall (fun l => flat l /\ calm l) ls.
Definition cont (x : pstr) : Prop := exists l ls, value_lines x (l :: ls) /\ flat l /\ Forall (fun l => flat l /\ calm l) ls.

Lemma ascii_flat c : c < 128 -> c <> 10 -> c <> 13 -> flatc c.
Proof. intros A B C. split; [|now split]. unfold utf8_char. destruct (N.ltb_spec c 128); [discriminate|lia]. Qed.
Lemma flat_lit x : forallb (fun c => (c <? 128) && negb (c =? 10) && negb (c =? 13)) x = true -> flat x.
Proof.
  intros H. apply Forall_forall. intros c I. rewrite forallb_forall in H. apply H in I. apply andb_prop in I as [I C]. apply andb_prop in I as [A B]. apply N.ltb_lt in A. apply negb_true_iff, N.eqb_neq in B, C. now apply ascii_flat.
Qed.
Ltac lit := apply flat_lit; vm_compute; reflexivity.
Lemma flat_app a b : flat a -> flat b -> flat (a ++ b). Proof. intros. apply Forall_app. now split. Qed.
Lemma flat_cons c b : c < 128 -> c <> 10 -> c <> 13 -> flat b -> flat (c :: b). Proof. intros. constructor; [now apply ascii_flat|assumption]. Qed.
Lemma flat_blanks n : flat (repeat 32 n). Proof. induction n; constructor; [now apply ascii_flat|assumption]. Qed.
Lemma flat_num x : all_num x -> flat x.
Proof. intros H. eapply Forall_impl; [|exact H]. intros c C. cbn beta in C. apply numchar_cases in C. apply ascii_flat; lia. Qed.
Lemma flat_hex k n : flat (hex_pad k n).
Proof. eapply Forall_impl; [|apply hex_pad_ascii]. intros c C. cbn beta in C. apply ascii_flat; lia. Qed.
Lemma flat_join a l : flat a -> Forall flat l -> flat (join a l).
Proof. intros A L. induction L as [|x l Hx L IH]; [constructor|]. cbn [join]. destruct l as [|y l]; [exact Hx|]. apply flat_app; [exact Hx|]. apply flat_app; assumption. Qed.
Lemma flat_word x : Forall (fun c => word_char c = true) x -> flat x.
Proof. intros H. eapply Forall_impl; [|exact H]. intros c C. cbn beta in C. unfold word_char in C. apply ascii_flat; lia. Qed.
Lemma one_line_flat x : one_line x -> flat x.
Proof. intros (A & B & C). apply encodable_spec in A. apply Forall_forall. intros c I. rewrite Forall_forall in A. split; [exact (A c I)|]. split; intros ->; contradiction. Qed.

Section Scan.
  Context (pr : N -> bool) (Hpr : forall c, pr c = true -> encodable [c]).
  Lemma pr_flat c : pr c = true -> utf8_char c <> None.
  Proof. intros H. apply Hpr in H. apply encodable_spec in H. now inversion H. Qed.
  Lemma flat_repr x : flat (repr_str pr x).
  Proof.
    unfold repr_str. cbv zeta. assert (Q : repr_quote x = 34 \/ repr_quote x = 39) by (unfold repr_quote; destruct (_ && _); auto). set (q := repr_quote x) in *. clearbody q.
    assert (F : flatc q) by (destruct Q as [->| ->]; now apply ascii_flat). constructor; [exact F|]. apply flat_app; [|now constructor].
    induction x as [|c x IH]; [constructor|]. cbn [flat_map]. apply flat_app; [|exact IH]. unfold repr_char.
    destruct ((c =? q) || (c =? 92)) eqn:E1. { apply flat_cons; [lia|lia|lia|]. constructor; [|constructor]. apply orb_true_iff in E1 as [E|E]; apply N.eqb_eq in E; subst c; [exact F|now apply ascii_flat]. }
    destruct (c =? 9); [lit|]. destruct (N.eqb_spec c 10); [lit|]. destruct (N.eqb_spec c 13); [lit|].
    destruct ((c <? 32) || (c =? 127)); [apply flat_app; [lit|apply flat_hex]|].
    destruct (N.ltb_spec c 127); [constructor; [apply ascii_flat; lia|constructor]|].
    destruct (pr c) eqn:P; [constructor; [split; [now apply pr_flat|now split]|constructor]|].
    destruct (c <? 256); [apply flat_app; [lit|apply flat_hex]|]. destruct (c <? 65536); apply flat_app; try lit; apply flat_hex.
  Qed.
  Lemma flat_float q : flat (repr_float q). Proof. apply flat_num, repr_float_num. Qed.
  Lemma flat_tuple l : flat (tuple_str l).
  Proof.
    assert (G : flat (s "(" ++ join (s ", ") (map repr_float l) ++ s ")")).
    { apply flat_app; [lit|]. apply flat_app; [|lit]. apply flat_join; [lit|]. induction l; constructor; [apply flat_float|assumption]. }
    unfold tuple_str. destruct l as [|x [|]]; try exact G. apply flat_app; [lit|]. apply flat_app; [apply flat_float|lit].
  Qed.
  Lemma flat_dict d : flat (dict_str pr d).
  Proof.
    unfold dict_str. apply flat_app; [lit|]. apply flat_app; [|lit]. apply flat_join; [lit|]. induction d as [|[k v] d IH]; constructor; [|exact IH].
    cbn [fst snd]. apply flat_app; [apply flat_repr|]. apply flat_app; [lit|]. destruct v; [apply flat_repr|lit].
  Qed.
  Lemma flat_int z : flat (dec_Z z). Proof. apply flat_num, dec_Z_num. Qed.
  Lemma flat_simple c n cx x : In c [VReal; VInteger; VBool; VBlendMethod] -> py_str (PVal c n cx) = Ok x -> flat x.
  Proof.
    intros C. cbn [py_str]. destruct (is_animated n); [intros [= <-]; lit|].
    intros H. assert (G : (let* r := simple_val c n cx in match r with PFlo q => Ok (repr_float q) | PInt z => Ok (dec_Z z) | PBool b => Ok (if b then s "True" else s "False") | PT t => Ok (T_str t) | _ => Err EUnmodelled end) = Ok x).
    { cbn [In] in C. repeat (destruct C as [<-|C]; [exact H|]). destruct C. } clear H.
    destruct (simple_val c n cx) as [v|] eqn:S; [|discriminate]. cbn [bind] in G.
    destruct v; try discriminate; injection G as <-; [destruct b; lit|apply flat_int|apply flat_float|].
    exfalso. unfold simple_val in S. destruct (aget (s "value") (tag_attrs n)) as [[y| | |]|]; try discriminate.
    cbn [In] in C. repeat (destruct C as [<-|C]; [try discriminate S; destruct (parse_float y); destruct (parse_int y); discriminate S|]). destruct C.
  Qed.
  Lemma flat_flat c n cx e : flat_expr pr c n cx = Ok e -> flat (expr_text e).
  Proof.
    unfold flat_expr. destruct c; try discriminate.
    - destruct (py_str (PVal VReal n cx)) eqn:E; [|discriminate]. intros [= <-]. eapply flat_simple; [|exact E]. cbn; tauto.
    - destruct (py_str (PVal VInteger n cx)) eqn:E; [|discriminate]. intros [= <-]. eapply flat_simple; [|exact E]. cbn; tauto.
    - destruct (py_str (PVal VBool n cx)) eqn:E; [|discriminate]. intros [= <-]. eapply flat_simple; [|exact E]. cbn; tauto.
    - unfold simple_val. destruct (aget (s "value") (tag_attrs n)) as [[y| | |]|]; try discriminate. destruct (parse_float y); [|discriminate]. intros [= <-]. apply flat_float.
    - destruct (simple_val VTime n cx) as [v|]; [|discriminate]. cbn [bind]. destruct v; try discriminate. destruct (T_eq t (CNum 0)) as [[]|]; [|  |discriminate]; intros [= <-]; [lit|apply flat_repr].
    - intros [= <-]. apply flat_repr.
    - destruct (color_tuple n); [|discriminate]. intros [= <-]. apply flat_tuple.
    - destruct (vector_str pr n) as [x|] eqn:E; [|discriminate]. intros [= <-]. cbn [expr_text]. unfold vector_str in E. destruct (is_animated n); [injection E as <-; lit|].
      destruct (vector_keys n) as [|k1 [|k2 [|]]]; try (injection E as <-; apply flat_dict). destruct (_ && _); [|injection E as <-; apply flat_dict]. destruct (vector_tuple n); [|discriminate]. injection E as <-. apply flat_tuple.
    - destruct (py_str (PVal VBlendMethod n cx)) eqn:E; [|discriminate]. intros [= <-]. cbn [expr_text]. apply (flat_app (s "v.")); [lit|]. eapply flat_simple; [|exact E]. cbn; tauto.
    - destruct (is_animated n); [|discriminate]. intros [= <-]. lit.
  Qed.

  (** ** Lines *)
  Lemma flat_no10 x : flat x -> ~ In 10 x. Proof. intros F I. unfold flat in F. rewrite Forall_forall in F. apply F in I. now destruct I as (_ & [] & _). Qed.
  Lemma calm_app l r : calm l -> calm (l ++ r).
  Proof. intros (i & c & t & -> & A & B). exists i, c, (t ++ r). rewrite <- app_assoc. now split. Qed.
  Lemma calm_is i c r : c <> 32 -> c <> 35 -> calm (repeat 32 (S i) ++ c :: r). Proof. intros. now exists i, c, r. Qed.
  Lemma lines_one x : flat x -> value_lines x [x].
  Proof. intros F. split; [discriminate|]. split; [constructor; [now apply flat_no10|constructor]|]. reflexivity. Qed.
  Lemma lines_two a la b lb : value_lines a la -> value_lines b lb -> value_lines (a ++ 10 :: b) (la ++ lb).
  Proof.
    intros (N1 & F1 & E1) (N2 & F2 & E2). split; [destruct la; [contradiction|discriminate]|]. split; [apply Forall_app; now split|]. subst a b.
    induction la as [|x la IH]; [contradiction|]. destruct la as [|y la].
    - cbn [join app]. destruct lb; [contradiction|]. reflexivity.
    - inversion F1; subst. change ((x :: y :: la) ++ lb) with (x :: y :: la ++ lb). cbn [join app]. rewrite <- !app_assoc. cbn [app]. f_equal. f_equal. apply IH; [discriminate|assumption].
  Qed.
  Lemma cont_flat x : flat x -> cont x. Proof. intros F. exists x, []. split; [now apply lines_one|]. now split. Qed.
  Lemma cont_line x l : cont x -> flat l -> calm l -> cont (x ++ 10 :: l).
  Proof. intros (a & ls & V & F & C) L M. exists a, (ls ++ [l]). split; [exact (lines_two _ _ _ _ V (lines_one l L))|]. split; [exact F|]. apply Forall_app. split; [exact C|]. constructor; [now split|constructor]. Qed.
  Lemma cont_front p x : flat p -> cont x -> cont (p ++ x).
  Proof.
    intros P (a & ls & (N & F & E) & A & C). exists (p ++ a), ls. split; [|split; [now apply flat_app|exact C]]. split; [discriminate|]. inversion F; subst. split; [constructor; [apply flat_no10, flat_app; assumption|assumption]|].
    cbn [join]. destruct ls; [reflexivity|]. now rewrite <- app_assoc.
  Qed.
  Lemma join_snoc sep (a : list pstr) x : a <> [] -> join sep (a ++ [x]) = join sep a ++ sep ++ x.
  Proof. induction a as [|y a IH]; [contradiction|]. intros _. destruct a as [|z a]; [reflexivity|]. change ((y :: z :: a) ++ [x]) with (y :: (z :: a) ++ [x]). cbn [join app] in *. rewrite IH by discriminate. now rewrite <- !app_assoc. Qed.
  Lemma cont_back x q : cont x -> flat q -> cont (x ++ q).
  Proof.
    intros (a & ls & V & F & C) Q. destruct ls as [|l0 ls0] eqn:El; [|assert (Z : l0 :: ls0 <> []) by discriminate; destruct (exists_last Z) as (ls' & l & E); rewrite E in *].
    - destruct V as (_ & _ & ->). cbn [join]. apply cont_flat. now apply flat_app.
    - clear Z. apply Forall_app in C as [C D]. inversion D as [|? ? [D1 D2] _]; subst. destruct V as (_ & N & ->).
      exists a, (ls' ++ [l ++ q]). split; [|split; [exact F|apply Forall_app; split; [exact C|constructor; [split; [now apply flat_app|now apply calm_app]|constructor]]]].
      split; [discriminate|]. split.
      + rewrite app_comm_cons in *. apply Forall_app in N as [N1 N2]. apply Forall_app. split; [exact N1|]. constructor; [apply flat_no10; now apply flat_app|constructor].
      + rewrite !app_comm_cons, !join_snoc by discriminate. now rewrite <- !app_assoc.
  Qed.
  Lemma cont_more x y : cont x -> calm_lines y -> cont (x ++ 10 :: y).
  Proof. intros (a & ls & V & F & C) (lb & W & D). exists a, (ls ++ lb). split; [exact (lines_two _ _ _ _ V W)|]. split; [exact F|]. apply Forall_app. now split. Qed.
  Lemma calm_more l y : flat l -> calm l -> calm_lines y -> calm_lines (l ++ 10 :: y).
  Proof. intros F C (ls & V & D). exists (l :: ls). split; [exact (lines_two _ _ _ _ (lines_one l F) V)|]. constructor; [now split|exact D]. Qed.

  Lemma cont_expression c n cx e : expression pr c n cx = Ok e -> cont (expr_text e).
  Proof.
    destruct c; cbn [expression]; try (intros H; apply cont_flat; exact (flat_flat _ _ _ _ H)).
    - unfold composite_expr. destruct (composite_val n cx) as [d|]; [|discriminate]. cbn [bind].
      destruct (mapM _ d) as [l|] eqn:E; [|discriminate]. cbn [bind]. intros [= <-]. cbn [expr_text].
      change (cont ([123] ++ 10 :: (concat l ++ repeat 32 36 ++ s "}"))). apply cont_more; [apply cont_flat; lit|].
      assert (Z : calm_lines (repeat 32 36 ++ s "}")). { exists [repeat 32 36 ++ s "}"]. split; [apply lines_one; lit|]. constructor; [|constructor]. split; [lit|]. now apply (calm_is 35 125 []). }
      revert l E. induction d as [|[k v] d IH]; intros l E; cbn [mapM] in E; [injection E as <-; exact Z|].
      cbn [fst snd] in E. destruct v; try discriminate. destruct (flat_expr pr c n0 cx0) as [e|] eqn:Fe; [|discriminate]. cbn [bind] in E. apply flat_flat in Fe.
      destruct (mapM _ d) as [l'|] eqn:Ed; [|discriminate]. cbn [bind] in E. injection E as <-. specialize (IH _ eq_refl). cbn [concat]. rewrite <- app_assoc.
      match goal with |- calm_lines (?z ++ _) => change z with (repeat 32 5 ++ pad40 (repr_str pr k) ++ s ": " ++ expr_text e ++ [44; 10]) end.
      match goal with |- calm_lines ((?a ++ ?b ++ ?c ++ ?d ++ [44; 10]) ++ ?y) => replace ((a ++ b ++ c ++ d ++ [44; 10]) ++ y) with ((a ++ b ++ c ++ d ++ [44]) ++ 10 :: y) by (rewrite <- !app_assoc; reflexivity) end.
      apply calm_more; [| |exact IH].
      + apply flat_app; [apply flat_blanks|]. apply flat_app; [|apply flat_app; [lit|apply flat_app; [exact Fe|lit]]]. unfold pad40. apply flat_app; [apply flat_blanks|apply flat_repr].
      + unfold pad40, repr_str. cbv zeta. set (q := repr_quote k). set (m := (40 - _)%nat). clearbody m. exists (4 + m)%nat, q. eexists. split; [|assert (Q : q = 34 \/ q = 39) by (unfold q, repr_quote; destruct (_ && _); auto); destruct Q as [->| ->]; split; discriminate].
        change (S (4 + m)) with (5 + m)%nat. rewrite repeat_app. rewrite <- !app_assoc. cbn [app]. reflexivity.
    - unfold gradient_expr. destruct (gradient_val n cx) as [d|]; [|discriminate]. cbn [bind].
      destruct (mapM _ d) as [l|] eqn:E; [|discriminate]. cbn [bind]. intros [= <-]. cbn [expr_text]. apply cont_flat. apply (flat_app (s "{")); [lit|]. apply flat_app; [|lit]. apply flat_join; [lit|].
      revert l E. induction d as [|[k v] d IH]; intros l E; cbn [mapM] in E; [injection E as <-; constructor|].
      cbn [fst snd] in E. destruct v; try discriminate. destruct (flat_expr pr c n0 cx0) as [e|] eqn:Fe; [|discriminate]. cbn [bind] in E. apply flat_flat in Fe.
      destruct (mapM _ d) as [l'|] eqn:Ed; [|discriminate]. cbn [bind] in E. injection E as <-. constructor; [|now apply IH]. apply flat_app; [apply flat_float|]. apply (flat_app (s ":")); [lit|exact Fe].
  Qed.

  (** ** A layer *)
  Lemma calm_quiet l : calm l -> quiet l.
  Proof.
    intros (i & c & r & -> & A & B).
    assert (G : forall j y, repeat 32 (S i) ++ c :: r <> repeat 32 j ++ 35 :: y).
    { intros j y. generalize (S i). intros k. revert j. induction k as [|k IH]; intros j E; destruct j as [|j]; cbn [repeat app] in E; injection E; intros; subst; congruence. }
    split; [intros [(j & nm & k & t & E & _)|(j & t & E)]; exact (G _ _ E)|]. intros x (t & E & _). discriminate E.
  Qed.
  Lemma other_quiet c r : c <> 32 -> c <> 35 -> c <> 99 -> quiet (c :: r).
  Proof.
    intros A B C. split; [intros [(j & nm & k & t & E & _)|(j & t & E)]; destruct j; cbn [repeat app] in E; injection E; intros; subst; contradiction|].
    intros x (t & E & _). injection E; intros; subst; contradiction.
  Qed.
  Lemma empty_quiet : quiet [].
  Proof. split; [intros [(j & nm & k & t & E & _)|(j & t & E)]; destruct j; discriminate E|]. intros x (t & E & _). discriminate E. Qed.
  Lemma name_quiet x r : word_name x -> quiet (pad20 x ++ s " = " ++ r).
  Proof.
    intros (Nx & W). split.
    - destruct x as [|c x]; [contradiction|]. inversion W as [|? ? W1 _]; subst.
      assert (c <> 32 /\ c <> 35) as [A B] by (split; intros ->; discriminate W1). unfold pad20.
      intros [(j & nm & k & t & E & _)|(j & t & E)]; destruct j; cbn [repeat app] in E; injection E; intros; subst; contradiction.
    - intros y (t & E & Ny & Wy & _). unfold pad20 in E. rewrite <- app_assoc in E.
      assert (G : forall (a b u v : list N), ~ In 32 a -> ~ In 32 b -> a ++ 32 :: u = b ++ 32 :: v -> a = b /\ u = v).
      { induction a as [|p a IH]; intros b u v Ha Hb Z; destruct b as [|q b]; cbn [app] in Z; injection Z; intros; subst.
        - now split.
        - exfalso. apply Hb. now left.
        - exfalso. apply Ha. now left.
        - destruct (IH b u v) as [-> ->]; [intros I; apply Ha; now right|intros I; apply Hb; now right|assumption|now split]. }
      assert (Wn : ~ In 32 x) by (intros I; rewrite Forall_forall in W; apply W in I; discriminate).
      assert (K : exists u, repeat 32 (20 - length x) ++ s " = " ++ r = 32 :: u /\ (length x = 5%nat -> exists w, u = 32 :: w)).
      { destruct (20 - length x)%nat as [|[|m]] eqn:L; cbn [repeat app]; eexists; (split; [reflexivity|]); intros; try lia. eexists; reflexivity. }
      destruct K as (u & K1 & K2). rewrite K1 in E. change (s "class " ++ y ++ t) with (s "class" ++ 32 :: (y ++ t)) in E. apply G in E as [-> ->]; [|exact Wn|vm_compute; intros I; repeat (destruct I as [I|I]; [discriminate I|]); exact I].
      destruct K2 as (w & K2); [reflexivity|]. destruct y as [|c y]; [contradiction|]. cbn [app] in K2. injection K2 as -> _. inversion Wy as [|? ? W1 _]; subst. vm_compute in W1. repeat (destruct W1 as [W1|W1]; [discriminate W1|]). exact W1.
  Qed.
  Lemma word_type x : word_name x -> word_name (if pstr_eqb x (s "type") then s "type_" else x).
  Proof. intros W. destruct (pstr_eqb x (s "type")); [|exact W]. split; [discriminate|]. repeat constructor. Qed.
  Definition good_block (x : pstr) : Prop := exists ls, value_lines x ls /\ Forall (fun l => flat l /\ quiet l) ls.
  Lemma good_empty : good_block [].
  Proof. exists [[]]. split; [apply lines_one; constructor|]. constructor; [split; [constructor|exact empty_quiet]|constructor]. Qed.
  Lemma good_line l y : flat l -> quiet l -> good_block y -> good_block (l ++ 10 :: y).
  Proof. intros F Q (ls & V & D). exists (l :: ls). split; [exact (lines_two _ _ _ _ (lines_one l F) V)|]. constructor; [now split|exact D]. Qed.
  Lemma good_field n r y : word_name n -> cont r -> good_block y -> good_block (field_line (n, r) ++ y).
  Proof.
    intros W (l & ls & V & F & C) (lb & V2 & D). unfold field_line. cbn [fst snd]. apply word_type in W. set (m := if pstr_eqb n (s "type") then s "type_" else n) in *. clearbody m.
    assert (P : flat (pad20 m ++ s " = ")). { apply flat_app; [|lit]. unfold pad20. apply flat_app; [apply flat_word, W|apply flat_blanks]. }
    replace ((pad20 m ++ s " = " ++ r ++ [10]) ++ y) with (((pad20 m ++ s " = ") ++ r) ++ 10 :: y) by (rewrite <- !app_assoc; reflexivity).
    exists (((pad20 m ++ s " = " ++ l) :: ls) ++ lb). split.
    - apply lines_two; [|exact V2]. destruct V as (_ & N & ->). split; [discriminate|]. inversion N; subst. split; [constructor; [rewrite app_assoc; apply flat_no10, flat_app; assumption|assumption]|]. cbn [join]. destruct ls; now rewrite <- !app_assoc.
    - cbn [app]. constructor; [split; [rewrite app_assoc; now apply flat_app|now apply name_quiet]|]. apply Forall_app. split; [|exact D]. eapply Forall_impl; [|exact C]. intros z [Z1 Z2]. split; [exact Z1|now apply calm_quiet].
  Qed.
  Lemma cont_right k array n ty v cx r : flat ty -> right_side pr k array n ty v cx = Ok r -> cont r.
  Proof.
    intros T H. unfold right_side in H.
    destruct (match param_expr pr ty v cx with Ok e => _ | Err NotImplementedError => _ | Err e => Err e end) as [h|] eqn:E; [|discriminate]. cbn [bind] in H. injection H as <-.
    assert (Ch : cont h).
    { destruct (param_expr pr ty v cx) as [e|ee] eqn:P.
      - injection E as <-. assert (Ce : cont e).
        { unfold param_expr in P. destruct (pstr_eqb ty (s "BlendMethod")).
          - destruct (from_tag v) as [c|]; [|discriminate]. cbn [bind] in P. destruct (get_value c v cx) as [x|]; [|discriminate]. cbn [bind] in P. destruct (new_value VBlendMethod x) as [m|]; [|discriminate]. cbn [bind] in P.
            destruct (expression pr VBlendMethod m None) as [e0|] eqn:X; [|discriminate]. cbn [bind] in P. injection P as <-. now apply cont_expression in X.
          - destruct (from_tag v) as [c|]; [|discriminate]. cbn [bind] in P. destruct (expression pr c v cx) as [e0|] eqn:X; [|discriminate]. cbn [bind] in P. injection P as <-. now apply cont_expression in X. }
        apply (cont_front (s "f.")); [lit|]. apply cont_front; [destruct array; lit|]. apply (cont_front (s "(v.")); [lit|]. apply cont_front; [exact T|]. apply (cont_front (s ", ")); [lit|]. apply cont_back; [exact Ce|lit].
      - destruct ee; try discriminate. injection E as <-. apply cont_flat. apply (flat_app (s "f.NotImplementedField(" ++ [34])); [lit|]. apply flat_app; [exact T|lit]. }
    rewrite app_assoc. change ([10] ++ repeat 32 20 ++ s ")") with (10 :: (repeat 32 20 ++ s ")")).
    apply cont_line; [|lit|now apply (calm_is 19 41 [])].
    unfold doc_arg. destruct k as [k|]; [|rewrite app_nil_r; exact Ch]. destruct (aget n (k_dict k)) as [[i [[|c dd]|]]|]; try (rewrite app_nil_r; exact Ch).
    change (h ++ [10] ++ repeat 32 30 ++ s "doc=" ++ repr_str pr (c :: dd) ++ s ",") with (h ++ 10 :: (repeat 32 30 ++ s "doc=" ++ repr_str pr (c :: dd) ++ s ",")).
    apply cont_line; [exact Ch| |].
    - apply flat_app; [apply flat_blanks|]. apply (flat_app (s "doc=")); [lit|]. apply flat_app; [apply flat_repr|lit].
    - now apply (calm_is 29 100).
  Qed.
  Lemma flat_override lt n x : override lt n = Some x -> flat x.
  Proof. unfold override. destruct (_ && _); [intros [= <-]; lit|]. destruct (_ && _); [intros [= <-]; lit|]. destruct (_ && _); [intros [= <-]; lit|discriminate]. Qed.
  Lemma cont_param k lt cx p n r : scan_param pr k lt cx [] p = Ok [(n, r)] -> cont r.
  Proof.
    unfold scan_param. destruct (str_attr (s "name") p) as [f|]; [|discriminate]. cbn [bind]. destruct (match k with Some k => is_inherited_param k f | None => false end); [discriminate|].
    destruct (_ && _); [discriminate|]. cbv zeta. set (m := fst _). clearbody m. destruct (override lt m) as [x|] eqn:O; [intros [= _ <-]; apply cont_flat; exact (flat_override _ _ _ O)|].
    destruct (child_tags p) as [|v [|]]; [| |discriminate].
    { destruct (pstr_eqb m (s "index")); [|discriminate]. intros H. apply cont_flat. injection H. intros <- _. lit. }
    destruct (pstr_eqb _ (s "T")); [discriminate|]. destruct (pstr_eqb _ (s "Waypoint")); [discriminate|].
    destruct (pstr_eqb (type_name m v) (s "BlendMethod") || existsb (pstr_eqb (type_name m v)) value_names) eqn:T; [|discriminate].
    assert (Ft : flat (type_name m v)).
    { apply orb_true_iff in T as [T|T]; [apply pstr_eqb_spec in T; rewrite T; lit|]. apply existsb_exists in T as (y & I & E). apply pstr_eqb_spec in E. rewrite E.
      assert (A : Forall flat value_names) by (repeat (apply Forall_cons; [lit|]); constructor). rewrite Forall_forall in A. exact (A y I). }
    destruct (right_side pr k _ m (type_name m v) v cx) as [x|] eqn:R; [|discriminate]. cbn [bind aset]. intros [= _ <-]. exact (cont_right _ _ _ _ _ _ _ Ft R).
  Qed.
End Scan.
