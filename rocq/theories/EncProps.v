(** C174: what is saved is read back, whatever the encoding of the locale. *)
From Verif Require Import AnimModel XpSpec XpProofs SerProofs AnimSpec AnimProofs AnimProofs2 AnimProofs3 AnimProofs5 AnimProps EncModel EncSpec EncProofs.
From Coq Require Import Lia.
Local Open Scope N_scope.

(** A .sifz file is read back in every locale. *)
Theorem C174_sifz : forall dec void can fs a name x, is_tag (am_root a) = true -> writable (am_root a) -> target_of a name x FSifz -> can x = true ->
  exists fs', save void can fs a name = (fs', mkAnim (am_root a) FSifz (Some x), Ok tt) /\ load_in dec fs' x = Ok (mkAnim (reload (am_root a)) FSifz (Some x)).
Proof.
  intros dec void can fs a name x G W T C. destruct (save_target void can fs a name x FSifz T C W) as (b & E1 & E2). exists (aset x (in_format FSifz b) fs). split; [exact E2|].
  rewrite (load_in_gz dec _ x b) by apply aget_aset_same. apply (load_written void) with (b := b); auto. apply aget_aset_same.
Qed.
Print Assumptions C174_sifz.
(** A .sif file in ASCII is read back in every locale that knows ASCII. *)
Theorem C174_ascii_partial : forall dec void can fs a name x kd, knows_ascii dec -> is_tag (am_root a) = true -> writable (am_root a) -> ascii_tree (am_root a) ->
  target_of a name x kd -> can x = true ->
  exists fs', save void can fs a name = (fs', mkAnim (am_root a) kd (Some x), Ok tt) /\ load_in dec fs' x = Ok (mkAnim (reload (am_root a)) kd (Some x)).
Proof.
  intros dec void can fs a name x kd K G W A T C. pose proof (target_kind void can _ _ _ _ T) as [->| ->]; [|now apply C174_sifz].
  destruct (save_target void can fs a name x FSif T C W) as (b & E1 & E2). exists (aset x (in_format FSif b) fs). split; [exact E2|].
  assert (Ab : ascii (doc_out void (am_root a))) by (apply Forall_app; split; [exact decl_ascii|now apply node_ascii]).
  assert (Hb : b = doc_out void (am_root a)) by (rewrite ascii_out in E1 by exact Ab; now injection E1). subst b.
  rewrite (load_in_ascii dec _ x (doc_out void (am_root a))); [|exact K|exact Ab|apply aget_aset_same]. apply (load_written void) with (b := doc_out void (am_root a)); auto. apply aget_aset_same.
Qed.
Print Assumptions C174_ascii_partial.
(** In a locale with an encoding in which each byte is a character, any plain file that can be read at all is refused if it has a byte which is
    no character there. Else it's read as a document in which each character outside ASCII is several others: it's the right one just if
    there are none. *)
Theorem C174_page : forall page fs x a b, good_page page -> load fs x = Ok a -> aget x fs = Some (Raw b) ->
  (exists c, In c b /\ page c = None) /\ load_in (decode_by page) fs x = Err ValueError \/
  (forall c, In c b -> page c <> None) /\ load_in (decode_by page) fs x = Ok (mkAnim (garbled page (am_root a)) FSif (Some x)) /\
    (load_in (decode_by page) fs x = load fs x <-> ascii_tree (am_root a)).
Proof.
  intros page fs x a b Hp L B. destruct (load_is _ _ _ L) as (F & W & _ & _ & [[K _]|[_ [b' B']]]); [|congruence]. pose proof (load_page page Hp fs x b a B L) as E. rewrite K, F in E.
  destruct (decode_by page b) as [w|] eqn:D.
  - right. split; [intros c Hc X; assert (Y : decode_by page b = None) by (apply decode_by_none; eauto); congruence|]. split; [exact E|].
    rewrite E, L. destruct a as [n k f]. cbn [am_root am_kind am_file] in *. subst. split; intros H; [injection H as H; now apply (garbled_same page Hp)|now rewrite (ascii_garbled page Hp)].
  - left. split; [now apply decode_by_none|exact E].
Qed.
Print Assumptions C174_page.
(** So what was saved there as .sif is refused or read back wrongly, whenever there's a character outside ASCII; *)
Theorem C174_refuted : forall page void can fs a name x, good_page page -> is_tag (am_root a) = true -> writable (am_root a) -> target_of a name x FSif -> can x = true ->
  ~ ascii_tree (reload (am_root a)) ->
  exists fs', save void can fs a name = (fs', mkAnim (am_root a) FSif (Some x), Ok tt) /\ load fs' x = Ok (mkAnim (reload (am_root a)) FSif (Some x)) /\ (load_in (decode_by page) fs' x = Err ValueError \/
     exists n, load_in (decode_by page) fs' x = Ok (mkAnim n FSif (Some x)) /\ n = garbled page (reload (am_root a)) /\ n <> reload (am_root a)).
Proof.
  intros page void can fs a name x Hp G W T C NA. destruct (save_target void can fs a name x FSif T C W) as (b & Eb & E1). set (fs' := aset x (in_format FSif b) fs) in *. exists fs'. split; [exact E1|].
  assert (B : aget x fs' = Some (Raw b)) by apply aget_aset_same.
  assert (E2 : load fs' x = Ok (mkAnim (reload (am_root a)) FSif (Some x))) by (apply (load_written void) with (b := b); auto). split; [exact E2|].
  destruct (C174_page page fs' x _ b Hp E2 B) as [[_ E3]|(_ & E3 & _)]; [now left|right]. exists (garbled page (reload (am_root a))). split; [exact E3|]. split; [reflexivity|]. intros H. apply NA. apply (garbled_same page Hp); [now apply reload_ok|exact H].
Qed.
Print Assumptions C174_refuted.
(** and with ISO-8859-1, where all bytes are characters, never refused. *)
Theorem C174_latin1 : forall fs x a, load fs x = Ok a -> am_kind a = FSif ->
  load_in (decode_by latin1) fs x = Ok (mkAnim (garbled latin1 (am_root a)) FSif (Some x)) /\ (load_in (decode_by latin1) fs x = load fs x <-> ascii_tree (am_root a)).
Proof.
  intros fs x a L K. destruct (load_is _ _ _ L) as (_ & _ & _ & _ & [[_ [b B]]|[K' _]]); [|congruence]. destruct (C174_page latin1 fs x a b latin1_good L B) as [[(c & Hc & Ec) _]|(_ & E1 & E2)]; [exfalso|now split].
  assert (H : Forall (fun d => d < 256) b).
  { unfold load in L. rewrite B in L. destruct (kind_by_magic (Raw b)) as [kd|]; [|discriminate]. cbn [bind] in L. destruct kd; try discriminate. cbn [main_file] in L. unfold parse_bytes in L. destruct (decode b) as [y|] eqn:D; [|discriminate].
    unfold decode in D. destruct (utf8_in b) as [z|]; [|discriminate]. destruct (utf8_out z) as [b'|] eqn:O; [|discriminate]. destruct (pstr_eqb b b') eqn:Eb; [|discriminate]. apply pstr_eqb_spec in Eb. subst. now apply (out_bytes z). }
  rewrite Forall_forall in H. unfold latin1 in Ec. specialize (H c Hc). cbv beta in H. apply N.ltb_lt in H. now rewrite H in Ec.
Qed.
Print Assumptions C174_latin1.

(** An animation called "é" *)
Definition xnamed (x : pstr) : node := El (s "canvas") [(s "version", AStr (s "1.2"))] [El (s "name") [] [Txt x]].
Lemma xnamed_ok x : forallb xml_char x = true -> writable (xnamed x).
Proof.
  intros H. split; [apply good_nameb; [discriminate|reflexivity]|]. split.
  { split; [repeat constructor; intros []|]. constructor; [|constructor]. split; [apply good_nameb; [discriminate|reflexivity]|apply good_textb; reflexivity]. }
  split; [|exact I]. split; [apply good_nameb; [discriminate|reflexivity]|]. split; [split; constructor|]. split; [now apply good_textb|exact I].
Qed.
Example C174_nonvacuous :
  let n := xnamed [233] in let a := mkAnim n FBlank None in
  is_tag n = true /\ writable n /\ target_of a (Some xsif) xsif FSif /\ target_of a (Some xsifz) xsifz FSifz /\ ~ ascii_tree (reload n) /\ garbled latin1 (reload n) = xnamed [195; 169] /\
  garbled cp1252 (xnamed [8364]) = xnamed [226; 8218; 172] /\ decode_by cp1252 [195; 129] = None /\
  ascii_tree (xnamed (s "e")) /\ good_page latin1 /\ good_page cp1252 /\ knows_ascii (decode_by cp1252) /\ knows_ascii decode.
Proof.
  cbv zeta. split; [reflexivity|]. split; [now apply xnamed_ok|]. split; [exact (conj eq_refl xsif_name)|]. split; [exact (conj eq_refl xsifz_name)|]. split.
  { change (reload (xnamed [233])) with (xnamed [233]). intros (_ & _ & (_ & _ & H & _) & _). inversion_clear H as [|? ? H1 _]. revert H1. discriminate. }
  split; [reflexivity|]. split; [reflexivity|]. split; [reflexivity|]. split; [repeat (constructor || split)|]. split; [exact latin1_good|]. split; [exact cp1252_good|]. split; [exact (page_ascii cp1252 cp1252_good)|].
  intros b Hb. apply decode_out. now apply ascii_out.
Qed.
