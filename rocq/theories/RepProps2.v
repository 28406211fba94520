(** More about the replacer: running it twice on many files, and every moment of writing a file. *)
From Coq Require Import Lia.
From Verif Require Import RepModel RepSpec RepProofs RepProofs2 RepProofs3 RepProofs4 RepProofs5 RepProps ScanModel ScanSpec ScanProofs3 ScanProps.
Local Open Scope N_scope.

(** The file is as it should be: the blocks begin and end, and no class begins in one of them. *)
Definition fine_file (d : disk) (name : pstr) : Prop := exists x ps, file_text d name x /\ lines_of x (flat_map piece_lines ps) /\ ~ malformed (flat_map piece_lines ps) /\ Forall piece_ok ps /\
  forall a b c, In (Block a b c) ps -> Forall (fun l => forall y, ~ is_class l y) b.

(** ** C67: all files *)

Theorem C67_all : forall fs d names, fs <> [] -> fields_encodable fs -> (forall k v, aget k fs = Some v -> ~ In 13 v) -> field_quiet fs ->
  NoDup names -> (forall n, In n names -> exists r, n = r ++ s ".py") -> (forall n, In n names -> fine_file d n) ->
  let d1 := o_disk (handle_all fs d names) in let o2 := handle_all fs d1 names in
  o_res o2 = Ok tt /\ forall n, (forall m, In m names -> n <> temp_name m) -> same_file d1 (o_disk o2) n.
Proof.
  intros fs d names Hf He H13 Hq Hn Hp Hw. cbv zeta.
  assert (T : forall n, In n names -> o_res (handle fs d n) = Ok tt /\ let d1 := o_disk (handle fs d n) in let o2 := handle fs d1 n in o_res o2 = Ok tt /\ forall k, same_file d1 (o_disk o2) k).
  { intros n I. destruct (Hw n I) as (x & ps & A & B & C & D & E). split; [|exact (C67_partial fs d n x ps Hf He H13 Hq A B C D E)].
    destruct (pieces_ex fs ps [] D) as (out & Ho); [intros p l q i El Hs Hc; apply C; right; left; exists p, l, q, i; now repeat split|]. now apply (handle_pieces fs d n x ps out). }
  pose proof (py_apart names Hp) as Ap. destruct (all_result fs Hf names d Hn Ap) as [(R1 & R2 & _)|(a & n & b & e & E & _ & R & _)]; [|destruct (T n) as [Z _]; [rewrite E; apply in_or_app; right; now left|congruence]].
  set (d1 := o_disk (handle_all fs d names)) in *.
  assert (S : forall n, In n names -> o_res (handle fs d1 n) = Ok tt /\ same_file d1 (o_disk (handle fs d1 n)) n).
  { intros n I. destruct (T n I) as (_ & T2 & T3). rewrite Forall_forall in R2. destruct (R2 n I) as (_ & R). destruct (handle_local fs _ d1 n R) as (L1 & L2 & _). split; [now rewrite L2 in *|].
    apply same_trans with (o_disk (handle fs d n)); [now apply same_sym|]. apply same_trans with (2 := L1). apply T3. }
  destruct (all_result fs Hf names d1 Hn Ap) as [(Q1 & Q2 & _)|(a & n & b & e & E & _ & R & _)]; [|destruct (S n) as [Z _]; [rewrite E; apply in_or_app; right; now left|congruence]].
  split; [exact Q1|]. intros n Hk. destruct (in_dec (list_eq_dec N.eq_dec) n names) as [I|I].
  - rewrite Forall_forall in Q2. destruct (Q2 n I) as (_ & Q). apply same_trans with (2 := Q). now apply S.
  - destruct (C110_moments fs d1 names Hf) as (_ & M & _). destruct (C110_crash fs d1 names _ Hn Hp M) as [_ O]. now apply O.
Qed.
Print Assumptions C67_all.
Example C67_all_nonvacuous : fine_file xdisk xa /\ fine_file xdisk xb.
Proof.
  split.
  - exists xtext, xpieces. split; [exact xfile|]. split; [exact xlines|]. destruct C67_nonvacuous as (_ & _ & A & B & _). split; [exact A|]. split; [exact xok|exact B].
  - exists (text [s "nothing"]), [Outside (text [s "nothing"])]. split; [exists (text [s "nothing"]); split; [exists (text [s "nothing"]); split; reflexivity|reflexivity]|].
    split; [apply lines_spec; vm_compute; reflexivity|]. split; [|split; [constructor; [marker_no|constructor]|intros a b c [H|[]]; discriminate H]].
    destruct (run_result xfields [text [s "nothing"]]) as [(st & _ & H)|(st & H & _)]; [exact H|]. exfalso. assert (X : snd (r_lines xfields r_start [text [s "nothing"]]) = Ok tt) by (vm_compute; reflexivity). rewrite H in X. discriminate X.
Qed.

(** ** C144: the whole program *)

Theorem C144_program : forall pr ex d names x root, (forall c, pr c = true -> encodable [c]) ->
  RepSpec.contains d (s "test/pick-and-mix.sif") x -> parse_doc (norm_eol x) = Ok root -> python_names root -> soup_layers root <> [] ->
  NoDup names -> (forall n, In n names -> exists r, n = r ++ s ".py") -> (forall n, In n names -> fine_file d n) ->
  let o := scan_pick_and_mix pr ex d names in let o2 := scan_pick_and_mix pr ex (o_disk o) names in
  o_res o2 = o_res o /\ forall n, (forall m, In m names -> n <> temp_name m) -> same_file (o_disk o) (o_disk o2) n.
Proof.
  intros pr ex d names x root Hpr (b & A & B) P Py L Hn Hp Hw. cbv zeta.
  assert (U : forall d', aget (s "test/pick-and-mix.sif") d' = Some b -> scan_pick_and_mix pr ex d' names = match scan_soup pr ex root with Err e => mkO d' [] [] (Err e) | Ok fs => handle_all fs d' names end).
  { intros d' E. unfold scan_pick_and_mix. rewrite E, (proj2 (decode_spec b x) B), P. reflexivity. }
  destruct (scan_soup pr ex root) as [fs|e] eqn:S; [|rewrite (U d A); cbn [o_disk]; rewrite (U d A); split; [reflexivity|intros; reflexivity]].
  rewrite (U d A). destruct (scan_good pr Hpr ex root fs Py S) as (G1 & G2 & G3). assert (Hf : fs <> []).
  { intros ->. destruct (soup_layers root) as [|n l] eqn:E; [contradiction|]. destruct (C142_blocks _ _ _ _ S) as (_ & K & _).
    destruct (types_of pr ex _ _ _ _ _ S n) as (ty & T); [rewrite E; now left|]. destruct (proj2 (K (title ty))) as []. exists n, ty. rewrite E. split; [now left|]. now split. }
  assert (Z : aget (s "test/pick-and-mix.sif") (o_disk (handle_all fs d names)) = Some b).
  { destruct (C110_moments fs d names Hf) as (_ & M & _). destruct (C110_crash fs d names _ Hn Hp M) as [_ O]. rewrite <- A. symmetry. apply O.
    - intros I. destruct (Hp _ I) as (r & E). apply (f_equal (@rev N)) in E. rewrite rev_app_distr in E. discriminate E.
    - intros m _ E. unfold temp_name in E. apply (f_equal (@rev N)) in E. rewrite rev_app_distr in E. discriminate E. }
  rewrite (U _ Z). destruct (C67_all fs d names Hf G1 G2 G3 Hn Hp Hw) as (Q1 & Q2). split; [|exact Q2]. rewrite Q1. symmetry.
  destruct (all_result fs Hf names d Hn (py_apart names Hp)) as [(R1 & _)|(a & n & c & e & E & _ & R & _)]; [exact R1|].
  destruct (Hw n) as (y & ps & W1 & W2 & W3 & W4 & W5); [rewrite E; apply in_or_app; right; now left|].
  destruct (pieces_ex fs ps [] W4) as (out & Ho); [intros p l q i El Hs Hc; apply W3; right; left; exists p, l, q, i; now repeat split|].
  destruct (handle_pieces fs d n y ps out Hf G1 W1 W2 W4 Ho) as (X & _). congruence.
Qed.
Print Assumptions C144_program.

(** ** C69: every moment *)

(** While a file is written, any part of the new text can be in the temporary file. *)
Theorem C69_moments : forall fs d name b p q, o_written (handle fs d name) = [name] -> aget name (o_disk (handle fs d name)) = Some b -> b = p ++ q ->
  exists d', In d' (handle_states fs d name) /\ aget (temp_name name) d' = Some p /\ forall n, n <> temp_name name -> same_file d d' n.
Proof.
  intros fs d name b p q W A E. unfold handle in W, A. unfold handle_states. destruct fs as [|f fs]; [discriminate W|]. destruct (aget name d) as [b0|]; [|discriminate W]. destruct (decode b0) as [x|]; [|discriminate W].
  destruct (r_lines (f :: fs) r_start (lines (norm_eol x))) as [st [[]|e]]; [|discriminate W]. destruct (r_changed st); [|discriminate W].
  unfold write_to in W, A. unfold write_states. destruct (utf8_out (r_result st)) as [b1|]; [|discriminate W]. cbn [o_disk] in A.
  unfold rename in A. rewrite AnimProofs2.aget_aset_same in A. rewrite AnimProofs2.aget_aset_same in A. injection A as ->.
  exists (aset (temp_name name) p d). split; [|split; [apply AnimProofs2.aget_aset_same|]].
  - right. apply in_or_app. left. apply in_map_iff. exists (length p). split; [|apply in_seq; rewrite E, app_length; lia]. rewrite E. rewrite firstn_app, Nat.sub_diag, firstn_all. cbn [firstn]. now rewrite app_nil_r.
  - intros n Hne. unfold same_file. now rewrite AnimProofs2.aget_aset_other.
Qed.
Print Assumptions C69_moments.
Example C69_moments_nonvacuous : o_written (handle xfields xdisk xa) = [xa] /\ aget xa (o_disk (handle xfields xdisk xa)) = Some (s "# hea" ++ skipn 5 (concat xout)).
Proof. split; vm_compute; reflexivity. Qed.
