(** Proofs about layer objects *)
From Verif Require Import DocModel LayModel IdnModel IdnSpec.
From Coq Require Import Arith Lia.

Lemma step_objs S a : exists new, i_objs (fst (istep S a)) = i_objs S ++ new /\
  match snd (istep S a) with Ok l => l = seq (length (i_objs S)) (length new) | Err _ => new = [] end.
Proof.
  assert (G : forall r, exists new, i_objs (fst (got S r)) = i_objs S ++ new /\ match snd (got S r) with Ok l => l = seq (length (i_objs S)) (length new) | Err _ => new = [] end).
  { intros [l|e]; cbn [got new_objs fst snd i_objs]; [|exists []; now rewrite app_nil_r]. eexists. split; [reflexivity|]. now rewrite map_length. }
  assert (C : forall c, exists new, i_objs (fst (changed S c)) = i_objs S ++ new /\ match snd (changed S c) with Ok l => l = seq (length (i_objs S)) (length new) | Err _ => new = [] end).
  { intros [F [u|e]]; exists []; cbn; now rewrite app_nil_r. }
  assert (N : exists new, i_objs S = i_objs S ++ new /\ new = @nil (okind * N)) by (exists []; now rewrite app_nil_r).
  destruct a as [o|o i|o|g o|g i o]; cbn [istep].
  - destruct (nth_error (i_objs S) o) as [[kd u]|]; [apply G|exact N].
  - destruct (nth_error (i_objs S) o) as [[kd u]|]; [apply G|exact N].
  - destruct (nth_error (i_objs S) o) as [[kd u]|]; [apply G|exact N].
  - destruct (nth_error (i_objs S) g) as [[kd u]|]; [|exact N]. destruct (nth_error (i_objs S) o) as [[kd' u']|]; [apply C|exact N].
  - destruct (nth_error (i_objs S) g) as [[kd u]|]; [|exact N]. destruct (nth_error (i_objs S) o) as [[kd' u']|]; [apply C|exact N].
Qed.

(** The results of a program, one after another, are the numbers from the first new one on. *)
Definition all_given (rs : list (res (list nat))) : list nat := concat (map (fun r => match r with Ok l => l | Err _ => [] end) rs).
Lemma steps_objs l : forall S, exists new, i_objs (fst (isteps S l)) = i_objs S ++ new /\ all_given (snd (isteps S l)) = seq (length (i_objs S)) (length new).
Proof.
  induction l as [|a l IH]; intros S; cbn [isteps].
  - exists []. now rewrite app_nil_r.
  - destruct (step_objs S a) as (n1 & E1 & R1). destruct (istep S a) as [S1 r]. cbn [fst snd] in *. destruct (IH S1) as (n2 & E2 & R2). destruct (isteps S1 l) as [S2 rs]. cbn [fst snd] in *.
    exists (n1 ++ n2). split; [now rewrite E2, E1, app_assoc|]. unfold all_given in *. cbn [map concat]. rewrite R2, E1, !app_length, seq_app.
    f_equal. destruct r as [l0|e]; [exact R1|]. now rewrite R1.
Qed.
