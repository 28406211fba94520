(** C115: vectors with other components than x and y. *)
From Coq Require Import Permutation Lia.
From Verif Require Import PexModel PexSpec SerProofs ValProofs ValProofs2 ValSpec TlProofs3 PexProofs PexProofs2 PexProofs3 PexProofs4 PexProps.
Local Open Scope Z_scope.

Definition spaced (a : pstr * pstr) : pstr := fst a ++ s ": " ++ snd a.
Lemma read_spaced f0 l d : Forall2 (both f0) l d -> l <> [] -> forall f r, (length l + f0 < f)%nat ->
  read_dict f (join (s ", ") (map spaced l) ++ 125%N :: r) = Some (d, r).
Proof.
  induction 1 as [|[kx vx] [k v] l d [Hk Hv] Hl IH]; intros Hne f r Hf; [contradiction|]. cbn [fst snd] in *.
  destruct f as [|f]; [lia|]. cbn [length] in Hf.
  assert (STEP : forall rest, ends_number rest ->
    read_dict (S f) (spaced (kx, vx) ++ rest) =
      match skip rest with
      | 44%N :: r' => match read_dict f (skip r') with Some (l, b) => Some ((k, v) :: l, b) | None => None end
      | 125%N :: r' => Some ([(k, v)], r')
      | _ => None
      end).
  { intros rest He. unfold spaced. cbn [fst snd]. rewrite <- !app_assoc. rewrite read_dict_step by exact (entry_head _ _ _ _ Hk).
    rewrite (proj2 Hk) by (first [lia|reflexivity]). change (s ": " ++ vx ++ rest) with (58%N :: 32%N :: vx ++ rest).
    replace (skip (58%N :: 32%N :: vx ++ rest)) with (58%N :: 32%N :: vx ++ rest) by reflexivity. cbv iota.
    change (skip (32%N :: vx ++ rest)) with (skip (vx ++ rest)).
    rewrite (entry_skip _ _ _ _ Hv). rewrite (proj2 Hv) by (first [lia|exact He]). reflexivity. }
  destruct l as [|b l].
  - inversion Hl; subst. cbn [map join]. rewrite STEP by reflexivity. reflexivity.
  - change (join (s ", ") (map spaced ((kx, vx) :: b :: l))) with (spaced (kx, vx) ++ [44; 32]%N ++ join (s ", ") (map spaced (b :: l))).
    rewrite <- app_assoc. rewrite STEP by reflexivity.
    change (([44; 32]%N ++ join (s ", ") (map spaced (b :: l))) ++ 125%N :: r) with (44%N :: 32%N :: join (s ", ") (map spaced (b :: l)) ++ 125%N :: r).
    set (y := join (s ", ") (map spaced (b :: l)) ++ 125%N :: r) in *.
    replace (skip (44%N :: 32%N :: y)) with (44%N :: 32%N :: y) by reflexivity.
    cbv iota. change (skip (32%N :: y)) with (skip y). replace (skip y) with y.
    + unfold y. rewrite IH by (first [discriminate|lia]). reflexivity.
    + symmetry. unfold y. destruct b as [kx' vx']. inversion Hl as [|? [k' v'] ? ? [Hk' _] _]; subst. cbn [fst] in Hk'.
      destruct l as [|b l]; unfold spaced; cbn [map join fst snd]; rewrite <- !app_assoc; apply (entry_skip _ _ _ _ Hk').
Qed.
Lemma literal_dict pr l : NoDup (map fst l) -> Forall (fun kv => code_points (fst kv) /\ code_points (snd kv)) l ->
  is_literal (dict_str pr (map (fun kv => (fst kv, Some (snd kv))) l)) (PDict (map (fun kv => (fst kv, PStr (snd kv))) l)).
Proof.
  intros ND P. exists (S (S (S (length l + 1)))). unfold dict_str. rewrite map_map. cbn [fst snd].
  set (t := map (fun kv : pstr * pstr => (repr_str pr (fst kv), repr_str pr (snd kv))) l).
  replace (map (fun kv : pstr * pstr => repr_str pr (fst kv) ++ s ": " ++ repr_str pr (snd kv)) l) with (map spaced t) by (unfold t; now rewrite map_map).
  change (s "{" ++ join (s ", ") (map spaced t) ++ s "}") with (123%N :: join (s ", ") (map spaced t) ++ [125%N]). rewrite read_braces.
  assert (D : dict_of (map (fun kv : pstr * pstr => (PStr (fst kv), PStr (snd kv))) l) = Some (PDict (map (fun kv => (fst kv, PStr (snd kv))) l))).
  { unfold dict_of. rewrite (string_items_map fst (fun kv : pstr * pstr => PStr (snd kv)) l). rewrite adict_id; [reflexivity|]. now rewrite map_map. }
  assert (B : Forall2 (both 1) t (map (fun kv : pstr * pstr => (PStr (fst kv), PStr (snd kv))) l)).
  { unfold t. clear -P. induction P as [|kv l [P1 P2] _ IH]; constructor; [|exact IH]. split; now apply entry_string. }
  destruct l as [|kv l]; [reflexivity|]. replace (skip (join (s ", ") (map spaced t) ++ [125%N])) with (join (s ", ") (map spaced t) ++ [125%N]).
  - rewrite (read_spaced 1 t _ B); [|discriminate|unfold t; rewrite map_length; lia]. now rewrite D.
  - symmetry. inversion P as [|? ? [P1 _] _]. subst. destruct l; unfold t, spaced; cbn [map join fst snd]; rewrite <- !app_assoc; apply (entry_skip _ _ _ _ (entry_string pr _ P1)).
Qed.

(** C115: the expression for a vector whose components are not x and y is a dictionary, and it
    recreates the vector exactly, if there is text in all of them. *)
Theorem C115_other :
  forall printable n cx l, is_animated n = false -> get_value VXY n cx = Ok (PDict (map (fun kv => (fst kv, PStr (snd kv))) l)) ->
  ~ Permutation (map fst l) [s "x"; s "y"] -> Forall (fun kv => code_points (fst kv) /\ code_points (snd kv)) l ->
  exists m, recreates printable VXY n cx m /\ forall cy, get_value VXY m cy = get_value VXY n cx.
Proof.
  intros pr n cx l A G NP P. assert (Dn : vector_dict n = map (fun kv => (fst kv, Some (snd kv))) l).
  { cbn [get_value] in G. apply Ok_inj in G. injection G as G. clear -G. revert l G. induction (vector_dict n) as [|[k o] d IH]; intros [|[k' v] l] G; try discriminate; [reflexivity|]. cbn [map fst snd] in *. destruct o as [y|]; [|discriminate]. injection G as -> -> G. cbn [map fst snd]. f_equal. now apply IH. }
  assert (ND : NoDup (map fst l)). { replace (map fst l) with (map fst (vector_dict n)); [apply adict_NoDup|]. rewrite Dn, map_map. reflexivity. }
  assert (E : vector_str pr n = Ok (dict_str pr (vector_dict n))).
  { unfold vector_str. rewrite A. assert (Q : Permutation (vector_keys n) (map fst l)). { unfold vector_keys. rewrite Dn, map_map. apply sort_perm. }
    destruct (vector_keys n) as [|k1 [|k2 [|]]]; try reflexivity. destruct (pstr_eqb k1 (s "x") && pstr_eqb k2 (s "y")) eqn:X; [|reflexivity]. apply andb_true_iff in X as [X1 X2]. apply pstr_eqb_spec in X1, X2. subst. exfalso. apply NP. now symmetry. }
  exists (El (s "vector") [] (map (fun kv : pstr * pstr => El (fst kv) [] [Txt (snd kv)]) l)). split.
  - exists (EStr (dict_str pr (vector_dict n))), (PDict (map (fun kv => (fst kv, PStr (snd kv))) l)). split; [cbn [expression flat_expr]; now rewrite E|]. split; [cbn [expr_text]; rewrite Dn; now apply literal_dict|].
    unfold new_value, new_flat, vector_set. cbn [vector_members py_items empty_tag tag_kids]. rewrite map_map. cbn [fst snd]. rewrite vector_append_strs. reflexivity.
  - intros cy. rewrite G. cbn [get_value]. rewrite vector_tags_dict by exact ND. rewrite map_map. reflexivity.
Qed.
Print Assumptions C115_other.
Example C115_other_nonvacuous :
  exists n l, new_value VXY (PDict [(s "x", PFlo 1); (s "it's", PStr (s "a ""b"" \ c")); (s "z", PInt 3)]) = Ok n /\ is_animated n = false /\ get_value VXY n None = Ok (PDict (map (fun kv => (fst kv, PStr (snd kv))) l)) /\
    ~ Permutation (map fst l) [s "x"; s "y"] /\ Forall (fun kv => code_points (fst kv) /\ code_points (snd kv)) l /\ length l = 3%nat.
Proof.
  eexists. exists [(s "x", s "1.0000000000"); (s "it's", s "a ""b"" \ c"); (s "z", s "3")]. split; [vm_compute; reflexivity|]. split; [reflexivity|]. split; [reflexivity|].
  split; [intros H; apply Permutation_length in H; discriminate|]. split; [|reflexivity]. repeat constructor.
Qed.
