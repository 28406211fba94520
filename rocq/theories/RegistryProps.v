(** Properties C13 and C14. *)
From Verif Require Import PyBase RegistryModel RegistrySpec RegistryProofs.

(** C13: names which differ only in case and underscores look up the same. *)
Theorem C13_lookup_ignores_case_and_underscores :
  forall (C : Type) (h : list (option pstr * pstr * C)) (a b : pstr),
  same_name a b -> from_name (run h) a = from_name (run h) b.
Proof. intros C h a b. exact (lookup_same (run h) a b). Qed.
Print Assumptions C13_lookup_ignores_case_and_underscores.

Example C13_nonvacuous :
  same_name (s "Plant_Grow") (s "plantgrow")
  /\ from_name (run [(None, s "PlantGrow", 1%nat)]) (s "__PLANT_GROW") = Ok 1%nat
  /\ from_name (run [(None, s "PlantGrow", 1%nat)]) (s "plan") = Err KeyError.
Proof. split; [apply normalise_same; reflexivity|split; reflexivity]. Qed.

(** C13, converse: the lookup distinguishes all other names. *)
Theorem C13_nothing_else_is_ignored :
  forall a b, (forall (h : list (option pstr * pstr * nat)), from_name (run h) a = from_name (run h) b) ->
  a <> [] -> same_name b a.
Proof. exact lookup_distinguishes. Qed.
Print Assumptions C13_nothing_else_is_ignored.

(** C14: after registering [e], looking up its name gives it, and any name
    that is not equivalent is unaffected. *)
Theorem C14_last_registration_wins :
  forall (C : Type) (h : list (option pstr * pstr * C)) (e : option pstr * pstr * C) (x : pstr),
  from_name (run (h ++ [e])) (registered_name e) = Ok (snd e)
  /\ (~ same_name x (registered_name e) -> from_name (run (h ++ [e])) x = from_name (run h) x).
Proof. intros C. exact (@lookup_register C). Qed.
Print Assumptions C14_last_registration_wins.

(** C14: a lookup gives exactly the class of the last equivalent registration. *)
Theorem C14_lookup_is_last_equivalent :
  forall (C : Type) (h : list (option pstr * pstr * C)) (x : pstr) (c : C),
  from_name (run h) x = Ok c <->
  exists h1 e h2, h = h1 ++ e :: h2 /\ snd e = c /\ same_name x (registered_name e)
    /\ Forall (fun e' => ~ same_name x (registered_name e')) h2.
Proof. intros C. exact (@lookup_last C). Qed.
Print Assumptions C14_lookup_is_last_equivalent.

(** C14: KeyError exactly when no equivalent name was ever registered. *)
Theorem C14_keyerror_iff_never_registered :
  forall (C : Type) (h : list (option pstr * pstr * C)) (x : pstr),
  from_name (run h) x = Err KeyError <->
  Forall (fun e => ~ same_name x (registered_name e)) h.
Proof. intros C. exact (@lookup_none C). Qed.
Print Assumptions C14_keyerror_iff_never_registered.

Example C14_nonvacuous :
  let h := [(None, s "Group", 1%nat); (Some (s "blur"), s "Blur_", 2%nat); (Some (s "gr_oup"), s "X", 3%nat)] in
  from_name (run h) (s "GROUP") = Ok 3%nat /\ from_name (run h) (s "Blur") = Ok 2%nat
  /\ from_name (run h) (s "circle") = Err KeyError.
Proof. repeat split. Qed.
