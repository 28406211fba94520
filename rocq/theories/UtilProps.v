(** Property C163: the texts of attributes *)
From Verif Require Import PyFmtProofs PyFmtProofs2 LayModel UtilModel.
Local Open Scope Z_scope.

(** ** C163 values to texts of attributes and back *)

(** The text of a value is one from which a field of that type reads the value back (field.py): truth values (of anything that has one), whole numbers,
    floats and texts. What is missing: the function for the other direction. *)
Theorem C163_text_partial :
  (forall v b, v <> PNone -> py_bool v = Ok b -> exists x, type_and_value_to_str TBoolA v = Ok (Some x) /\ attr_conv TBoolA (AStr x) = Ok (PBool b)) /\
  (forall z, exists x, type_and_value_to_str TIntA (PInt z) = Ok (Some x) /\ attr_conv TIntA (AStr x) = Ok (PInt z)) /\
  (forall q, is_dbl q -> exists x, type_and_value_to_str TFloatA (PFlo q) = Ok (Some x) /\ attr_conv TFloatA (AStr x) = Ok (PFlo q)) /\
  (forall y, exists x, type_and_value_to_str TStrA (PStr y) = Ok (Some x) /\ attr_conv TStrA (AStr x) = Ok (PStr y)) /\
  (forall t, type_and_value_to_str t PNone = Ok None).
Proof.
  split; [|split; [|split; [|split]]].
  - intros v b Hv Hb. exists (if b then s "true" else s "false"). split; [|destruct b; reflexivity]. unfold type_and_value_to_str. rewrite Hb. destruct v; [congruence|..]; destruct b; reflexivity.
  - intros z. exists (dec_Z z). split; [reflexivity|]. cbn [attr_conv]. now rewrite parse_int_dec.
  - intros q Hq. exists (repr_float q). split; [reflexivity|]. cbn [attr_conv float_of_aval]. now rewrite parse_repr.
  - intros y. exists y. split; reflexivity.
  - reflexivity.
Qed.
Print Assumptions C163_text_partial.
Example C163_nonvacuous : type_and_value_to_str TBoolA (PInt 3) = Ok (Some (s "true")) /\ type_and_value_to_str TFloatA (PFlo (1 # 2)) = Ok (Some (s "0.5")) /\ type_and_value_to_str TIntA (PInt (-7)) = Ok (Some (s "-7")).
Proof. repeat split; vm_compute; reflexivity. Qed.
(** It raises NameError for all types and texts. *)
Theorem C163_back_refuted : forall t v x, type_and_value_to_str t v = Ok x -> type_and_str_to_value t x = Err NameError.
Proof. reflexivity. Qed.
Print Assumptions C163_back_refuted.
