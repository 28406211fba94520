(** Which tags a call leaves alone. *)
From Verif Require Import LayModel AnimModel WrSpec.
Local Open Scope N_scope.

(** The tag t is the tag v, or is somewhere in it. *)
Definition within (F : forest) (v t : N) : Prop := exists n, fget v F = Some n /\ In t (uids n).
(** Neither is in the other. *)
Definition apart (F : forest) (v t : N) : Prop := ~ within F v t /\ ~ within F t v.

(** The parameter which [layer.k] stands for, if it does for one *)
Definition param_name (c : lcls) (k : pstr) : option pstr :=
  match aget k (all_fields c) with Some (FParam _ _) => Some k | Some (FShort up) => Some up | _ => None end.
(** The value of the parameter isn't in the tag v, nor v in it. *)
Definition field_away (F : forest) (v u : N) (c : lcls) (k : pstr) : Prop :=
  forall n f w d, fget u F = Some n -> param_name c k = Some f -> param_get F n f = Ok (w, d) -> apart F v (iuid w).

(** The call isn't about the tag v: it changes nothing in v, and doesn't rewrite what v is in. It may change
    attributes of tags that v is in, replace or move them, or put layers beside v. *)
Definition away (F : forest) (v : N) (e : edit) : Prop :=
  match e with
  | ENew _ | EText _ => True
  | EItem u f x => (forall n old c, fget u F = Some n -> layer_getitem n f = Ok (old, c) -> ~ within F v (iuid old)) /\
                   match x with SValue w _ => ~ within F v w | SPlain _ => True end
  | EField u c k _ => ~ within F v u /\ field_away F v u c k
  | EAnim u k _ => ~ within F v u /\ field_away F v u cls_Group k /\
                   (forall n t, fget u F = Some n -> k = s "desc" -> ifind (named (s "desc")) n = Some t -> apart F v (iuid t))
  | EAppend kd g l | EInsert kd g _ l => ~ within F v l /\ (forall n c, fget g F = Some n -> canvas_of kd n = Ok c -> ~ within F v (iuid c))
  | EValue w _ _ => apart F v w
  end.
(** None of the calls is, at the time *)
Fixpoint all_away (F : forest) (v : N) (es : list edit) : Prop :=
  match es with [] => True | e :: l => away F v e /\ all_away (fst (apply_edit F e)) v l end.

(** The tags the caller names *)
Definition names (e : edit) : list N :=
  match e with
  | ENew _ | EText _ => []
  | EItem u _ x => u :: match x with SValue w _ => [w] | SPlain _ => [] end
  | EField u _ _ _ | EAnim u _ _ => [u]
  | EAppend _ g l | EInsert _ g _ l => [g; l]
  | EValue w _ _ => [w]
  end.
(** The calls only name tags which, at the time, aren't in v, and v isn't in them. *)
Fixpoint all_apart (F : forest) (v : N) (es : list edit) : Prop :=
  match es with [] => True | e :: l => (forall t, In t (names e) -> apart F v t) /\ all_apart (fst (apply_edit F e)) v l end.
