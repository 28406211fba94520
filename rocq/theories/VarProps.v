(** C150: parameters behave like variables. *)
From Coq Require Import Lia.
From Verif Require Import LayModel LaySpec DocProofs LayProps VarSpec VarProofs.
Local Open Scope N_scope.

(** Any number of assignments to parameters of any layers, some of which may raise exceptions: each returns or raises what it would if the value was
    on its own, and at the end each parameter holds what a variable would. The variables don't depend on each other. Those of two layers are the same
    just when the names lead to the same param.
    (For [layer['k'] = value] with a value object, whose tag is moved there from where it was, see C51.) *)
Theorem C150_parameters : forall F h l, wf F -> agrees F h -> to_variables F h l ->
  let F' := fst (assigns F l) in let h' := fst (store_assigns h (to_places F l)) in
  snd (assigns F l) = snd (store_assigns h (to_places F l)) /\ wf F' /\ agrees F' h' /\
  (forall u k q, place F u k = Some q -> place F' u k = Some q).
Proof. intros F h l W A T. destruct (assigns_agree l F h W A T) as [E [K1 K2 K3 _]]. auto. Qed.
Print Assumptions C150_parameters.
(** Reading gives what the variable holds: by name or by field, from any layer that has it. *)
Theorem C150_read : forall F h u k q c t, wf F -> agrees F h -> place F u k = Some q -> h q = Some (c, t) ->
  exists n w, fget u F = Some n /\ param_get F n k = Ok (w, c) /\ layer_getitem n k = Ok (w, c) /\ forget w = t.
Proof. exact read_of. Qed.
Print Assumptions C150_read.
(** Every document has its variables: all params with one value of a simple class. *)
Theorem C150_all : forall F, agrees F (variables F) /\ forall q c w, variable F q c w -> variables F q = Some (c, forget w).
Proof. intros F. split; [apply variables_agree|apply variables_all]. Qed.
Print Assumptions C150_all.
(** What was assigned last, without an exception, is what is read. *)
Theorem C150_last : forall F l1 a l2 q c t rs1 rs2 u k, wf F -> to_variables F (variables F) (l1 ++ a :: l2) ->
  place F (as_layer_ a) (as_name a) = Some q -> variables F q = Some (c, t) ->
  snd (assigns F (l1 ++ a :: l2)) = rs1 ++ Ok tt :: rs2 -> length rs1 = length l1 ->
  Forall2 (fun b r => place F (as_layer_ b) (as_name b) = Some q -> r <> Ok tt) l2 rs2 -> place F u k = Some q ->
  exists n w, let F' := fst (assigns F (l1 ++ a :: l2)) in fget u F' = Some n /\ param_get F' n k = Ok (w, c) /\ layer_getitem n k = Ok (w, c) /\
    made c (as_how a) (as_value_ a) (forget w).
Proof. intros F l1 a l2 q c t rs1 rs2 u k W T Ha Hq E L H Hp. exact (assigns_last F (variables F) l1 a l2 q c t rs1 rs2 u k W (variables_agree F) T Ha Hq E L H Hp). Qed.
Print Assumptions C150_last.
(** A parameter that wasn't assigned to, or only with exceptions, is what it was. *)
Theorem C150_others : forall F l u k q c t, wf F -> to_variables F (variables F) l -> place F u k = Some q -> variables F q = Some (c, t) ->
  Forall2 (fun b r => place F (as_layer_ b) (as_name b) = Some q -> r <> Ok tt) l (snd (assigns F l)) ->
  exists n w, let F' := fst (assigns F l) in fget u F' = Some n /\ param_get F' n k = Ok (w, c) /\ layer_getitem n k = Ok (w, c) /\ forget w = t.
Proof. intros F l u k q c t W T Hp Hq H. exact (assigns_same F (variables F) l u k q c t W (variables_agree F) T Hp Hq H). Qed.
Print Assumptions C150_others.

(** A group (1) with a circle (8) and a text (14) in it *)
Definition vforest : forest :=
  [IE 1 (s "layer") [(s "type", AStr (s "group"))]
     [IE 2 (s "param") [(s "name", AStr (s "amount"))] [IE 3 (s "real") [(s "value", AStr (s "1.0"))] []];
      IE 4 (s "param") [(s "name", AStr (s "canvas"))]
        [IE 5 (s "canvas") []
           [IE 8 (s "layer") [(s "type", AStr (s "circle"))]
              [IE 9 (s "param") [(s "name", AStr (s "radius"))] [IE 10 (s "real") [(s "value", AStr (s "2.0"))] []];
               IT (s "  ");
               IE 11 (s "param") [(s "name", AStr (s "color"))] [IE 12 (s "color") [] []]];
            IE 14 (s "layer") [(s "type", AStr (s "text"))]
              [IE 15 (s "param") [(s "name", AStr (s "text"))] [IE 16 (s "string") [] [IT (s "hello")]];
               IE 17 (s "param") [(s "name", AStr (s "amount"))] [IE 18 (s "real") [(s "value", AStr (s "1.0"))] []]]]]]].
Definition vassigns : list assignment :=
  [assign ByField 8 (s "radius") (PInt 3); assign ByItem 14 (s "text") (PStr (s "bye")); assign ByItem 14 (s "amount") (PFlo (1 # 2));
   assign ByField 1 (s "radius") (PFlo (7 # 2)); assign ByItem 8 (s "radius") (PStr (s "wide")); assign ByItem 8 (s "color") (PStr (s "#ff0000"))].
(** The group finds the circle's radius, so it is assigned to three times. The last of these is an error. The amounts of the group and of the text are two variables. *)
Example C150_nonvacuous : wf vforest /\ agrees vforest (variables vforest) /\ to_variables vforest (variables vforest) vassigns /\
  snd (assigns vforest vassigns) = [Ok tt; Ok tt; Ok tt; Ok tt; Err ValueError; Ok tt] /\
  place vforest 8 (s "radius") = Some 9 /\ place vforest 1 (s "radius") = Some 9 /\ place vforest 1 (s "amount") = Some 2 /\ place vforest 14 (s "amount") = Some 17 /\
  (let h' := fst (store_assigns (variables vforest) (to_places vforest vassigns)) in
   h' 9 = Some (VReal, El (s "real") [(s "value", AStr (s "3.5000000000"))] []) /\ h' 2 = Some (VReal, El (s "real") [(s "value", AStr (s "1.0"))] []) /\
   h' 15 = Some (VString, El (s "string") [] [Txt (s "bye")])) /\
  Forall2 (fun b r => place vforest (as_layer_ b) (as_name b) = Some 9 -> r <> Ok tt) (skipn 4 vassigns) [Err ValueError; Ok tt].
Proof.
  split; [unfold wf; vm_compute; repeat constructor; cbn; lia|]. split; [apply variables_agree|]. split.
  - repeat constructor; eexists; eexists; split; vm_compute; reflexivity.
  - repeat (split; [vm_compute; reflexivity|]). split; [repeat split; vm_compute; reflexivity|]. repeat constructor; vm_compute; discriminate.
Qed.
