(** Editing through the whole API: which arguments consist of XML characters, and the edits. *)
From Verif Require Import TlModel XpSpec LayModel AnimModel.
Local Open Scope N_scope.

(** All strings in the object are of characters that XML allows; strings that name something are names. *)
Fixpoint good_val (v : pyval) : Prop :=
  match v with
  | PStr x => good_text x
  | PTuple l | PList l => (fix all l := match l with [] => True | y :: l' => good_val y /\ all l' end) l
  | PDict l => (fix all (l : list (pstr * pyval)) := match l with [] => True | (k, y) :: l' => good_name k /\ good_val y /\ all l' end) l
  | PDictF l => (fix all (l : list (Q * pyval)) := match l with [] => True | (_, y) :: l' => good_val y /\ all l' end) l
  | PVal _ n _ => writable n /\ is_tag n = true
  | PNone | PBool _ | PInt _ | PFlo _ | PT _ | POther => True
  end.
(** Waypoints, as they can be made: their interpolations are checked *)
Definition good_wp (w : wp) : Prop :=
  check_interpolation (w_before w) = Ok (w_before w) /\ check_interpolation (w_after w) = Ok (w_after w) /\ writable (w_val w).
Definition good_tlarg (x : tlarg) : Prop := match x with AWp w => good_wp w | AVal v => good_val v end.

(** What a caller can do to the value with the tag w *)
Inductive vedit :=
| VSet (v : pyval)                       (* value.value = v *)
| VItem (q : Q) (v : pyval)              (* gradient[q] = v *)
| VAnimated (b : bool)                   (* value.is_animated = b *)
| VTlSet (k : tkey) (x : tlarg)          (* value.timeline[k] = x *)
| VTlDel (k : tkey)                      (* del value.timeline[k] *)
| VTlAdd (ws : list wp) (overwrite : bool)   (* value.timeline.add(ws, overwrite) *)
| VTlIadd (ws : list wp)                 (* value.timeline += ws *)
| VTlAssign (l : tlset).                 (* value.timeline = l *)
Definition good_vedit (e : vedit) : Prop :=
  match e with
  | VSet v | VItem _ v => good_val v
  | VAnimated _ | VTlDel _ => True
  | VTlSet _ x => good_tlarg x
  | VTlAdd ws _ | VTlIadd ws => Forall good_wp ws
  | VTlAssign l => match l with SList ws => Forall good_wp ws | _ => True end
  end.

(** One call that changes something: in the document, or in tags outside it. Numbers are those of tags; 0 is
    the document around the animation, which is neither a layer nor a value. *)
Inductive edit :=
| ENew (c : lcls)                            (* C(), a new layer outside the document *)
| EText (x : pstr)                           (* Text(x) *)
| EItem (u : N) (f : pstr) (v : setarg)      (* layer[f] = v *)
| EField (u : N) (c : lcls) (k : pstr) (v : pyval)  (* layer.k = v, for a layer of class c *)
| EAnim (u : N) (k : pstr) (v : pyval)       (* animation.k = v *)
| EAppend (kd : okind) (g l : N)             (* group.append(layer) *)
| EInsert (kd : okind) (g : N) (i : Z) (l : N)  (* group.insert(i, layer) *)
| EValue (w : N) (c : vcls) (e : vedit).     (* something done to a value of class c *)
(** The numbers are those of layers and values: not of the document, and the animation itself (1) isn't moved *)
Definition meant (e : edit) : Prop :=
  match e with
  | ENew c => In c layer_classes
  | EText _ => True
  | EItem u _ v => u <> 0 /\ match v with SValue w _ => 1 < w | SPlain _ => True end
  | EField u c _ _ => u <> 0 /\ In c layer_classes
  | EAnim u _ _ => u <> 0
  | EAppend _ g l | EInsert _ g _ l => g <> 0 /\ 1 < l
  | EValue w _ _ => 1 < w
  end.
(** The strings are XML *)
Definition good_edit (e : edit) : Prop :=
  match e with
  | EText x => good_text x
  | EItem _ _ (SPlain v) | EField _ _ _ v | EAnim _ _ v => good_val v
  | EValue _ _ e => good_vedit e
  | ENew _ | EItem _ _ (SValue _ _) | EAppend _ _ _ | EInsert _ _ _ _ => True
  end.

(** What each call does. *)
Definition vapply (c : vcls) (n : node) (cx : ctx) (par : bool) (e : vedit) : outcome :=
  match e with
  | VSet v => set_value c n v
  | VItem q v => gradient_setitem n cx q v
  | VAnimated b => set_is_animated c n cx par b
  | VTlSet k x => tl_setitem c n cx par k x
  | VTlDel k => tl_delitem n cx par k
  | VTlAdd ws o => tl_add c n cx par ws o
  | VTlIadd ws => tl_iadd c n cx par ws
  | VTlAssign l => tl_assign n cx par l
  end.
Definition on_tag (F : forest) (u : N) (f : inode -> change) : change :=
  match fget u F with Some n => f n | None => (F, Err EUnmodelled) end.
Definition fst_unit (c : forest * res N) : change := (fst c, let* _ := snd c in Ok tt).
(** A value whose tag is replaced keeps its number here, as in BywModel.v. *)
Definition apply_edit (F : forest) (e : edit) : change :=
  match e with
  | ENew c => fst_unit (new_layer F c)
  | EText x => fst_unit (new_text F x)
  | EItem u f v => layer_setitem F u f v
  | EField u c k v => on_tag F u (fun n => field_set F u n c k v)
  | EAnim u k v => on_tag F u (fun n => anim_set F n k v)
  | EAppend kd g l => group_append F kd g l
  | EInsert kd g i l => group_insert F kd g i l
  | EValue w c e => on_tag F w (fun n =>
      let (m, r) := vapply c (forget n) (ctx_of F w) (match fparent w F with Some _ => true | None => false end) e in (write_tag F w m, r))
  end.
(** A program that catches every exception and goes on. Calls outside the model ([EUnmodelled]) are left out. *)
Definition edits (F : forest) (l : list edit) : forest := fold_left (fun F e => fst (apply_edit F e)) l F.
