(** Programs that make layers, put them into groups, and set their parameters, timelines and attributes: what they do to a document, and the same
    without one. *)
From Verif Require Import AnimModel LayModel LaySpec LoopModel MovSpec VarSpec MixSpec WrSpec TlModel PrmSpec.
Local Open Scope N_scope.

(** ** What a user does *)

(** What PrmSpec.v has (moving a layer, assigning to a parameter, editing [layer['k']]); [C()] for a class of layers; [layer.k = v] *)
Inductive wact := WAct (x : act) | WNew (c : lcls) | WField (u : N) (k : pstr) (v : pyval).
Definition do_wact (F : forest) (x : wact) : change :=
  match x with
  | WAct x => do_act F x
  | WNew c => apply_edit F (ENew c)
  | WField u k v => match fget u F with
                    | None => (F, Err EUnmodelled)
                    | Some n => match layer_class n with Err e => (F, Err e) | Ok c => apply_edit F (EField u c k v) end
                    end
  end.
Fixpoint wacts (F : forest) (l : list wact) : forest * list (res unit) :=
  match l with
  | [] => (F, [])
  | x :: l' => let (F1, r) := do_wact F x in let (F2, rs) := wacts F1 l' in (F2, r :: rs)
  end.

(** ** The same without a document *)

(** The lists of children of the groups, the values of the params, and the attributes of the layers, all by number *)
Definition astore := N -> option attrs.
Definition aput (h : astore) (u : N) (a : attrs) : astore := fun z => if N.eqb z u then Some a else h z.
Definition world := ((shelf * vstore) * astore)%type.
(** An assignment to one of the attributes of a layer: version is a number; active and exclude_from_rendering are true or false; desc is a string, and
    None removes it. *)
Definition attr_assign (a : attrs) (k : pstr) (v : pyval) : attrs * res unit :=
  if pstr_eqb k (s "version") then match py_float v with Ok q => (aset k (AFlo q) a, Ok tt) | Err e => (a, Err e) end
  else if pstr_eqb k (s "desc") then match v with
                                     | PNone => (adel k a, Ok tt)
                                     | _ => match py_str v with Ok x => (aset k (AStr x) a, Ok tt) | Err e => (a, Err e) end
                                     end
  else match py_bool v with Ok b => (aset k (AStr (if b then s "true" else s "false")) a, Ok tt) | Err e => (a, Err e) end.
Definition attr_names : list pstr := [s "version"; s "active"; s "exclude_from_rendering"; s "desc"].
(** What the new layer n adds: it has no children, and its params have their values. *)
Definition birth (w : world) (n : inode) : world :=
  let mine z := existsb (N.eqb z) (uids n) in
  ((fun z => if mine z then [] else fst (fst w) z, fun z => if mine z then values [n] z else snd (fst w) z), aput (snd w) (iuid n) (iattrs n)).
(** LwNew b t: a new layer that is written as t, and gets the numbers from b on. LwNot r: nothing happens but that. *)
Inductive lwact := LwAct (x : lact) | LwNew (b : N) (t : node) | LwAttr (u : N) (k : pstr) (v : pyval) | LwNot (r : res unit).
Definition list_wact (w : world) (x : lwact) : world * res unit :=
  match x with
  | LwAct x => let (hs, r) := list_act (fst w) x in ((hs, snd w), r)
  | LwNew b t => (birth w (fst (label b t)), Ok tt)
  | LwAttr u k v => match snd w u with
                    | None => (w, Err EUnmodelled)
                    | Some a => let (a', r) := attr_assign a k v in ((fst w, aput (snd w) u a'), r)
                    end
  | LwNot r => (w, r)
  end.
Fixpoint list_wacts (w : world) (l : list lwact) : world * list (res unit) :=
  match l with
  | [] => (w, [])
  | x :: l' => let (w1, r) := list_wact w x in let (w2, rs) := list_wacts w1 l' in (w2, r :: rs)
  end.

(** ** How they belong together *)

(** The attributes are those of layers of the document. *)
Definition tells (F : forest) (h : astore) : Prop := forall u a, h u = Some a -> exists n, fget u F = Some n /\ is_layer n = true /\ iattrs n = a.
Definition depicts (F : forest) (w : world) : Prop := mirrors F (fst w) /\ tells F (snd w).
(** One step: which variable is meant depends on the document, and so do the canvas and the number of a new layer. *)
Definition act_means (F : forest) (st : vstore) (x : act) (x' : lact) : Prop := acts_mean F st [x] [x'].
Definition field_means (F : forest) (w : world) (u : N) (k : pstr) (v : pyval) (x' : lwact) : Prop :=
  exists n c, fget u F = Some n /\ is_layer n = true /\ layer_class n = Ok c /\
  match aget k (all_fields c) with
  | Some (FParam _ _) => exists q, place F u k = Some q /\ snd (fst w) q <> None /\ bare_val v /\ x' = LwAct (LAs q ByField v)
  | Some (FShort up) => exists q, place F u up = Some q /\ snd (fst w) q <> None /\ bare_val (PDict [(k, v)]) /\ x' = LwAct (LAs q ByField (PDict [(k, v)]))
  | Some FTodo => x' = LwNot (Err NotImplementedError)
  | None => In k attr_names /\ snd w u <> None /\ x' = LwAttr u k v \/ k = s "type_" /\ x' = LwNot (Err ValueError)
  end.
Definition wact_means (F : forest) (w : world) (x : wact) (x' : lwact) : Prop :=
  match x, x' with
  | WAct x, LwAct x' => act_means F (snd (fst w)) x x'
  | WNew c, LwNew b t => In c layer_classes /\ new_tag c = Ok t /\ b = fresh F
  | WNew c, LwNot r => exists e, new_tag c = Err e /\ r = Err e
  | WField u k v, x' => field_means F w u k v x'
  | _, _ => False
  end.
Fixpoint wacts_mean (F : forest) (w : world) (l : list wact) (l' : list lwact) : Prop :=
  match l, l' with
  | [], [] => True
  | x :: l1, x' :: l1' => wact_means F w x x' /\ wacts_mean (fst (do_wact F x)) (fst (list_wact w x')) l1 l1'
  | _, _ => False
  end.
(** All attributes of layers *)
Definition attributes (F : forest) : astore := fun u => match fget u F with Some n => if is_layer n then Some (iattrs n) else None | None => None end.
