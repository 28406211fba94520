(** Editing with strings that stay the same in a file. *)
From Verif Require Import TlModel LayModel AnimModel SerModel SavSpec WrSpec.

(** All names are of one line, and so are the attributes (see [clean_attrs]). Texts may be anything. *)
Fixpoint tidy (n : node) : Prop :=
  match n with
  | Txt _ => True
  | El nm a k => one_line nm /\ clean_attrs a /\ (fix all l := match l with [] => True | c :: l' => tidy c /\ all l' end) k
  end.
(** Values that are assigned have such tags, and keys are of one line. Strings may be anything. *)
Fixpoint tidy_val (v : pyval) : Prop :=
  match v with
  | PTuple l | PList l => (fix all l := match l with [] => True | y :: l' => tidy_val y /\ all l' end) l
  | PDict l => (fix all (l : list (pstr * pyval)) := match l with [] => True | (k, y) :: l' => one_line k /\ tidy_val y /\ all l' end) l
  | PDictF l => (fix all (l : list (Q * pyval)) := match l with [] => True | (_, y) :: l' => tidy_val y /\ all l' end) l
  | PVal _ n _ => tidy n /\ is_tag n = true
  | _ => True
  end.
Definition tidy_wp (w : wp) : Prop :=
  check_interpolation (w_before w) = Ok (w_before w) /\ check_interpolation (w_after w) = Ok (w_after w) /\ tidy (w_val w).
Definition tidy_tlarg (x : tlarg) : Prop := match x with AWp w => tidy_wp w | AVal v => tidy_val v end.
Definition tidy_vedit (e : vedit) : Prop :=
  match e with
  | VSet v | VItem _ v => tidy_val v
  | VAnimated _ | VTlDel _ => True
  | VTlSet _ x => tidy_tlarg x
  | VTlAdd ws _ | VTlIadd ws => Forall tidy_wp ws
  | VTlAssign l => match l with SList ws => Forall tidy_wp ws | _ => True end
  end.
(** What is assigned to an attribute is, as a string, of one line. The attributes are the description of a layer, and the fields of
    the animation other than its description, which is a text. *)
Definition line_of (v : pyval) : Prop := forall x, py_str v = Ok x -> one_line x.
Definition tidy_edit (e : edit) : Prop :=
  match e with
  | EItem _ _ (SPlain v) => tidy_val v
  | EField _ _ k v => tidy_val v /\ (k = s "desc" -> line_of v)
  | EAnim _ k v => tidy_val v /\ (k <> s "desc" -> line_of v)
  | EValue _ _ e => tidy_vedit e
  | ENew _ | EText _ | EItem _ _ (SValue _ _) | EAppend _ _ _ | EInsert _ _ _ _ => True
  end.

(** ** Values *)

(** No two texts beside each other *)
Fixpoint apart (k : list node) : Prop :=
  match k with
  | Txt _ :: (Txt _ :: _) => False
  | _ :: k' => apart k'
  | [] => True
  end.
(** A tag as Synfig writes it, or as it is made here for most values: attributes are strings, and texts aren't empty; blank ones are one blank. *)
Fixpoint solid (n : node) : Prop :=
  match n with
  | Txt x => x <> [] /\ norm_text x = x
  | El nm a k => clean_attrs a /\ Forall (fun kv => exists y, snd kv = AStr y) a /\ apart k /\ (fix all l := match l with [] => True | c :: l' => solid c /\ all l' end) k
  end.
(** Times mean the same in both documents. *)
Definition same_times (cx cy : ctx) : Prop := forall x, T_init (TStr x) cy = T_init (TStr x) cx.
(** The same value: for parts that are values, the same class, and the tag written for a solid tag; C147_parts says that these have the same
    value, too *)
Inductive kept : pyval -> pyval -> Prop :=
| kept_plain v : kept v v
| kept_val c n cx cy : solid n -> same_times cx cy -> kept (PVal c n cx) (PVal c (reload n) cy)
| kept_dict l m : Forall2 (fun a b => fst a = fst b /\ kept (snd a) (snd b)) l m -> kept (PDict l) (PDict m)
| kept_gradient l m : Forall2 (fun a b => fst a = fst b /\ kept (snd a) (snd b)) l m -> kept (PDictF l) (PDictF m).
(** The FPS of the animation, if it was assigned, is a number of Python: a double. *)
Definition plain_fps (r : inode) : Prop :=
  match aget (s "fps") (iattrs r) with Some (AFlo q) => is_dbl q | Some (AStr _) | None => True | Some _ => False end.
(** The parameters of the layer m of G that have solid tags have the same class and value as those of the layer n of F. *)
Definition same_values (F : forest) (n : inode) (G : forest) (m : inode) : Prop :=
  forall f v c, layer_getitem n f = Ok (v, c) -> solid (forget v) ->
  exists w, layer_getitem m f = Ok (w, c) /\ same_result kept (get_value c (forget v) (ctx_of F (iuid v))) (get_value c (forget w) (ctx_of G (iuid w))).
(** Where editing starts: with a new animation, or one that was loaded from a file in which no attribute has tabs or ends of lines (that are
    written as numbers, since others are read as blanks) *)
Definition starts (a : anim) : Prop := new_anim = Ok a \/ tidy (am_root a) /\ exists fs file, load fs file = Ok a.
