(** The fragment of Beautiful Soup (bs4 4.12.2) that /repo uses, on trees
    without object identity. Identity is in Doc*.v. *)
From Verif Require Export PyFmt.

(** An instant, t.py:6-120 [class T]: [_frames] and [_fps]. *)
Record T : Type := mkT { frames : Q; fps : option Q }.

(** The value of an attribute. Attributes parsed from a file are strings, but
    Beautiful Soup keeps whatever Python object is assigned until it
    serialises: /repo assigns floats and ints (field.py:196) and Ts
    (value/value.py:543). *)
Inductive aval : Type :=
| AStr (x : pstr)
| AFlo (q : Q)
| AInt (z : Z)
| ATime (t : T).

Definition attrs := list (pstr * aval).

(** bs4.NavigableString and bs4.Tag. Comments and processing instructions do
    not occur in the model. *)
Inductive node : Type :=
| Txt (x : pstr)
| El (name : pstr) (a : attrs) (kids : list node).

Definition is_tag (n : node) : bool := match n with El _ _ _ => true | Txt _ => false end.
Definition tag_name (n : node) : pstr := match n with El nm _ _ => nm | Txt _ => [] end.
Definition tag_attrs (n : node) : attrs := match n with El _ a _ => a | Txt _ => [] end.
Definition tag_kids (n : node) : list node := match n with El _ _ k => k | Txt _ => [] end.

(** [[t for t in tag.children if isinstance(t, bs4.Tag)]] *)
Definition child_tags (n : node) : list node := filter is_tag (tag_kids n).

(** All Tags strictly below a node, in document order ([tag.descendants]). *)
Fixpoint descendants (n : node) : list node :=
  match n with
  | Txt _ => []
  | El _ _ k => flat_map (fun c => match c with Txt _ => [] | El _ _ _ => c :: descendants c end) k
  end.

(** [tag.find_all(pred)] and, with recursive=False, the same over the children. *)
Definition find_all (p : node -> bool) (n : node) : list node := filter p (descendants n).
Definition find_all_children (p : node -> bool) (n : node) : list node := filter p (child_tags n).

(** [tag.find(pred)] *)
Definition find_first (p : node -> bool) (n : node) : option node := hd_error (find_all p n).

(** [find('name')] *)
Definition has_name (nm : pstr) (n : node) : bool := pstr_eqb (tag_name n) nm.

(** [find('param', attrs={'name': f})]. As in bs4, an empty [f] also matches
    a tag without the attribute. *)
Definition has_name_attr (nm : pstr) (f : pstr) (n : node) : bool :=
  has_name nm n &&
  match aget (s "name") (tag_attrs n) with
  | Some (AStr x) => pstr_eqb x f
  | Some _ => false
  | None => match f with [] => true | _ => false end
  end.

(** [tag.string]: the single string inside the tag, if there is exactly one
    child, recursively; otherwise None. *)
Fixpoint node_string (n : node) : option pstr :=
  match n with
  | Txt x => Some x
  | El _ _ [c] => node_string c
  | El _ _ _ => None
  end.

(** [tag.text]: all the strings inside, concatenated. *)
Fixpoint node_text (n : node) : pstr :=
  match n with
  | Txt x => x
  | El _ _ k => flat_map node_text k
  end.

(** [tag[k] = v] and [del tag[k]] (which never raises). *)
Definition set_attr (k : pstr) (v : aval) (n : node) : node :=
  match n with El nm a ks => El nm (aset k v a) ks | Txt x => Txt x end.
Definition del_attr (k : pstr) (n : node) : node :=
  match n with El nm a ks => El nm (adel k a) ks | Txt x => Txt x end.

(** An induction principle that reaches the children. *)
Definition node_ind' (P : node -> Prop)
  (Htxt : forall x, P (Txt x))
  (Hel : forall nm a k, Forall P k -> P (El nm a k)) : forall n, P n :=
  fix F n := match n with
    | Txt x => Htxt x
    | El nm a k => Hel nm a k ((fix G l : Forall P l :=
        match l with [] => Forall_nil P | c :: l' => Forall_cons c (F c) (G l') end) k)
    end.
