(** What the theorems about saving and loading say, apart from the functions they are about. *)
From Verif Require Import AnimModel XpSpec.
From Coq Require Import Permutation.

(** ** Names of files *)

(** x ends in a dot and e, in upper or lower case: [dir/stem.e], where the stem is not only dots *)
Definition has_extension (x e : pstr) : Prop :=
  exists dir stem e', x = dir ++ stem ++ 46%N :: e' /\ lower e' = e /\
    (dir = [] \/ exists d, dir = d ++ [47%N]) /\ ~ In 47%N stem /\ (exists c, In c stem /\ c <> 46%N).

(** ** Documents that say the same *)

(** The attributes of a tag, as strings *)
Definition attr_strings (a : attrs) : list (pstr * pstr) := map (fun kv => (fst kv, aval_str (snd kv))) a.
(** The same tags with the same texts in them, and the same attributes, in any order *)
Inductive same_doc : node -> node -> Prop :=
| same_txt x : same_doc (Txt x) (Txt x)
| same_el nm a a' k k' : Permutation (attr_strings a) (attr_strings a') -> Forall2 same_doc k k' ->
                         same_doc (El nm a k) (El nm a' k').

(** A text that is as reading a file leaves it: not empty, and if there is only white space in it,
    a single newline or blank *)
Definition white (x : pstr) : Prop := Forall (fun c => In c [9; 10; 12; 13; 32]%N) x.
Definition settled_text (x : pstr) : Prop := x <> [] /\ (white x -> x = [10%N] \/ x = [32%N]).
Definition settled_values (a : attrs) : Prop :=
  Forall (fun kv => Forall (fun c => c <> 9%N /\ c <> 10%N) (aval_str (snd kv))) a.
Fixpoint apart (k : list node) : Prop :=
  match k with
  | Txt _ :: ((Txt _ :: _) as k') => False
  | _ :: k' => apart k'
  | [] => True
  end.
(** No two texts side by side, all of them settled, and neither tabs nor newlines in attributes *)
Inductive settled : node -> Prop :=
| settled_txt x : settled_text x -> settled (Txt x)
| settled_el nm a k : settled_values a -> apart k -> Forall settled k -> settled (El nm a k).

(** The same tags, as far as white space allows: tabs and newlines in attributes become blanks, and
    texts may gain or lose white space, unless there's something else in a tag with only text in it. *)
Definition blanks (x : pstr) : pstr := map (fun c => if (c =? 9)%N || (c =? 10)%N then 32%N else c) x.
Definition blank_strings (a : attrs) : list (pstr * pstr) := map (fun kv => (fst kv, blanks (aval_str (snd kv)))) a.
Definition own_text (k : list node) : pstr := flat_map (fun c => match c with Txt x => x | El _ _ _ => [] end) k.
Definition dark (x : pstr) : pstr := filter (fun c => negb (existsb (N.eqb c) [9; 10; 12; 13; 32]%N)) x.
Inductive same_tags : node -> node -> Prop :=
| same_tag nm a a' k k' : Permutation (blank_strings a) (attr_strings a') ->
    Forall2 same_tags (filter is_tag k) (filter is_tag k') ->
    dark (own_text k') = dark (own_text k) ->
    (filter is_tag k = [] -> dark (own_text k) <> [] -> k' = [Txt (own_text k)]) ->
    same_tags (El nm a k) (El nm a' k').

(** ** Histories *)

(** What happens to an animation: it is saved, its document is edited in any way, or another program
    changes the files in any way. *)
Inductive event := ESave (name : option pstr) | EEdit (n : node) | EWorld (fs : files).

(** The file that [save()] should write, and how: where it was loaded from, or saved as, last.
    All of the saves in the history are meant to have worked. *)
Definition kind_named (x : pstr) (kd : fkind) : Prop :=
  kd = FSif /\ has_extension x (s "sif") \/ kd = FSifz /\ has_extension x (s "sifz").
Inductive last_target : pstr * fkind -> list event -> pstr * fkind -> Prop :=
| last_nil t : last_target t [] t
| last_save t l t' : last_target t l t' -> last_target t (ESave None :: l) t'
| last_save_as t x kd l t' : kind_named x kd -> last_target (x, kd) l t' -> last_target t (ESave (Some x) :: l) t'
| last_edit t n l t' : last_target t l t' -> last_target t (EEdit n :: l) t'
| last_world t fs l t' : last_target t l t' -> last_target t (EWorld fs :: l) t'.

(** What the files and the animation become, and what the saves returned *)
Section Running.
  Context (void : pstr -> attrs -> bool) (can : pstr -> bool).
  Definition happen (st : files * anim) (e : event) : files * anim * res unit :=
    let (fs, a) := st in
    match e with
    | ESave name => save void can fs a name
    | EEdit n => (fs, mkAnim n (am_kind a) (am_file a), Ok tt)
    | EWorld fs' => (fs', a, Ok tt)
    end.
  Fixpoint happen_all (st : files * anim) (l : list event) : files * anim * list (res unit) :=
    match l with
    | [] => (st, [])
    | e :: l' => let (st', r) := happen st e in
                 let (st'', rs) := happen_all st' l' in (st'', r :: rs)
    end.
End Running.

(** [save(name)] is meant to write the file [x], in the format [kd]. *)
Definition target_of (a : anim) (name : option pstr) (x : pstr) (kd : fkind) : Prop :=
  match name with
  | Some y => y = x /\ kind_named x kd
  | None => am_file a = Some x /\ am_kind a = kd /\ (kd = FSif \/ kd = FSifz)
  end.

(** The content of a file, as bytes before compression, and whether it is compressed *)
Definition holds (fs : files) (x : pstr) (kd : fkind) (b : list N) : Prop :=
  aget x fs = Some (match kd with FSifz => Gz b | _ => Raw b end).
(** Only the file x differs *)
Definition only_changes (x : pstr) (fs fs' : files) : Prop := forall y, y <> x -> aget y fs' = aget y fs.

(** [n] is the root of a document: the only thing in the object that stands for the document. *)
Definition root_of (F : forest) (n : inode) : Prop :=
  exists d, In d F /\ itag d = true /\ ikids d = [n] /\ itag n = true.

(** [a] is somewhere in [n], not [n] itself. *)
Inductive inside (a : inode) : inode -> Prop :=
| inside_kid n : In a (ikids n) -> itag a = true -> inside a n
| inside_deep n y : In y (ikids n) -> inside a y -> inside a n.
(** In the text of the document [n], the tag [a] begins before the tag [b]: [b] is in [a], or
    some tag [m] of the document has a child that is [a] or has it inside, and a later child
    that is [b] or has it inside. *)
Definition precedes (n a b : inode) : Prop :=
  inside b a \/
  exists m k1 x k2 y k3, (m = n \/ inside m n) /\ ikids m = k1 ++ x :: k2 ++ y :: k3 /\
    (a = x \/ inside a x) /\ (b = y \/ inside b y).

(** The root of a document *)
Definition doc_top (F : forest) : option inode :=
  match F with
  | [IE _ _ _ [n]] => Some n
  | _ => None
  end.

(** A value that a field of the type [ty] takes as it is *)
Inductive takes : atype -> pyval -> pyval -> Prop :=
| takes_int z : takes TIntA (PInt z) (PInt z)
| takes_float q : is_dbl q -> takes TFloatA (PFlo q) (PFlo q)
| takes_float_int z : (Z.abs z <= 2 ^ 53)%Z -> takes TFloatA (PInt z) (PFlo (inject_Z z))
| takes_str x : good_text x -> Forall (fun c => c <> 9%N /\ c <> 10%N) x -> takes TStrA (PStr x) (PStr x).
