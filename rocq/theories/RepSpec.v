(** What the theorems about the replacer say, apart from the functions they are about. *)
From Verif Require Import RepModel.
Local Open Scope N_scope.

(** ** Lines and markers *)

Definition letters_etc : pstr := s "ABCDEFGHIJKLMNOPQRSTUVWXYZabcdefghijklmnopqrstuvwxyz0123456789_".
Definition word (x : pstr) : Prop := Forall (fun c => In c letters_etc) x.
Definition begins (P : N -> Prop) (x : pstr) : Prop := match x with c :: _ => P c | [] => False end.

(** "class Name..." *)
Definition is_class (l c : pstr) : Prop :=
  exists r, l = s "class " ++ c ++ r /\ c <> [] /\ word c /\ ~ begins (fun d => In d letters_etc) r.
(** "    ### {{{ name...", where the name may be missing *)
Definition is_start (l : pstr) (i : nat) (nm : pstr) : Prop :=
  exists j r, l = repeat 32 i ++ s "### {{{" ++ repeat 32 j ++ nm ++ r /\ word nm /\
    ~ begins (fun d => In d letters_etc) r /\ (nm = [] -> ~ begins (eq 32) r).
(** "    ### }}}..." *)
Definition is_end (l : pstr) : Prop := exists i r, l = repeat 32 i ++ s "### }}}" ++ r.
Definition is_marker (l : pstr) : Prop := (exists i nm, is_start l i nm) \/ is_end l.
(** Neither a marker nor the beginning of a class *)
Definition quiet (l : pstr) : Prop := ~ is_marker l /\ forall c, ~ is_class l c.

(** These are the lines of the text: each ends with its newline, the last one perhaps not. *)
Definition full_line (l : pstr) : Prop := exists x, l = x ++ [10] /\ ~ In 10 x.
Inductive lines_of : pstr -> list pstr -> Prop :=
| lines_none : lines_of [] []
| lines_last x : x <> [] -> ~ In 10 x -> lines_of x [x]
| lines_more l x ls : full_line l -> lines_of x ls -> lines_of (l ++ x) (l :: ls).
(** ... and these the lines of a value, without their newlines *)
Definition value_lines (v : pstr) (ls : list pstr) : Prop := ls <> [] /\ Forall (fun l => ~ In 10 l) ls /\ v = join [10] ls.

(** ** Files *)

(** A file where every block that begins also ends: lines outside of blocks, and blocks *)
Inductive piece : Type := Outside (l : pstr) | Block (start : pstr) (body : list pstr) (stop : pstr).
Definition piece_lines (p : piece) : list pstr :=
  match p with Outside l => [l] | Block a b c => a :: b ++ [c] end.
Definition piece_ok (p : piece) : Prop :=
  match p with
  | Outside l => ~ is_marker l
  | Block a b c => (exists i nm, is_start a i nm) /\ Forall (fun l => ~ is_marker l) b /\ is_end c
  end.

(** The class that a block without a name is named after, if these are the lines before it: the
    last one, unless another block was already named after it *)
Definition class_before (pre : list pstr) (c : pstr) : Prop :=
  exists a l b, pre = a ++ l :: b /\ is_class l c /\ Forall (fun m => (forall c', ~ is_class m c') /\ forall i, ~ is_start m i []) b.
Definition block_named (pre : list pstr) (start : pstr) (nm : pstr) : Prop :=
  (nm <> [] /\ exists i, is_start start i nm) \/ (exists i, is_start start i []) /\ class_before pre nm.

(** What becomes of a piece of the file after the lines [pre]: lines outside of blocks stay. In blocks with the
    name of a field, its value takes the place of what was there, with the indentation of the beginning of
    the block. The line that ends a block gets that indentation, too, and loses white space at its end. *)
Definition value_in (i : nat) (v : pstr) (out : list pstr) : Prop :=
  exists ls, value_lines v ls /\ out = map (fun l => rstrip (repeat 32 i ++ l) ++ [10]) ls.
Inductive piece_out (fs : fields) (pre : list pstr) : piece -> list pstr -> Prop :=
| out_outside l : piece_out fs pre (Outside l) [l]
| out_kept a b c i nm x : is_start a i nm -> block_named pre a x -> aget x fs = None ->
    piece_out fs pre (Block a b c) (a :: b ++ [repeat 32 i ++ strip c ++ [10]])
| out_replaced a b c i nm x v new : is_start a i nm -> block_named pre a x -> aget x fs = Some v -> value_in i v new ->
    piece_out fs pre (Block a b c) (a :: new ++ [repeat 32 i ++ strip c ++ [10]]).
Inductive pieces_out (fs : fields) : list pstr -> list piece -> list pstr -> Prop :=
| pieces_none pre : pieces_out fs pre [] []
| pieces_more pre p ps o os : piece_out fs pre p o -> pieces_out fs (pre ++ piece_lines p) ps os ->
    pieces_out fs pre (p :: ps) (o ++ os).
(** A block with this name begins in one of these lines. *)
Definition block_in (ls : list pstr) (x : pstr) : Prop := exists pre a post, ls = pre ++ a :: post /\ block_named pre a x.
(** There is something to replace. *)
Definition replaces (fs : fields) (ls : list pstr) : Prop := exists x v, block_in ls x /\ aget x fs = Some v.

(** ** What's wrong with a file *)

(** A block is open after these lines. *)
Definition open_after (pre : list pstr) : Prop :=
  exists a m b, pre = a ++ m :: b /\ (exists i nm, is_start m i nm) /\ Forall (fun l => ~ is_end l) b.
Definition end_without_start (ls : list pstr) : Prop := exists pre l post, ls = pre ++ l :: post /\ is_end l /\ ~ open_after pre.
Definition block_without_name (ls : list pstr) : Prop :=
  exists pre l post i, ls = pre ++ l :: post /\ is_start l i [] /\ forall c, ~ class_before pre c.
Definition malformed (ls : list pstr) : Prop := end_without_start ls \/ block_without_name ls \/ open_after ls.
(** ... or a block begins before the last one ended *)
Definition start_in_block (ls : list pstr) : Prop :=
  exists pre l post i nm, ls = pre ++ l :: post /\ is_start l i nm /\ open_after pre.

(** The bytes of this file are this text in UTF-8. *)
Definition contains (d : disk) (name x : pstr) : Prop := exists b, aget name d = Some b /\ utf8_out x = Some b.
(** The text of a file, as open(name, 'r') reads it: all three kinds of ends of lines are newlines then. *)
Definition file_text (d : disk) (name x : pstr) : Prop := exists y, contains d name y /\ x = norm_eol y.
(** There are no surrogates in the text. *)
Definition encodable (x : pstr) : Prop := exists b, utf8_out x = Some b.
Definition fields_encodable (fs : fields) : Prop := forall k v, aget k fs = Some v -> encodable v.
(** No line of a value is a marker or the beginning of a class. *)
Definition field_quiet (fs : fields) : Prop := forall k v ls, aget k fs = Some v -> value_lines v ls -> Forall quiet ls.
(** The same file in both *)
Definition same_file (d d' : disk) (name : pstr) : Prop := aget name d = aget name d'.
(** The order of strings: by the first character that differs *)
Definition not_after (a b : pstr) : Prop :=
  (exists r, b = a ++ r) \/ exists p c d x y, a = p ++ c :: x /\ b = p ++ d :: y /\ c < d.
