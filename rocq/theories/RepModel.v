(** /repo/sangfroid/template/replacer.py: rewriting blocks in source files.

    Files are byte strings, in UTF-8, named by the string given to open(). What [verbose] prints is
    not modelled. Errors of the operating system (a full disk, missing permissions) are not modelled
    as exceptions: whatever they leave behind is one of the states of [write_states]. Other programs
    change no files meanwhile. *)
From Verif Require Export XpModel.
Local Open Scope N_scope.

Definition disk := list (pstr * list N).

(** ** Lines *)

(** open(filename, 'r') reads \r\n and \r as \n: [norm_eol]. *)
(** [for line in f]: every line with its \n, which the last one may lack *)
Fixpoint lines (x : pstr) : list pstr :=
  match x with
  | [] => []
  | c :: x' => if c =? 10 then [c] :: lines x'
               else match lines x' with
                    | [] => [[c]]
                    | l :: ls => (c :: l) :: ls
                    end
  end.
(** [x.split('\n')] *)
Fixpoint split_lines (x : pstr) : list pstr :=
  match x with
  | [] => [[]]
  | c :: x' => if c =? 10 then [] :: split_lines x'
               else match split_lines x' with
                    | [] => [[c]]     (* never *)
                    | l :: ls => (c :: l) :: ls
                    end
  end.
(** [' '*n] *)
Definition blanks_of (n : nat) : pstr := repeat 32 n.

(** ** The three regular expressions, replacer.py:5-7. All of them are anchored at the start. *)

(** [A-Za-z0-9_] *)
Definition word_char (c : N) : bool :=
  ((65 <=? c) && (c <=? 90)) || ((97 <=? c) && (c <=? 122)) || ((48 <=? c) && (c <=? 57)) || (c =? 95).
Definition after (p x : pstr) : option pstr :=
  if pstr_eqb (firstn (length p) x) p then Some (skipn (length p) x) else None.
Definition class_re (x : pstr) : option pstr :=
  match after (s "class ") x with
  | None => None
  | Some r => match fst (span word_char r) with [] => None | w => Some w end
  end.
Definition start_re (x : pstr) : option (nat * pstr) :=
  let (b, r) := span (N.eqb 32) x in
  match after (s "### {{{") r with
  | None => None
  | Some r' => Some (length b, fst (span word_char (snd (span (N.eqb 32) r'))))
  end.
Definition end_re (x : pstr) : bool :=
  match after (s "### }}}") (snd (span (N.eqb 32) x)) with Some _ => true | None => false end.

(** ** handle *)

(** replacer.py:18-19 [self.fields]; [add] is [aset]. *)
Definition fields := list (pstr * pstr).

(** The variables of [handle], replacer.py:36-42. current_block_name and current_indent are None
    together. *)
Record rstate : Type := mkR {
  r_result : pstr; r_class : option pstr; r_block : option (pstr * nat); r_changed : bool; r_ignore : bool; r_seen : list pstr }.
Definition r_start : rstate := mkR [] None None false false [].

(** replacer.py:75-81 *)
Definition indented (i : nat) (v : pstr) : pstr :=
  join [10] (map (fun l => rstrip (blanks_of i ++ l)) (split_lines v)).

(** replacer.py:53-100, one line. After an exception, only the names seen are left. *)
Definition r_line (fs : fields) (st : rstate) (line : pstr) : rstate * res unit :=
  let latest := match class_re line with Some c => Some c | None => r_class st end in
  match start_re line with
  | Some (i, nm) =>
      let (name, latest') := match nm with [] => (latest, None) | _ => (Some nm, latest) end in
      match name with
      | None => (st, Err ValueError)
      | Some b =>
          let result := r_result st ++ line in
          let seen := b :: r_seen st in
          match aget b fs with
          | None => (mkR result latest' (Some (b, i)) (r_changed st) false seen, Ok tt)
          | Some v => (mkR (result ++ indented i v) latest' (Some (b, i)) true true seen, Ok tt)
          end
      end
  | None =>
      if end_re line then
        match r_block st with
        | None => (st, Err ValueError)
        | Some (_, i) =>
            let result := if r_ignore st then r_result st ++ [10] else r_result st in
            (mkR (result ++ blanks_of i ++ strip line ++ [10]) latest None (r_changed st) false (r_seen st), Ok tt)
        end
      else
        (mkR (if r_ignore st then r_result st else r_result st ++ line) latest (r_block st) (r_changed st) (r_ignore st) (r_seen st), Ok tt)
  end.
Fixpoint r_lines (fs : fields) (st : rstate) (l : list pstr) : rstate * res unit :=
  match l with
  | [] => match r_block st with
          | Some _ => (st, Err ValueError)
          | None => (st, Ok tt)
          end
  | line :: l' => match r_line fs st line with
                  | (st', Ok _) => r_lines fs st' l'
                  | (st', Err e) => (st', Err e)
                  end
  end.

(** replacer.py:113-120 [write_to]: the temporary file is made or emptied, written and renamed. *)
Definition temp_name (name : pstr) : pstr := name ++ s ".1".
Definition rename (d : disk) (x y : pstr) : disk :=
  match aget x d with Some b => aset y b (filter (fun kv => negb (pstr_eqb x (fst kv))) d) | None => d end.
Definition write_to (d : disk) (name : pstr) (text : pstr) : disk * res unit :=
  match utf8_out text with
  | None => (aset (temp_name name) [] d, Err ValueError)     (* UnicodeEncodeError *)
  | Some b => (rename (aset (temp_name name) b d) (temp_name name) name, Ok tt)
  end.
(** The disk at every moment of [write_to], were the process to die then. Renaming is atomic. *)
Definition write_states (d : disk) (name : pstr) (text : pstr) : list disk :=
  d :: match utf8_out text with
       | None => [aset (temp_name name) [] d]
       | Some b => map (fun i => aset (temp_name name) (firstn i b) d) (seq 0 (S (length b))) ++
                   [rename (aset (temp_name name) b d) (temp_name name) name]
       end.

(** A Replacer, and what it did: the disk, the names of blocks seen, the files of which it said
    "Written:", and the exception, if any *)
Record outcome : Type := mkO { o_disk : disk; o_seen : list pstr; o_written : list pstr; o_res : res unit }.

(** replacer.py:31-106 [handle(filename)]. Bytes that aren't UTF-8 raise UnicodeDecodeError, perhaps after
    another ValueError: the names seen until then are not modelled. *)
Definition handle (fs : fields) (d : disk) (name : pstr) : outcome :=
  match fs with
  | [] => mkO d [] [] (Ok tt)
  | _ =>
      match aget name d with
      | None => mkO d [] [] (Err FileNotFoundError)
      | Some b =>
          match decode b with
          | None => mkO d [] [] (Err ValueError)
          | Some x =>
              match r_lines fs r_start (lines (norm_eol x)) with
              | (st, Err e) => mkO d (r_seen st) [] (Err e)
              | (st, Ok _) =>
                  if r_changed st then
                    match write_to d name (r_result st) with
                    | (d', Ok _) => mkO d' (r_seen st) [name] (Ok tt)
                    | (d', Err e) => mkO d' (r_seen st) [] (Err e)
                    end
                  else mkO d (r_seen st) [] (Ok tt)
              end
          end
      end
  end.
Definition handle_states (fs : fields) (d : disk) (name : pstr) : list disk :=
  match fs, aget name d with
  | _ :: _, Some b =>
      match decode b with
      | None => [d]
      | Some x => match r_lines fs r_start (lines (norm_eol x)) with
                  | (st, Ok _) => if r_changed st then write_states d name (r_result st) else [d]
                  | _ => [d]
                  end
      end
  | _, _ => [d]
  end.

(** replacer.py:21-29 [handle_all_files()], for the files that glob finds, in order *)
Fixpoint handle_all (fs : fields) (d : disk) (names : list pstr) : outcome :=
  match fs, names with
  | [], _ | _, [] => mkO d [] [] (Ok tt)
  | _, name :: names' =>
      let o := handle fs d name in
      match o_res o with
      | Err e => o
      | Ok _ => let o' := handle_all fs (o_disk o) names' in
                mkO (o_disk o') (o_seen o' ++ o_seen o) (o_written o ++ o_written o') (o_res o')
      end
  end.
Fixpoint handle_all_states (fs : fields) (d : disk) (names : list pstr) : list disk :=
  match names with
  | [] => [d]
  | name :: names' =>
      handle_states fs d name ++
      match o_res (handle fs d name) with
      | Err _ => []
      | Ok _ => handle_all_states fs (o_disk (handle fs d name)) names'
      end
  end.

(** replacer.py:108-111 [check_everything_was_seen()]: the names it complains about. [sorted] is
    by code points. *)
Definition unseen (fs : fields) (seen : list pstr) : list pstr :=
  filter (fun k => negb (existsb (pstr_eqb k) seen)) (sort pstr_le (map fst fs)).
