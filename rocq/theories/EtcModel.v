(** /repo/etc/scan-synfig-source.py and /repo/etc/get-symbols.py.

    Files are as in RepModel.v. What is printed is not modelled, nor are arguments that argparse refuses. *)
From Verif Require Export RepModel.
Local Open Scope N_scope.

(** [re.search]: the first place where the expression matches *)
Fixpoint search {A} (m : pstr -> option A) (x : pstr) : option A :=
  match m x with
  | Some a => Some a
  | None => match x with [] => None | _ :: x' => search m x' end
  end.

(** [open(name, 'r')], and the lines of the file *)
Definition file_lines (d : disk) (name : pstr) : res (list pstr) :=
  match aget name d with
  | None => Err FileNotFoundError
  | Some b => match decode b with
              | None => Err ValueError     (* UnicodeDecodeError *)
              | Some x => Ok (lines (norm_eol x))
              end
  end.

(** ** scan-synfig-source.py *)

(** scan-synfig-source.py:6 BLEND_ENUM_RE, at this place. Of the digits that \d matches, only those of ASCII are modelled. *)
Definition upper_char (c : N) : bool := ((65 <=? c) && (c <=? 90)) || (c =? 95).
Definition blend_re (x : pstr) : option (pstr * pstr) :=
  match after (s "BLEND_") x with
  | None => None
  | Some r =>
      let (w, r1) := span upper_char r in
      match w, after (s "=") r1 with
      | _ :: _, Some r2 => match fst (span is_digit r2) with [] => None | ds => Some (w, ds) end
      | _, _ => None
      end
  end.

(** A dict whose keys are ints *)
Fixpoint nset {V} (k : N) (v : V) (d : list (N * V)) : list (N * V) :=
  match d with
  | [] => [(k, v)]
  | (k', v') :: d' => if k =? k' then (k, v) :: d' else (k', v') :: nset k v d'
  end.

(** scan-synfig-source.py:29-38, one line *)
Definition scan_line (d : list (N * pstr)) (line : pstr) : list (N * pstr) :=
  match search blend_re line with
  | None => d
  | Some (name, ds) => if pstr_eqb name (s "END") || pstr_eqb name (s "BY_LAYER") then d else nset (digits_val ds) name d
  end.

(** scan-synfig-source.py:45-48. The numbers of [enumerate] *)
Fixpoint table_lines (i : N) (l : list pstr) : pstr :=
  match l with
  | [] => []
  | v :: l' => v ++ s " = " ++ dec_N i ++ [10] ++ table_lines (i + 1) l'
  end.
(** scan-synfig-source.py:40-48 *)
Definition blend_table (d : list (N * pstr)) : res pstr :=
  if forallb (fun i => existsb (fun kv => fst kv =? N.of_nat i) d) (seq 0 (length d))
  then Ok ([10] ++ table_lines 0 (map snd (sort (fun a b => fst a <=? fst b) d)))
  else Err AssertionError.

(** [os.path.join], where the second part isn't absolute *)
Definition join_path (a b : pstr) : pstr :=
  match rev a with
  | [] => b
  | c :: _ => if c =? 47 then a ++ b else a ++ [47] ++ b
  end.
Definition header_name (src : pstr) : pstr :=
  fold_left join_path [s "synfig-core"; s "src"; s "synfig"; s "color"; s "color.h"] src.

(** scan-synfig-source.py:16-52 [main()]: whether the argument is a directory, and the files that the
    Replacer finds. *)
Definition scan_field (d : disk) (src : pstr) : res fields :=
  let* ls := file_lines d (header_name src) in
  let* t := blend_table (fold_left scan_line ls []) in
  Ok [(s "BlendMethod", t)].
Definition scan_source (d : disk) (src : pstr) (isdir : bool) (names : list pstr) : outcome :=
  if isdir then
    match scan_field d src with
    | Err e => mkO d [] [] (Err e)
    | Ok fs => handle_all fs d names
    end
  else mkO d [] [] (Ok tt).
(** The disk at every moment of it *)
Definition scan_states (d : disk) (src : pstr) (isdir : bool) (names : list pstr) : list disk :=
  if isdir then match scan_field d src with Ok fs => handle_all_states fs d names | Err _ => [d] end else [d].

(** ** get-symbols.py *)

(** get-symbols.py:8 LAYER_CLASS_DEF_RE, at this place *)
Definition layer_class_re (x : pstr) : option (pstr * pstr) :=
  match after (s "class ") x with
  | None => None
  | Some r =>
      let (w, r1) := span word_char r in
      match w, after (s "(") r1 with
      | _ :: _, Some r2 => match fst (span word_char r2) with [] => None | b => Some (w, b) end
      | _, _ => None
      end
  end.
(** get-symbols.py:9 SYMBOL_RE, at this place *)
Definition is_quote (c : N) : bool := (c =? 39) || (c =? 34).
Definition symbol_re (x : pstr) : option pstr :=
  match after (s "SYMBOL") x with
  | None => None
  | Some r =>
      match after (s "=") (snd (span (N.eqb 32) r)) with
      | None => None
      | Some r2 => match snd (span (N.eqb 32) r2) with
                   | c :: r3 => if is_quote c then Some (fst (span (fun c => negb (is_quote c)) r3)) else None
                   | [] => None
                   end
      end
  end.

(** get-symbols.py:11-13 results and current_classname. Each result is {} or {'symbol': ...}. *)
Definition symbols := list (pstr * option pstr).

(** get-symbols.py:30-33: a symbol belongs to the current class. *)
Definition symbol_line (res : symbols) (cur : option pstr) (line : pstr) : symbols :=
  match cur with
  | Some c => match aget c res, search symbol_re line with
              | Some _, Some x => aset c (Some x) res
              | _, _ => res
              end
  | None => res
  end.
(** get-symbols.py:18-33, one line *)
Definition details_line (st : symbols * option pstr) (line : pstr) : res (symbols * option pstr) :=
  let (r, cur) := st in
  match search layer_class_re line with
  | None => Ok (symbol_line r cur line, cur)
  | Some (c, base) =>
      if negb (pstr_eqb base (s "Layer")) then Ok st
      else match aget c r with
           | Some _ => Err AssertionError
           | None => Ok (symbol_line (aset c None r) (Some c) line, Some c)
           end
  end.
Fixpoint details_lines (st : symbols * option pstr) (ls : list pstr) : res (symbols * option pstr) :=
  match ls with
  | [] => Ok st
  | l :: ls' => let* st' := details_line st l in details_lines st' ls'
  end.
(** get-symbols.py:15-17: the files that glob finds, in its order *)
Fixpoint details_files (st : symbols * option pstr) (d : disk) (names : list pstr) : res (symbols * option pstr) :=
  match names with
  | [] => Ok st
  | name :: names' => let* ls := file_lines d name in let* st' := details_lines st ls in details_files st' d names'
  end.

(** [json.dump] of strings with ensure_ascii=False: json.encoder.ESCAPE_DCT *)
Definition json_char (c : N) : pstr :=
  if c =? 34 then [92; 34]
  else if c =? 92 then [92; 92]
  else if c =? 10 then [92; 110]
  else if c =? 13 then [92; 114]
  else if c =? 9 then [92; 116]
  else if c =? 12 then [92; 102]
  else if c =? 8 then [92; 98]
  else if c <? 32 then [92; 117] ++ pad0 4 (hex_N c)
  else [c].
Definition json_str (x : pstr) : pstr := 34 :: flat_map json_char x ++ [34].
(** ... and of the results, with indent=4 and sort_keys=True *)
Definition json_entry (kv : pstr * option pstr) : pstr :=
  [10] ++ repeat 32 4 ++ json_str (fst kv) ++ s ": " ++
  match snd kv with
  | None => s "{}"
  | Some x => s "{" ++ [10] ++ repeat 32 8 ++ json_str (s "symbol") ++ s ": " ++ json_str x ++ [10] ++ repeat 32 4 ++ s "}"
  end.
Definition json_out (r : symbols) : pstr :=
  match r with
  | [] => s "{}"
  | _ => s "{" ++ join (s ",") (map json_entry (sort (fun a b => pstr_le (fst a) (fst b)) r)) ++ [10] ++ s "}"
  end.

(** get-symbols.py:6,35-39: the file is emptied, and written. *)
Definition details_name : pstr := s "layer-details.json".
Definition put_symbols (d : disk) (names : list pstr) : disk * res unit :=
  match details_files ([], None) d names with
  | Err e => (d, Err e)
  | Ok (r, _) => match utf8_out (json_out r) with
                 | None => (aset details_name [] d, Err ValueError)   (* UnicodeEncodeError; what was written until then is not modelled *)
                 | Some b => (aset details_name b d, Ok tt)
                 end
  end.
(** The disk at every moment of it *)
Definition put_states (d : disk) (names : list pstr) : list disk :=
  d :: match details_files ([], None) d names with
       | Err _ => []
       | Ok (r, _) => match utf8_out (json_out r) with
                      | None => [aset details_name [] d]
                      | Some b => map (fun i => aset details_name (firstn i b) d) (seq 0 (S (length b)))
                      end
       end.
