(** template/replacer.py in a locale whose encoding isn't UTF-8: both [open(filename, 'r')] (:44) and [open(temp_filename, 'w')] (:117)
    take the encoding of the locale. *)
From Verif Require Import RepModel.
Local Open Scope N_scope.

(** [x.encode(e)], where [ch] has the bytes of each character. None is a UnicodeEncodeError, which is a ValueError. *)
Fixpoint encode_by (ch : N -> option (list N)) (x : pstr) : option (list N) :=
  match x with
  | [] => Some []
  | c :: x' => match ch c, encode_by ch x' with Some b, Some r => Some (b ++ r) | _, _ => None end
  end.
(** replacer.py:113-120 [write_to], as in RepModel.v, but for the encoding *)
Definition write_in (ch : N -> option (list N)) (d : disk) (name : pstr) (text : pstr) : disk * res unit :=
  match encode_by ch text with
  | None => (aset (temp_name name) [] d, Err ValueError)
  | Some b => (rename (aset (temp_name name) b d) (temp_name name) name, Ok tt)
  end.
(** replacer.py:31-106 [handle(filename)], as in RepModel.v, but for the encoding. [dec] decodes the bytes of a file. *)
Definition handle_in (dec : list N -> option pstr) (ch : N -> option (list N)) (fs : fields) (d : disk) (name : pstr) : outcome :=
  match fs with
  | [] => mkO d [] [] (Ok tt)
  | _ =>
      match aget name d with
      | None => mkO d [] [] (Err FileNotFoundError)
      | Some b =>
          match dec b with
          | None => mkO d [] [] (Err ValueError)
          | Some x =>
              match r_lines fs r_start (lines (norm_eol x)) with
              | (st, Err e) => mkO d (r_seen st) [] (Err e)
              | (st, Ok _) =>
                  if r_changed st then
                    match write_in ch d name (r_result st) with
                    | (d', Ok _) => mkO d' (r_seen st) [name] (Ok tt)
                    | (d', Err e) => mkO d' (r_seen st) [] (Err e)
                    end
                  else mkO d (r_seen st) [] (Ok tt)
              end
          end
      end
  end.
