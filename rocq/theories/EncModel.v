(** Loading where the locale isn't UTF-8: format.py:171-172 opens a .sif file with [open(filename, 'r')], which decodes it as the locale
    says. A .sifz file is opened with gzip as bytes (:185-186), which bs4 decodes as the declaration in the file says. *)
From Verif Require Import AnimModel.

(** format.py:171-172, 185-186 [main_file()], as in AnimModel.v, but for the decoding of plain text *)
Definition main_file_in (dec : list N -> option pstr) (kd : fkind) (f : file) : res node :=
  match kd, f with
  | FSif, Raw b => match dec b with Some x => parse_doc x | None => Err ValueError end
  | _, _ => main_file kd f
  end.
(** animation.py:109-128 [Animation(filename)] *)
Definition load_in (dec : list N -> option pstr) (fs : files) (name : pstr) : res anim :=
  match aget name fs with
  | None => Err FileNotFoundError
  | Some f => let* kd := kind_by_magic f in
              let* n := main_file_in dec kd f in
              Ok (mkAnim n kd (Some name))
  end.
(** [b.decode(e)], where [e] is one of the encodings in which each byte is a character: [page] says which one. None is a UnicodeDecodeError,
    which is a ValueError. *)
Fixpoint decode_by (page : N -> option N) (b : list N) : option pstr :=
  match b with
  | [] => Some []
  | c :: r => match page c, decode_by page r with Some d, Some x => Some (d :: x) | _, _ => None end
  end.
(** ISO-8859-1: each byte is the character of that number. *)
Definition latin1 (c : N) : option N := if (c <? 256)%N then Some c else None.
(** windows-1252, which is that of Windows in Western Europe and America: as ISO-8859-1, but for 128 to 159 *)
Definition cp1252 (c : N) : option N :=
  if (c <? 128)%N then Some c else if (c <? 160)%N then
    nth (N.to_nat (c - 128)) [Some 8364; None; Some 8218; Some 402; Some 8222; Some 8230; Some 8224; Some 8225; Some 710; Some 8240; Some 352; Some 8249; Some 338; None; Some 381; None;
      None; Some 8216; Some 8217; Some 8220; Some 8221; Some 8226; Some 8211; Some 8212; Some 732; Some 8482; Some 353; Some 8250; Some 339; None; Some 382; Some 376]%N None
  else if (c <? 256)%N then Some c else None.
