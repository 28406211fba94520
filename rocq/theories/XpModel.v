(** Writing and reading XML: what [str(soup)] (bs4 4.12.2) writes, and what
    [BeautifulSoup(f, features='xml')] (lxml) makes of it. /repo/sangfroid/format.py:118-119
    and :133-144 call these; they are not in /repo, so this is their documented behaviour. SerModel.v has
    the composition of the two as one function, [reload]: the proof that it is one is in XpProofs.v.

    The reader knows the XML that the writer writes, and a bit more. It has no comments, CDATA sections,
    doctypes, namespaces, numeric character references, nor blanks around '=' or before '>' of an end tag:
    on those it says [PErr]. *)
From Verif Require Export SerModel.
Local Open Scope N_scope.

(** ** Writing *)

(** bs4 EntitySubstitution.substitute_xml *)
Definition esc (c : N) : pstr :=
  if c =? 38 then s "&amp;" else if c =? 60 then s "&lt;" else if c =? 62 then s "&gt;" else [c].
Definition text_out (x : pstr) : pstr := flat_map esc x.
(** bs4 EntitySubstitution.quoted_attribute_value, after substitute_xml *)
Definition attr_out (x : pstr) : pstr :=
  if existsb (N.eqb 34) x then
    if existsb (N.eqb 39) x
    then [34] ++ flat_map (fun c => if c =? 34 then s "&quot;" else esc c) x ++ [34]
    else [39] ++ text_out x ++ [39]
  else [34] ++ text_out x ++ [34].
(** bs4 Formatter.attributes sorts them; Tag.decode takes str() of each *)
Definition attrs_out (a : attrs) : pstr :=
  flat_map (fun kv => [32] ++ fst kv ++ [61] ++ attr_out (aval_str (snd kv)))
           (sort (fun a b => pstr_le (fst a) (fst b)) a).
(** bs4 Tag.decode. An empty tag is written [<a/>] if it came from a file, and [<a></a>] if it was made
    by the constructor: [void] says which (simplification: it depends on the name and attributes only). *)
Fixpoint node_out (void : pstr -> attrs -> bool) (n : node) : pstr :=
  match n with
  | Txt x => text_out x
  | El nm a k =>
      [60] ++ nm ++ attrs_out a ++
      match k with
      | [] => if void nm a then [47; 62] else [62] ++ [60; 47] ++ nm ++ [62]
      | _ => [62] ++ flat_map (node_out void) k ++ [60; 47] ++ nm ++ [62]
      end
  end.
(** bs4 BeautifulSoup.decode *)
Definition decl : pstr := s "<?xml version=""1.0"" encoding=""utf-8""?>" ++ [10].
Definition doc_out (void : pstr -> attrs -> bool) (n : node) : pstr := decl ++ node_out void n.

(** ** Reading *)

Definition space (c : N) : bool := (c =? 32) || (c =? 10) || (c =? 9).
(** Characters of names: all but those with a meaning of their own. (The real list is shorter.) *)
Definition name_char (c : N) : bool :=
  negb (space c || existsb (N.eqb c) [13; 33; 34; 38; 39; 47; 58; 59; 60; 61; 62; 63]).
Definition entity (e : pstr) : option N :=
  if pstr_eqb e (s "amp") then Some 38 else if pstr_eqb e (s "lt") then Some 60
  else if pstr_eqb e (s "gt") then Some 62 else if pstr_eqb e (s "quot") then Some 34
  else if pstr_eqb e (s "apos") then Some 39 else None.

(** An element whose end has not been read: its children so far are in reverse *)
Record frame : Type := mkFr { f_name : pstr; f_attrs : attrs; f_kids : list node }.

(** The states of the reader. Strings and lists of attributes being read are in reverse. *)
Inductive pst : Type :=
| PDecl (q : bool)
| PProlog
| POpen (stk : list frame)
| PName (stk : list frame) (nm : pstr)
| PAttrs (stk : list frame) (nm : pstr) (a : attrs)
| PKey (stk : list frame) (nm : pstr) (a : attrs) (k : pstr)
| PQuote (stk : list frame) (nm : pstr) (a : attrs) (k : pstr)
| PQVal (stk : list frame) (nm : pstr) (a : attrs) (k : pstr) (q : N) (v : pstr)
| PQEnt (stk : list frame) (nm : pstr) (a : attrs) (k : pstr) (q : N) (v e : pstr)
| PSlash (stk : list frame) (nm : pstr) (a : attrs)
| PText (stk : list frame) (b : pstr)
| PTEnt (stk : list frame) (b e : pstr)
| PClose (stk : list frame) (nm : pstr)
| PDone (n : node)
| PErr.

(** bs4 BeautifulSoup.endData *)
Definition flush (f : frame) (b : pstr) : frame :=
  match b with
  | [] => f
  | _ => mkFr (f_name f) (f_attrs f) (Txt (norm_blank (rev b)) :: f_kids f)
  end.
Definition close (f : frame) (stk : list frame) : pst :=
  let n := El (f_name f) (f_attrs f) (rev (f_kids f)) in
  match stk with
  | [] => PDone n
  | g :: stk' => PText (mkFr (f_name g) (f_attrs g) (n :: f_kids g) :: stk') []
  end.
Definition pstep (st : pst) (c : N) : pst :=
  if negb (xml_char c) then PErr else
  match st with
  | PDecl q => if (c =? 62) && q then PProlog else PDecl (c =? 63)
  | PProlog => if space c then PProlog else if c =? 60 then POpen [] else PErr
  | POpen stk => if c =? 47 then PClose stk [] else if name_char c then PName stk [c] else PErr
  | PName stk nm =>
      if name_char c then PName stk (c :: nm)
      else if space c then PAttrs stk (rev nm) []
      else if c =? 62 then PText (mkFr (rev nm) [] [] :: stk) []
      else if c =? 47 then PSlash stk (rev nm) []
      else PErr
  | PAttrs stk nm a =>
      if space c then st
      else if c =? 62 then PText (mkFr nm (rev a) [] :: stk) []
      else if c =? 47 then PSlash stk nm a
      else if name_char c then PKey stk nm a [c]
      else PErr
  | PKey stk nm a k =>
      if name_char c then PKey stk nm a (c :: k)
      else if (c =? 61) && negb (existsb (fun kv => pstr_eqb (fst kv) (rev k)) a) then PQuote stk nm a (rev k)
      else PErr
  | PQuote stk nm a k => if (c =? 34) || (c =? 39) then PQVal stk nm a k c [] else PErr
  | PQVal stk nm a k q v =>
      if c =? q then PAttrs stk nm ((k, AStr (rev v)) :: a)
      else if c =? 38 then PQEnt stk nm a k q v []
      else if c =? 60 then PErr
      else PQVal stk nm a k q ((if space c then 32 else c) :: v)
  | PQEnt stk nm a k q v e =>
      if c =? 59 then match entity (rev e) with Some x => PQVal stk nm a k q (x :: v) | None => PErr end
      else PQEnt stk nm a k q v (c :: e)
  | PSlash stk nm a => if c =? 62 then close (mkFr nm (rev a) []) stk else PErr
  | PText [] _ => PErr
  | PText (f :: stk) b =>
      if c =? 60 then POpen (flush f b :: stk)
      else if c =? 38 then PTEnt (f :: stk) b []
      else PText (f :: stk) (c :: b)
  | PTEnt stk b e =>
      if c =? 59 then match entity (rev e) with Some x => PText stk (x :: b) | None => PErr end
      else PTEnt stk b (c :: e)
  | PClose [] _ => PErr
  | PClose (f :: stk) nm =>
      if name_char c then PClose (f :: stk) (c :: nm)
      else if (c =? 62) && pstr_eqb (rev nm) (f_name f) then close f stk
      else PErr
  | PDone n => if space c then PDone n else PErr
  | PErr => PErr
  end.
Definition prun (st : pst) (x : pstr) : pst := fold_left pstep x st.

(** The root of the document, if this is XML the reader knows. The declaration is skipped. *)
Definition doc_in (x : pstr) : option node :=
  if starts_with (s "<?xml") x then
    match prun (PDecl false) (norm_eol x) with PDone n => Some n | _ => None end
  else None.

(** ** UTF-8 *)

(** [x.encode('UTF-8')]; None is a UnicodeEncodeError, which is a ValueError *)
Definition utf8_char (c : N) : option (list N) :=
  if c <? 128 then Some [c]
  else if c <? 2048 then Some [192 + c / 64; 128 + c mod 64]
  else if (55296 <=? c) && (c <=? 57343) then None
  else if c <? 65536 then Some [224 + c / 4096; 128 + (c / 64) mod 64; 128 + c mod 64]
  else if c <? 1114112 then Some [240 + c / 262144; 128 + (c / 4096) mod 64; 128 + (c / 64) mod 64; 128 + c mod 64]
  else None.
Fixpoint utf8_out (x : pstr) : option (list N) :=
  match x with
  | [] => Some []
  | c :: x' => match utf8_char c, utf8_out x' with
               | Some b, Some r => Some (b ++ r)
               | _, _ => None
               end
  end.
(** [b.decode('UTF-8')], without the check for overlong forms and surrogates, which Python rejects *)
Fixpoint utf8_in (b : list N) : option pstr :=
  match b with
  | [] => Some []
  | c :: r =>
      if c <? 128 then option_map (cons c) (utf8_in r)
      else match r with
           | d :: r =>
               if (192 <=? c) && (c <? 224) then option_map (cons ((c - 192) * 64 + (d - 128))) (utf8_in r)
               else match r with
                    | e :: r =>
                        if (224 <=? c) && (c <? 240) then option_map (cons ((c - 224) * 4096 + (d - 128) * 64 + (e - 128))) (utf8_in r)
                        else match r with
                             | f :: r =>
                                 if (240 <=? c) && (c <? 248)
                                 then option_map (cons ((c - 240) * 262144 + (d - 128) * 4096 + (e - 128) * 64 + (f - 128))) (utf8_in r)
                                 else None
                             | [] => None
                             end
                    | [] => None
                    end
           | [] => None
           end
  end.
(** [b.decode('UTF-8')], which is strict: overlong forms and surrogates are refused, too. *)
Definition decode (b : list N) : option pstr :=
  match utf8_in b with
  | Some x => match utf8_out x with
              | Some b' => if pstr_eqb b b' then Some x else None
              | None => None
              end
  | None => None
  end.
