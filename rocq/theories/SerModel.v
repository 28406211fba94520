(** Saving a document and loading it again: animation.py [save] writes
    [str(soup)] and [_load] reads it with [bs4.BeautifulSoup(f, features='xml')].

    [reload] is the composition, as a function on trees. It describes bs4 4.12.2 and
    lxml on trees whose strings hold only characters allowed in XML
    ([xml_char]) and whose names need no quoting; no theorem uses it on others.
    Escaping of [&], [<], [>] and quotes is undone by the parser, so it does not show. *)
From Verif Require Export ValModel.
Local Open Scope N_scope.

(** Characters that XML 1.0 allows, other than the carriage return. *)
Definition xml_char (c : N) : bool :=
  (c =? 9) || (c =? 10) || ((32 <=? c) && (c <=? 55295)) || ((57344 <=? c) && (c <=? 65533))
  || ((65536 <=? c) && (c <=? 1114111)).

(** XML end-of-line handling: \r\n and \r are read as \n. *)
Fixpoint norm_eol (x : pstr) : pstr :=
  match x with
  | [] => []
  | 13 :: x' => match x' with
                | 10 :: x'' => 10 :: norm_eol x''
                | _ => 10 :: norm_eol x'
                end
  | c :: x' => c :: norm_eol x'
  end.

(** XML attribute-value normalisation: after that, tab and newline are read as a space. *)
Definition norm_attr (x : pstr) : pstr :=
  map (fun c => if (c =? 9) || (c =? 10) then 32 else c) (norm_eol x).

(** bs4 BeautifulSoup.endData: text made of ASCII spaces only is replaced by a single
    newline or space. *)
Definition ascii_space (c : N) : bool := (c =? 32) || (c =? 10) || (c =? 9) || (c =? 12) || (c =? 13).
Definition norm_blank (x : pstr) : pstr :=
  if forallb ascii_space x then if existsb (N.eqb 10) x then [10] else [32] else x.

Definition norm_text (x : pstr) : pstr := norm_blank (norm_eol x).

(** bs4 writes attributes sorted by name, each as [str(value)]. *)
Definition reload_attrs (a : attrs) : attrs :=
  map (fun kv => (fst kv, AStr (norm_attr (aval_str (snd kv)))))
      (sort (fun a b => pstr_le (fst a) (fst b)) a).

(** Adjacent strings are read as one; empty ones disappear. *)
Fixpoint merge_texts (l : list node) : list node :=
  match l with
  | [] => []
  | Txt x :: l' => match merge_texts l' with
                   | Txt y :: r => Txt (x ++ y) :: r
                   | r => match x with [] => r | _ => Txt x :: r end
                   end
  | El nm a k :: l' => El nm a k :: merge_texts l'
  end.
Definition norm_node (n : node) : node := match n with Txt x => Txt (norm_text x) | _ => n end.

Fixpoint reload (n : node) : node :=
  match n with
  | Txt x => Txt x
  | El nm a k => El nm (reload_attrs a) (map norm_node (merge_texts (map reload k)))
  end.
