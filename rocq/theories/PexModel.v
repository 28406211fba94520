(** /repo/sangfroid/value/: [as_python_expression]. *)
From Verif Require Export SerModel.
Local Open Scope Z_scope.

(** ** [repr()] of strings *)

(** Lower-case hexadecimal with k digits, as in '%04x'. *)
Definition hex_pad (k : nat) (n : N) : pstr := pad0 k (hex_N n).

Section Repr.
  (** Which characters outside ASCII [str.isprintable] accepts: Python's database of
      characters is not modelled; the theorems hold whatever it says. *)
  Context (printable : N -> bool).

  (** CPython unicode_repr: one character, within the given quotes *)
  Definition repr_char (quote c : N) : pstr :=
    if (c =? quote)%N || (c =? 92)%N then [92%N; c]
    else if (c =? 9)%N then s "\t"
    else if (c =? 10)%N then s "\n"
    else if (c =? 13)%N then s "\r"
    else if (c <? 32)%N || (c =? 127)%N then s "\x" ++ hex_pad 2 c
    else if (c <? 127)%N then [c]
    else if printable c then [c]
    else if (c <? 256)%N then s "\x" ++ hex_pad 2 c
    else if (c <? 65536)%N then s "\u" ++ hex_pad 4 c
    else s "\U" ++ hex_pad 8 c.

  (** Single quotes, unless there are single quotes and no double quotes inside. *)
  Definition repr_quote (x : pstr) : N :=
    if existsb (N.eqb 39) x && negb (existsb (N.eqb 34) x) then 34%N else 39%N.
  Definition repr_str (x : pstr) : pstr :=
    let q := repr_quote x in q :: flat_map (repr_char q) x ++ [q].

  (** ** [str()] of tuples and dictionaries *)

  (** [str(t)] where t is a tuple of floats *)
  Definition tuple_str (l : list Q) : pstr :=
    match l with
    | [x] => s "(" ++ repr_float x ++ s ",)"
    | _ => s "(" ++ join (s ", ") (map repr_float l) ++ s ")"
    end.

  (** [str(d)] where d is the value of a vector: str to str or None *)
  Definition dict_str (d : list (pstr * option pstr)) : pstr :=
    s "{" ++ join (s ", ") (map (fun kv => repr_str (fst kv) ++ s ": " ++
                                           match snd kv with Some x => repr_str x | None => s "None" end) d) ++ s "}".

  (** value/vector.py:122-126 [_str_inner], with value.py:207-211 [__str__] *)
  Definition vector_str (n : node) : res pstr :=
    if is_animated n then Ok (s "(animated)")
    else match vector_keys n with
         | [k1; k2] => if pstr_eqb k1 (s "x") && pstr_eqb k2 (s "y")
                       then let* l := vector_tuple n in Ok (tuple_str l)
                       else Ok (dict_str (vector_dict n))
         | _ => Ok (dict_str (vector_dict n))
         end.

  (** ** The expressions *)

  (** What [as_python_expression] returns: usually a str; for colours a tuple, and
      for the time zero the int 0. Always used in an f-string or with '%s', which give [expr_text]. *)
  Inductive expr := EStr (x : pstr) | EInt (z : Z) | ETuple (l : list Q).
  Definition expr_text (e : expr) : pstr :=
    match e with EStr x => x | EInt z => dec_Z z | ETuple l => tuple_str l end.

  (** value/value.py:239-246 (Real, Integer and Bool: [str(self)]), simple.py:133-135 (Angle),
      simple.py:153-159 (Time), string.py:18-19, color.py:103-104,
      vector.py (inherited), blendmethod.py:44-45, tbd.py:7-10.
      Not modelled: Canvas, whose str is that of its list of layers. *)
  Definition flat_expr (c : vcls) (n : node) (cx : ctx) : res expr :=
    match c with
    | VReal | VInteger | VBool => let* x := py_str (PVal c n cx) in Ok (EStr x)
    | VAngle => let* v := simple_val VAngle n cx in let* x := py_str v in Ok (EStr x)
    | VTime => let* v := simple_val VTime n cx in
               match v with
               | PT t => let* z := T_eq t (CNum 0) in
                         if z : bool then Ok (EInt 0) else Ok (EStr (repr_str (T_str t)))
               | _ => Err EUnmodelled
               end
    | VString => Ok (EStr (repr_str (string_val n)))
    | VColor => let* l := color_tuple n in Ok (ETuple l)
    | VXY => let* x := vector_str n in Ok (EStr x)
    | VBlendMethod => let* x := py_str (PVal c n cx) in Ok (EStr (s "v." ++ x))
    | VTbd _ => if is_animated n then Ok (EStr (s "(animated)")) else Err NotImplementedError
    | VCanvas | VGradient | VTransformation => Err EUnmodelled
    end.

  (** value/gradient.py:70-75 *)
  Definition gradient_expr (n : node) (cx : ctx) : res expr :=
    let* d := gradient_val n cx in
    let* l := mapM (fun kv => match snd kv with
                              | PVal c m cy => let* e := flat_expr c m cy in
                                               Ok (repr_float (fst kv) ++ s ":" ++ expr_text e)
                              | _ => Err EUnmodelled
                              end) d in
    Ok (EStr (s "{" ++ join (s ",") l ++ s "}")).

  (** ['%40s' % x] *)
  Definition pad40 (x : pstr) : pstr := repeat 32%N (40 - length x) ++ x.

  (** value/transformation.py:153-164. Not modelled: composites or gradients within composites. *)
  Definition composite_expr (n : node) (cx : ctx) : res expr :=
    let* d := composite_val n cx in
    let* l := mapM (fun kv => match snd kv with
                              | PVal c m cy => let* e := flat_expr c m cy in
                                               Ok (repeat 32%N 5 ++ pad40 (repr_str (fst kv)) ++ s ": " ++ expr_text e ++ [44%N; 10%N])
                              | _ => Err EUnmodelled
                              end) d in
    Ok (EStr ([123%N; 10%N] ++ concat l ++ repeat 32%N 36 ++ s "}")).

  (** [obj.as_python_expression()] *)
  Definition expression (c : vcls) (n : node) (cx : ctx) : res expr :=
    match c with
    | VGradient => gradient_expr n cx
    | VTransformation => composite_expr n cx
    | _ => flat_expr c n cx
    end.
End Repr.
