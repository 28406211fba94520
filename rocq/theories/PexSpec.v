(** Reading Python literals, for the theorems about [as_python_expression]. This is a part of
    the Python language, apart from the code under study: numbers with an optional minus sign, strings in
    single or double quotes, True, False, None, tuples and dictionaries.
    A text outside that part is not read at all. *)
From Verif Require Import PexModel.
Local Open Scope Z_scope.

(** ** Numbers *)

(** Digits only: an int, without superfluous zeros before it. Otherwise a float: the nearest double. *)
Definition minus_sign (w : pstr) : bool * pstr := match w with 45%N :: r => (true, r) | _ => (false, w) end.
Definition number (w : pstr) : option pyval :=
  let (neg, r) := minus_sign w in
  if forallb is_digit r then
    match r with
    | [] => None
    | 48%N :: _ :: _ => None
    | _ => Some (PInt (let z := Z.of_N (digits_val r) in if neg then - z else z))
    end
  else match parse_unsigned r with
       | Some (m, e) => let q := (inject_Z (Z.of_N m) * pow10 e)%Q in Some (PFlo (rnd64 (if neg then (- q)%Q else q)))
       | None => None
       end.
Definition number_char (c : N) : bool :=
  is_digit c || (c =? 46)%N || (c =? 45)%N || (c =? 43)%N || (c =? 101)%N || (c =? 69)%N.

(** ** Strings *)

(** Where we are within a string: outside of an escape sequence; just behind a backslash; or
    with so many hexadecimal digits still to come, and the number read so far. *)
Inductive place := Plain | Backslash | Digits (more : nat) (n : N).

Definition escapes : list (N * N) :=
  combine (s "\'""abfnrtv") [92; 39; 34; 7; 8; 12; 10; 13; 9; 11]%N.
Fixpoint nget {V} (k : N) (l : list (N * V)) : option V :=
  match l with [] => None | (k', v) :: l' => if (k =? k')%N then Some v else nget k l' end.
Definition hex_escapes : list (N * nat) := combine (s "xuU") [2; 4; 8]%nat.

(** The rest of a string up to its closing quote, and what is behind that.
    A line can't end within a string, and a program can't contain the character 0. *)
Fixpoint string_rest (quote : N) (p : place) (x : pstr) : option (pstr * pstr) :=
  match x with
  | [] => None
  | c :: x' =>
      let yield d := match string_rest quote Plain x' with Some (a, b) => Some (d :: a, b) | None => None end in
      match p with
      | Plain => if (c =? quote)%N then Some ([], x')
                 else if (c =? 92)%N then string_rest quote Backslash x'
                 else if (c =? 10)%N || (c =? 13)%N || (c =? 0)%N then None
                 else yield c
      | Backslash => match nget c escapes, nget c hex_escapes with
                     | Some d, _ => yield d
                     | None, Some k => string_rest quote (Digits k 0) x'
                     | None, None => None
                     end
      | Digits k n => match hex_val c with
                      | None => None
                      | Some d => match k with
                                  | O => None
                                  | S O => yield (16 * n + d)%N
                                  | S k' => string_rest quote (Digits k' (16 * n + d)) x'
                                  end
                      end
      end
  end.

(** ** Brackets *)

(** Between brackets, blanks and line ends mean nothing. *)
Definition blank_char (c : N) : bool := (c =? 32)%N || (c =? 9)%N || (c =? 10)%N.
Fixpoint skip (x : pstr) : pstr := match x with c :: x' => if blank_char c then skip x' else x | [] => [] end.

Definition starts (p x : pstr) : option pstr :=
  if pstr_eqb (firstn (length p) x) p then Some (skipn (length p) x) else None.

(** Dictionaries: the keys are all strings, or all numbers. A key that comes twice has its
    first place and its last value. *)
Fixpoint string_items (l : list (pyval * pyval)) : option (list (pstr * pyval)) :=
  match l with
  | [] => Some []
  | (PStr k, v) :: l' => match string_items l' with Some r => Some ((k, v) :: r) | None => None end
  | _ => None
  end.
Fixpoint number_items (l : list (pyval * pyval)) : option (list (Q * pyval)) :=
  match l with
  | [] => Some []
  | (PFlo k, v) :: l' => match number_items l' with Some r => Some ((k, v) :: r) | None => None end
  | (PInt k, v) :: l' => match number_items l' with Some r => Some ((inject_Z k, v) :: r) | None => None end
  | _ => None
  end.
Definition dict_of (l : list (pyval * pyval)) : option pyval :=
  match string_items l, number_items l with
  | Some d, _ => Some (PDict (adict d))
  | None, Some d => Some (PDictF (qdict d))
  | None, None => None
  end.

(** ** Literals *)

(** A literal at the beginning of x, and what is behind it. The first argument bounds the
    number of items in each other and next to each other; any bound that suffices gives the same. *)
Fixpoint read (fuel : nat) (x : pstr) : option (pyval * pstr) :=
  match fuel with
  | O => None
  | S f =>
      match x with
      | [] => None
      | c :: x' =>
          if (c =? 39)%N || (c =? 34)%N then
            match string_rest c Plain x' with Some (a, b) => Some (PStr a, b) | None => None end
          else if (c =? 40)%N then
            match read_tuple f (skip x') with
            | Some (l, comma, b) => Some (match l with [v] => if comma : bool then PTuple [v] else v | _ => PTuple l end, b)
            | None => None
            end
          else if (c =? 123)%N then
            match read_dict f (skip x') with
            | Some (l, b) => match dict_of l with Some v => Some (v, b) | None => None end
            | None => None
            end
          else if is_digit c || (c =? 45)%N || (c =? 46)%N then
            let (w, b) := span number_char x in
            match number w with Some v => Some (v, b) | None => None end
          else match starts (s "True") x, starts (s "False") x, starts (s "None") x with
               | Some b, _, _ => Some (PBool true, b)
               | None, Some b, _ => Some (PBool false, b)
               | None, None, Some b => Some (PNone, b)
               | None, None, None => None
               end
      end
  end
(** The items up to the closing bracket, and whether there was a comma behind the last one. *)
with read_tuple (fuel : nat) (x : pstr) : option (list pyval * bool * pstr) :=
  match fuel with
  | O => None
  | S f =>
      match x with
      | 41%N :: x' => Some ([], true, x')
      | _ => match read f x with
             | None => None
             | Some (v, r) =>
                 match skip r with
                 | 44%N :: r' => match read_tuple f (skip r') with
                                 | Some (l, comma, b) => Some (v :: l, comma, b)
                                 | None => None
                                 end
                 | 41%N :: r' => Some ([v], false, r')
                 | _ => None
                 end
             end
      end
  end
with read_dict (fuel : nat) (x : pstr) : option (list (pyval * pyval) * pstr) :=
  match fuel with
  | O => None
  | S f =>
      match x with
      | 125%N :: x' => Some ([], x')
      | _ => match read f x with
             | None => None
             | Some (k, r) =>
                 match skip r with
                 | 58%N :: r' =>
                     match read f (skip r') with
                     | None => None
                     | Some (v, r) =>
                         match skip r with
                         | 44%N :: r' => match read_dict f (skip r') with
                                         | Some (l, b) => Some ((k, v) :: l, b)
                                         | None => None
                                         end
                         | 125%N :: r' => Some ([(k, v)], r')
                         | _ => None
                         end
                     end
                 | _ => None
                 end
             end
      end
  end.

(** The whole text is a literal, and v is what Python makes of it. *)
Definition is_literal (x : pstr) (v : pyval) : Prop := exists fuel, read fuel x = Some (v, []).

(** ** Recreating a value *)

(** Writing the expression for a value into a program and passing it to the constructor
    of the same class gives an object whose tag is m. *)
Definition recreates (printable : N -> bool) (c : vcls) (n : node) (cx : ctx) (m : node) : Prop :=
  exists e v, expression printable c n cx = Ok e /\ is_literal (expr_text e) v /\ new_value c v = Ok m.

(** Characters are Unicode code points. *)
Definition code_points (x : pstr) : Prop := Forall (fun c => (c < 1114112)%N) x.

Definition close (k : Z) (a b : Q) : Prop := (Qabs (a - b) <= pow10 (- k))%Q.
Definition text_points (w : pyval) : Prop := match w with PStr x => code_points x | _ => True end.

(** k whole frames at p frames per second. *)
Definition whole_time (k p : Z) : T := mkT (inject_Z k) (Some (inject_Z p)).

(** The value of a transformation whose parts are these tags. *)
Definition four (cx : ctx) (t1 t2 t3 t4 : node) : list (pstr * pyval) :=
  [(s "offset", PVal VXY t1 cx); (s "angle", PVal VAngle t2 cx); (s "skew_angle", PVal VAngle t3 cx); (s "scale", PVal VXY t4 cx)].
