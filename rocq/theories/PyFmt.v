(** Python's number formatting and parsing: [str(int)], ['%d'], ['%.Nf'], ['%g'],
    ['%02x'], [repr(float)], [float(str)], [int(str)]. *)
From Verif Require Export PyFloat.
Local Open Scope Z_scope.

(** ** Printing integers *)

Definition digit_char (d : N) : N := (48 + d)%N.

Fixpoint dec_aux (fuel : nat) (n : N) (acc : pstr) : pstr :=
  match fuel with
  | O => acc
  | S f => let acc' := digit_char (n mod 10) :: acc in
           if (n <? 10)%N then acc' else dec_aux f (n / 10)%N acc'
  end.

(** Decimal digits of a natural number, without leading zeros. *)
Definition dec_N (n : N) : pstr := dec_aux (S (N.to_nat (N.log2 n))) n [].

(** [str(n)], ['%d' % n] *)
Definition dec_Z (n : Z) : pstr :=
  if n <? 0 then 45%N :: dec_N (Z.to_N (- n)) else dec_N (Z.to_N n).

(** Pad on the left with '0' to length k. *)
Definition pad0 (k : nat) (x : pstr) : pstr := repeat 48%N (k - length x) ++ x.

(** Lower-case hexadecimal, as in '%x'. *)
Definition hex_char (d : N) : N := if (d <? 10)%N then (48 + d)%N else (87 + d)%N.
Fixpoint hex_aux (fuel : nat) (n : N) (acc : pstr) : pstr :=
  match fuel with
  | O => acc
  | S f => let acc' := hex_char (n mod 16) :: acc in
           if (n <? 16)%N then acc' else hex_aux f (n / 16)%N acc'
  end.
Definition hex_N (n : N) : pstr := hex_aux (S (N.to_nat (N.log2 n))) n [].

(** ['%02x' % n]: the sign counts towards the width. *)
Definition fmt_02x (n : Z) : pstr :=
  if n <? 0 then 45%N :: pad0 1 (hex_N (Z.to_N (- n))) else pad0 2 (hex_N (Z.to_N n)).

(** ** Printing floats *)

Definition pow10 (e : Z) : Q := Qpower 10 e.

(** The digits of m / 10^k with exactly k decimals. *)
Definition fmt_fixed (k : nat) (m : N) : pstr :=
  let t := (10 ^ N.of_nat k)%N in
  match k with
  | O => dec_N m
  | _ => dec_N (m / t) ++ 46%N :: pad0 k (dec_N (m mod t))
  end.

Definition minus_if (b : bool) : pstr := if b then [45%N] else [].

(** ['%.kf' % q] *)
Definition fmt_f (k : nat) (q : Q) : pstr :=
  minus_if (Qlt_bool q 0)
  ++ fmt_fixed k (Z.to_N (round_he (Qabs q * pow10 (Z.of_nat k)))).

(** floor(log10 q) for q > 0: the number of digits of the integer part, or
    found by scaling up. *)
Definition flog10 (q : Q) : Z :=
  let ln := Z.of_nat (length (dec_N (Z.to_N (Qnum q)))) in
  let ld := Z.of_nat (length (dec_N (Npos (Qden q)))) in
  let k := ln - ld in
  if Qle_bool (pow10 k) q then k else k - 1.

(** Remove trailing zeros, and then a trailing point, if there is a point. *)
Fixpoint drop_zeros (x : pstr) : pstr :=   (* on the reversed string *)
  match x with
  | c :: x' => if (c =? 48)%N then drop_zeros x' else x
  | [] => []
  end.
Definition strip_zeros (x : pstr) : pstr :=
  if existsb (N.eqb 46) x then
    match drop_zeros (rev x) with
    | c :: r => if (c =? 46)%N then rev r else rev (c :: r)
    | [] => []
    end
  else x.

(** q > 0 correctly rounded to p significant decimal digits: (m, x) with
    10^(p-1) <= m < 10^p, standing for m * 10^(x-p+1). *)
Definition sig_digits (p : nat) (q : Q) : N * Z :=
  let x := flog10 q in
  let m := Z.to_N (round_he (q * pow10 (Z.of_nat p - 1 - x))) in
  if (m =? 10 ^ N.of_nat p)%N then ((10 ^ (N.of_nat p - 1))%N, x + 1) else (m, x).

Definition exp_str (x : Z) : pstr :=
  101%N :: (if x <? 0 then 45%N else 43%N) :: pad0 2 (dec_N (Z.to_N (Z.abs x))).

(** ['%.pg' % q] for p >= 1; ['%g'] is p = 6. *)
Definition fmt_g (p : nat) (q : Q) : pstr :=
  if Qeq_bool q 0 then s "0" else
  minus_if (Qlt_bool q 0) ++
  (let (m, x) := sig_digits p (Qabs q) in
   if (-4 <=? x) && (x <? Z.of_nat p)
   then strip_zeros (fmt_fixed (Z.to_nat (Z.of_nat p - 1 - x)) m)
   else strip_zeros (fmt_fixed (p - 1) m) ++ exp_str x).

(** [repr(q)] = [str(q)]: the least number of digits (at most 17) that reads back as q.
    Simplification: among strings of that length CPython takes the one closest to q
    that reads back as q; we take the correctly rounded one, which is the same
    whenever it reads back as q. *)
Fixpoint repr_digits (fuel : nat) (n : nat) (q : Q) : nat * N * Z :=
  let (m, x) := sig_digits n q in
  match fuel with
  | O => (n, m, x)
  | S f => if Qeq_bool (rnd64 (inject_Z (Z.of_N m) * pow10 (x - Z.of_nat n + 1))) q
           then (n, m, x)
           else repr_digits f (S n) q
  end.

Definition repr_float (q : Q) : pstr :=
  if Qeq_bool q 0 then s "0.0" else
  minus_if (Qlt_bool q 0) ++
  (let '(n, m, x) := repr_digits 16 1 (Qabs q) in
   if (-4 <=? x) && (x <? 16)
   then if x <? Z.of_nat n - 1
        then fmt_fixed (Z.to_nat (Z.of_nat n - 1 - x)) m
        else dec_N (m * 10 ^ Z.to_N (x - Z.of_nat n + 1)) ++ s ".0"
   else fmt_fixed (n - 1) m ++ exp_str x).

(** ** Parsing *)

(** The longest prefix satisfying f, and the rest. *)
Fixpoint span (f : N -> bool) (x : pstr) : pstr * pstr :=
  match x with
  | c :: x' => if f c then let (a, b) := span f x' in (c :: a, b) else ([], x)
  | [] => ([], [])
  end.

(** The number written by a string of digits. *)
Definition digits_val (x : pstr) : N := fold_left (fun a c => (10 * a + (c - 48))%N) x 0%N.

(** Underscores are allowed between digits only; [prev] is the previous character
    (CPython _Py_string_to_number_with_underscores). *)
Fixpoint drop_underscores (prev : N) (x : pstr) : option pstr :=
  match x with
  | [] => if (prev =? 95)%N then None else Some []
  | c :: x' =>
      if (c =? 95)%N then
        if is_digit prev then drop_underscores c x' else None
      else if (prev =? 95)%N && negb (is_digit c) then None
      else match drop_underscores c x' with Some r => Some (c :: r) | None => None end
  end.

Definition split_sign (x : pstr) : bool * pstr :=
  match x with
  | 45%N :: r => (true, r)
  | 43%N :: r => (false, r)
  | _ => (false, x)
  end.

(** An unsigned decimal number m * 10^e. *)
Definition parse_exp (x : pstr) : option Z :=
  let (neg, r) := split_sign x in
  let (ds, rest) := span is_digit r in
  match ds, rest with
  | _ :: _, [] => Some (let v := Z.of_N (digits_val ds) in if neg then - v else v)
  | _, _ => None
  end.

Definition parse_unsigned (x : pstr) : option (N * Z) :=
  let (ip, r1) := span is_digit x in
  let (fp, r2) := match r1 with
                  | 46%N :: r => span is_digit r
                  | _ => ([], r1)
                  end in
  match ip ++ fp with
  | [] => None
  | _ =>
      let m := digits_val (ip ++ fp) in
      let e := - Z.of_nat (length fp) in
      match r2 with
      | [] => Some (m, e)
      | c :: r3 => if (c =? 101)%N || (c =? 69)%N then
                     match parse_exp r3 with Some e' => Some (m, e' + e) | None => None end
                   else None
      end
  end.

(** [float(x)] for a str x. *)
Definition parse_float (x : pstr) : res Q :=
  match drop_underscores 0%N (strip x) with
  | None => Err ValueError
  | Some y =>
      let (neg, r) := split_sign y in
      if existsb (pstr_eqb (lower r)) [s "inf"; s "infinity"; s "nan"] then Err EUnmodelled
      else match parse_unsigned r with
           | None => Err ValueError
           | Some (m, e) =>
               let q := (inject_Z (Z.of_N m) * pow10 e)%Q in
               Ok (rnd64 (if neg then (- q)%Q else q))
           end
  end.

(** [int(x)] for a str x, base 10. *)
Definition parse_int (x : pstr) : res Z :=
  match drop_underscores 0%N (strip x) with
  | None => Err ValueError
  | Some y =>
      let (neg, r) := split_sign y in
      match r with
      | [] => Err ValueError
      | _ => if forallb is_digit r
             then Ok (let v := Z.of_N (digits_val r) in if neg then - v else v)
             else Err ValueError
      end
  end.

(** Hexadecimal digit value. *)
Definition hex_val (c : N) : option N :=
  if is_digit c then Some (c - 48)%N
  else if (97 <=? c)%N && (c <=? 102)%N then Some (c - 87)%N
  else if (65 <=? c)%N && (c <=? 70)%N then Some (c - 55)%N
  else None.

(** [int(x, 16)] for a str x of length two, as used at value/color.py:81.
    Besides two hex digits, Python accepts one hex digit with a sign before it or
    whitespace on either side. *)
Definition parse_hex2 (a b : N) : res Z :=
  match hex_val a, hex_val b with
  | Some x, Some y => Ok (Z.of_N (16 * x + y))
  | None, Some y =>
      if is_space a || (a =? 43)%N then Ok (Z.of_N y)
      else if (a =? 45)%N then Ok (- Z.of_N y)
      else Err ValueError
  | Some x, None => if is_space b then Ok (Z.of_N x) else Err ValueError
  | None, None => Err ValueError
  end.

(** [round(q, k)]: the nearest decimal with k places, read back as a float. *)
Definition round_dec (k : nat) (q : Q) : Q :=
  rnd64 (inject_Z (round_he (q * pow10 (Z.of_nat k))) * pow10 (- Z.of_nat k)).
