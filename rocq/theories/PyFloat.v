(** Python's [float]: IEEE binary64, as rationals with explicit rounding.

    A float is the rational number it denotes, always in lowest terms, so that equal floats are
    equal Coq terms. Every arithmetic operation rounds the exact result with
    [rnd64]. Not modelled: infinities, NaN, overflow, the sign of zero. *)
From Coq Require Export QArith Qround Qreduction Qpower Qabs.
From Verif Require Export PyBase.
Local Open Scope Z_scope.

(** Round to the nearest integer, ties to even (IEEE; also Python's [round()]). *)
Definition round_he (q : Q) : Z :=
  let n := Qnum q in
  let d := Zpos (Qden q) in
  let f := n / d in
  match (2 * (n mod d)) ?= d with
  | Lt => f
  | Gt => f + 1
  | Eq => if Z.even f then f else f + 1
  end.

(** 2^e for any integer e *)
Definition pow2 (e : Z) : Q := Qpower 2 e.

(** floor(log2 q) for q > 0 *)
Definition flog2 (q : Q) : Z :=
  let k := Z.log2 (Qnum q) - Z.log2 (Zpos (Qden q)) in
  if Qle_bool (pow2 k) q then k else k - 1.

(** The exponent of the last place of the binary64 numbers near q (q <> 0). *)
Definition fexp64 (q : Q) : Z := Z.max (flog2 (Qabs q) - 52) (-1074).

(** Round to the nearest binary64 number. *)
Definition rnd64 (q : Q) : Q :=
  if Qeq_bool q 0 then 0%Q else
  let e := fexp64 q in
  Qred (inject_Z (round_he (q * pow2 (- e))) * pow2 e).

(** q is a binary64 number (in lowest terms). *)
Definition is_dbl (q : Q) : Prop := rnd64 q = q.

(** Float arithmetic. *)
Definition fadd (a b : Q) : Q := rnd64 (a + b).
Definition fsub (a b : Q) : Q := rnd64 (a - b).
Definition fmul (a b : Q) : Q := rnd64 (a * b).
(** only used for b <> 0; Python raises ZeroDivisionError otherwise *)
Definition fdiv (a b : Q) : Q := rnd64 (a / b).

(** An int used as a float, [float(n)]. *)
Definition f_of_Z (n : Z) : Q := rnd64 (inject_Z n).

(** [int(x)]: truncation towards zero. *)
Definition trunc (q : Q) : Z := Z.quot (Qnum q) (Zpos (Qden q)).

(** [a % b] for a >= 0, b > 0: CPython's fmod is exact. *)
Definition fmod_pos (a b : Q) : Q := Qred (a - b * inject_Z (Qfloor (a / b))).

(** [a // b] for a >= 0, b > 0 (CPython float_floor_div / _float_div_mod):
    div = (a - mod) / b;  if div != 0: floordiv = floor(div);
    if div - floordiv > 0.5: floordiv += 1.0;  else 0 *)
Definition ffloordiv_pos (a b : Q) : Q :=
  let m := fmod_pos a b in
  let d := fdiv (fsub a m) b in
  let fd := inject_Z (Qfloor d) in
  if Qle_bool (fsub d fd) (1#2) then Qred fd else fadd fd 1.

(** Boolean comparisons *)
Definition Qlt_bool (a b : Q) : bool := negb (Qle_bool b a).
