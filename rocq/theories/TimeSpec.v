(** What time specifications mean, independently of the parser. *)
From Verif Require Import XmlModel.
Local Open Scope Z_scope.

(** ** Integer specifications such as "1h 2m3s  -4f" *)

Inductive tunit := UH | UM | US | UF.
Definition unit_char (u : tunit) : N :=
  match u with UH => 104 | UM => 109 | US => 115 | UF => 102 end%N.

(** One part: the blanks before it, a sign, decimal digits (each below 10), and
    a unit. *)
Record item := mkItem { sep : pstr; neg : bool; digits : list N; unit_ : tunit }.

(** The number a list of decimal digits stands for. *)
Fixpoint number_from (acc : Z) (ds : list N) : Z :=
  match ds with [] => acc | d :: ds' => number_from (10 * acc + Z.of_N d) ds' end.
Definition count (i : item) : Z :=
  let n := number_from 0 (digits i) in if neg i then - n else n.

Definition wf_item (i : item) : Prop :=
  Forall (fun c => is_space c = true) (sep i) /\
  digits i <> [] /\ Forall (fun d => (d < 10)%N) (digits i).

(** How it is written. *)
Definition write_item (i : item) : pstr :=
  sep i ++ (if neg i then [45%N] else []) ++ map (fun d => (48 + d)%N) (digits i) ++ [unit_char (unit_ i)].
Definition write (l : list item) (trail : pstr) : pstr := flat_map write_item l ++ trail.

Definition blank (x : pstr) : Prop := Forall (fun c => is_space c = true) x.
Definition wf_spec (l : list item) (trail : pstr) : Prop :=
  Forall wf_item l /\ blank trail /\ NoDup (map unit_ l).

Definition tunit_eqb (a b : tunit) : bool :=
  match a, b with UH, UH | UM, UM | US, US | UF, UF => true | _, _ => false end.

(** How many of unit u the specification gives (0 if it is not there). *)
Definition amount (u : tunit) (l : list item) : Z :=
  fold_right (fun i a => if tunit_eqb (unit_ i) u then count i else a) 0 l.

Definition seconds_of (l : list item) : Z := 3600 * amount UH l + 60 * amount UM l + amount US l.

(** The instant, in frames, at [p] frames per second. *)
Definition frames_of (p : Z) (l : list item) : Z :=
  seconds_of l * p + (if seconds_of l <? 0 then - amount UF l else amount UF l).

(** Small enough for floats to be exact. *)
Definition small (p : Z) (l : list item) : Prop :=
  (3600 * Z.abs (amount UH l) + 60 * Z.abs (amount UM l) + Z.abs (amount US l)) * Z.max p 1
   + Z.abs (amount UF l) <= 2 ^ 53.

(** A reference whose root canvas has [p] frames per second. *)
Definition at_fps (p : Q) (c : option attrs) : Prop :=
  exists a v, c = Some a /\ aget (s "fps") a = Some v /\
    match v with AFlo q => q = p | AInt z => inject_Z z = p /\ Z.abs z <= 2 ^ 53 | AStr x => parse_float x = Ok p | ATime _ => False end.

(** ** Documents *)

(** [at_path root anc n]: n is [root] or a node inside it, and [anc] are its
    ancestors up to [root], nearest first. *)
Inductive at_path (root : node) : list node -> node -> Prop :=
| at_root : at_path root [] root
| at_child anc p c : at_path root anc p -> In c (tag_kids p) -> at_path root (p :: anc) c.

(** A time as the library makes them: binary64 frames, positive binary64 FPS. *)
Definition T_ok (t : T) : Prop :=
  is_dbl (frames t) /\ match fps t with Some f => is_dbl f /\ (0 < f)%Q | None => True end.

(** Two times whose speeds do not contradict each other. *)
Definition compat (t u : T) : Prop := match fps t, fps u with Some a, Some b => (a == b)%Q | _, _ => True end.

(** A number of seconds that is written with at most one of the h, m, s parts. *)
Definition one_unit (sec : Z) : Prop := sec < 60 \/ (sec < 3600 /\ sec mod 60 = 0) \/ sec mod 3600 = 0.

(** ** The shape of every accepted specification *)

(** Blanks, or a number (in the syntax of Python's float()) and one more character. *)
Inductive chunk := Blanks (x : pstr) | Number (num : pstr) (u : N).
Definition chunk_text (c : chunk) : pstr := match c with Blanks x => x | Number n u => n ++ [u] end.
Definition chunk_unit (c : chunk) : list N := match c with Blanks _ => [] | Number _ u => [u] end.
Definition chunk_ok (c : chunk) : Prop :=
  match c with Blanks x => blank x | Number n _ => exists q, parse_float n = Ok q end.
