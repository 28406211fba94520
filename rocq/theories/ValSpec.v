(** What the property theorems about values say, apart from the model. *)
From Verif Require Import SerModel.
Local Open Scope Z_scope.

(** [stores c prior v w]: assigning v to a value of class c whose tag was
    [prior] succeeds; reading it, in whatever document it is, gives w; the tag is recognised as
    class c; and the same holds when the document has been saved and loaded. *)
Definition stores (c : vcls) (prior : node) (v w : pyval) : Prop :=
  exists n, set_value c prior v = (n, Ok tt) /\
    forall cx, get_value c n cx = Ok w /\ from_tag n = Ok c /\
               get_value c (reload n) cx = Ok w /\ from_tag (reload n) = Ok c.

(** A real number x rounds to the multiple m/10^k. *)
Definition decimal (k : nat) (m : Z) : Q := (m # Z.to_pos (10 ^ Z.of_nat k)).
(** w is the double closest to some number with k decimals that is closest to x. *)
Definition rounded_to (k : nat) (x w : Q) : Prop :=
  exists m, w = rnd64 (decimal k m) /\
    (forall m', (Qabs (decimal k m - x) <= Qabs (decimal k m' - x))%Q).

(** Hexadecimal digits, in either case, and the number they stand for. *)
Definition hex_digits : list (N * N) :=
  (combine (s "0123456789abcdef") [0;1;2;3;4;5;6;7;8;9;10;11;12;13;14;15] ++
   combine (s "ABCDEF") [10;11;12;13;14;15])%N.
Definition is_hex (c : N) : Prop := In c (map fst hex_digits).

(** The canonical spelling of a colour: '#', lower case, no alpha if it is ff. *)
Definition canonical_hex (x : pstr) : pstr :=
  let y := lower x in
  35%N :: (if Nat.eqb (length y) 8 && pstr_eqb (skipn 6 y) (s "ff") then firstn 6 y else y).

(** ** Vectors *)

(** Assigning a list of pairs of floats, one after another. *)
Definition assign_pairs (n : node) (h : list (Q * Q)) : node :=
  fold_left (fun n p => fst (set_value VXY n (PTuple [PFlo (fst p); PFlo (snd p)]))) h n.

(** A tag whose child tags are named x or y; all vectors in Synfig's files are such. *)
Definition only_xy (n : node) : Prop := Forall (fun t => tag_name t = s "x" \/ tag_name t = s "y") (child_tags n).

(** ** Transformations *)

(** A dictionary with all four keys. *)
Definition full (ox oy a k sx sy : Q) : list (pstr * pyval) :=
  [(s "offset", PTuple [PFlo ox; PFlo oy]); (s "angle", PFlo a); (s "skew_angle", PFlo k); (s "scale", PTuple [PFlo sx; PFlo sy])].

(** ** Gradients *)

(** A colour stop: its position in millionths of the whole, and the components of its colour. *)
Definition stop := (Z * list Q)%type.
(** The double for m millionths, such as 0.25 for 250000. *)
Definition position (m : Z) : Q := rnd64 (m # 1000000).

(** Strictly increasing positions between 0 and 1; colours have four components. *)
Inductive increasing : list stop -> Prop :=
| inc_nil : increasing []
| inc_one a : increasing [a]
| inc_cons a b l : fst a < fst b -> increasing (b :: l) -> increasing (a :: b :: l).
Definition stop_ok (a : stop) : Prop := 0 <= fst a <= 10 ^ 6 /\ length (snd a) = 4%nat /\ Forall is_dbl (snd a).
Definition gradient_ok (d : list stop) : Prop := increasing d /\ Forall stop_ok d /\ (2 <= length d)%nat.

(** What is read from the gradient, in the order of the document, is exactly d. *)
Definition shows (n : node) (cx : ctx) (d : list stop) : Prop :=
  exists l, get_value VGradient n cx = Ok (PDictF l) /\
    Forall2 (fun kv a => fst kv = position (fst a) /\
                         exists t, snd kv = PVal VColor t cx /\ color_tuple t = Ok (snd a)) l d.

(** Setting the colour at position m: the others are as they were. *)
Fixpoint put (m : Z) (c : list Q) (d : list stop) : list stop :=
  match d with
  | [] => [(m, c)]
  | (m', c') :: d' => if m <? m' then (m, c) :: d
                      else if m =? m' then (m, c) :: d'
                      else (m', c') :: put m c d'
  end.

Definition colour_arg (c : list Q) : pyval := PTuple (map PFlo c).
Definition six_decimals (c : list Q) : list Q := map (round_dec 6) c.
(** The whole gradient with its colours rounded. *)
Definition six_each (d : list stop) : list stop := map (fun a => (fst a, six_decimals (snd a))) d.
(** Colours as they are once stored. *)
Definition six_stops (d : list stop) : Prop := Forall (fun a => six_decimals (snd a) = snd a) d.

(** Assigning the items of a list, one after another: [g[pos] = colour]. *)
Definition sets (n : node) (cx : ctx) (h : list stop) : node :=
  fold_left (fun n a => fst (gradient_setitem n cx (position (fst a)) (colour_arg (snd a)))) h n.
Definition puts (d h : list stop) : list stop := fold_left (fun d a => put (fst a) (six_decimals (snd a)) d) h d.
