(** /repo/sangfroid/t.py *)
From Verif Require Export XmlModel.
Local Open Scope Z_scope.

(** ** Finding the root canvas *)

(** t.py:297-310 [_canvas_root(tag)].
    [anc] is [tag.find_parents()], nearest first; for a tag in a document the
    last one is the BeautifulSoup object itself. *)
Definition canvas_root (tag : node) (anc : list node) : option node :=
  let root :=
    match anc with
    | [] => None
    | [_] => Some tag
    | _ => nth_error anc (length anc - 2)
    end in
  match root with
  | Some r => if pstr_eqb (tag_name r) (s "canvas") then Some r else None
  | None => None
  end.

(** What T() needs from its [ref]: the attributes of the root canvas, if any. *)
Definition ctx := option attrs.

(** ** Parsing *)

(** [60*60] and so on *)
Definition unit_sizes : list (N * Z) := [(104%N, 3600); (109%N, 60); (115%N, 1)].

Definition in_num (c : N) : bool := is_digit c || (c =? 46)%N.          (* [0-9.] *)
Definition in_unit (c : N) : bool :=                                    (* [hmsf] *)
  (c =? 104)%N || (c =? 109)%N || (c =? 115)%N || (c =? 102)%N.

(** t.py:293-295 the regular expression [-?[0-9.]+[hmsf]], anchored here: the
    length of the match, if any. No backtracking is possible, as the three character sets are disjoint. *)
Definition ts_match_num (x : pstr) : option nat :=
  let (d, r) := span in_num x in
  match d, r with
  | _ :: _, c :: _ => if in_unit c then Some (S (length d)) else None
  | _, _ => None
  end.
Definition ts_match (x : pstr) : option nat :=
  match x with
  | 45%N :: x' => option_map S (ts_match_num x')
  | _ => ts_match_num x
  end.

(** t.py:134 [TIMESPEC_RE.split(s)]: the texts between the matches and, as the
    expression has a group, the matches themselves.
    [acc] is the current piece, reversed; [skip] counts the
    characters of the current match still to be copied. *)
Fixpoint ts_split (x : pstr) (acc : pstr) (skip : nat) : list pstr :=
  match x with
  | [] => [rev acc]
  | c :: x' =>
      match skip with
      | S (S k) => ts_split x' (c :: acc) (S k)
      | S O => rev (c :: acc) :: ts_split x' [] O
      | O => match ts_match x with
             | None => ts_split x' (c :: acc) O
             | Some k => rev acc :: match k with
                                    | S (S k') => ts_split x' [c] (S k')
                                    | _ => [c] :: ts_split x' [] O
                                    end
             end
      end
  end.

Definition parts := list (N * Q).
Fixpoint pget (u : N) (p : parts) : option Q :=
  match p with [] => None | (u', q) :: p' => if (u =? u')%N then Some q else pget u p' end.

(** t.py:138-151 the loop over the pieces. *)
Fixpoint ts_parts (l : list pstr) (p : parts) : res parts :=
  match l with
  | [] => Ok p
  | spec :: l' =>
      match strip spec with
      | [] => ts_parts l' p
      | _ =>
        match last_char spec with
        | None => ts_parts l' p    (* unreachable: spec is not empty *)
        | Some u =>
          match pget u p with
          | Some _ => Err ValueError
          | None =>
              match parse_float (init_str spec) with
              | Ok q => ts_parts l' (p ++ [(u, q)])
              | Err e => Err e
              end
          end
        end
      end
  end.

(** t.py:153-161: [(seconds or 0.0) + parts[unit]*size] *)
Definition ts_seconds (p : parts) : option Q :=
  fold_left (fun acc us =>
    match pget (fst us) p with
    | None => acc
    | Some q => Some (fadd (match acc with Some a => a | None => 0%Q end) (fmul q (inject_Z (snd us))))
    end) unit_sizes None.

(** [seconds is not None and seconds != 0.0]; also Python's truth of [seconds]. *)
Definition truthy (o : option Q) : bool :=
  match o with Some q => negb (Qeq_bool q 0) | None => false end.

(** t.py:122-184 [_parse_time_spec] *)
Definition parse_time_spec (f : option Q) (x : pstr) : res Q :=
  let* p := ts_parts (ts_split (strip x) [] 0) [] in
  let seconds := ts_seconds p in
  let* result :=
    if truthy seconds then
      match f, seconds with
      | Some f, Some sec => Ok (fadd 0 (fmul sec f))
      | _, _ => Err ValueError
      end
    else Ok 0%Q in
  match pget 102%N p with
  | None => Ok result
  | Some fr =>
      if truthy seconds && Qlt_bool fr 0 then Err ValueError
      else if Qlt_bool (match seconds with Some q => q | None => 0%Q end) 0
           then Ok (fsub result fr)
           else Ok (fadd result fr)
  end.

(** ** Construction *)

(** The argument of T(): a string, a number (or a T, through [__float__],
    t.py:204), or something [float()] rejects with a TypeError. *)
Inductive tval : Type :=
| TStr (x : pstr)
| TNum (q : Q)
| TBad.

(** [float(x)] for an attribute value *)
Definition float_of_aval (v : aval) : res Q :=
  match v with
  | AStr x => parse_float x
  | AFlo q => Ok q
  | AInt z => Ok (f_of_Z z)
  | ATime t => Ok (frames t)
  end.

(** t.py:86-92 the FPS of the reference *)
Definition ctx_fps (c : ctx) : res (option Q) :=
  match c with
  | None => Ok None
  | Some a =>
      match aget (s "fps") a with
      | None => Err KeyError
      | Some v => let* f := float_of_aval v in
                  if Qle_bool f 0 then Err ValueError else Ok (Some f)
      end
  end.

(** t.py:105-113 an attribute of the root, parsed as a time
    ([assert isinstance(s, str)], t.py:123) *)
Definition root_time (f : option Q) (a : attrs) (k : pstr) : res Q :=
  match aget k a with
  | None => Err KeyError
  | Some (AStr x) => parse_time_spec f x
  | Some _ => Err AssertionError
  end.

(** t.py:69-120 [T.__init__(value, ref)] *)
Definition T_init (v : tval) (c : ctx) : res T :=
  let* f := ctx_fps c in
  let* fr :=
    match v with
    | TStr x => parse_time_spec f x
    | TBad => Err ValueError
    | TNum q =>
        if Qlt_bool q 0 then
          match c with
          | None => Err ValueError
          | Some a =>
              let* e := root_time f a (s "end-time") in
              let* b := root_time f a (s "begin-time") in
              let duration := fadd 1 (fsub e b) in
              Ok (fadd duration q)
          end
        else Ok q
    end in
  Ok (mkT fr f).

(** t.py:75-84 the [ref] argument: None, a bs4.Tag [n] with its ancestors [anc]
    ([find_parents()], nearest first), an object whose [tag] attribute is such a
    tag, or something else. *)
Inductive refval : Type :=
| RNone
| RTag (n : node) (anc : list node)
| RHasTag (n : node) (anc : list node)
| RBad.

Definition ref_ctx (r : refval) : res ctx :=
  match r with
  | RNone => Ok None
  | RTag n anc | RHasTag n anc => Ok (option_map tag_attrs (canvas_root n anc))
  | RBad => Err TypeError
  end.

(** t.py:69-120 [T(value, ref)] from the [ref] given by the caller. *)
Definition T_new (v : tval) (r : refval) : res T := let* c := ref_ctx r in T_init v c.

(** ** Reading *)

(** t.py:201-205 [__int__], [__float__] *)
Definition T_int (t : T) : Z := trunc (frames t).
Definition T_float (t : T) : Q := frames t.

(** t.py:207-222 [seconds] *)
Definition T_seconds (t : T) : res Q :=
  match fps t with
  | None => if Qeq_bool (frames t) 0 then Ok 0%Q else Err ValueError
  | Some f => Ok (fdiv (frames t) f)
  end.

(** The other operand of a comparison. *)
Inductive cmpval : Type :=
| CT (t : T)
| CNum (q : Q)      (* int or float; an int is compared exactly *)
| COther.

(** t.py:224-242 [_compare] *)
Definition T_compare (op : Q -> Q -> bool) (t : T) (o : cmpval) : res bool :=
  match o with
  | CT u =>
      match fps u, fps t with
      | Some fu, Some ft => if Qeq_bool fu ft then Ok (op (frames t) (frames u)) else Err ValueError
      | _, _ => Ok (op (frames t) (frames u))
      end
  | CNum q => Ok (op (frames t) q)
  | COther => Ok false
  end.

(** t.py:244-248 *)
Definition T_lt := T_compare Qlt_bool.
Definition T_eq := T_compare Qeq_bool.

(** t.py:6 [functools.total_ordering] adds, from [__lt__] and [__eq__]:
    [__gt__ = not (a < b) and a != b], [__le__ = a < b or a == b],
    [__ge__ = not a < b]; [__ne__] is [not ==]. *)
Definition T_ne (t : T) (o : cmpval) : res bool := let* b := T_eq t o in Ok (negb b).
Definition T_gt (t : T) (o : cmpval) : res bool :=
  let* l := T_lt t o in if l then Ok false else T_ne t o.
Definition T_le (t : T) (o : cmpval) : res bool :=
  let* l := T_lt t o in if l then Ok true else T_eq t o.
Definition T_ge (t : T) (o : cmpval) : res bool := let* l := T_lt t o in Ok (negb l).

(** t.py:284-289 [__hash__]. The hash of the tuple is abstracted to the tuple
    itself: [None] stands for 0, and Python's [hash()] is a function of the
    result (equal results give equal hashes, and so do equal numbers). *)
Definition T_hash (t : T) : option (Q * option Q) :=
  if Qeq_bool (frames t) 0 then None else Some (frames t, fps t).

(** ** Printing *)

(** t.py:259-267 the loop over h, m, s: the parts so far and the rest. *)
Definition str_unit (st : list pstr * Q) (us : N * Z) : list pstr * Q :=
  let (out, seconds) := st in
  let size := inject_Z (snd us) in
  if Qle_bool size seconds
  then (out ++ [dec_Z (trunc (ffloordiv_pos seconds size)) ++ [fst us]], fmod_pos seconds size)
  else (out, seconds).

(** t.py:250-280 [__str__]. '%d' truncates the float. *)
Definition T_str (t : T) : pstr :=
  match fps t with
  | None => fmt_g 6 (frames t) ++ s "f"
  | Some f =>
      let seconds := Qabs (fdiv (frames t) f) in
      let (out, rest) := fold_left str_unit unit_sizes ([], seconds) in
      let out' :=
        if negb (Qeq_bool rest 0) || match out with [] => true | _ => false end
        then out ++ [fmt_g 6 (fmod_pos (Qabs (frames t)) f) ++ s "f"]
        else out in
      minus_if (Qlt_bool (frames t) 0) ++ join (s " ") out'
  end.

(** [str()] of an attribute value, as the serialiser does. *)
Definition aval_str (v : aval) : pstr :=
  match v with
  | AStr x => x
  | AFlo q => repr_float q
  | AInt z => dec_Z z
  | ATime t => T_str t
  end.
