(** Parts of a transformation that are held: [p = transformation['offset']], later [p.value = (1, 2)], with
    [transformation.value = {...}] in between or not. A part holds the tag it was made of (value/value.py:12-15), and the setter
    of transformations takes the tags out of the transformation with [self.tag.clear()] and makes new ones
    (value/transformation.py:56-78). Here each such clearing begins a new generation of tags. Only assignments
    to [value] are modelled: these change the tag of the part in place. Timelines may replace the tag, see AliModel.v. *)
From Verif Require Import AnimModel LayModel WrSpec TlModel WpvModel PrtModel.
Local Open Scope Z_scope.

(** A held part: the generation its tag is of, its name and its class *)
Record hpart := mkHp { p_gen : nat; p_key : pstr; p_cls : vcls }.
(** The transformation, those of the tags of former generations, and what is held *)
Record pstate := mkP { p_now : node; p_old : list node; p_held : N -> option hpart }.
Definition p_hold (h : N -> option hpart) (j : N) (x : hpart) : N -> option hpart := fun z => if N.eqb z j then Some x else h z.
(** value/transformation.py:94-118: the tag of the part with that name *)
Definition part_tag (n : node) (k : pstr) : option node :=
  match filter (has_name k) (child_tags n) with [f] => match child_tags f with [t] => Some t | _ => None end | _ => None end.
Definition gen_of (st : pstate) (g : nat) : option node := if Nat.eqb g (length (p_old st)) then Some (p_now st) else nth_error (p_old st) g.
(** The tag of a held part *)
Definition held_tag (st : pstate) (j : N) : option node :=
  match p_held st j with
  | None => None
  | Some h => match gen_of st (p_gen h) with Some n => part_tag n (p_key h) | None => None end
  end.
Definition put_gen (st : pstate) (g : nat) (n : node) : pstate :=
  if Nat.eqb g (length (p_old st)) then mkP n (p_old st) (p_held st) else mkP (p_now st) (firstn g (p_old st) ++ n :: skipn (S g) (p_old st)) (p_held st).
(** value/transformation.py:57-70: whether the setter comes to [self.tag.clear()] *)
Definition comes_to_clear (v : pyval) : bool :=
  match py_items v with
  | Some (Ok l) => match str_keys l with
                   | Some l => forallb (fun kv => match aget (fst kv) transformation_keys with Some _ => true | None => false end) l
                   | None => false
                   end
  | _ => false
  end.
(** [j = transformation[k]], [j.value = v] and [transformation.value = v] *)
Inductive pact := PGet (j : N) (k : pstr) | PSet (j : N) (v : pyval) | PAll (v : pyval).
Definition pstep (st : pstate) (a : pact) : pstate * res unit :=
  match a with
  | PGet j k => match composite_getitem (p_now st) None k with
                | Ok (PVal c _ _) => (mkP (p_now st) (p_old st) (p_hold (p_held st) j (mkHp (length (p_old st)) k c)), Ok tt)
                | Ok _ => (st, Err EUnmodelled)
                | Err e => (st, Err e)
                end
  | PSet j v => match p_held st j, held_tag st j with
                | Some h, Some t => match gen_of st (p_gen h) with
                                    | Some n => let (m, r) := set_value (p_cls h) t v in (put_gen st (p_gen h) (with_part n (p_key h) m), r)
                                    | None => (st, Err EUnmodelled)
                                    end
                | _, _ => (st, Err EUnmodelled)
                end
  | PAll v => let (n, r) := composite_set (p_now st) v in
              (mkP n (if comes_to_clear v then p_old st ++ [p_now st] else p_old st) (p_held st), r)
  end.
Fixpoint psteps (st : pstate) (l : list pact) : pstate * list (res unit) :=
  match l with
  | [] => (st, [])
  | a :: l' => let (st1, r) := pstep st a in let (st2, rs) := psteps st1 l' in (st2, r :: rs)
  end.
