(** What the theorems about the scripts in etc/ say, apart from the functions they are about. *)
From Verif Require Import RepModel RepSpec.
Local Open Scope N_scope.

(** The first place in this text where there is such a thing, and what's there *)
Definition first_place {A} (P : pstr -> A -> Prop) (x : pstr) (a : A) : Prop :=
  exists p r, x = p ++ r /\ P r a /\ forall p' r' b, x = p' ++ r' -> (length p' < length p)%nat -> ~ P r' b.

(** The lines of this file *)
Definition lines_in (d : disk) (name : pstr) (ls : list pstr) : Prop := exists x, file_text d name x /\ lines_of x ls.

(** ** Blend methods *)

Definition digit_chars : pstr := s "0123456789".
Definition capitals_etc : pstr := s "ABCDEFGHIJKLMNOPQRSTUVWXYZ_".
(** These are digits, and the number they mean is [k]. *)
Definition numeral (k : N) (ds : pstr) : Prop :=
  ds <> [] /\ Forall (fun c => In c digit_chars) ds /\ fold_left (fun a c => 10 * a + (c - 48)) ds 0 = k.
(** Without zeros before it *)
Definition plain_numeral (k : N) (ds : pstr) : Prop := numeral k ds /\ (ds = [48] \/ ~ begins (eq 48) ds).

(** "BLEND_NAME=12..." *)
Definition blend_at (x : pstr) (nk : pstr * N) : Prop :=
  exists ds r, x = s "BLEND_" ++ fst nk ++ s "=" ++ ds ++ r /\ fst nk <> [] /\ Forall (fun c => In c capitals_etc) (fst nk) /\
    numeral (snd nk) ds /\ ~ begins (fun c => In c digit_chars) r.
(** The first of these in the line, if it isn't one of the two that are no blend methods *)
Definition counts (l name : pstr) (k : N) : Prop := first_place blend_at l (name, k) /\ name <> s "END" /\ name <> s "BY_LAYER".
(** The last of these lines with this number has this name. *)
Definition is_name (ls : list pstr) (k : N) (name : pstr) : Prop :=
  exists a l b, ls = a ++ l :: b /\ counts l name k /\ Forall (fun m => forall name', ~ counts m name' k) b.
(** Every number below a number with a name has a name. *)
Definition no_gap (ls : list pstr) : Prop := forall j k name, j < k -> is_name ls k name -> exists name', is_name ls j name'.
(** Every one of these, wherever it is *)
Definition mentioned (ls : list pstr) (name : pstr) (k : N) : Prop :=
  exists l p r, In l ls /\ l = p ++ r /\ blend_at r (name, k) /\ name <> s "END" /\ name <> s "BY_LAYER".

(** The block is an empty line, "NAME = 0", "NAME = 1"... and an empty line. *)
Definition table_block (i : nat) (names : list pstr) (new : list pstr) : Prop :=
  exists body, new = [[10]] ++ body ++ [[10]] /\
    length body = length names /\
    forall k name, nth_error names k = Some name ->
      exists ds, plain_numeral (N.of_nat k) ds /\ nth_error body k = Some (repeat 32 i ++ name ++ s " = " ++ ds ++ [10]).

(** ** Symbols *)

(** "class Name(Base..." *)
Definition class_at (x : pstr) (cb : pstr * pstr) : Prop :=
  exists r, x = s "class " ++ fst cb ++ s "(" ++ snd cb ++ r /\ fst cb <> [] /\ word (fst cb) /\ snd cb <> [] /\ word (snd cb) /\
    ~ begins (fun d => In d letters_etc) r.
(** "SYMBOL = 'symbol'...", with either quote, where the second may be missing *)
Definition quotes : pstr := [39; 34].
Definition symbol_at (x : pstr) (y : pstr) : Prop :=
  exists i j q r, x = s "SYMBOL" ++ repeat 32 i ++ s "=" ++ repeat 32 j ++ [q] ++ y ++ r /\ In q quotes /\ (forall c, In c y -> ~ In c quotes) /\
    (r = [] \/ begins (fun c => In c quotes) r).
(** The line begins this class. *)
Definition begins_class (l c base : pstr) : Prop := first_place class_at l (c, base).
Definition begins_layer (l c : pstr) : Prop := begins_class l c (s "Layer").
Definition no_class (l : pstr) : Prop := forall c base, ~ begins_class l c base.
Definition no_layer (l : pstr) : Prop := forall c, ~ begins_layer l c.
(** The line sets this symbol. *)
Definition sets_symbol (l y : pstr) : Prop := first_place symbol_at l y.
Definition no_symbol (l : pstr) : Prop := forall y, ~ sets_symbol l y.

(** The text falls into sections: each begins where a layer begins. No layer begins in the lines before the first. *)
Definition section_ok (sec : pstr * list pstr) : Prop :=
  exists l m, snd sec = l :: m /\ begins_layer l (fst sec) /\ Forall no_layer m.
Definition sections (ls pre : list pstr) (secs : list (pstr * list pstr)) : Prop :=
  ls = pre ++ concat (map snd secs) /\ Forall no_layer pre /\ Forall section_ok secs.
(** The last symbol that these lines set. Lines that begin classes which aren't layers count for nothing. *)
Definition last_symbol (ls : list pstr) (o : option pstr) : Prop :=
  match o with
  | Some y => exists a l b, ls = a ++ l :: b /\ sets_symbol l y /\ (no_class l \/ exists c, begins_layer l c) /\
                Forall (fun m => no_symbol m \/ exists c base, begins_class m c base /\ base <> s "Layer") b
  | None => Forall (fun m => no_symbol m \/ exists c base, begins_class m c base /\ base <> s "Layer") ls
  end.
(** No line sets a symbol that counts. *)
Definition silent (ls : list pstr) : Prop := last_symbol ls None.

(** No line sets a symbol before the first layer begins. *)
Definition starts_clean (ls : list pstr) : Prop := forall a l b, ls = a ++ l :: b -> Forall no_layer (a ++ [l]) -> silent [l].

(** The body of a class: the lines after the one that begins it, as long as they are indented or empty *)
Definition indented_line (l : pstr) : Prop := begins (fun c => c = 32 \/ c = 10) l.
Definition body_of (ls : list pstr) (c : pstr) (body : list pstr) : Prop :=
  exists a l m b, ls = a ++ body ++ b /\ body = l :: m /\ begins_layer l c /\ Forall indented_line m /\ (b = [] \/ exists l' b', b = l' :: b' /\ ~ indented_line l').
(** Every line that sets a symbol which counts is in the body of some layer, or begins it. *)
Definition tidy (ls : list pstr) : Prop :=
  forall a l b, ls = a ++ l :: b -> ~ silent [l] ->
    (exists c, begins_layer l c) \/ (indented_line l /\ exists a' h m c, a = a' ++ h :: m /\ begins_layer h c /\ Forall indented_line m).
(** ... and layers don't begin in bodies. *)
Definition flat (ls : list pstr) : Prop := forall l c, In l ls -> begins_layer l c -> ~ indented_line l.

(** ** JSON: strings, and objects with string keys. This is a reader of it. *)
Inductive json : Type := JStr (x : pstr) | JObj (m : list (pstr * json)).
(** After the first quote: the string, and what follows the last quote *)
Definition simple_escapes : list (N * N) := [(34, 34); (92, 92); (47, 47); (98, 8); (102, 12); (110, 10); (114, 13); (116, 9)].
Definition put_char (c : N) (o : option (pstr * pstr)) : option (pstr * pstr) :=
  match o with Some (y, r) => Some (c :: y, r) | None => None end.
Fixpoint read_string (x : pstr) : option (pstr * pstr) :=
  match x with
  | [] => None
  | c :: r =>
      if c =? 34 then Some ([], r)
      else if c =? 92 then
        match r with
        | [] => None
        | e :: r1 =>
            if e =? 117 then
              match r1 with
              | h1 :: h2 :: h3 :: h4 :: r2 =>
                  match hex_val h1, hex_val h2, hex_val h3, hex_val h4 with
                  | Some n1, Some n2, Some n3, Some n4 => put_char (((n1 * 16 + n2) * 16 + n3) * 16 + n4) (read_string r2)
                  | _, _, _, _ => None
                  end
              | _ => None
              end
            else match find (fun kv => fst kv =? e) simple_escapes with
                 | Some (_, v) => put_char v (read_string r1)
                 | None => None
                 end
        end
      else if c <? 32 then None
      else put_char c (read_string r)
  end.
Definition skip_space (x : pstr) : pstr := snd (span (fun c => existsb (N.eqb c) [32; 10; 13; 9]) x).
(** A value, and what follows it. The first argument is enough if it's the length of the text. *)
Fixpoint read_value (n : nat) (x : pstr) : option (json * pstr) :=
  match n with
  | O => None
  | S n =>
      match skip_space x with
      | 34 :: r => match read_string r with Some (y, r') => Some (JStr y, r') | None => None end
      | 123 :: r => match skip_space r with
                    | 125 :: r' => Some (JObj [], r')
                    | _ => match read_members n r with Some (m, r') => Some (JObj m, r') | None => None end
                    end
      | _ => None
      end
  end
with read_members (n : nat) (x : pstr) : option (list (pstr * json) * pstr) :=
  match n with
  | O => None
  | S n =>
      match skip_space x with
      | 34 :: r =>
          match read_string r with
          | Some (k, r1) =>
              match skip_space r1 with
              | 58 :: r2 =>
                  match read_value n r2 with
                  | Some (v, r3) =>
                      match skip_space r3 with
                      | 44 :: r4 => match read_members n r4 with Some (m, r5) => Some ((k, v) :: m, r5) | None => None end
                      | 125 :: r4 => Some ([(k, v)], r4)
                      | _ => None
                      end
                  | None => None
                  end
              | _ => None
              end
          | None => None
          end
      | _ => None
      end
  end.
Definition read_json (x : pstr) : option json :=
  match read_value (S (length x)) x with
  | Some (v, r) => match skip_space r with [] => Some v | _ => None end
  | None => None
  end.
(** {"Class": {"symbol": "x"}, "Other": {}, ...} *)
Definition symbol_json (o : option pstr) : json := JObj match o with Some y => [(s "symbol", JStr y)] | None => [] end.
