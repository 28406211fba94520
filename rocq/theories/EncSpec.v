(** What becomes of text in UTF-8 that is read in an encoding where each byte is a character: a character outside ASCII becomes several, one
    for each byte of it. *)
From Verif Require Import AnimModel.
Local Open Scope N_scope.

(** Such an encoding: ASCII is as it is, and the other bytes are other characters, no two of them the same. Some may be none. *)
Definition good_page (page : N -> option N) : Prop :=
  (forall c, c < 128 -> page c = Some c) /\
  (forall b c, 128 <= b < 256 -> page b = Some c -> 128 <= c < 65536 /\ xml_char c = true) /\
  (forall a b c, page a = Some c -> page b = Some c -> a = b).

Section Page.
  Context (page : N -> option N).
  (** A byte that is none is never read: it's shown as one in private use. *)
  Definition shown (b : N) : N := match page b with Some c => c | None => 1113856 + b end.
  Definition garble_char (c : N) : list N := match utf8_char c with Some b => map shown b | None => [c] end.
  Definition garble (x : pstr) : pstr := flat_map garble_char x.
  Definition garble_attr (kv : pstr * aval) : pstr * aval := (garble (fst kv), match snd kv with AStr x => AStr (garble x) | v => v end).
  Fixpoint garbled (n : node) : node :=
    match n with
    | Txt x => Txt (garble x)
    | El nm a k => El (garble nm) (map garble_attr a) (map garbled k)
    end.
End Page.

(** All text in a tree, that of names and attributes too, is in ASCII. *)
Definition ascii (x : pstr) : Prop := Forall (fun c => c < 128) x.
Fixpoint ascii_tree (n : node) : Prop :=
  match n with
  | Txt x => ascii x
  | El nm a k => ascii nm /\ Forall (fun kv => ascii (fst kv) /\ match snd kv with AStr x => ascii x | _ => True end) a /\
                 (fix all l := match l with [] => True | c :: l' => ascii_tree c /\ all l' end) k
  end.
(** A way to read bytes that knows ASCII *)
Definition knows_ascii (dec : list N -> option pstr) : Prop := forall b, ascii b -> dec b = Some b.
