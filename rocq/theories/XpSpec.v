(** Which documents can be written as XML: the spec for saving and loading. *)
From Verif Require Import XpModel.

(** A name that needs no thought: not empty, and only characters without a meaning in XML *)
Definition good_name (x : pstr) : Prop := x <> [] /\ Forall (fun c => xml_char c = true /\ name_char c = true) x.
(** Only characters that XML allows. (XML also allows the carriage return, but reads it as another character.) *)
Definition good_text (x : pstr) : Prop := Forall (fun c => xml_char c = true) x.
Definition good_attrs (a : attrs) : Prop :=
  NoDup (map fst a) /\ Forall (fun kv => good_name (fst kv) /\ good_text (aval_str (snd kv))) a.

(** All names and strings of the tree are so. *)
Fixpoint writable (n : node) : Prop :=
  match n with
  | Txt x => good_text x
  | El nm a k => good_name nm /\ good_attrs a /\ (fix all l := match l with [] => True | c :: l' => writable c /\ all l' end) k
  end.
