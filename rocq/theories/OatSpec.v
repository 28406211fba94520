(** What assigning to attributes of value objects really does *)
From Verif Require Import ValModel TlModel ViewModel OatModel.
Local Open Scope N_scope.

(** Names like x, angle, offset: not those which the classes have for something *)
Definition part_name (k : pstr) : Prop := in_class k = false.
Definition only_parts (l : list oact) : Prop := Forall (fun a => match a with OSet _ k _ => part_name k | ODoc _ => True end) l.
(** The document after it all: attributes don't come into it. *)
Fixpoint document (n : node) (l : list oact) : node :=
  match l with [] => n | ODoc m :: l' => document m l' | OSet _ _ _ :: l' => document n l' end.
(** What was last assigned to the attribute k of the object i, if anything *)
Fixpoint last_given (i : N) (k : pstr) (d : option pyval) (l : list oact) : option pyval :=
  match l with
  | [] => d
  | OSet j k' v :: l' => last_given i k (if (j =? i) && pstr_eqb k' k then Some v else d) l'
  | ODoc _ :: l' => last_given i k d l'
  end.
(** What a value with the tag n has by the name k *)
Definition has_part (c : vcls) (n : node) (cx : ctx) (k : pstr) : res pyval :=
  match c with
  | VXY => match find_first (has_name k) n with None => Err AttributeError | Some t => let* q := parse_float (node_text t) in Ok (PFlo q) end
  | VTransformation => match composite_get n cx k with Ok None => Err AttributeError | Ok (Some v) => Ok v | Err e => Err e end
  | _ => Err AttributeError
  end.
