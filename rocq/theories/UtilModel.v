(** util.py:15-29: texts of attributes, and back. *)
From Verif Require Import LayModel.

(** util.py:15-21 [type_and_value_to_str]. The types are those of attributes (field.py), of which bool has only itself as subclass. *)
Definition type_and_value_to_str (t : atype) (v : pyval) : res (option pstr) :=
  match v with
  | PNone => Ok None
  | _ => match t with
         | TBoolA => let* b := py_bool v in Ok (Some (lower (if b then s "True" else s "False")))
         | _ => let* x := py_str v in Ok (Some x)
         end
  end.
(** util.py:23-29 [type_and_str_to_value]: its parameter is called [s], but it uses [v], which is neither a variable of it nor of the module *)
Definition type_and_str_to_value (t : atype) (x : option pstr) : res pyval := Err NameError.
