(** /repo/sangfroid/registry.py and /repo/sangfroid/util.py *)
From Verif Require Import PyBase.

(** util.py:1-12 [normalise_synfig_layer_type_name]: [s.lower().replace('_', '')].
    [lower] is ASCII-only here. *)
Definition normalise (x : pstr) : pstr := remove_char 95%N (lower x).

(** registry.py:3-47 [Registry]; its only state is the dict [handlers]. The
    class objects are of an arbitrary type [C]. *)
Definition registry (C : Type) := list (pstr * C).

(** registry.py:13-14 [__init__] *)
Definition registry_new {C} : registry C := [].

(** registry.py:17-24 [__call__]: [name=None] is [None]; the empty name is
    falsy, so it also falls back to the class's [__name__]. *)
Definition registry_call {C} (r : registry C) (name : option pstr) (cname : pstr) (c : C) : registry C :=
  let n := match name with Some (ch :: x) => ch :: x | _ => cname end in
  aset (normalise n) c r.

(** registry.py:26-47 [from_name] *)
Definition from_name {C} (r : registry C) (name : pstr) : res C :=
  match aget (normalise name) r with
  | None => Err KeyError
  | Some c => Ok c
  end.

(** The registry after a history of decorator applications
    (name argument, the class's [__name__], the class). *)
Definition run {C} (h : list (option pstr * pstr * C)) : registry C :=
  fold_left (fun r '(n, cn, c) => registry_call r n cn c) h registry_new.
