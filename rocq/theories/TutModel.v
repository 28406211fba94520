(** The programs of the tutorial: docs/examples.md, docs/examples/stroop.py and docs/examples/french.py. What they write with literals are arguments here: the words,
    the colours and the names of files. *)
From Verif Require Import AnimModel LayModel DocModel.
Local Open Scope N_scope.

(** [for item in ...:], with the layers as they were found, before the first one is changed (find_all makes a list: layer.py:264-270). An exception ends the loop. *)
Fixpoint for_each (body : forest -> N -> change) (F : forest) (us : list N) : change :=
  match us with
  | [] => (F, Ok tt)
  | u :: us' => let (F1, r) := body F u in match r with Ok _ => for_each body F1 us' | Err e => (F1, Err e) end
  end.

(** stroop.py:6-7 [for item in sif.find_all(text=x): item[k] = v] *)
Definition recolour (st : lcls) (F : forest) (x k : pstr) (v : pyval) : change :=
  match fget 1 F with
  | None => (F, Err EUnmodelled)
  | Some n => match layer_find_all st F n [] true [(s "text", WVal (PStr x))] None with
              | Err e => (F, Err e)
              | Ok l => for_each (fun G u => layer_setitem G u k (SPlain v)) F (map iuid l)
              end
  end.

(** french.py:12-15: [TRANSLATION.get(str(item['text']), "je ne sais pas quoi")], and [item['text'] = translation] *)
Definition lookup (d : list (pstr * pstr)) (default x : pstr) : pstr := match aget x d with Some y => y | None => default end.
Definition translate_one (d : list (pstr * pstr)) (default : pstr) (F : forest) (u : N) : change :=
  match fget u F with
  | None => (F, Err EUnmodelled)
  | Some n => match layer_getitem n (s "text") with
              | Err e => (F, Err e)
              | Ok (w, c) => match py_str (PVal c (forget w) (ctx_of F (iuid w))) with
                             | Err e => (F, Err e)
                             | Ok x => layer_setitem F u (s "text") (SPlain (PStr (lookup d default x)))
                             end
              end
  end.
(** french.py:11 [for item in sif.find_all('text'):] *)
Definition translate (st : lcls) (F : forest) (d : list (pstr * pstr)) (default : pstr) : change :=
  match fget 1 F with
  | None => (F, Err EUnmodelled)
  | Some n => match layer_find_all st F n [PaStr (s "text")] true [] None with
              | Err e => (F, Err e)
              | Ok l => for_each (translate_one d default) F (map iuid l)
              end
  end.

(** stroop.py:3-9 and french.py:8-17 [main]: an animation is loaded, something is done to it, and it is saved in another file. *)
Section Main.
  Context (void : pstr -> attrs -> bool) (can : pstr -> bool).
  Definition main (work : forest -> change) (fs : files) (from to : pstr) : files * res unit :=
    match load fs from with
    | Err e => (fs, Err e)
    | Ok a => let (F, r) := work (doc_forest (am_root a)) in
              match r with
              | Err e => (fs, Err e)
              | Ok _ => match fget 1 F with
                        | None => (fs, Err EUnmodelled)
                        | Some n => let '(fs', _, r') := save void can fs (mkAnim (forget n) (am_kind a) (am_file a)) (Some to) in (fs', r')
                        end
              end
    end.
End Main.
