(** Assigning anything to the description of an animation *)
From Verif Require Import AnimModel.

(** bs4 4.12.2 [tag.clear()] *)
Definition clear_tag (F : forest) (u : N) : forest := fat u (with_ikids (fun _ => [])) F.

(** field.py:296-300 [NamedChildField.__set__], for any value: [subtag.string = v]. The setter of bs4 4.12.2 is
    [self.clear(); self.append(v.__class__(v))]. [NoneType(None)] raises TypeError. A copy of a number or of a
    container can't be given a parent, so [append] raises AttributeError. What it does with a T or a Value is
    outside the model. [AnimModel.anim_set] is the same for strings. *)
Definition desc_assign (F : forest) (n : inode) (v : pyval) : change :=
  match ifind (named (s "desc")) n with
  | None => (F, Err AttributeError)
  | Some t => match v with
              | PStr x => (set_string F (iuid t) x, Ok tt)
              | PNone => (clear_tag F (iuid t), Err TypeError)
              | PBool _ | PInt _ | PFlo _ | PTuple _ | PList _ | PDict _ | PDictF _ => (clear_tag F (iuid t), Err AttributeError)
              | PT _ | PVal _ _ _ | POther => (F, Err EUnmodelled)
              end
  end.

(** A program that assigns these to the description of the animation whose document is [F] (one tag, with the canvas in it), one after the other, and goes on after each exception *)
Fixpoint desc_assigns (F : forest) (vs : list pyval) : forest * list (res unit) :=
  match vs with
  | [] => (F, [])
  | v :: vs' => match F with
                | [IE _ _ _ [n]] => let (F1, r) := desc_assign F n v in let (F2, rs) := desc_assigns F1 vs' in (F2, r :: rs)
                | _ => (F, [Err EUnmodelled])
                end
  end.
