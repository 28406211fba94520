(** What is said about printing. *)
From Verif Require Import StrModel PexSpec.
Local Open Scope N_scope.

(** The characters at which [str.splitlines] breaks lines *)
Definition breaks_line (c : N) : bool :=
  (10 <=? c) && (c <=? 13) || (28 <=? c) && (c <=? 30) || (c =? 133) || (c =? 8232) || (c =? 8233).
Definition one_line (x : pstr) : Prop := Forall (fun c => breaks_line c = false) x.
(** None of them is printable, in Python's database of characters. *)
Definition sane (printable : N -> bool) : Prop := forall c, breaks_line c = true -> 127 <= c -> printable c = false.

(** The desc of a layer, or of an animation, if it isn't empty *)
Definition desc_is (v : pyval) (desc : option pstr) : Prop :=
  match desc with None => v = PNone \/ v = PStr [] | Some x => v = PStr x /\ x <> [] /\ code_points x end.
(** The layer has this depth, this class, this desc, and (if it is a Text) this text. *)
Record layer_has (F : forest) (n : inode) (depth : Z) (c : lcls) (desc text : option pstr) : Prop := {
  lh_class : layer_class n = Ok c;
  lh_depth : depth_of F (iuid n) = Ok depth;
  lh_desc : exists v, field_get c F n c (s "desc") = Ok v /\ desc_is v desc;
  lh_text : match text with
            | None => c_name c <> s "Text"
            | Some x => c_name c = s "Text" /\ code_points x /\
                        exists t m cx, field_get c F n c (s "text") = Ok (PVal t m cx) /\ get_value t m cx = Ok (PStr x)
            end
}.
(** The keyframe has this time, this name, and is active or not. *)
Definition keyframe_has (F : forest) (k : inode) (t : T) (name : pstr) (active : bool) : Prop :=
  kf_time F k = Ok t /\ kf_name k = name /\ kf_active k = Ok active /\ code_points name.
(** The classes of values that exist *)
Definition all_vcls : list vcls :=
  [VReal; VInteger; VBool; VAngle; VTime; VString; VColor; VXY; VTransformation; VGradient; VCanvas; VBlendMethod;
   VTbd (s "Dynamic_List"); VTbd (s "Static_List"); VTbd (s "Wplist"); VTbd (s "Dilist"); VTbd (s "Bline"); VTbd (s "Tone")].
(** The stop of a gradient is at this position, and has this colour. *)
Definition stop_has (kv : Q * pyval) (e : Q * pstr) : Prop :=
  fst kv = fst e /\ is_dbl (fst e) /\ exists c cx, snd kv = PVal VColor c cx /\ is_animated c = false /\ color_hex c = Ok (snd e).
(** Values that print without brackets *)
Definition bracketless (c : vcls) (n : node) : Prop :=
  In c [VReal; VInteger; VBool; VAngle; VTime; VColor; VBlendMethod] \/ c = VXY /\ from_tag n = Ok VXY.
(** The part of a transformation is a vector or an angle. *)
Definition flat_part (kv : pstr * pyval) : Prop := exists c n cx, snd kv = PVal c n cx /\ from_tag n = Ok c /\ In c [VXY; VAngle].
