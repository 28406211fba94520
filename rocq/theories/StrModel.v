(** [str()] and [repr()] of layers, keyframes, waypoints, timelines and values. *)
From Verif Require Export PexModel AnimModel SymTable.
Local Open Scope Z_scope.

(** layer.py:32 and the SYMBOL of each class: the class's own, or that of its base, or that of Layer *)
Definition symbol_of (c : lcls) : pstr :=
  match aget (c_name c) own_symbols with
  | Some x => x
  | None => match aget (c_base c) own_symbols with Some x => x | None => s "?" end
  end.

(** value/*.py: the names of the classes of values, as [__class__.__name__] has them *)
Definition class_name (c : vcls) : pstr :=
  match c with
  | VReal => s "Real" | VInteger => s "Integer" | VBool => s "Bool" | VAngle => s "Angle" | VTime => s "Time"
  | VString => s "String" | VColor => s "Color" | VXY => s "X_Y" | VTransformation => s "Transformation"
  | VGradient => s "Gradient" | VCanvas => s "Canvas" | VBlendMethod => s "BlendMethod" | VTbd x => x
  end.

(** value.py:460-468: the emoji of INTERPOLATION_TYPES. Waypoints never have 'undefined' (value.py:519-529). *)
Definition emoji : list (pstr * pstr) :=
  [(s "tcb", [128994%N]); (s "clamped", [128310%N]); (s "constant", [128997%N]); (s "linear", [127805%N]); (s "ease", [129744%N])].

Section Str.
  Context (printable : N -> bool).   (* as in PexModel *)
  Notation repr_str := (repr_str printable).

  (** ** Layers *)

  (** layer.py:75-89 [__repr__], from the depth, the symbol, the name of the class and the desc *)
  Definition shown_desc (desc : pyval) : res pstr :=
    match desc with
    | PNone | PStr [] => Ok []
    | PStr x => Ok (s " " ++ repr_str x)
    | _ => Err EUnmodelled
    end.
  Definition layer_line (depth : Z) (sym name : pstr) (desc : pyval) : res pstr :=
    let* x := shown_desc desc in
    Ok (s "[" ++ repeat 45%N (Z.to_nat depth) ++ sym ++ lower name ++ x ++ s "]").
  (** layer.py:80-86: a KeyError from [desc] is ignored *)
  Definition no_key_error (r : res pyval) : res pyval := match r with Err KeyError => Ok PNone | _ => r end.

  (** [repr(layer)]; text.py:61-65 for Text. Not modelled: a param called text whose value isn't a str. *)
  Definition layer_repr (F : forest) (n : inode) : res pstr :=
    let* c := layer_class n in
    let* depth := depth_of F (iuid n) in
    let* desc := no_key_error (field_get c F n c (s "desc")) in
    let* line := layer_line depth (symbol_of c) (c_name c) desc in
    if pstr_eqb (c_name c) (s "Text") then
      let* v := field_get c F n c (s "text") in
      match v with
      | PVal t m cx => let* x := get_value t m cx in
                       match x with
                       | PStr x => Ok (removelast line ++ s " " ++ repr_str x ++ s "]")
                       | _ => Err EUnmodelled
                       end
      | _ => Err EUnmodelled
      end
    else Ok line.
  (** The same for an animation, which is a Group with another desc (animation.py:36, :64-68) *)
  Definition anim_repr (F : forest) (n : inode) : res pstr :=
    let* depth := depth_of F (iuid n) in
    let* desc := no_key_error (desc_get n) in
    layer_line depth (symbol_of cls_Group) (s "Animation") desc.

  (** ** Keyframes *)

  (** keyframe.py:24-29 [Keyframe.__str__] *)
  Definition kf_str (F : forest) (k : inode) : res pstr :=
    let* a := kf_active k in
    let* t := kf_time F k in
    Ok (T_str t ++ s " " ++ repr_str (kf_name k) ++ (if a : bool then [] else s " (inactive)")).
  (** keyframe.py:51-59 [Keyframes.__str__] *)
  Definition keyframes_str (F : forest) (n : inode) : res pstr :=
    let* a := anim_repr F n in
    let head := s "Keyframes of " ++ a ++ s ":" in
    if keyframes_len n =? 0 then Ok (head ++ nl ++ s "  (none)")
    else let* l := mapM (fun k => let* x := kf_str F k in Ok (nl ++ s "  - " ++ x)) (keyframes n) in Ok (head ++ concat l).

  (** ** Values *)

  (** value.py:207-214 [__str__] and [__repr__]; for Gradient gradient.py:64-68, which doesn't ask whether it's animated.
      Within gradients and transformations only flat values are modelled; Canvas, whose str is that of its layers, is not. *)
  Definition flat_str (c : vcls) (n : node) (cx : ctx) : res pstr :=
    match c with
    | VXY => vector_str printable n
    | VTbd _ => if is_animated n then Ok (s "(animated)") else Err NotImplementedError
    | _ => py_str (PVal c n cx)
    end.
  Definition flat_repr (v : pyval) : res pstr :=
    match v with
    | PVal c n cx => let* x := flat_str c n cx in Ok (s "[" ++ class_name c ++ s " " ++ x ++ s "]")
    | _ => Err EUnmodelled
    end.
  Definition value_str (c : vcls) (n : node) (cx : ctx) : res pstr :=
    match c with
    | VGradient =>
        let* d := gradient_val n cx in
        let* l := mapM (fun kv => match snd kv with
                                  | PVal c m cy => let* x := flat_str c m cy in Ok (repr_float (fst kv) ++ s ":" ++ x)
                                  | _ => Err EUnmodelled
                                  end) d in
        Ok (s "{" ++ join (s ",") l ++ s "}")
    | VTransformation =>
        if is_animated n then Ok (s "(animated)")
        else let* d := composite_val n cx in
             let* l := mapM (fun kv => let* x := flat_repr (snd kv) in Ok (repr_str (fst kv) ++ s ": " ++ x)) d in
             Ok (s "{" ++ join (s ", ") l ++ s "}")
    | _ => flat_str c n cx
    end.
  Definition value_repr (c : vcls) (n : node) (cx : ctx) : res pstr :=
    let* x := value_str c n cx in Ok (s "[" ++ class_name c ++ s " " ++ x ++ s "]").

  (** ** Waypoints and timelines *)

  (** ['%3s' % x] *)
  Definition pad3 (x : pstr) : pstr := repeat 32%N (3 - length x) ++ x.
  Definition emoji_of (i : pstr) : res pstr := match aget i emoji with Some x => Ok x | None => Err KeyError end.
  (** value.py:603-608 [Waypoint.__str__] *)
  Definition wp_str (w : wp) (cx : ctx) : res pstr :=
    let* b := emoji_of (w_before w) in
    let* a := emoji_of (w_after w) in
    let* x := value_str (w_cls w) (w_val w) cx in
    Ok (s "[" ++ pad3 (T_str (w_time w)) ++ s " " ++ b ++ s "-" ++ a ++ s " - " ++ x ++ s "]").
  (** value.py:443-448 [Timeline.__str__] *)
  Definition timeline_str (c : vcls) (n : node) (cx : ctx) : res pstr :=
    let* d := waypoints n cx in
    let* l := mapM (fun kv => let* x := wp_str (snd kv) cx in Ok (T_str (fst kv) ++ s ": " ++ x)) d in
    Ok (s "[timeline of " ++ class_name c ++ s ":{" ++ join (s ", ") l ++ s "}]").
End Str.
