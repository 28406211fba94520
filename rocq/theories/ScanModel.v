(** /repo/sangfroid/template/__main__.py: writing the fields of the layer classes, from a file that has a layer of each type.
    The module can't be imported as it is, since it uses sangfroid.template.read_existing, which doesn't exist: what that would have
    read is a parameter here. *)
From Verif Require Export AnimModel PexModel RepModel.
Local Open Scope N_scope.

(** [str.title()], on ASCII letters only: other code points are left alone, and end words *)
Definition is_letter (c : N) : bool := is_upper c || is_lower c.
Definition upper_char (c : N) : N := if is_lower c then c - 32 else c.
Fixpoint title_from (inside : bool) (x : pstr) : pstr :=
  match x with
  | [] => []
  | c :: x' => (if inside then lower_char c else upper_char c) :: title_from (is_letter c) x'
  end.
Definition title (x : pstr) : pstr := title_from false x.

(** ** What is known of the classes that exist *)

(** A class, as far as it is used: the fields in its own [__dict__], and those of the other classes in its [__mro__]. Fields are
    equal if they are the same object, here: have the same number. *)
Record fieldobj : Type := mkF { f_id : N; f_doc : option pstr }.
Record klass : Type := mkK { k_dict : list (pstr * fieldobj); k_supers : list (list (pstr * fieldobj)) }.
(** [existing.result] *)
Definition known := list (pstr * klass).

(** template/__main__.py:56-74 *)
Definition is_inherited_param (c : klass) (name : pstr) : bool :=
  match aget name (k_dict c) with
  | None => false
  | Some p => existsb (fun d => match aget name d with Some q => f_id q =? f_id p | None => false end) (k_supers c)
  end.

(** template/__main__.py:17-23 OVERRIDES *)
Definition override (ty name : pstr) : option pstr :=
  if pstr_eqb ty (s "duplicate") && pstr_eqb name (s "index") then Some (s "f.DuplicatesIndexField(None)")
  else if pstr_eqb ty (s "halftone3") && pstr_eqb name (s "tone") then Some (s "f.ParamArrayField(v.Tone, default=None)")
  else if pstr_eqb ty (s "switch") && pstr_eqb name (s "canvas") then Some (s "f.SwitchCanvasField()")
  else None.

(** [getattr(sangfroid.value, name)], for the names that [title] can give: value/__init__.py:11-21 imports them. T has
    no [from_tag]; Waypoint's is another one, and outside the model. *)
Definition value_names : list pstr :=
  [s "Value"; s "Integer"; s "Canvas"; s "Color"; s "Vector"; s "X_Y"; s "Gradient"; s "Simple"; s "Numeric"; s "Real"; s "Bool"; s "Angle"; s "Time";
   s "String"; s "Tbd"; s "Dynamic_List"; s "Static_List"; s "Wplist"; s "Dilist"; s "Bline"; s "Tone"; s "Composite"; s "Transformation"].

(** ['[0]' in x] *)
Fixpoint has_infix (p x : pstr) : bool :=
  match after p x with
  | Some _ => true
  | None => match x with [] => false | _ :: x' => has_infix p x' end
  end.
(** [tag[k]] for an attribute of a tag that was just read *)
Definition str_attr (k : pstr) (n : node) : res pstr :=
  match aget k (tag_attrs n) with Some (AStr x) => Ok x | Some _ => Err EUnmodelled | None => Err KeyError end.
Fixpoint names_eqb (a b : list pstr) : bool :=
  match a, b with
  | [], [] => true
  | x :: a', y :: b' => pstr_eqb x y && names_eqb a' b'
  | _, _ => false
  end.
(** [sorted([p.name for p in tag_children(n)])==l], with template/__main__.py:44-46 [tag_children] *)
Definition part_names_are (l : list pstr) (n : node) : bool :=
  names_eqb (sort pstr_le (map tag_name (child_tags n))) l.
(** template/__main__.py:132-145 *)
Definition type_name (name : pstr) (v : node) : pstr :=
  if pstr_eqb name (s "blend_method") then s "BlendMethod"
  else let ty := title (tag_name v) in
       if pstr_eqb ty (s "Vector") && part_names_are [s "x"; s "y"] v then s "X_Y"
       else if pstr_eqb ty (s "Composite") && part_names_are [s "angle"; s "offset"; s "scale"; s "skew_angle"] v then s "Transformation"
       else ty.

Section Scan.
  Context (printable : N -> bool) (ex : known).

  (** template/__main__.py:164 [cls.from_tag(tag).as_python_expression()]; blendmethod.py:39-42 *)
  Definition param_expr (ty : pstr) (v : node) (cx : ctx) : res pstr :=
    if pstr_eqb ty (s "BlendMethod") then
      let* c := from_tag v in
      let* x := get_value c v cx in
      let* n := new_value VBlendMethod x in
      let* e := expression printable VBlendMethod n None in Ok (expr_text e)
    else
      let* c := from_tag v in let* e := expression printable c v cx in Ok (expr_text e).

  (** template/__main__.py:157-184: the right side of an assignment *)
  Definition doc_arg (k : option klass) (name : pstr) : pstr :=
    match k with
    | None => []
    | Some k => match aget name (k_dict k) with
                | Some (mkF _ (Some (c :: d))) => [10] ++ repeat 32 30 ++ s "doc=" ++ repr_str printable (c :: d) ++ s ","
                | _ => []
                end
    end.
  Definition right_side (k : option klass) (array : bool) (name ty : pstr) (v : node) (cx : ctx) : res pstr :=
    let* head := match param_expr ty v cx with
                 | Ok e => Ok (s "f." ++ (if array then s "ParamArrayField" else s "ParamTagField") ++ s "(v." ++ ty ++ s ", " ++ e ++ s ",")
                 | Err NotImplementedError => Ok (s "f.NotImplementedField(" ++ [34] ++ ty ++ [34] ++ s ",")
                 | Err e => Err e
                 end in
    Ok (head ++ doc_arg k name ++ [10] ++ repeat 32 20 ++ s ")").

  (** template/__main__.py:105-184: one param; the new dict [params] *)
  Definition scan_param (k : option klass) (ltype : pstr) (cx : ctx) (params : list (pstr * pstr)) (p : node) : res (list (pstr * pstr)) :=
    let* full := str_attr (s "name") p in
    if match k with Some k => is_inherited_param k full | None => false end then Ok params
    else if existsb (N.eqb 91) full && negb (has_infix (s "[0]") full) then Ok params
    else
      let name := fst (span (fun c => negb (c =? 91)) full) in
      match override ltype name with
      | Some x => Ok (aset name x params)
      | None =>
          match child_tags p with
          | [] => if pstr_eqb name (s "index") then Ok (aset (s "index") (s "DuplicatesIndexField(None)") params) else Err IndexError
          | _ :: _ :: _ => Err ValueError
          | [v] =>
              let ty := type_name name v in
              if pstr_eqb ty (s "T") then Err AttributeError
              else if pstr_eqb ty (s "Waypoint") then Err EUnmodelled
              else if pstr_eqb ty (s "BlendMethod") || existsb (pstr_eqb ty) value_names
                   then let* r := right_side k (existsb (N.eqb 91) full) name ty v cx in Ok (aset name r params)
                   else Err ValueError
          end
      end.
  Fixpoint scan_params (k : option klass) (ltype : pstr) (cx : ctx) (params : list (pstr * pstr)) (l : list node) : res (list (pstr * pstr)) :=
    match l with
    | [] => Ok params
    | p :: l' => let* params := scan_param k ltype cx params p in scan_params k ltype cx params l'
    end.

  (** template/__main__.py:186-191: the lines of the block; [f'{left:20}'] *)
  Definition pad20 (x : pstr) : pstr := x ++ repeat 32 (20 - length x).
  Definition field_line (kv : pstr * pstr) : pstr :=
    pad20 (if pstr_eqb (fst kv) (s "type") then s "type_" else fst kv) ++ s " = " ++ snd kv ++ [10].
  (** template/__main__.py:96-193: one layer. The params of the layers in it are taken to be its own. *)
  Definition layer_block (cx : ctx) (l : node) : res pstr :=
    let* ty := str_attr (s "type") l in
    let* version := str_attr (s "version") l in
    let* params := scan_params (aget (title ty) ex) ty cx [] (find_all (has_name (s "param")) l) in
    Ok (s "SYNFIG_VERSION = " ++ [34] ++ version ++ [34; 10; 10] ++ flat_map field_line params).
  (** template/__main__.py:91-193: [done] is types_done *)
  Fixpoint scan_layers (cx : ctx) (done : list pstr) (fs : fields) (l : list node) : res fields :=
    match l with
    | [] => Ok fs
    | n :: l' =>
        let* ty := str_attr (s "type") n in
        if existsb (pstr_eqb ty) done then scan_layers cx done fs l'
        else let* b := layer_block cx n in scan_layers cx (ty :: done) (aset (title ty) b fs) l'
    end.
  Definition soup_ctx (root : node) : ctx := if has_name (s "canvas") root then Some (tag_attrs root) else None.
  Definition soup_layers (root : node) : list node := find_all (has_name (s "layer")) (El (s "[document]") [] [root]).
  Definition scan_soup (root : node) : res fields := scan_layers (soup_ctx root) [] [] (soup_layers root).

  (** template/__main__.py:76-196 with the names that the Replacer's glob finds. The text is decoded before lxml reads it. *)
  Definition scan_pick_and_mix (d : disk) (names : list pstr) : RepModel.outcome :=
    match (match aget (s "test/pick-and-mix.sif") d with
           | None => Err FileNotFoundError
           | Some b => match decode b with
                       | None => Err ValueError
                       | Some x => let* root := parse_doc (norm_eol x) in scan_soup root
                       end
           end) with
    | Err e => mkO d [] [] (Err e)
    | Ok fs => handle_all fs d names
    end.
End Scan.
