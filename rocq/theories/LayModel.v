(** /repo/sangfroid/layer/layer.py, /repo/sangfroid/layer/group.py and
    /repo/sangfroid/field.py: layers.

    A Layer object holds only its tag, so here it is the number of its tag in a forest
    (DocModel.v). Its class is the one [Layer.from_tag] gives. *)
From Verif Require Export DocModel ClsTable TlModel.
Local Open Scope Z_scope.

(** ** Classes *)

(** layer.py:23-33 the class Layer itself *)
Definition cls_Layer : lcls := mkC (s "Layer") [] None [].

(** The decorators [@Layer.handles_type()] (layer.py:320): all without a name *)
Definition layer_registry : registry lcls := run (map (fun c => (None, c_name c, c)) layer_classes).

(** layer.py:322-334 [Layer.from_tag]. The [v.ValueError] raised when there is
    no type is an AttributeError: v is the module sangfroid.value. *)
Definition layer_class (n : inode) : res lcls :=
  match aget (s "type") (iattrs n) with
  | Some (AStr x) => from_name layer_registry x
  | _ => Err AttributeError
  end.

(** The base class, unless it is Layer. No base has itself a base other than Layer. *)
Definition base_of (c : lcls) : option lcls :=
  find (fun b => pstr_eqb (c_name b) (c_base c)) layer_classes.
Definition all_fields (c : lcls) : list (pstr * lfield) :=
  c_fields c ++ match base_of c with Some b => c_fields b | None => [] end.

(** The kinds of object that differ in having children: Animation (animation.py:34),
    Group (group.py:6-8), and all others. *)
Inductive okind := KAnim | KGroup | KPlain.
Definition kind_of (c : lcls) : okind := if pstr_eqb (c_name c) (s "Group") then KGroup else KPlain.

(** ** Searching *)

Definition named (nm : pstr) (n : inode) : bool := itag n && pstr_eqb (iname n) nm.
Definition is_layer (n : inode) : bool := named (s "layer") n.
(** [find('param', attrs={'name': f})] *)
Definition is_param (f : pstr) (n : inode) : bool := itag n && has_name_attr (s "param") f (El (iname n) (iattrs n) []).

(** group.py:58-73 [Group.canvas_tag], animation.py:128-130 [Animation.canvas_tag].
    If there is no canvas in the param, this returns None, whose [contents] are an
    AttributeError. *)
Definition canvas_of (kd : okind) (n : inode) : res inode :=
  match kd with
  | KAnim => Ok n
  | _ => match ifind (is_param (s "canvas")) n with
         | None => Err ValueError
         | Some p => match ifind (named (s "canvas")) p with
                     | None => Err AttributeError
                     | Some c => Ok c
                     end
         end
  end.

(** group.py:75-97 [_get_children], [children]; layer.py:284-293 *)
Definition layers_in (c : inode) : list inode := rev (filter is_layer (ikids c)).
Definition as_layer (l : inode) : res inode := let* _ := layer_class l in Ok l.
Definition children (kd : okind) (n : inode) : res (list inode) :=
  match kd with
  | KPlain => Ok []
  | _ => let* c := canvas_of kd n in mapM as_layer (layers_in c)
  end.
(** group.py:98-102 [descendants] *)
Definition descendants_of (kd : okind) (n : inode) : res (list inode) :=
  match kd with
  | KPlain => Err AttributeError
  | _ => let* c := canvas_of kd n in
         let* l := mapM (fun l => let* k := layer_class l in
                                  let* ch := children (kind_of k) l in Ok (l :: ch)) (layers_in c) in
         Ok (concat l)
  end.
(** layer.py:395-396 [__len__] and :415-416 [_sublayer_tags] *)
Definition layer_len (n : inode) : Z := Z.of_nat (length (ifind_all is_layer n)).
(** [bool(layer)]: Layer has [__len__] and no [__bool__] *)
Definition layer_truth (n : inode) : bool := negb (layer_len n =? 0).

(** layer.py:66-73 [parent], :120-128 [tag_depth] *)
Definition parent_of (F : forest) (u : N) : res (option inode) :=
  match fanc u F with
  | None => Err EUnmodelled
  | Some anc => match find is_layer anc with
                | None => Ok None
                | Some p => let* p := as_layer p in Ok (Some p)
                end
  end.
Definition depth_of (F : forest) (u : N) : res Z :=
  match fanc u F with
  | None => Err EUnmodelled
  | Some anc => Ok (Z.of_nat (length (filter is_layer anc)))
  end.

(** ** Changing the children *)

(** One change after another: an exception stops *)
Definition andthen (c : change) (k : forest -> change) : change :=
  match c with (F, Ok _) => k F | (F, Err e) => (F, Err e) end.

(** group.py:104-122 [append]; layer.py:398-413. [l] is a layer. *)
Definition group_append (F : forest) (kd : okind) (g l : N) : change :=
  match kd with
  | KPlain => (F, Err NotImplementedError)
  | _ =>
      match fget g F with
      | None => (F, Err EUnmodelled)
      | Some n =>
          match canvas_of kd n with
          | Err e => (F, Err e)
          | Ok c => match find is_layer (ikids c) with
                    | None => tag_append F (iuid c) l
                    | Some a => insert_before F (iuid a) l
                    end
          end
      end
  end.

(** group.py:135-139 [__getitem__] with an int *)
Definition group_index (kd : okind) (n : inode) (i : Z) : res inode :=
  let* l := children kd n in py_index l i.

Definition nl : pstr := [10%N].

(** group.py:124-133 [insert] *)
Definition group_insert (F : forest) (kd : okind) (g : N) (i : Z) (l : N) : change :=
  match kd with
  | KPlain => (F, Err AttributeError)
  | _ =>
      match fget g F with
      | None => (F, Err EUnmodelled)
      | Some n =>
          match group_index kd n i with
          | Err e => (F, Err e)
          | Ok b =>
              andthen (insert_text_after F (iuid b) nl) (fun F1 =>
              andthen (insert_after F1 (iuid b) l) (fun F2 =>
              insert_text_after F2 (iuid b) nl))
          end
      end
  end.

(** ** Parameters *)

(** The context of a tag, for reading times *)
Definition ctx_of (F : forest) (u : N) : ctx :=
  match fget u F, fanc u F with
  | Some n, Some anc => option_map tag_attrs (canvas_root (forget n) (map forget anc))
  | _, _ => None
  end.

(** layer.py:418-436 [_name_and_value_of]; its [v.ValueError]s are AttributeErrors *)
Definition value_of (p : inode) : res (inode * vcls) :=
  match aget (s "name") (iattrs p) with
  | None => Err AttributeError
  | Some _ => match filter itag (ikids p) with
              | [v] => let* c := from_tag (forget v) in Ok (v, c)
              | _ => Err AttributeError
              end
  end.

(** layer.py:91-95 [layer[f]]: the tag and class of the value *)
Definition layer_getitem (n : inode) (f : pstr) : res (inode * vcls) :=
  match ifind (is_param f) n with
  | None => Err KeyError
  | Some p => value_of p
  end.
(** layer.py:113-118 [f in layer] *)
Definition layer_contains (n : inode) (f : pstr) : bool :=
  match ifind (is_param f) n with Some _ => true | None => false end.

(** layer.py:336-351 [_as_dict], [items], [keys] *)
Definition layer_items (n : inode) : res (list (pstr * (inode * vcls))) :=
  let* l := mapM (fun p => let* v := value_of p in
                           match aget (s "name") (iattrs p) with
                           | Some (AStr x) => Ok (x, v)
                           | _ => Err EUnmodelled
                           end) (ifind_children (named (s "param")) n) in
  Ok (adict l).
Definition layer_keys (n : inode) : res (list pstr) := let* l := layer_items n in Ok (map fst l).

(** What is assigned: a Value object, by the number of its tag and its class, or anything else *)
Inductive setarg := SValue (u : N) (c : vcls) | SPlain (v : pyval).

(** layer.py:97-111 [layer[f] = val] *)
Definition layer_setitem (F : forest) (u : N) (f : pstr) (val : setarg) : change :=
  match fget u F with
  | None => (F, Err EUnmodelled)
  | Some n =>
      match layer_getitem n f with
      | Err e => (F, Err e)
      | Ok (old, c) =>
          match val with
          | SValue w c' => if inst c c' then replace_with F (iuid old) w else (F, Err TypeError)
          | SPlain v =>
              match new_value c v with
              | Err e => (F, Err e)
              | Ok t => let t' := fst (label (fresh F) t) in
                        replace_with (F ++ [t']) (iuid old) (iuid t')
              end
          end
      end
  end.

(** ** Fields *)

(** The type and version fields are shared by all the classes, and their default is that
    of the class last instantiated without a tag (layer.py:364, field.py:388-390
    and :407-409): [st] is that class. *)
Definition version_of (c : lcls) : option pstr :=
  match c_version c with
  | Some x => Some x
  | None => match base_of c with Some b => c_version b | None => None end
  end.
Definition default_type (st : lcls) : pyval := PStr (lower (c_name st)).
Definition default_version (st : lcls) : pyval := match version_of st with Some x => PStr x | None => PFlo 0 end.

(** field.py:165-185 [TagAttrField.__get__] *)
Inductive atype := TStrA | TBoolA | TFloatA | TIntA.
Definition attr_conv (ty : atype) (v : aval) : res pyval :=
  match ty with
  | TBoolA => Ok (PBool (pstr_eqb (lower (aval_str v)) (s "true")))
  | TStrA => Ok (PStr (aval_str v))
  | TFloatA => let* q := float_of_aval v in Ok (PFlo q)
  | TIntA => match v with
             | AStr x => let* z := parse_int x in Ok (PInt z)
             | AFlo q => Ok (PInt (trunc q))
             | AInt z => Ok (PInt z)
             | ATime t => Ok (PInt (T_int t))
             end
  end.
Definition attr_get (k : pstr) (ty : atype) (d : pyval) (n : inode) : res pyval :=
  match aget k (iattrs n) with
  | None => Ok d
  | Some v => attr_conv ty v
  end.

(** field.py:211-236 [ParamTagField._get_value], [__get__]. The message of the assertion (:235) is made with
    str() of the value, which may raise something else first. *)
Definition param_get (F : forest) (n : inode) (k : pstr) : res (inode * vcls) :=
  match ifind (is_param k) n with
  | None => Err AttributeError
  | Some p => match filter itag (ikids p) with
              | [v] => let* c := from_tag (forget v) in Ok (v, c)
              | _ => Err ValueError
              end
  end.
Definition as_value (F : forest) (vc : inode * vcls) : pyval :=
  PVal (snd vc) (forget (fst vc)) (ctx_of F (iuid (fst vc))).
Definition param_field (F : forest) (n : inode) (k : pstr) (ty : vcls) : res pyval :=
  let* vc := param_get F n k in
  if inst ty (snd vc) then Ok (as_value F vc)
  else let* _ := py_str (as_value F vc) in Err AssertionError.

(** Attributes of layer objects that aren't fields of layers: methods and so on *)
Definition other_attrs : list pstr :=
  [s "tag"; s "parent"; s "tag_depth"; s "find_all"; s "children"; s "find"; s "handles_type";
   s "from_tag"; s "items"; s "keys"; s "values"; s "append"; s "SYMBOL"; s "SYNFIG_VERSION";
   s "canvas_tag"; s "descendants"; s "insert"; s "PARAMS"].

(** [getattr(layer, k)]; layer.py:35-54 for the fields of all layers;
    field.py:318-321 [ShortcutField.__get__] (only for transformation: group.py:6) *)
Definition field_get (st : lcls) (F : forest) (n : inode) (c : lcls) (k : pstr) : res pyval :=
  match aget k (all_fields c) with
  | Some (FParam ty _) => param_field F n k ty
  | Some FTodo => Err NotImplementedError
  | Some (FShort up) =>
      let* v := param_field F n up VTransformation in
      match v with PVal _ m cx => composite_getitem m cx k | _ => Err EUnmodelled end
  | None =>
      if pstr_eqb k (s "type_") then attr_get (s "type") TStrA (default_type st) n
      else if pstr_eqb k (s "version") then attr_get (s "version") TFloatA (default_version st) n
      else if pstr_eqb k (s "active") then attr_get (s "active") TBoolA (PBool true) n
      else if pstr_eqb k (s "exclude_from_rendering") then attr_get (s "exclude_from_rendering") TBoolA (PBool false) n
      else if pstr_eqb k (s "desc") then attr_get (s "desc") TStrA PNone n
      else if starts_with (s "_") k || existsb (pstr_eqb k) other_attrs then Err EUnmodelled
      else Err AttributeError
  end.

(** [obj.value = v] on the value at tag w: the tag stays. The tags inside it get new
    numbers, even those the assignment leaves alone (simplification: nothing in /repo keeps them). *)
Definition write_tag (F : forest) (w : N) (m : node) : forest :=
  fat w (fun n => match n, m with
                  | IE v _ _ _, El nm a k => IE v nm a (fst (label_all (fresh F) k))
                  | _, _ => n
                  end) F.

(** field.py:238-240 [ParamTagField.__set__] *)
Definition param_set (F : forest) (n : inode) (k : pstr) (v : pyval) : change :=
  match param_get F n k with
  | Err e => (F, Err e)
  | Ok (w, c) => let (m, r) := set_value c (forget w) v in (write_tag F (iuid w) m, r)
  end.

(** field.py:187-196 [TagAttrField.__set__] *)
Definition attr_set (F : forest) (u : N) (k : pstr) (r : res aval) : change :=
  match r with
  | Err e => (F, Err e)
  | Ok v => (fat u (with_iattrs (aset k v)) F, Ok tt)
  end.
Definition bool_aval (v : pyval) : res aval := let* b := py_bool v in Ok (AStr (if b then s "true" else s "false")).

(** Properties without a setter: layer.py:66-67 [parent], :120-121 [tag_depth], :284-285 [children];
    group.py:58-59 [canvas_tag], :98-99 [descendants] *)
Definition read_only (c : lcls) : list pstr :=
  [s "parent"; s "tag_depth"; s "children"] ++ match kind_of c with KPlain => [] | _ => [s "canvas_tag"; s "descendants"] end.

(** [layer.k = v]. field.py:323-327 [ShortcutField.__set__], :392-393, :438-442 [DescField.__set__],
    :115-130 [NotImplementedField], :259-260 [TagField.__set__]. Any other name becomes an attribute of
    the Python object, which the model doesn't keep: the document stays as it is. Hiding a method in
    that way is outside the model. *)
Definition field_set (F : forest) (u : N) (n : inode) (c : lcls) (k : pstr) (v : pyval) : change :=
  match aget k (all_fields c) with
  | Some (FParam _ _) => param_set F n k v
  | Some FTodo => (F, Err NotImplementedError)
  | Some (FShort up) => param_set F n up (PDict [(k, v)])
  | None =>
      if pstr_eqb k (s "type_") then (F, Err ValueError)
      else if pstr_eqb k (s "version") then attr_set F u k (let* q := py_float v in Ok (AFlo q))
      else if pstr_eqb k (s "active") || pstr_eqb k (s "exclude_from_rendering") then attr_set F u k (bool_aval v)
      else if pstr_eqb k (s "desc")
           then if is_none v then (fat u (with_iattrs (adel k)) F, Ok tt)
                else attr_set F u k (let* x := py_str v in Ok (AStr x))
      else if pstr_eqb k (s "tag") then (F, Err KeyError)
      else if existsb (pstr_eqb k) (read_only c) then (F, Err AttributeError)
      else if starts_with (s "_") k || existsb (pstr_eqb k) other_attrs then (F, Err EUnmodelled)
      else (F, Ok tt)
  end.

(** ** find_all *)

(** [found_value == want_value]. String inherits [Value.__eq__] (value.py:232-236).
    Comparisons with the values built from several parts are outside the model. *)
Definition value_eq (c : vcls) (n : node) (cx : ctx) (b : pyval) : res bool :=
  match c with
  | VReal | VInteger | VBool | VAngle | VTime | VBlendMethod => simple_eq c n cx b
  | VColor => color_eq n b
  | VString => match b with
               | PStr y => Ok (pstr_eqb (string_val n) y)
               | PVal VString m _ => Ok (pstr_eqb (string_val n) (string_val m))
               | PNone | PBool _ | PInt _ | PFlo _ | PTuple _ | PList _ | PDict _ | PDictF _ | POther => Ok false
               | _ => Err EUnmodelled
               end
  | _ => Err EUnmodelled
  end.
Definition py_num (v : pyval) : option Q :=
  match v with
  | PBool b => Some (if b then 1%Q else 0%Q)
  | PInt z => Some (inject_Z z)
  | PFlo q => Some q
  | _ => None
  end.
Definition field_eq (a b : pyval) : res bool :=
  match a, b with
  | PVal c n cx, _ => value_eq c n cx b
  | _, (PVal _ _ _ | PT _) => Err EUnmodelled
  | PStr x, PStr y => Ok (pstr_eqb x y)
  | PNone, PNone => Ok true
  | _, _ => match py_num a, py_num b with
            | Some x, Some y => Ok (Qeq_bool x y)
            | _, _ => Ok false
            end
  end.

(** The arguments of find_all, layer.py:130-134: at most one positional argument is
    meant; a callable gets the tag. The values to look for: Python values, or classes. *)
Inductive posarg := PaStr (x : pstr) | PaCls (c : lcls) | PaBool (b : bool) | PaFun (f : inode -> bool) | PaOther.
Inductive want := WVal (v : pyval) | WCls (name : pstr).

Inductive criterion := CBool (b : bool) | CFun (f : inode -> bool) | CAny (targets : list (pstr * want)).

Definition has_key {V} (k : pstr) (l : list (pstr * V)) : bool := existsb (fun kv => pstr_eqb k (fst kv)) l.

(** layer.py:172-198 the positional argument. [v.ValueError] is an UnboundLocalError: v is a
    local variable of find_all (layer.py:200-207). *)
Definition with_positional (pos : list posarg) (kw : list (pstr * want)) : res (option criterion * list (pstr * want)) :=
  let typed w := if has_key (s "type") kw then Err UnboundLocalError else Ok (None, kw ++ [(s "type", w)]) in
  match pos with
  | [] => Ok (None, kw)
  | [PaStr x] => typed (WVal (PStr x))
  | [PaCls c] => typed (WCls (c_name c))
  | [PaBool b] => Ok (Some (CBool b), kw)
  | [PaFun f] => Ok (Some (CFun f), kw)
  | [PaOther] => Err TypeError
  | _ => Err UnboundLocalError
  end.
(** layer.py:199-205 attrs; here [v.ValueError] is looked up on the value: AttributeError.
    While [attrs] itself is still in kwargs, it clashes with an entry named so. *)
Fixpoint with_attrs (kw : list (pstr * want)) (l : list (pstr * want)) : res (list (pstr * want)) :=
  match l with
  | [] => Ok kw
  | (k, w) :: l' => if has_key k kw || pstr_eqb k (s "attrs") then Err AttributeError
                    else with_attrs (kw ++ [(k, w)]) l'
  end.
(** layer.py:207-212 and :227-237: [type] is looked for as the field type_ *)
Definition target (kw : pstr * want) : res (pstr * want) :=
  if pstr_eqb (fst kw) (s "type")
  then match snd kw with
       | WVal (PStr x) | WCls x => Ok (s "type_", WVal (PStr (normalise x)))
       | _ => Err AttributeError
       end
  else Ok kw.
Definition criterion_of (pos : list posarg) (kw : list (pstr * want)) (at_ : option (list (pstr * want))) : res criterion :=
  let* pk := with_positional pos kw in
  let* kw := match at_ with Some l => with_attrs (snd pk) l | None => Ok (snd pk) end in
  let* t := mapM target kw in
  Ok (match fst pk with Some c => c | None => CAny t end).

(** layer.py:241-262: the first target that matches decides. A field that can't be read with
    an AttributeError is skipped; so is one whose repr(), which is made for the log, raises that.
    That the repr() of what is looked for (:247) may raise is not modelled. *)
Definition read_for_match (st : lcls) (F : forest) (n : inode) (c : lcls) (k : pstr) : res pyval :=
  let* v := field_get st F n c k in
  let* _ := match v with PVal _ _ _ => py_str v | _ => Ok [] end in Ok v.
Fixpoint any_match (st : lcls) (F : forest) (n : inode) (c : lcls) (l : list (pstr * want)) : res bool :=
  match l with
  | [] => Ok false
  | (k, w) :: l' =>
      match read_for_match st F n c k with
      | Err AttributeError => any_match st F n c l'
      | Err e => Err e
      | Ok found =>
          let* b := match w with WVal v => field_eq found v | WCls _ => Err EUnmodelled end in
          if b then Ok true else any_match st F n c l'
      end
  end.

(** layer.py:216-272 [matcher] *)
Definition matches (st : lcls) (F : forest) (cr : criterion) (n : inode) : res bool :=
  if is_layer n then
    let* c := layer_class n in
    match cr with
    | CBool b => Ok b
    | CFun f => Ok (f n)
    | CAny l => any_match st F n c l
    end
  else Ok false.

(** layer.py:130-282 [find_all]. [n] is the tag searched. *)
Definition layer_find_all (st : lcls) (F : forest) (n : inode) (pos : list posarg) (recursive : bool)
  (kw : list (pstr * want)) (at_ : option (list (pstr * want))) : res (list inode) :=
  let* cr := criterion_of pos kw at_ in
  let* l := filterM (matches st F cr) (if recursive then idesc n else filter itag (ikids n)) in
  mapM as_layer l.
(** layer.py:295-311 [find] *)
Definition layer_find (st : lcls) (F : forest) (n : inode) (pos : list posarg) (recursive : bool)
  (kw : list (pstr * want)) (at_ : option (list (pstr * want))) : res (option inode) :=
  let* l := layer_find_all st F n pos recursive kw at_ in Ok (hd_error l).

(** ** New layers *)

(** layer.py:379-391: the param of a field. Times go through [_TimeButString]
    (layer.py:438-456), which stores str() of the default. *)
Definition default_param (f : pstr * lfield) : res (list node) :=
  match snd f with
  | FParam ty d =>
      let* v := match ty with
                | VTime => let* x := py_str d in Ok (El (s "time") [(s "value", AStr x)] [])
                | _ => new_value ty d
                end in
      Ok [El (s "param") [(s "name", AStr (fst f))] [v]; Txt nl]
  | _ => Ok []
  end.

(** layer.py:356-393 [_construct_empty_tag]: the fields of the class, of its base, then those of
    Layer (layer.py:35-54; desc has no default) *)
Definition new_tag (c : lcls) : res node :=
  let* l := mapM default_param (all_fields c) in
  Ok (El (s "layer")
         [(s "type", AStr (lower (c_name c)));
          (s "version", AStr (match version_of c with Some x => x | None => s "0.0" end));
          (s "active", AStr (s "true"));
          (s "exclude_from_rendering", AStr (s "false"))]
         (Txt nl :: concat l)).

(** [C()]: the forest with the new layer, and its number (layer.py:58-64) *)
Definition new_layer (F : forest) (c : lcls) : forest * res N :=
  match new_tag c with
  | Err e => (F, Err e)
  | Ok t => (F ++ [fst (label (fresh F) t)], Ok (fresh F))
  end.
(** [Text("...")] (text.py:49-59) *)
Definition new_text (F : forest) (x : pstr) : forest * res N :=
  match new_layer F cls_Text with
  | (F1, Ok u) =>
      match fget u F1 with
      | None => (F1, Err EUnmodelled)
      | Some n => let (F2, r) := field_set F1 u n cls_Text (s "text") (PStr x) in
                  (F2, let* _ := r in Ok u)
      end
  | fr => fr
  end.
