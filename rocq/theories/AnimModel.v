(** /repo/sangfroid/animation.py, /repo/sangfroid/format.py and /repo/sangfroid/keyframe.py:
    animations, and the files they come from.

    Files are named by the exact string given to open(): two different names are two different
    files. Directories and permissions are the predicate [can], which says which names can be opened for
    writing. Another program may change the files between two calls, but not during one. *)
From Verif Require Export XpModel LayModel.
Local Open Scope Z_scope.

(** ** Files *)

(** The content of a file: plain bytes, or a complete gzip file with these bytes inside. Compression
    is not modelled. [Raw] bytes that start with the gzip magic number are a broken gzip file. *)
Inductive file : Type := Raw (b : list N) | Gz (b : list N).
Definition files := list (pstr * file).

(** format.py:166,180,194,205: the subclasses of Format *)
Inductive fkind := FSif | FSifz | FSfg | FBlank.

Definition gzip_magic : list N := [31; 139]%N.
(** format.py:84-85 [f.read(2)] *)
Definition magic (f : file) : list N := match f with Raw b => firstn 2 b | Gz _ => gzip_magic end.

(** format.py:83-95 [from_filename(filename)], with :168,182,196,214 *)
Definition kind_by_magic (f : file) : res fkind :=
  match magic f with
  | [] => Err ValueError
  | m => if pstr_eqb m (s "<?") then Ok FSif
         else if pstr_eqb m gzip_magic then Ok FSifz
         else if pstr_eqb m (s "PK") then Ok FSfg
         else Err ValueError
  end.

(** posixpath.splitext(p)[1]: what follows the last dot, if that dot is in the last component and
    something other than a dot is before it there *)
Fixpoint last_part (x acc : pstr) : pstr :=
  match x with
  | [] => rev acc
  | c :: x' => if (c =? 47)%N then last_part x' [] else last_part x' (c :: acc)
  end.
Definition split_ext (x : pstr) : pstr :=
  let r := rev (last_part x []) in
  let (e, d) := span (fun c => negb (c =? 46)%N) r in
  match d with
  | [] => []
  | _ :: b => if forallb (fun c => (c =? 46)%N) b then [] else 46%N :: rev e
  end.
(** format.py:96-107 [from_filename(filename, load=False)], with :169,183,197,215 *)
Definition kind_by_name (x : pstr) : res fkind :=
  let e := lower (split_ext x) in
  let e := match e with 46%N :: e' => e' | _ => e end in
  if pstr_eqb e (s "sif") then Ok FSif
  else if pstr_eqb e (s "sifz") then Ok FSifz
  else if pstr_eqb e (s "sfg") then Ok FSfg
  else Err ValueError.

(** ** Animations *)

(** The state of an Animation object: its document, and its format with the name of its file *)
Record anim : Type := mkAnim { am_root : node; am_kind : fkind; am_file : option pstr }.

(** format.py:228-262 BLANK_ANIMATION *)
Definition blank_text : pstr := s "<?xml version=""1.0"" encoding=""UTF-8""?>
<canvas
        version=""1.2""
        width=""480"" height=""270""
        xres=""2834.645669"" yres=""2834.645669""
        gamma-r=""1.000000"" gamma-g=""1.000000"" gamma-b=""1.000000""
        view-box=""-4.000000 2.250000 4.000000 -2.250000""
        antialias=""1"" fps=""24.000""
        begin-time=""0f"" end-time=""5s""
        bgcolor=""0.500000 0.500000 0.500000 1.000000""
        >
  <name>New animation</name>
  <meta name=""background_first_color"" content=""0.880000 0.880000 0.880000""/>
  <meta name=""background_rendering"" content=""0""/>
  <meta name=""background_second_color"" content=""0.650000 0.650000 0.650000""/>
  <meta name=""background_size"" content=""15.000000 15.000000""/>
  <meta name=""grid_color"" content=""0.623529 0.623529 0.623529""/>
  <meta name=""grid_show"" content=""0""/>
  <meta name=""grid_size"" content=""0.250000 0.250000""/>
  <meta name=""grid_snap"" content=""0""/>
  <meta name=""guide_color"" content=""0.435294 0.435294 1.000000""/>
  <meta name=""guide_show"" content=""1""/>
  <meta name=""guide_snap"" content=""0""/>
  <meta name=""jack_offset"" content=""0.000000""/>
  <meta name=""onion_skin"" content=""0""/>
  <meta name=""onion_skin_future"" content=""0""/>
  <meta name=""onion_skin_keyframes"" content=""1""/>
  <meta name=""onion_skin_past"" content=""1""/>
  <keyframe time=""0f"" active=""true"">start</keyframe>
</canvas>".

(** format.py:153-164 [FileContextHandler]: the one child of the soup (animation.py:124-125). Text that
    the reader of XpModel.v doesn't know is outside the model; lxml would recover part of it. *)
Definition parse_doc (x : pstr) : res node :=
  match doc_in x with Some n => Ok n | None => Err EUnmodelled end.
Definition parse_bytes (e : exn) (b : list N) : res node :=
  match decode b with Some x => parse_doc x | None => Err e end.
(** format.py:171-172, 185-186, 199-203 [main_file()]. Files are in UTF-8, and so is the locale: a plain file
    that isn't gives UnicodeDecodeError. The bytes in a gzip file are decoded by bs4, which then
    guesses another encoding: this is outside the model. *)
Definition main_file (kd : fkind) (f : file) : res node :=
  match kd, f with
  | FSif, Raw b => parse_bytes ValueError b
  | FSifz, Gz b => parse_bytes EUnmodelled b
  | FSfg, _ => Err ValueError
  | _, _ => Err EUnmodelled
  end.

(** animation.py:109-128 [Animation(filename)] *)
Definition load (fs : files) (name : pstr) : res anim :=
  match aget name fs with
  | None => Err FileNotFoundError
  | Some f => let* kd := kind_by_magic f in
              let* n := main_file kd f in
              Ok (mkAnim n kd (Some name))
  end.
(** [Animation()] *)
Definition new_anim : res anim := let* n := parse_doc blank_text in Ok (mkAnim n FBlank None).

(** ** Saving *)

(** [void] says which empty tags are written as [<a/>]: see [node_out]. *)
Section Saving.
  Context (void : pstr -> attrs -> bool) (can : pstr -> bool).

  (** format.py:174-178, 188-192 [save], with :130-139: opening the file for writing empties it, and then
      [str(content).encode('UTF-8')] may fail. If the file can't be opened, this is an OSError: here, that
      the directory doesn't exist. *)
  Definition in_format (kd : fkind) (b : list N) : file := match kd with FSifz => Gz b | _ => Raw b end.
  Definition write_doc (fs : files) (kd : fkind) (name : pstr) (n : node) : files * res unit :=
    if can name then
      match utf8_out (doc_out void n) with
      | Some b => (aset name (in_format kd b) fs, Ok tt)
      | None => (aset name (in_format kd []) fs, Err ValueError)
      end
    else (fs, Err FileNotFoundError).

  (** [self._format.save(content, filename)]; format.py:117-128 for Sfg, :223-226 for Blank *)
  Definition format_save (fs : files) (a : anim) : files * res unit :=
    match am_kind a, am_file a with
    | FBlank, _ => (fs, Err ValueError)
    | FSfg, _ => (fs, Err NotImplementedError)
    | kd, Some name => write_doc fs kd name (am_root a)
    | _, None => (fs, Err EUnmodelled)    (* only Blank has no file name *)
    end.

  (** animation.py:219-246 [save(filename)]: the files after it, the animation after it, and the
      exception, if any. Formats have no [__eq__], so the new one is always kept (:239-241). *)
  Definition save (fs : files) (a : anim) (name : option pstr) : files * anim * res unit :=
    match name with
    | None => let (fs', r) := format_save fs a in (fs', a, r)
    | Some x => match kind_by_name x with
                | Err e => (fs, a, Err e)
                | Ok kd => let a' := mkAnim (am_root a) kd (Some x) in
                           let (fs', r) := format_save fs a' in (fs', a', r)
                end
    end.

  (** The files at every moment of [save], were the process to die then. Of a plain file, any beginning
      may have been written; of a gzip file cut short, only the magic number is modelled. *)
  Definition write_states (fs : files) (kd : fkind) (name : pstr) (n : node) : list files :=
    fs :: if can name then
      match utf8_out (doc_out void n) with
      | Some b => match kd with
                  | FSifz => [aset name (Raw []) fs; aset name (Raw gzip_magic) fs; aset name (Gz b) fs]
                  | _ => map (fun i => aset name (Raw (firstn i b)) fs) (seq 0 (S (length b)))
                  end
      | None => [aset name (Raw []) fs; aset name (in_format kd []) fs]
      end
    else [].
  Definition save_states (fs : files) (a : anim) (name : option pstr) : list files :=
    let a' := match name with
              | None => Some a
              | Some x => match kind_by_name x with Ok kd => Some (mkAnim (am_root a) kd (Some x)) | Err _ => None end
              end in
    match a' with
    | Some (mkAnim n (FSif as kd) (Some x)) | Some (mkAnim n (FSifz as kd) (Some x)) => write_states fs kd x n
    | _ => [fs]
    end.
End Saving.

(** ** Fields of animations *)

(** The document of an animation, with the BeautifulSoup object above it. Its root has the number 1. *)
Definition doc_forest (n : node) : forest := [fst (label 0 (El (s "[document]") [] [n]))].

(** animation.py:45-78, the fields kept in attributes of the root: the name is that of the
    Python attribute, so the hyphens of [gamma-r] and [view-box] in files are never found. *)
Definition anim_attrs : list (pstr * (atype * pyval)) :=
  [ (s "version", (TFloatA, PFlo (rnd64 (12 # 10))));
    (s "width", (TIntA, PInt 480));
    (s "height", (TIntA, PInt 270));
    (s "xres", (TFloatA, PFlo (rnd64 (2834645669 # 1000000))));
    (s "yres", (TFloatA, PFlo (rnd64 (2834645669 # 1000000))));
    (s "gamma_r", (TFloatA, PFlo 1));
    (s "gamma_g", (TFloatA, PFlo 1));
    (s "gamma_b", (TFloatA, PFlo 1));
    (s "view_box", (TStrA, PStr (s "-4.0 2.25 4.0 -2.25")));
    (s "antialias", (TIntA, PInt 1));
    (s "fps", (TFloatA, PFlo 24));
    (s "bgcolor", (TStrA, PStr (s "0.5 0.5 0.5 1.0"))) ].
(** animation.py:80-95 MetadataTagField: field.py:76-80 raises *)
Definition anim_metadata : list pstr :=
  [ s "background_first_color"; s "background_rendering"; s "background_second_color"; s "background_size";
    s "grid_color"; s "grid_show"; s "grid_size"; s "grid_snap"; s "guide_color"; s "guide_show"; s "guide_snap";
    s "jack_offset"; s "onion_skin"; s "onion_skin_future"; s "onion_skin_keyframes"; s "onion_skin_past" ].

(** [attrs[k]] *)
Definition attr_item (k : pstr) (n : inode) : res aval :=
  match aget k (iattrs n) with Some v => Ok v | None => Err KeyError end.
(** [T(str(value), ref=tag)] *)
Definition time_of_str (F : forest) (u : N) (x : pstr) : res T := T_init (TStr x) (ctx_of F u).

(** animation.py:14-34 TagTimeAttrField, for end_time (:75-77) *)
Definition end_time (F : forest) (n : inode) : res T :=
  time_of_str F (iuid n) (match aget (s "end_time") (iattrs n) with Some v => aval_str v | None => s "5s" end).
(** animation.py:168-180 [begin_time] *)
Definition begin_time (F : forest) (n : inode) : res T :=
  let* v := attr_item (s "begin-time") n in
  match v with
  | AStr x => time_of_str F (iuid n) x
  | _ => Err EUnmodelled
  end.
(** animation.py:182-195 [framecount] *)
Definition framecount (F : forest) (n : inode) : res Z :=
  let* t := T_init (TNum (-1)) (ctx_of F (iuid n)) in Ok (trunc (frames t) + 1).
(** animation.py:138-149 [size] *)
Definition size (n : inode) : res (Z * Z) :=
  let int_at k := let* v := attr_item k n in
                  let* i := attr_conv TIntA v in
                  match i with PInt z => Ok z | _ => Err EUnmodelled end in
  let* w := int_at (s "width") in
  let* h := int_at (s "height") in
  Ok (w, h).
(** [x.split(' ')] *)
Fixpoint split_spaces (x acc : pstr) : list pstr :=
  match x with
  | [] => [rev acc]
  | c :: x' => if (c =? 32)%N then rev acc :: split_spaces x' [] else split_spaces x' (c :: acc)
  end.
Definition floats_at (k : pstr) (n : inode) : res (list Q) :=
  let* v := attr_item k n in
  match v with
  | AStr x => mapM parse_float (split_spaces x [])
  | _ => Err EUnmodelled
  end.
(** animation.py:151-165 [viewbox] *)
Definition viewbox (n : inode) : res (list Q) := floats_at (s "view-box") n.
(** animation.py:197-210 [background]: [Color] of one float is an error too, but not of a tuple *)
Definition background (n : inode) : res node :=
  let* l := floats_at (s "bgcolor") n in
  new_value VColor (match l with [q] => PFlo q | _ => PTuple (map PFlo l) end).

(** field.py:285-301 NamedChildField; animation.py:134-136 [name], which raises if there's no such tag *)
Definition desc_get (n : inode) : res pyval :=
  match ifind (named (s "desc")) n with
  | None => Ok (PStr [])
  | Some t => Ok (match node_string (forget t) with Some x => PStr x | None => PNone end)
  end.
Definition name_get (n : inode) : res pyval :=
  match ifind (named (s "name")) n with
  | None => Err AttributeError
  | Some t => Ok (match node_string (forget t) with Some x => PStr x | None => PNone end)
  end.

(** [getattr(animation, k)], for the attributes with a Python value. The rest are inherited from
    Group, and look for params anywhere in the document. *)
Definition anim_get (st : lcls) (F : forest) (n : inode) (k : pstr) : res pyval :=
  match aget k anim_attrs with
  | Some (ty, d) => attr_get k ty d n
  | None =>
      if pstr_eqb k (s "end_time") then let* t := end_time F n in Ok (PT t)
      else if pstr_eqb k (s "begin_time") then let* t := begin_time F n in Ok (PT t)
      else if existsb (pstr_eqb k) anim_metadata then Err NotImplementedError
      else if pstr_eqb k (s "name") then name_get n
      else if pstr_eqb k (s "desc") then desc_get n
      else field_get st F n cls_Group k
  end.

(** field.py:187-196 [TagAttrField.__set__] *)
Definition set_conv (ty : atype) (v : pyval) : res aval :=
  match ty with
  | TBoolA => bool_aval v
  | TStrA => let* x := py_str v in Ok (AStr x)
  | TFloatA => let* q := py_float v in Ok (AFlo q)
  | TIntA => let* z := py_int v in Ok (AInt z)
  end.
(** bs4 [tag.string = x]: the contents are replaced *)
Definition set_string (F : forest) (u : N) (x : pstr) : forest := fat u (with_ikids (fun _ => [IT x])) F.

(** [animation.k = v]. Properties have no setter. [subtag.string = v] with a [v] that is not a
    str is outside the model. *)
Definition anim_set (F : forest) (n : inode) (k : pstr) (v : pyval) : change :=
  match aget k anim_attrs with
  | Some (ty, _) => attr_set F (iuid n) k (set_conv ty v)
  | None =>
      if pstr_eqb k (s "end_time") then attr_set F (iuid n) k (set_conv TStrA v)
      else if existsb (pstr_eqb k) [s "begin_time"; s "name"; s "size"; s "viewbox"; s "framecount"; s "background"; s "keyframes"; s "canvas_tag"]
           then (F, Err AttributeError)
      else if existsb (pstr_eqb k) anim_metadata then (F, Err NotImplementedError)
      else if pstr_eqb k (s "desc")
           then match ifind (named (s "desc")) n, v with
                | None, _ => (F, Err AttributeError)
                | Some t, PStr x => (set_string F (iuid t) x, Ok tt)
                | Some _, _ => (F, Err EUnmodelled)
                end
      else field_set F (iuid n) n cls_Group k v
  end.

(** ** Keyframes *)

(** keyframe.py:44-49 [len(keyframes)] and [iter(keyframes)], by their tags *)
Definition keyframes (n : inode) : list inode := ifind_all (named (s "keyframe")) n.
Definition keyframes_len (n : inode) : Z := Z.of_nat (length (keyframes n)).
(** keyframe.py:7-22 [time], [name], [active] *)
Definition kf_time (F : forest) (k : inode) : res T :=
  let* v := attr_item (s "time") k in
  match v with
  | AStr x => time_of_str F (iuid k) x
  | _ => Err EUnmodelled
  end.
Definition kf_name (k : inode) : pstr := node_text (forget k).
Definition kf_active (k : inode) : res bool :=
  let* v := attr_item (s "active") k in
  Ok (match v with AStr x => pstr_eqb x (s "true") | _ => false end).
