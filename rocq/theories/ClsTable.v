(** The layer classes of /repo/sangfroid/layer/*.py: for each, its name, its base,
    SYNFIG_VERSION if it gives one, and its fields in the order of its body.
    Generated by /verif/gen/cls_table.py from the text of those files. *)
From Verif Require Export ValModel.

(** field.py: [ParamTagField] and its subclass [ParamArrayField] are [FParam], with
    type_ and default; [NotImplementedField] and its subclasses are [FTodo];
    [ShortcutField] is [FShort], with the name of the field it reads. *)
Inductive lfield : Type :=
| FParam (c : vcls) (d : pyval)
| FTodo
| FShort (upstream : pstr).

Record lcls : Type := mkC {
  c_name : pstr;
  c_base : pstr;
  c_version : option pstr;
  c_fields : list (pstr * lfield) }.

(** layer/blurs.py:6-21 *)
Definition cls_Blur : lcls :=
  mkC (s "Blur") (s "Layer") (Some (s "0.3"))
  [ (s "z_depth", FParam VReal (PFlo (rnd64 (0 # 1))));
    (s "amount", FParam VReal (PFlo (rnd64 (1 # 1))));
    (s "blend_method", FParam VBlendMethod (PInt 1));
    (s "size", FParam VXY (PTuple [PFlo (rnd64 (200000003 # 2000000000)); PFlo (rnd64 (200000003 # 2000000000))]));
    (s "type_", FParam VInteger (PInt 1)) ].

(** layer/blurs.py:26-43 *)
Definition cls_Radial_Blur : lcls :=
  mkC (s "Radial_Blur") (s "Layer") (Some (s "0.1"))
  [ (s "z_depth", FParam VReal (PFlo (rnd64 (0 # 1))));
    (s "amount", FParam VReal (PFlo (rnd64 (1 # 1))));
    (s "blend_method", FParam VBlendMethod (PInt 1));
    (s "origin", FParam VXY (PTuple [PFlo (rnd64 (0 # 1)); PFlo (rnd64 (0 # 1))]));
    (s "size", FParam VReal (PFlo (rnd64 (1 # 5))));
    (s "fade_out", FParam VBool (PBool false)) ].

(** layer/blurs.py:48-63 *)
Definition cls_Motion_Blur : lcls :=
  mkC (s "Motion_Blur") (s "Layer") (Some (s "0.2"))
  [ (s "aperture", FParam VTime (PStr (s "1s")));
    (s "subsamples_factor", FParam VReal (PFlo (rnd64 (1 # 1))));
    (s "subsampling_type", FParam VInteger (PInt 2));
    (s "subsample_start", FParam VReal (PFlo (rnd64 (0 # 1))));
    (s "subsample_end", FParam VReal (PFlo (rnd64 (1 # 1)))) ].

(** layer/geometry.py:6-41 *)
Definition cls_Star : lcls :=
  mkC (s "Star") (s "Layer") (Some (s "0.1"))
  [ (s "z_depth", FParam VReal (PFlo (rnd64 (0 # 1))));
    (s "amount", FParam VReal (PFlo (rnd64 (1 # 1))));
    (s "blend_method", FParam VBlendMethod (PInt 0));
    (s "color", FParam VColor (PTuple [PFlo (rnd64 (1 # 1)); PFlo (rnd64 (1 # 1)); PFlo (rnd64 (1 # 1)); PFlo (rnd64 (1 # 1))]));
    (s "origin", FParam VXY (PTuple [PFlo (rnd64 (0 # 1)); PFlo (rnd64 (0 # 1))]));
    (s "invert", FParam VBool (PBool false));
    (s "antialias", FParam VBool (PBool true));
    (s "feather", FParam VReal (PFlo (rnd64 (0 # 1))));
    (s "blurtype", FParam VInteger (PInt 1));
    (s "winding_style", FParam VInteger (PInt 0));
    (s "radius1", FParam VReal (PFlo (rnd64 (1 # 1))));
    (s "radius2", FParam VReal (PFlo (rnd64 (19 # 50))));
    (s "angle", FParam VAngle (PFlo (rnd64 (90 # 1))));
    (s "points", FParam VInteger (PInt 5));
    (s "regular_polygon", FParam VBool (PBool false)) ].

(** layer/geometry.py:46-59 *)
Definition cls_Solid_Color : lcls :=
  mkC (s "Solid_Color") (s "Layer") (Some (s "0.1"))
  [ (s "z_depth", FParam VReal (PFlo (rnd64 (0 # 1))));
    (s "amount", FParam VReal (PFlo (rnd64 (1 # 1))));
    (s "blend_method", FParam VBlendMethod (PInt 0));
    (s "color", FParam VColor (PTuple [PFlo (rnd64 (1 # 1)); PFlo (rnd64 (1 # 1)); PFlo (rnd64 (1 # 1)); PFlo (rnd64 (1 # 1))])) ].

(** layer/geometry.py:64-91 *)
Definition cls_Region : lcls :=
  mkC (s "Region") (s "Layer") (Some (s "0.1"))
  [ (s "z_depth", FParam VReal (PFlo (rnd64 (0 # 1))));
    (s "amount", FParam VReal (PFlo (rnd64 (1 # 1))));
    (s "blend_method", FParam VBlendMethod (PInt 0));
    (s "color", FParam VColor (PTuple [PFlo (rnd64 (1 # 1)); PFlo (rnd64 (1 # 1)); PFlo (rnd64 (1 # 1)); PFlo (rnd64 (1 # 1))]));
    (s "origin", FParam VXY (PTuple [PFlo (rnd64 (0 # 1)); PFlo (rnd64 (0 # 1))]));
    (s "invert", FParam VBool (PBool false));
    (s "antialias", FParam VBool (PBool true));
    (s "feather", FParam VReal (PFlo (rnd64 (0 # 1))));
    (s "blurtype", FParam VInteger (PInt 1));
    (s "winding_style", FParam VInteger (PInt 0));
    (s "bline", FTodo) ].

(** layer/geometry.py:96-125 *)
Definition cls_Rectangle : lcls :=
  mkC (s "Rectangle") (s "Layer") (Some (s "0.2"))
  [ (s "z_depth", FParam VReal (PFlo (rnd64 (0 # 1))));
    (s "amount", FParam VReal (PFlo (rnd64 (1 # 1))));
    (s "blend_method", FParam VBlendMethod (PInt 0));
    (s "color", FParam VColor (PTuple [PFlo (rnd64 (1 # 1)); PFlo (rnd64 (1 # 1)); PFlo (rnd64 (1 # 1)); PFlo (rnd64 (1 # 1))]));
    (s "point1", FParam VXY (PTuple [PFlo (rnd64 (0 # 1)); PFlo (rnd64 (0 # 1))]));
    (s "point2", FParam VXY (PTuple [PFlo (rnd64 (1 # 1)); PFlo (rnd64 (1 # 1))]));
    (s "expand", FParam VReal (PFlo (rnd64 (0 # 1))));
    (s "invert", FParam VBool (PBool false));
    (s "feather_x", FParam VReal (PFlo (rnd64 (0 # 1))));
    (s "feather_y", FParam VReal (PFlo (rnd64 (0 # 1))));
    (s "bevel", FParam VReal (PFlo (rnd64 (0 # 1))));
    (s "bevCircle", FParam VBool (PBool true)) ].

(** layer/geometry.py:130-157 *)
Definition cls_Polygon : lcls :=
  mkC (s "Polygon") (s "Layer") (Some (s "0.1"))
  [ (s "z_depth", FParam VReal (PFlo (rnd64 (0 # 1))));
    (s "amount", FParam VReal (PFlo (rnd64 (1 # 1))));
    (s "blend_method", FParam VBlendMethod (PInt 0));
    (s "color", FParam VColor (PTuple [PFlo (rnd64 (1 # 1)); PFlo (rnd64 (1 # 1)); PFlo (rnd64 (1 # 1)); PFlo (rnd64 (1 # 1))]));
    (s "origin", FParam VXY (PTuple [PFlo (rnd64 (0 # 1)); PFlo (rnd64 (0 # 1))]));
    (s "invert", FParam VBool (PBool false));
    (s "antialias", FParam VBool (PBool true));
    (s "feather", FParam VReal (PFlo (rnd64 (0 # 1))));
    (s "blurtype", FParam VInteger (PInt 1));
    (s "winding_style", FParam VInteger (PInt 0));
    (s "vector_list", FTodo) ].

(** layer/geometry.py:162-199 *)
Definition cls_Outline : lcls :=
  mkC (s "Outline") (s "Layer") (Some (s "0.3"))
  [ (s "z_depth", FParam VReal (PFlo (rnd64 (0 # 1))));
    (s "amount", FParam VReal (PFlo (rnd64 (1 # 1))));
    (s "blend_method", FParam VBlendMethod (PInt 0));
    (s "color", FParam VColor (PTuple [PFlo (rnd64 (0 # 1)); PFlo (rnd64 (0 # 1)); PFlo (rnd64 (0 # 1)); PFlo (rnd64 (1 # 1))]));
    (s "origin", FParam VXY (PTuple [PFlo (rnd64 (0 # 1)); PFlo (rnd64 (0 # 1))]));
    (s "invert", FParam VBool (PBool false));
    (s "antialias", FParam VBool (PBool true));
    (s "feather", FParam VReal (PFlo (rnd64 (0 # 1))));
    (s "blurtype", FParam VInteger (PInt 1));
    (s "winding_style", FParam VInteger (PInt 0));
    (s "bline", FTodo);
    (s "width", FParam VReal (PFlo (rnd64 (166666667 # 10000000000))));
    (s "expand", FParam VReal (PFlo (rnd64 (0 # 1))));
    (s "sharp_cusps", FParam VBool (PBool true));
    (s "round_tip", FParam VBool (PBool true));
    (s "homogeneous_width", FParam VBool (PBool true)) ].

(** layer/geometry.py:204-225 *)
Definition cls_Circle : lcls :=
  mkC (s "Circle") (s "Layer") (Some (s "0.2"))
  [ (s "z_depth", FParam VReal (PFlo (rnd64 (0 # 1))));
    (s "amount", FParam VReal (PFlo (rnd64 (1 # 1))));
    (s "blend_method", FParam VBlendMethod (PInt 0));
    (s "color", FParam VColor (PTuple [PFlo (rnd64 (1 # 1)); PFlo (rnd64 (1 # 1)); PFlo (rnd64 (1 # 1)); PFlo (rnd64 (1 # 1))]));
    (s "radius", FParam VReal (PFlo (rnd64 (1 # 1))));
    (s "feather", FParam VReal (PFlo (rnd64 (0 # 1))));
    (s "origin", FParam VXY (PTuple [PFlo (rnd64 (0 # 1)); PFlo (rnd64 (0 # 1))]));
    (s "invert", FParam VBool (PBool false)) ].

(** layer/geometry.py:230-249 *)
Definition cls_Checker_Board : lcls :=
  mkC (s "Checker_Board") (s "Layer") (Some (s "0.2"))
  [ (s "z_depth", FParam VReal (PFlo (rnd64 (0 # 1))));
    (s "amount", FParam VReal (PFlo (rnd64 (1 # 1))));
    (s "blend_method", FParam VBlendMethod (PInt 0));
    (s "color", FParam VColor (PTuple [PFlo (rnd64 (1 # 1)); PFlo (rnd64 (1 # 1)); PFlo (rnd64 (1 # 1)); PFlo (rnd64 (1 # 1))]));
    (s "origin", FParam VXY (PTuple [PFlo (rnd64 (1 # 8)); PFlo (rnd64 (1 # 8))]));
    (s "size", FParam VXY (PTuple [PFlo (rnd64 (1 # 4)); PFlo (rnd64 (1 # 4))]));
    (s "antialias", FParam VBool (PBool true)) ].

(** layer/geometry.py:254-303 *)
Definition cls_Advanced_Outline : lcls :=
  mkC (s "Advanced_Outline") (s "Layer") (Some (s "0.3"))
  [ (s "z_depth", FParam VReal (PFlo (rnd64 (0 # 1))));
    (s "amount", FParam VReal (PFlo (rnd64 (1 # 1))));
    (s "blend_method", FParam VBlendMethod (PInt 0));
    (s "color", FParam VColor (PTuple [PFlo (rnd64 (0 # 1)); PFlo (rnd64 (0 # 1)); PFlo (rnd64 (0 # 1)); PFlo (rnd64 (1 # 1))]));
    (s "origin", FParam VXY (PTuple [PFlo (rnd64 (0 # 1)); PFlo (rnd64 (0 # 1))]));
    (s "invert", FParam VBool (PBool false));
    (s "antialias", FParam VBool (PBool true));
    (s "feather", FParam VReal (PFlo (rnd64 (0 # 1))));
    (s "blurtype", FParam VInteger (PInt 1));
    (s "winding_style", FParam VInteger (PInt 0));
    (s "bline", FTodo);
    (s "width", FParam VReal (PFlo (rnd64 (166666667 # 10000000000))));
    (s "expand", FParam VReal (PFlo (rnd64 (0 # 1))));
    (s "start_tip", FParam VInteger (PInt 1));
    (s "end_tip", FParam VInteger (PInt 1));
    (s "cusp_type", FParam VInteger (PInt 0));
    (s "smoothness", FParam VReal (PFlo (rnd64 (1 # 1))));
    (s "homogeneous", FParam VBool (PBool true));
    (s "wplist", FTodo);
    (s "dash_enabled", FParam VBool (PBool false));
    (s "dilist", FTodo);
    (s "dash_offset", FParam VReal (PFlo (rnd64 (0 # 1)))) ].

(** layer/group.py:8-139 *)
Definition cls_Group : lcls :=
  mkC (s "Group") (s "Layer") (Some (s "0.3"))
  [ (s "z_depth", FParam VReal (PFlo (rnd64 (0 # 1))));
    (s "amount", FParam VReal (PFlo (rnd64 (1 # 1))));
    (s "blend_method", FParam VBlendMethod (PInt 0));
    (s "origin", FParam VXY (PTuple [PFlo (rnd64 (0 # 1)); PFlo (rnd64 (0 # 1))]));
    (s "transformation", FParam VTransformation (PDict [(s "offset", PTuple [PFlo (rnd64 (0 # 1)); PFlo (rnd64 (0 # 1))]); (s "angle", PFlo (rnd64 (0 # 1))); (s "skew_angle", PFlo (rnd64 (0 # 1))); (s "scale", PTuple [PFlo (rnd64 (1 # 1)); PFlo (rnd64 (1 # 1))])]));
    (s "canvas", FParam VCanvas (PList []));
    (s "time_dilation", FParam VReal (PFlo (rnd64 (1 # 1))));
    (s "time_offset", FParam VTime (PInt 0));
    (s "children_lock", FParam VBool (PBool false));
    (s "outline_grow", FParam VReal (PFlo (rnd64 (0 # 1))));
    (s "z_range", FParam VBool (PBool false));
    (s "z_range_position", FParam VReal (PFlo (rnd64 (0 # 1))));
    (s "z_range_depth", FParam VReal (PFlo (rnd64 (0 # 1))));
    (s "z_range_blur", FParam VReal (PFlo (rnd64 (0 # 1))));
    (s "offset", FShort (s "transformation"));
    (s "angle", FShort (s "transformation"));
    (s "skew_angle", FShort (s "transformation"));
    (s "scale", FShort (s "transformation")) ].

(** layer/other.py:6-28 *)
Definition cls_Import : lcls :=
  mkC (s "Import") (s "Layer") (Some (s "0.1"))
  [ (s "z_depth", FParam VReal (PFlo (rnd64 (0 # 1))));
    (s "amount", FParam VReal (PFlo (rnd64 (1 # 1))));
    (s "blend_method", FParam VBlendMethod (PInt 0));
    (s "tl", FParam VXY (PTuple [PFlo (rnd64 ((-5333333611) # 10000000000)); PFlo (rnd64 (5333333611 # 10000000000))]));
    (s "br", FParam VXY (PTuple [PFlo (rnd64 (5333333611 # 10000000000)); PFlo (rnd64 ((-5333333611) # 10000000000))]));
    (s "c", FParam VInteger (PInt 1));
    (s "gamma_adjust", FParam VReal (PFlo (rnd64 (1 # 1))));
    (s "filename", FParam VString (PStr (s "drop.png")));
    (s "time_offset", FParam VTime (PInt 0)) ].

(** layer/stylise.py:6-27 *)
Definition cls_Shade : lcls :=
  mkC (s "Shade") (s "Layer") (Some (s "0.2"))
  [ (s "z_depth", FParam VReal (PFlo (rnd64 (0 # 1))));
    (s "amount", FParam VReal (PFlo (rnd64 (3 # 4))));
    (s "blend_method", FParam VBlendMethod (PInt 12));
    (s "color", FParam VColor (PTuple [PFlo (rnd64 (1 # 1)); PFlo (rnd64 (1 # 1)); PFlo (rnd64 (1 # 1)); PFlo (rnd64 (1 # 1))]));
    (s "origin", FParam VXY (PTuple [PFlo (rnd64 (200000003 # 1000000000)); PFlo (rnd64 ((-200000003) # 1000000000))]));
    (s "size", FParam VXY (PTuple [PFlo (rnd64 (200000003 # 2000000000)); PFlo (rnd64 (200000003 # 2000000000))]));
    (s "type_", FParam VInteger (PInt 1));
    (s "invert", FParam VBool (PBool false)) ].

(** layer/stylise.py:32-61 *)
Definition cls_Bevel : lcls :=
  mkC (s "Bevel") (s "Layer") (Some (s "0.2"))
  [ (s "z_depth", FParam VReal (PFlo (rnd64 (0 # 1))));
    (s "amount", FParam VReal (PFlo (rnd64 (3 # 4))));
    (s "blend_method", FParam VBlendMethod (PInt 13));
    (s "type_", FParam VInteger (PInt 1));
    (s "color1", FParam VColor (PTuple [PFlo (rnd64 (1 # 1)); PFlo (rnd64 (1 # 1)); PFlo (rnd64 (1 # 1)); PFlo (rnd64 (1 # 1))]));
    (s "color2", FParam VColor (PTuple [PFlo (rnd64 (0 # 1)); PFlo (rnd64 (0 # 1)); PFlo (rnd64 (0 # 1)); PFlo (rnd64 (1 # 1))]));
    (s "angle", FParam VAngle (PFlo (rnd64 (135 # 1))));
    (s "depth", FParam VReal (PFlo (rnd64 (1 # 5))));
    (s "softness", FParam VReal (PFlo (rnd64 (1 # 10))));
    (s "use_luma", FParam VBool (PBool false));
    (s "solid", FParam VBool (PBool false));
    (s "fake_origin", FParam VXY (PTuple [PFlo (rnd64 (0 # 1)); PFlo (rnd64 (0 # 1))])) ].

(** layer/text.py:6-65 *)
Definition cls_Text : lcls :=
  mkC (s "Text") (s "Layer") (Some (s "0.5"))
  [ (s "z_depth", FParam VReal (PFlo (rnd64 (0 # 1))));
    (s "amount", FParam VReal (PFlo (rnd64 (1 # 1))));
    (s "blend_method", FParam VBlendMethod (PInt 0));
    (s "text", FParam VString (PStr (s "Hello wombat!")));
    (s "color", FParam VColor (PTuple [PFlo (rnd64 (1 # 1)); PFlo (rnd64 (1 # 1)); PFlo (rnd64 (1 # 1)); PFlo (rnd64 (1 # 1))]));
    (s "family", FParam VString (PStr (s "Sans Serif")));
    (s "style", FParam VInteger (PInt 0));
    (s "weight", FParam VInteger (PInt 400));
    (s "direction", FParam VInteger (PInt 0));
    (s "compress", FParam VReal (PFlo (rnd64 (1 # 1))));
    (s "vcompress", FParam VReal (PFlo (rnd64 (1 # 1))));
    (s "size", FParam VXY (PTuple [PFlo (rnd64 (1 # 4)); PFlo (rnd64 (1 # 4))]));
    (s "orient", FParam VXY (PTuple [PFlo (rnd64 (1 # 2)); PFlo (rnd64 (1 # 2))]));
    (s "origin", FParam VXY (PTuple [PFlo (rnd64 (0 # 1)); PFlo (rnd64 (0 # 1))]));
    (s "use_kerning", FParam VBool (PBool true));
    (s "grid_fit", FParam VBool (PBool false));
    (s "invert", FParam VBool (PBool false)) ].

(** layer/time.py:6-23 *)
Definition cls_Timeloop : lcls :=
  mkC (s "Timeloop") (s "Layer") (Some (s "0.2"))
  [ (s "z_depth", FParam VReal (PFlo (rnd64 (0 # 1))));
    (s "link_time", FParam VTime (PInt 0));
    (s "local_time", FParam VTime (PInt 0));
    (s "duration", FParam VTime (PStr (s "1s")));
    (s "only_for_positive_duration", FParam VBool (PBool false));
    (s "symmetrical", FParam VBool (PBool true)) ].

(** layer/time.py:28-37 *)
Definition cls_Stroboscope : lcls :=
  mkC (s "Stroboscope") (s "Layer") (Some (s "0.1"))
  [ (s "z_depth", FParam VReal (PFlo (rnd64 (0 # 1))));
    (s "frequency", FParam VReal (PFlo (rnd64 (2 # 1)))) ].

(** layer/time.py:42-51 *)
Definition cls_Freetime : lcls :=
  mkC (s "Freetime") (s "Layer") (Some (s "0.1"))
  [ (s "z_depth", FParam VReal (PFlo (rnd64 (0 # 1))));
    (s "time", FParam VTime (PInt 0)) ].

(** layer/tbd.py:10-24 *)
Definition cls_Xor_Pattern : lcls :=
  mkC (s "Xor_Pattern") (s "Layer") (Some (s "0.1"))
  [ (s "z_depth", FParam VReal (PFlo (rnd64 (0 # 1))));
    (s "amount", FParam VReal (PFlo (rnd64 (1 # 1))));
    (s "blend_method", FParam VBlendMethod (PInt 0));
    (s "origin", FParam VXY (PTuple [PFlo (rnd64 (1 # 8)); PFlo (rnd64 (1 # 8))]));
    (s "size", FParam VXY (PTuple [PFlo (rnd64 (1 # 4)); PFlo (rnd64 (1 # 4))])) ].

(** layer/tbd.py:29-71 *)
Definition cls_Switch : lcls :=
  mkC (s "Switch") (s "Layer") (Some (s "0.0"))
  [ (s "z_depth", FParam VReal (PFlo (rnd64 (0 # 1))));
    (s "amount", FParam VReal (PFlo (rnd64 (1 # 1))));
    (s "blend_method", FParam VBlendMethod (PInt 0));
    (s "origin", FParam VXY (PTuple [PFlo (rnd64 (0 # 1)); PFlo (rnd64 (0 # 1))]));
    (s "transformation", FParam VTransformation (PDict [(s "offset", PTuple [PFlo (rnd64 (0 # 1)); PFlo (rnd64 (0 # 1))]); (s "angle", PFlo (rnd64 (0 # 1))); (s "skew_angle", PFlo (rnd64 (0 # 1))); (s "scale", PTuple [PFlo (rnd64 (1 # 1)); PFlo (rnd64 (1 # 1))])]));
    (s "canvas", FTodo);
    (s "tl", FParam VXY (PTuple [PFlo (rnd64 ((-5333333611) # 10000000000)); PFlo (rnd64 (5333333611 # 10000000000))]));
    (s "br", FParam VXY (PTuple [PFlo (rnd64 (5333333611 # 10000000000)); PFlo (rnd64 ((-5333333611) # 10000000000))]));
    (s "c", FParam VInteger (PInt 1));
    (s "gamma_adjust", FParam VReal (PFlo (rnd64 (1 # 1))));
    (s "filename", FParam VString (PStr (s "drop.png")));
    (s "time_offset", FParam VTime (PInt 0));
    (s "time_dilation", FParam VReal (PFlo (rnd64 (1 # 1))));
    (s "children_lock", FParam VBool (PBool true));
    (s "outline_grow", FParam VReal (PFlo (rnd64 (0 # 1))));
    (s "layer_name", FParam VString (PStr (s "drop.png")));
    (s "layer_depth", FParam VInteger (PInt (-1))) ].

(** layer/tbd.py:76-84 *)
Definition cls_Super_Sample : lcls :=
  mkC (s "Super_Sample") (s "Layer") (Some (s "0.2"))
  [ (s "width", FParam VInteger (PInt 2));
    (s "height", FParam VInteger (PInt 2)) ].

(** layer/tbd.py:89-101 *)
Definition cls_Sound : lcls :=
  mkC (s "Sound") (s "Layer") (Some (s "0.1"))
  [ (s "z_depth", FParam VReal (PFlo (rnd64 (0 # 1))));
    (s "filename", FParam VString (PStr (s "laser.wav")));
    (s "delay", FParam VTime (PInt 0));
    (s "volume", FParam VReal (PFlo (rnd64 (1 # 1)))) ].

(** layer/tbd.py:106-118 *)
Definition cls_Skeleton : lcls :=
  mkC (s "Skeleton") (s "Layer") (Some (s "0.1"))
  [ (s "z_depth", FParam VReal (PFlo (rnd64 (0 # 1))));
    (s "amount", FParam VReal (PFlo (rnd64 (1 # 2))));
    (s "name", FParam VString (PStr (s "skeleton")));
    (s "bones", FTodo) ].

(** layer/tbd.py:123-167 *)
Definition cls_Plant : lcls :=
  mkC (s "Plant") (s "Layer") (Some (s "0.2"))
  [ (s "z_depth", FParam VReal (PFlo (rnd64 (0 # 1))));
    (s "amount", FParam VReal (PFlo (rnd64 (1 # 1))));
    (s "blend_method", FParam VBlendMethod (PInt 0));
    (s "bline", FTodo);
    (s "origin", FParam VXY (PTuple [PFlo (rnd64 (0 # 1)); PFlo (rnd64 (0 # 1))]));
    (s "gradient", FParam VGradient (PDictF [((rnd64 (0 # 1)), PTuple [PFlo (rnd64 (1 # 1)); PFlo (rnd64 (1 # 1)); PFlo (rnd64 (1 # 1)); PFlo (rnd64 (1 # 1))]); ((rnd64 (1 # 1)), PTuple [PFlo (rnd64 (0 # 1)); PFlo (rnd64 (0 # 1)); PFlo (rnd64 (0 # 1)); PFlo (rnd64 (1 # 1))])]));
    (s "split_angle", FParam VAngle (PFlo (rnd64 (10 # 1))));
    (s "gravity", FParam VXY (PTuple [PFlo (rnd64 (0 # 1)); PFlo (rnd64 ((-200000003) # 2000000000))]));
    (s "velocity", FParam VReal (PFlo (rnd64 (3 # 10))));
    (s "perp_velocity", FParam VReal (PFlo (rnd64 (0 # 1))));
    (s "size", FParam VReal (PFlo (rnd64 (3 # 200))));
    (s "size_as_alpha", FParam VBool (PBool false));
    (s "reverse", FParam VBool (PBool true));
    (s "step", FParam VReal (PFlo (rnd64 (1 # 100))));
    (s "seed", FParam VInteger (PInt 1700432811));
    (s "splits", FParam VInteger (PInt 5));
    (s "sprouts", FParam VInteger (PInt 10));
    (s "random_factor", FParam VReal (PFlo (rnd64 (1 # 5))));
    (s "drag", FParam VReal (PFlo (rnd64 (1 # 10))));
    (s "use_width", FParam VBool (PBool true)) ].

(** layer/tbd.py:172-201 *)
Definition cls_Filter_Group : lcls :=
  mkC (s "Filter_Group") (s "Layer") (Some (s "0.1"))
  [ (s "z_depth", FParam VReal (PFlo (rnd64 (0 # 1))));
    (s "amount", FParam VReal (PFlo (rnd64 (1 # 1))));
    (s "blend_method", FParam VBlendMethod (PInt 1));
    (s "origin", FParam VXY (PTuple [PFlo (rnd64 (0 # 1)); PFlo (rnd64 (0 # 1))]));
    (s "transformation", FParam VTransformation (PDict [(s "offset", PTuple [PFlo (rnd64 (0 # 1)); PFlo (rnd64 (0 # 1))]); (s "angle", PFlo (rnd64 (0 # 1))); (s "skew_angle", PFlo (rnd64 (0 # 1))); (s "scale", PTuple [PFlo (rnd64 (1 # 1)); PFlo (rnd64 (1 # 1))])]));
    (s "canvas", FParam VCanvas (PList []));
    (s "time_dilation", FParam VReal (PFlo (rnd64 (1 # 1))));
    (s "time_offset", FParam VTime (PInt 0));
    (s "children_lock", FParam VBool (PBool false));
    (s "outline_grow", FParam VReal (PFlo (rnd64 (0 # 1)))) ].

(** layer/tbd.py:206-217 *)
Definition cls_Duplicate : lcls :=
  mkC (s "Duplicate") (s "Layer") (Some (s "0.1"))
  [ (s "z_depth", FParam VReal (PFlo (rnd64 (0 # 1))));
    (s "amount", FParam VReal (PFlo (rnd64 (1 # 1))));
    (s "blend_method", FParam VBlendMethod (PInt 0));
    (s "index", FTodo) ].

(** layer/tbd.py:222-242 *)
Definition cls_Spiral_Gradient : lcls :=
  mkC (s "Spiral_Gradient") (s "Layer") (Some (s "0.2"))
  [ (s "z_depth", FParam VReal (PFlo (rnd64 (0 # 1))));
    (s "amount", FParam VReal (PFlo (rnd64 (1 # 1))));
    (s "blend_method", FParam VBlendMethod (PInt 0));
    (s "gradient", FParam VGradient (PDictF [((rnd64 (0 # 1)), PTuple [PFlo (rnd64 (1 # 1)); PFlo (rnd64 (1 # 1)); PFlo (rnd64 (1 # 1)); PFlo (rnd64 (1 # 1))]); ((rnd64 (1 # 1)), PTuple [PFlo (rnd64 (0 # 1)); PFlo (rnd64 (0 # 1)); PFlo (rnd64 (0 # 1)); PFlo (rnd64 (1 # 1))])]));
    (s "center", FParam VXY (PTuple [PFlo (rnd64 (0 # 1)); PFlo (rnd64 (0 # 1))]));
    (s "radius", FParam VReal (PFlo (rnd64 (1 # 2))));
    (s "angle", FParam VAngle (PFlo (rnd64 (0 # 1))));
    (s "clockwise", FParam VBool (PBool false)) ].

(** layer/tbd.py:247-267 *)
Definition cls_Radial_Gradient : lcls :=
  mkC (s "Radial_Gradient") (s "Layer") (Some (s "0.2"))
  [ (s "z_depth", FParam VReal (PFlo (rnd64 (0 # 1))));
    (s "amount", FParam VReal (PFlo (rnd64 (1 # 1))));
    (s "blend_method", FParam VBlendMethod (PInt 0));
    (s "gradient", FParam VGradient (PDictF [((rnd64 (0 # 1)), PTuple [PFlo (rnd64 (1 # 1)); PFlo (rnd64 (1 # 1)); PFlo (rnd64 (1 # 1)); PFlo (rnd64 (1 # 1))]); ((rnd64 (1 # 1)), PTuple [PFlo (rnd64 (0 # 1)); PFlo (rnd64 (0 # 1)); PFlo (rnd64 (0 # 1)); PFlo (rnd64 (1 # 1))])]));
    (s "center", FParam VXY (PTuple [PFlo (rnd64 (0 # 1)); PFlo (rnd64 (0 # 1))]));
    (s "radius", FParam VReal (PFlo (rnd64 (1 # 2))));
    (s "loop", FParam VBool (PBool false));
    (s "zigzag", FParam VBool (PBool false)) ].

(** layer/tbd.py:272-300 *)
Definition cls_Noise : lcls :=
  mkC (s "Noise") (s "Layer") (Some (s "0.0"))
  [ (s "z_depth", FParam VReal (PFlo (rnd64 (0 # 1))));
    (s "amount", FParam VReal (PFlo (rnd64 (1 # 1))));
    (s "blend_method", FParam VBlendMethod (PInt 0));
    (s "gradient", FParam VGradient (PDictF [((rnd64 (0 # 1)), PTuple [PFlo (rnd64 (1 # 1)); PFlo (rnd64 (1 # 1)); PFlo (rnd64 (1 # 1)); PFlo (rnd64 (1 # 1))]); ((rnd64 (1 # 1)), PTuple [PFlo (rnd64 (0 # 1)); PFlo (rnd64 (0 # 1)); PFlo (rnd64 (0 # 1)); PFlo (rnd64 (1 # 1))])]));
    (s "seed", FParam VInteger (PInt 1700432620));
    (s "size", FParam VXY (PTuple [PFlo (rnd64 (1 # 1)); PFlo (rnd64 (1 # 1))]));
    (s "smooth", FParam VInteger (PInt 2));
    (s "detail", FParam VInteger (PInt 4));
    (s "speed", FParam VReal (PFlo (rnd64 (0 # 1))));
    (s "turbulent", FParam VBool (PBool false));
    (s "do_alpha", FParam VBool (PBool false));
    (s "super_sample", FParam VBool (PBool false)) ].

(** layer/tbd.py:305-325 *)
Definition cls_Linear_Gradient : lcls :=
  mkC (s "Linear_Gradient") (s "Layer") (Some (s "0.1"))
  [ (s "z_depth", FParam VReal (PFlo (rnd64 (0 # 1))));
    (s "amount", FParam VReal (PFlo (rnd64 (1 # 1))));
    (s "blend_method", FParam VBlendMethod (PInt 0));
    (s "p1", FParam VXY (PTuple [PFlo (rnd64 (1 # 1)); PFlo (rnd64 (1 # 1))]));
    (s "p2", FParam VXY (PTuple [PFlo (rnd64 ((-1) # 1)); PFlo (rnd64 ((-1) # 1))]));
    (s "gradient", FParam VGradient (PDictF [((rnd64 (0 # 1)), PTuple [PFlo (rnd64 (1 # 1)); PFlo (rnd64 (1 # 1)); PFlo (rnd64 (1 # 1)); PFlo (rnd64 (1 # 1))]); ((rnd64 (1 # 1)), PTuple [PFlo (rnd64 (0 # 1)); PFlo (rnd64 (0 # 1)); PFlo (rnd64 (0 # 1)); PFlo (rnd64 (1 # 1))])]));
    (s "loop", FParam VBool (PBool false));
    (s "zigzag", FParam VBool (PBool false)) ].

(** layer/tbd.py:330-356 *)
Definition cls_Curve_Gradient : lcls :=
  mkC (s "Curve_Gradient") (s "Layer") (Some (s "0.0"))
  [ (s "z_depth", FParam VReal (PFlo (rnd64 (0 # 1))));
    (s "amount", FParam VReal (PFlo (rnd64 (1 # 1))));
    (s "blend_method", FParam VBlendMethod (PInt 0));
    (s "origin", FParam VXY (PTuple [PFlo (rnd64 (0 # 1)); PFlo (rnd64 (0 # 1))]));
    (s "width", FParam VReal (PFlo (rnd64 (166666667 # 10000000000))));
    (s "bline", FTodo);
    (s "gradient", FParam VGradient (PDictF [((rnd64 (0 # 1)), PTuple [PFlo (rnd64 (1 # 1)); PFlo (rnd64 (1 # 1)); PFlo (rnd64 (1 # 1)); PFlo (rnd64 (1 # 1))]); ((rnd64 (1 # 1)), PTuple [PFlo (rnd64 (0 # 1)); PFlo (rnd64 (0 # 1)); PFlo (rnd64 (0 # 1)); PFlo (rnd64 (1 # 1))])]));
    (s "loop", FParam VBool (PBool false));
    (s "zigzag", FParam VBool (PBool false));
    (s "perpendicular", FParam VBool (PBool false));
    (s "fast", FParam VBool (PBool true)) ].

(** layer/tbd.py:361-379 *)
Definition cls_Conical_Gradient : lcls :=
  mkC (s "Conical_Gradient") (s "Layer") (Some (s "0.2"))
  [ (s "z_depth", FParam VReal (PFlo (rnd64 (0 # 1))));
    (s "amount", FParam VReal (PFlo (rnd64 (1 # 1))));
    (s "blend_method", FParam VBlendMethod (PInt 0));
    (s "gradient", FParam VGradient (PDictF [((rnd64 (0 # 1)), PTuple [PFlo (rnd64 (1 # 1)); PFlo (rnd64 (1 # 1)); PFlo (rnd64 (1 # 1)); PFlo (rnd64 (1 # 1))]); ((rnd64 (1 # 1)), PTuple [PFlo (rnd64 (0 # 1)); PFlo (rnd64 (0 # 1)); PFlo (rnd64 (0 # 1)); PFlo (rnd64 (1 # 1))])]));
    (s "center", FParam VXY (PTuple [PFlo (rnd64 (0 # 1)); PFlo (rnd64 (0 # 1))]));
    (s "angle", FParam VAngle (PFlo (rnd64 (0 # 1))));
    (s "symmetric", FParam VBool (PBool false)) ].

(** layer/tbd.py:384-424 *)
Definition cls_Mandelbrot : lcls :=
  mkC (s "Mandelbrot") (s "Layer") (Some (s "0.2"))
  [ (s "iterations", FParam VInteger (PInt 32));
    (s "bailout", FParam VReal (PFlo (rnd64 (2 # 1))));
    (s "broken", FParam VBool (PBool false));
    (s "distort_inside", FParam VBool (PBool true));
    (s "shade_inside", FParam VBool (PBool true));
    (s "solid_inside", FParam VBool (PBool false));
    (s "invert_inside", FParam VBool (PBool false));
    (s "gradient_inside", FParam VGradient (PDictF [((rnd64 (0 # 1)), PTuple [PFlo (rnd64 (1 # 1)); PFlo (rnd64 (0 # 1)); PFlo (rnd64 (0 # 1)); PFlo (rnd64 (1 # 1))]); ((rnd64 (1 # 1)), PTuple [PFlo (rnd64 (1 # 1)); PFlo (rnd64 (1 # 1)); PFlo (rnd64 (0 # 1)); PFlo (rnd64 (1 # 1))])]));
    (s "gradient_offset_inside", FParam VReal (PFlo (rnd64 (0 # 1))));
    (s "gradient_loop_inside", FParam VBool (PBool true));
    (s "distort_outside", FParam VBool (PBool true));
    (s "shade_outside", FParam VBool (PBool true));
    (s "solid_outside", FParam VBool (PBool false));
    (s "invert_outside", FParam VBool (PBool false));
    (s "gradient_outside", FParam VGradient (PDictF [((rnd64 (0 # 1)), PTuple [PFlo (rnd64 (0 # 1)); PFlo (rnd64 (0 # 1)); PFlo (rnd64 (0 # 1)); PFlo (rnd64 (0 # 1))]); ((rnd64 (1 # 1)), PTuple [PFlo (rnd64 (0 # 1)); PFlo (rnd64 (0 # 1)); PFlo (rnd64 (0 # 1)); PFlo (rnd64 (1 # 1))])]));
    (s "smooth_outside", FParam VBool (PBool true));
    (s "gradient_offset_outside", FParam VReal (PFlo (rnd64 (0 # 1))));
    (s "gradient_scale_outside", FParam VReal (PFlo (rnd64 (1 # 1)))) ].

(** layer/tbd.py:429-471 *)
Definition cls_Julia : lcls :=
  mkC (s "Julia") (s "Layer") (Some (s "0.1"))
  [ (s "icolor", FParam VColor (PTuple [PFlo (rnd64 (0 # 1)); PFlo (rnd64 (0 # 1)); PFlo (rnd64 (0 # 1)); PFlo (rnd64 (1 # 1))]));
    (s "ocolor", FParam VColor (PTuple [PFlo (rnd64 (0 # 1)); PFlo (rnd64 (0 # 1)); PFlo (rnd64 (0 # 1)); PFlo (rnd64 (1 # 1))]));
    (s "color_shift", FParam VAngle (PFlo (rnd64 (0 # 1))));
    (s "iterations", FParam VInteger (PInt 32));
    (s "seed", FParam VXY (PTuple [PFlo (rnd64 (0 # 1)); PFlo (rnd64 (0 # 1))]));
    (s "bailout", FParam VReal (PFlo (rnd64 (2 # 1))));
    (s "distort_inside", FParam VBool (PBool true));
    (s "shade_inside", FParam VBool (PBool true));
    (s "solid_inside", FParam VBool (PBool false));
    (s "invert_inside", FParam VBool (PBool false));
    (s "color_inside", FParam VBool (PBool true));
    (s "distort_outside", FParam VBool (PBool true));
    (s "shade_outside", FParam VBool (PBool true));
    (s "solid_outside", FParam VBool (PBool false));
    (s "invert_outside", FParam VBool (PBool false));
    (s "color_outside", FParam VBool (PBool false));
    (s "color_cycle", FParam VBool (PBool false));
    (s "smooth_outside", FParam VBool (PBool true));
    (s "broken", FParam VBool (PBool false)) ].

(** layer/tbd.py:476-482 *)
Definition cls_Lumakey : lcls :=
  mkC (s "Lumakey") (s "Layer") (Some (s "0.2"))
  [ (s "z_depth", FParam VReal (PFlo (rnd64 (0 # 1)))) ].

(** layer/tbd.py:487-506 *)
Definition cls_Halftone3 : lcls :=
  mkC (s "Halftone3") (s "Layer") (Some (s "0.0"))
  [ (s "z_depth", FParam VReal (PFlo (rnd64 (0 # 1))));
    (s "amount", FParam VReal (PFlo (rnd64 (1 # 1))));
    (s "blend_method", FParam VBlendMethod (PInt 1));
    (s "size", FParam VXY (PTuple [PFlo (rnd64 (1 # 4)); PFlo (rnd64 (1 # 4))]));
    (s "type_", FParam VInteger (PInt 0));
    (s "subtractive", FParam VBool (PBool true));
    (s "color", FParam VColor (PTuple [PFlo (rnd64 (0 # 1)); PFlo (rnd64 (1 # 1)); PFlo (rnd64 (1 # 1)); PFlo (rnd64 (1 # 1))]));
    (s "tone", FParam (VTbd (s "Tone")) (PNone)) ].

(** layer/tbd.py:511-533 *)
Definition cls_Halftone2 : lcls :=
  mkC (s "Halftone2") (s "Layer") (Some (s "0.0"))
  [ (s "z_depth", FParam VReal (PFlo (rnd64 (0 # 1))));
    (s "amount", FParam VReal (PFlo (rnd64 (1 # 1))));
    (s "blend_method", FParam VBlendMethod (PInt 1));
    (s "origin", FParam VXY (PTuple [PFlo (rnd64 (0 # 1)); PFlo (rnd64 (0 # 1))]));
    (s "angle", FParam VAngle (PFlo (rnd64 (0 # 1))));
    (s "size", FParam VXY (PTuple [PFlo (rnd64 (1 # 4)); PFlo (rnd64 (1 # 4))]));
    (s "color_light", FParam VColor (PTuple [PFlo (rnd64 (1 # 1)); PFlo (rnd64 (1 # 1)); PFlo (rnd64 (1 # 1)); PFlo (rnd64 (1 # 1))]));
    (s "color_dark", FParam VColor (PTuple [PFlo (rnd64 (0 # 1)); PFlo (rnd64 (0 # 1)); PFlo (rnd64 (0 # 1)); PFlo (rnd64 (1 # 1))]));
    (s "type_", FParam VInteger (PInt 0)) ].

(** layer/tbd.py:538-552 *)
Definition cls_Colorcorrect : lcls :=
  mkC (s "Colorcorrect") (s "Layer") (Some (s "0.1"))
  [ (s "hue_adjust", FParam VAngle (PFlo (rnd64 (0 # 1))));
    (s "brightness", FParam VReal (PFlo (rnd64 (0 # 1))));
    (s "contrast", FParam VReal (PFlo (rnd64 (1 # 1))));
    (s "exposure", FParam VReal (PFlo (rnd64 (0 # 1))));
    (s "gamma", FParam VReal (PFlo (rnd64 (1 # 1)))) ].

(** layer/tbd.py:557-569 *)
Definition cls_Clamp : lcls :=
  mkC (s "Clamp") (s "Layer") (Some (s "0.2"))
  [ (s "invert_negative", FParam VBool (PBool false));
    (s "clamp_ceiling", FParam VBool (PBool true));
    (s "ceiling", FParam VReal (PFlo (rnd64 (1 # 1))));
    (s "floor", FParam VReal (PFlo (rnd64 (0 # 1)))) ].

(** layer/tbd.py:574-594 *)
Definition cls_Chromakey : lcls :=
  mkC (s "Chromakey") (s "Layer") (Some (s "0.1"))
  [ (s "z_depth", FParam VReal (PFlo (rnd64 (0 # 1))));
    (s "key_color", FParam VColor (PTuple [PFlo (rnd64 (0 # 1)); PFlo (rnd64 (1 # 1)); PFlo (rnd64 (0 # 1)); PFlo (rnd64 (1 # 1))]));
    (s "lower_bound", FParam VReal (PFlo (rnd64 (1 # 1000))));
    (s "upper_bound", FParam VReal (PFlo (rnd64 (1 # 1000))));
    (s "supersample_width", FParam VInteger (PInt 2));
    (s "supersample_height", FParam VInteger (PInt 2));
    (s "desaturate", FParam VBool (PBool true));
    (s "invert", FParam VBool (PBool false)) ].

(** layer/tbd.py:599-615 *)
Definition cls_Simple_Circle : lcls :=
  mkC (s "Simple_Circle") (s "Layer") (Some (s "0.1"))
  [ (s "z_depth", FParam VReal (PFlo (rnd64 (0 # 1))));
    (s "amount", FParam VReal (PFlo (rnd64 (1 # 1))));
    (s "blend_method", FParam VBlendMethod (PInt 0));
    (s "color", FParam VColor (PTuple [PFlo (rnd64 (1 # 1)); PFlo (rnd64 (1 # 1)); PFlo (rnd64 (1 # 1)); PFlo (rnd64 (1 # 1))]));
    (s "center", FParam VXY (PTuple [PFlo (rnd64 (0 # 1)); PFlo (rnd64 (0 # 1))]));
    (s "radius", FParam VReal (PFlo (rnd64 (1 # 2)))) ].

(** layer/tbd.py:620-644 *)
Definition cls_Metaballs : lcls :=
  mkC (s "Metaballs") (s "Layer") (Some (s "0.1"))
  [ (s "z_depth", FParam VReal (PFlo (rnd64 (0 # 1))));
    (s "amount", FParam VReal (PFlo (rnd64 (1 # 1))));
    (s "blend_method", FParam VBlendMethod (PInt 0));
    (s "gradient", FParam VGradient (PDictF [((rnd64 (0 # 1)), PTuple [PFlo (rnd64 (1 # 1)); PFlo (rnd64 (1 # 1)); PFlo (rnd64 (1 # 1)); PFlo (rnd64 (1 # 1))]); ((rnd64 (1 # 1)), PTuple [PFlo (rnd64 (0 # 1)); PFlo (rnd64 (0 # 1)); PFlo (rnd64 (0 # 1)); PFlo (rnd64 (1 # 1))])]));
    (s "centers", FTodo);
    (s "radii", FTodo);
    (s "weights", FTodo);
    (s "threshold", FParam VReal (PFlo (rnd64 (0 # 1))));
    (s "threshold2", FParam VReal (PFlo (rnd64 (1 # 1))));
    (s "positive", FParam VBool (PBool false)) ].

(** layer/tbd.py:649-669 *)
Definition cls_Warp : lcls :=
  mkC (s "Warp") (s "Layer") (Some (s "0.2"))
  [ (s "src_tl", FParam VXY (PTuple [PFlo (rnd64 ((-2) # 1)); PFlo (rnd64 (2 # 1))]));
    (s "src_br", FParam VXY (PTuple [PFlo (rnd64 (2 # 1)); PFlo (rnd64 ((-2) # 1))]));
    (s "dest_tl", FParam VXY (PTuple [PFlo (rnd64 ((-17999999523) # 10000000000)); PFlo (rnd64 (10499999523 # 5000000000))]));
    (s "dest_tr", FParam VXY (PTuple [PFlo (rnd64 (17999999523 # 10000000000)); PFlo (rnd64 (10499999523 # 5000000000))]));
    (s "dest_br", FParam VXY (PTuple [PFlo (rnd64 (22000000477 # 10000000000)); PFlo (rnd64 ((-2) # 1))]));
    (s "dest_bl", FParam VXY (PTuple [PFlo (rnd64 ((-22000000477) # 10000000000)); PFlo (rnd64 ((-2) # 1))]));
    (s "clip", FParam VBool (PBool true));
    (s "interpolation", FParam VInteger (PInt 3)) ].

(** layer/tbd.py:674-688 *)
Definition cls_Twirl : lcls :=
  mkC (s "Twirl") (s "Layer") (Some (s "0.1"))
  [ (s "center", FParam VXY (PTuple [PFlo (rnd64 (0 # 1)); PFlo (rnd64 (0 # 1))]));
    (s "radius", FParam VReal (PFlo (rnd64 (1 # 1))));
    (s "rotations", FParam VAngle (PFlo (rnd64 (0 # 1))));
    (s "distort_inside", FParam VBool (PBool true));
    (s "distort_outside", FParam VBool (PBool false)) ].

(** layer/tbd.py:693-701 *)
Definition cls_Stretch : lcls :=
  mkC (s "Stretch") (s "Layer") (Some (s "0.1"))
  [ (s "amount", FParam VXY (PTuple [PFlo (rnd64 (1 # 1)); PFlo (rnd64 (1 # 1))]));
    (s "center", FParam VXY (PTuple [PFlo (rnd64 (0 # 1)); PFlo (rnd64 (0 # 1))])) ].

(** layer/tbd.py:706-720 *)
Definition cls_Spherize : lcls :=
  mkC (s "Spherize") (s "Layer") (Some (s "0.2"))
  [ (s "center", FParam VXY (PTuple [PFlo (rnd64 (0 # 1)); PFlo (rnd64 (0 # 1))]));
    (s "radius", FParam VReal (PFlo (rnd64 (1 # 1))));
    (s "amount", FParam VReal (PFlo (rnd64 (1 # 1))));
    (s "clip", FParam VBool (PBool false));
    (s "type_", FParam VInteger (PInt 0)) ].

(** layer/tbd.py:725-745 *)
Definition cls_Skeleton_Deformation : lcls :=
  mkC (s "Skeleton_Deformation") (s "Layer") (Some (s "0.2"))
  [ (s "z_depth", FParam VReal (PFlo (rnd64 (0 # 1))));
    (s "amount", FParam VReal (PFlo (rnd64 (1 # 1))));
    (s "blend_method", FParam VBlendMethod (PInt 1));
    (s "bones", FTodo);
    (s "point1", FParam VXY (PTuple [PFlo (rnd64 ((-4) # 1)); PFlo (rnd64 (4 # 1))]));
    (s "point2", FParam VXY (PTuple [PFlo (rnd64 (4 # 1)); PFlo (rnd64 ((-4) # 1))]));
    (s "x_subdivisions", FParam VInteger (PInt 32));
    (s "y_subdivisions", FParam VInteger (PInt 32)) ].

(** layer/tbd.py:750-774 *)
Definition cls_Noise_Distort : lcls :=
  mkC (s "Noise_Distort") (s "Layer") (Some (s "0.0"))
  [ (s "z_depth", FParam VReal (PFlo (rnd64 (0 # 1))));
    (s "amount", FParam VReal (PFlo (rnd64 (1 # 1))));
    (s "blend_method", FParam VBlendMethod (PInt 1));
    (s "displacement", FParam VXY (PTuple [PFlo (rnd64 (1 # 4)); PFlo (rnd64 (1 # 4))]));
    (s "size", FParam VXY (PTuple [PFlo (rnd64 (1 # 1)); PFlo (rnd64 (1 # 1))]));
    (s "seed", FParam VInteger (PInt 1700432512));
    (s "smooth", FParam VInteger (PInt 2));
    (s "detail", FParam VInteger (PInt 4));
    (s "speed", FParam VReal (PFlo (rnd64 (0 # 1))));
    (s "turbulent", FParam VBool (PBool false)) ].

(** layer/tbd.py:779-785 *)
Definition cls_Inside_Out : lcls :=
  mkC (s "Inside_Out") (s "Layer") (Some (s "0.1"))
  [ (s "origin", FParam VXY (PTuple [PFlo (rnd64 (0 # 1)); PFlo (rnd64 (0 # 1))])) ].

(** layer/tbd.py:790-806 *)
Definition cls_Curve_Warp : lcls :=
  mkC (s "Curve_Warp") (s "Layer") (Some (s "0.0"))
  [ (s "origin", FParam VXY (PTuple [PFlo (rnd64 (0 # 1)); PFlo (rnd64 (0 # 1))]));
    (s "perp_width", FParam VReal (PFlo (rnd64 (1 # 1))));
    (s "start_point", FParam VXY (PTuple [PFlo (rnd64 ((-5) # 2)); PFlo (rnd64 ((-1) # 2))]));
    (s "end_point", FParam VXY (PTuple [PFlo (rnd64 (5 # 2)); PFlo (rnd64 ((-3000000119) # 10000000000))]));
    (s "bline", FTodo);
    (s "fast", FParam VBool (PBool true)) ].

(** layer/transform.py:6-13 *)
Definition cls_Scale : lcls :=
  mkC (s "Scale") (s "Layer") None
  [  ].

(** layer/transform.py:29-39 *)
Definition cls_Zoom : lcls :=
  mkC (s "Zoom") (s "Scale") (Some (s "0.1"))
  [ (s "amount", FParam VReal (PFlo (rnd64 (0 # 1))));
    (s "center", FParam VXY (PTuple [PFlo (rnd64 (0 # 1)); PFlo (rnd64 (0 # 1))])) ].

(** layer/transform.py:42-49 *)
Definition cls_Translate : lcls :=
  mkC (s "Translate") (s "Layer") (Some (s "0.1"))
  [ (s "origin", FParam VXY (PTuple [PFlo (rnd64 (0 # 1)); PFlo (rnd64 (0 # 1))])) ].

(** layer/transform.py:54-63 *)
Definition cls_Rotate : lcls :=
  mkC (s "Rotate") (s "Layer") (Some (s "0.1"))
  [ (s "origin", FParam VXY (PTuple [PFlo (rnd64 (0 # 1)); PFlo (rnd64 (0 # 1))]));
    (s "amount", FParam VAngle (PFlo (rnd64 (0 # 1)))) ].

(** In the order in which layer/__init__.py:13-21 imports them *)
Definition layer_classes : list lcls :=
  [ cls_Blur; cls_Radial_Blur; cls_Motion_Blur; cls_Star; cls_Solid_Color; cls_Region; cls_Rectangle; cls_Polygon; cls_Outline; cls_Circle; cls_Checker_Board; cls_Advanced_Outline; cls_Group; cls_Import; cls_Shade; cls_Bevel; cls_Text; cls_Timeloop; cls_Stroboscope; cls_Freetime; cls_Xor_Pattern; cls_Switch; cls_Super_Sample; cls_Sound; cls_Skeleton; cls_Plant; cls_Filter_Group; cls_Duplicate; cls_Spiral_Gradient; cls_Radial_Gradient; cls_Noise; cls_Linear_Gradient; cls_Curve_Gradient; cls_Conical_Gradient; cls_Mandelbrot; cls_Julia; cls_Lumakey; cls_Halftone3; cls_Halftone2; cls_Colorcorrect; cls_Clamp; cls_Chromakey; cls_Simple_Circle; cls_Metaballs; cls_Warp; cls_Twirl; cls_Stretch; cls_Spherize; cls_Skeleton_Deformation; cls_Noise_Distort; cls_Inside_Out; cls_Curve_Warp; cls_Scale; cls_Zoom; cls_Translate; cls_Rotate ].
