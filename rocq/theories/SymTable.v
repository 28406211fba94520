(** The symbols of the classes of /repo/sangfroid/layer/*.py which give one.
    Generated by /verif/gen/sym_table.py from the text of those files. *)
From Verif Require Export ClsTable.

Definition own_symbols : list (pstr * pstr) :=
  [
   (* layer/layer.py:32 *) (s "Layer", [63%N]);
   (* layer/blurs.py:7 *) (s "Blur", [128992%N]);
   (* layer/blurs.py:27 *) (s "Radial_Blur", [128992%N]);
   (* layer/blurs.py:49 *) (s "Motion_Blur", [128992%N]);
   (* layer/geometry.py:7 *) (s "Star", [11088%N]);
   (* layer/geometry.py:47 *) (s "Solid_Color", [9610%N]);
   (* layer/geometry.py:65 *) (s "Region", [128996%N]);
   (* layer/geometry.py:97 *) (s "Rectangle", [128998%N]);
   (* layer/geometry.py:131 *) (s "Polygon", [11091%N]);
   (* layer/geometry.py:163 *) (s "Outline", [11092%N]);
   (* layer/geometry.py:205 *) (s "Circle", [128309%N]);
   (* layer/geometry.py:231 *) (s "Checker_Board", [128638%N]);
   (* layer/geometry.py:255 *) (s "Advanced_Outline", [11041%N]);
   (* layer/group.py:12 *) (s "Group", [128194%N]);
   (* layer/other.py:7 *) (s "Import", [73%N]);
   (* layer/stylise.py:7 *) (s "Shade", [128083%N]);
   (* layer/stylise.py:33 *) (s "Bevel", [129780%N]);
   (* layer/text.py:7 *) (s "Text", [120139%N]);
   (* layer/time.py:7 *) (s "Timeloop", [128368%N; 65039%N]);
   (* layer/time.py:29 *) (s "Stroboscope", [128294%N]);
   (* layer/time.py:43 *) (s "Freetime", [127846%N]);
   (* layer/tbd.py:11 *) (s "Xor_Pattern", [88%N]);
   (* layer/tbd.py:30 *) (s "Switch", [88%N]);
   (* layer/tbd.py:77 *) (s "Super_Sample", [88%N]);
   (* layer/tbd.py:90 *) (s "Sound", [128266%N]);
   (* layer/tbd.py:107 *) (s "Skeleton", [128128%N]);
   (* layer/tbd.py:124 *) (s "Plant", [129716%N]);
   (* layer/tbd.py:173 *) (s "Filter_Group", [88%N]);
   (* layer/tbd.py:207 *) (s "Duplicate", [88%N]);
   (* layer/tbd.py:223 *) (s "Spiral_Gradient", [88%N]);
   (* layer/tbd.py:248 *) (s "Radial_Gradient", [88%N]);
   (* layer/tbd.py:273 *) (s "Noise", [88%N]);
   (* layer/tbd.py:306 *) (s "Linear_Gradient", [88%N]);
   (* layer/tbd.py:331 *) (s "Curve_Gradient", [88%N]);
   (* layer/tbd.py:362 *) (s "Conical_Gradient", [88%N]);
   (* layer/tbd.py:385 *) (s "Mandelbrot", [127912%N]);
   (* layer/tbd.py:430 *) (s "Julia", [127912%N]);
   (* layer/tbd.py:477 *) (s "Lumakey", [128477%N; 65039%N]);
   (* layer/tbd.py:488 *) (s "Halftone3", [9619%N]);
   (* layer/tbd.py:512 *) (s "Halftone2", [9618%N]);
   (* layer/tbd.py:539 *) (s "Colorcorrect", [128077%N]);
   (* layer/tbd.py:558 *) (s "Clamp", [128476%N; 65039%N]);
   (* layer/tbd.py:575 *) (s "Chromakey", [128273%N]);
   (* layer/tbd.py:600 *) (s "Simple_Circle", [88%N]);
   (* layer/tbd.py:621 *) (s "Metaballs", [88%N]);
   (* layer/tbd.py:650 *) (s "Warp", [88%N]);
   (* layer/tbd.py:675 *) (s "Twirl", [88%N]);
   (* layer/tbd.py:694 *) (s "Stretch", [88%N]);
   (* layer/tbd.py:707 *) (s "Spherize", [88%N]);
   (* layer/tbd.py:726 *) (s "Skeleton_Deformation", [88%N]);
   (* layer/tbd.py:751 *) (s "Noise_Distort", [88%N]);
   (* layer/tbd.py:780 *) (s "Inside_Out", [88%N]);
   (* layer/tbd.py:791 *) (s "Curve_Warp", [88%N]);
   (* layer/transform.py:7 *) (s "Scale", [9878%N; 65039%N]);
   (* layer/transform.py:43 *) (s "Translate", [8644%N]);
   (* layer/transform.py:55 *) (s "Rotate", [128472%N])
  ].
