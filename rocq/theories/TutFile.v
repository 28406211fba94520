(** docs/examples/colours.sif: the file that the programs of the tutorial load, byte for byte. All of its characters are ASCII. *)
From Verif Require Import PyBase AnimModel.
Definition colours_text : pstr := s "<?xml version=""1.0"" encoding=""UTF-8""?>
<canvas version=""1.2"" width=""480"" height=""270"" xres=""2834.645669"" yres=""2834.645669"" gamma-r=""1.000000"" gamma-g=""1.000000"" gamma-b=""1.000000"" view-box=""-4.000000 2.250000 4.000000 -2.250000"" antialias=""1"" fps=""24.000"" begin-time=""0f"" end-time=""5s"" bgcolor=""0.500000 0.500000 0.500000 1.000000"">
  <name>stroop.sif</name>
  <meta name=""background_first_color"" content=""0.880000 0.880000 0.880000""/>
  <meta name=""background_rendering"" content=""0""/>
  <meta name=""background_second_color"" content=""0.650000 0.650000 0.650000""/>
  <meta name=""background_size"" content=""15.000000 15.000000""/>
  <meta name=""grid_color"" content=""0.623529 0.623529 0.623529""/>
  <meta name=""grid_show"" content=""0""/>
  <meta name=""grid_size"" content=""0.250000 0.250000""/>
  <meta name=""grid_snap"" content=""0""/>
  <meta name=""guide_color"" content=""0.435294 0.435294 1.000000""/>
  <meta name=""guide_show"" content=""1""/>
  <meta name=""guide_snap"" content=""0""/>
  <meta name=""jack_offset"" content=""0.000000""/>
  <meta name=""onion_skin"" content=""0""/>
  <meta name=""onion_skin_future"" content=""0""/>
  <meta name=""onion_skin_keyframes"" content=""1""/>
  <meta name=""onion_skin_past"" content=""1""/>
  <keyframe time=""0f"" active=""true""/>
  <layer type=""SolidColor"" active=""true"" exclude_from_rendering=""false"" version=""0.1"">
    <param name=""z_depth"">
      <real value=""0.0000000000""/>
    </param>
    <param name=""amount"">
      <real value=""1.0000000000""/>
    </param>
    <param name=""blend_method"">
      <integer value=""0"" static=""true""/>
    </param>
    <param name=""color"">
      <color>
        <r>0.000000</r>
        <g>0.000000</g>
        <b>0.000000</b>
        <a>1.000000</a>
      </color>
    </param>
  </layer>
  <layer type=""text"" active=""true"" exclude_from_rendering=""false"" version=""0.5"" desc=""red"">
    <param name=""z_depth"">
      <real value=""0.0000000000""/>
    </param>
    <param name=""amount"">
      <real value=""1.0000000000""/>
    </param>
    <param name=""blend_method"">
      <integer value=""0"" static=""true""/>
    </param>
    <param name=""text"">
      <string>red</string>
    </param>
    <param name=""color"">
      <color>
        <r>1.000000</r>
        <g>0.000000</g>
        <b>0.000000</b>
        <a>1.000000</a>
      </color>
    </param>
    <param name=""family"">
      <string>Sans Serif</string>
    </param>
    <param name=""style"">
      <integer value=""0"" static=""true""/>
    </param>
    <param name=""weight"">
      <integer value=""1000"" static=""true""/>
    </param>
    <param name=""direction"">
      <integer value=""0"" static=""true""/>
    </param>
    <param name=""compress"">
      <real value=""1.0000000000""/>
    </param>
    <param name=""vcompress"">
      <real value=""1.0000000000""/>
    </param>
    <param name=""size"">
      <vector>
        <x>0.7546875477</x>
        <y>0.7151041627</y>
      </vector>
    </param>
    <param name=""orient"">
      <vector>
        <x>0.5000000000</x>
        <y>0.5000000000</y>
      </vector>
    </param>
    <param name=""origin"">
      <vector>
        <x>1.2539063692</x>
        <y>1.3832682371</y>
      </vector>
    </param>
    <param name=""use_kerning"">
      <bool value=""true""/>
    </param>
    <param name=""grid_fit"">
      <bool value=""false""/>
    </param>
    <param name=""invert"">
      <bool value=""false""/>
    </param>
  </layer>
  <layer type=""text"" active=""true"" exclude_from_rendering=""false"" version=""0.5"" desc=""blue"">
    <param name=""z_depth"">
      <real value=""0.0000000000""/>
    </param>
    <param name=""amount"">
      <real value=""1.0000000000""/>
    </param>
    <param name=""blend_method"">
      <integer value=""0"" static=""true""/>
    </param>
    <param name=""text"">
      <string>blue</string>
    </param>
    <param name=""color"">
      <color>
        <r>0.000000</r>
        <g>0.000000</g>
        <b>1.000000</b>
        <a>1.000000</a>
      </color>
    </param>
    <param name=""family"">
      <string>Sans Serif</string>
    </param>
    <param name=""style"">
      <integer value=""0"" static=""true""/>
    </param>
    <param name=""weight"">
      <integer value=""1000"" static=""true""/>
    </param>
    <param name=""direction"">
      <integer value=""0"" static=""true""/>
    </param>
    <param name=""compress"">
      <real value=""1.0000000000""/>
    </param>
    <param name=""vcompress"">
      <real value=""1.0000000000""/>
    </param>
    <param name=""size"">
      <vector>
        <x>0.7546875477</x>
        <y>0.7151041627</y>
      </vector>
    </param>
    <param name=""orient"">
      <vector>
        <x>0.5000000000</x>
        <y>0.5000000000</y>
      </vector>
    </param>
    <param name=""origin"">
      <vector>
        <x>-2.2498698235</x>
        <y>1.1322916746</y>
      </vector>
    </param>
    <param name=""use_kerning"">
      <bool value=""true""/>
    </param>
    <param name=""grid_fit"">
      <bool value=""false""/>
    </param>
    <param name=""invert"">
      <bool value=""false""/>
    </param>
  </layer>
  <layer type=""text"" active=""true"" exclude_from_rendering=""false"" version=""0.5"" desc=""green"">
    <param name=""z_depth"">
      <real value=""0.0000000000""/>
    </param>
    <param name=""amount"">
      <real value=""1.0000000000""/>
    </param>
    <param name=""blend_method"">
      <integer value=""0"" static=""true""/>
    </param>
    <param name=""text"">
      <string>green</string>
    </param>
    <param name=""color"">
      <color>
        <r>0.000000</r>
        <g>1.000000</g>
        <b>0.000000</b>
        <a>1.000000</a>
      </color>
    </param>
    <param name=""family"">
      <string>Sans Serif</string>
    </param>
    <param name=""style"">
      <integer value=""0"" static=""true""/>
    </param>
    <param name=""weight"">
      <integer value=""1000"" static=""true""/>
    </param>
    <param name=""direction"">
      <integer value=""0"" static=""true""/>
    </param>
    <param name=""compress"">
      <real value=""1.0000000000""/>
    </param>
    <param name=""vcompress"">
      <real value=""1.0000000000""/>
    </param>
    <param name=""size"">
      <vector>
        <x>0.3145182133</x>
        <y>0.6287109256</y>
      </vector>
    </param>
    <param name=""orient"">
      <vector>
        <x>0.5000000000</x>
        <y>0.5000000000</y>
      </vector>
    </param>
    <param name=""origin"">
      <vector>
        <x>-0.0388021469</x>
        <y>-1.4656901360</y>
      </vector>
    </param>
    <param name=""use_kerning"">
      <bool value=""true""/>
    </param>
    <param name=""grid_fit"">
      <bool value=""false""/>
    </param>
    <param name=""invert"">
      <bool value=""false""/>
    </param>
  </layer>
  <layer type=""text"" active=""true"" exclude_from_rendering=""false"" version=""0.5"" desc=""blue"">
    <param name=""z_depth"">
      <real value=""0.0000000000""/>
    </param>
    <param name=""amount"">
      <real value=""1.0000000000""/>
    </param>
    <param name=""blend_method"">
      <integer value=""0"" static=""true""/>
    </param>
    <param name=""text"">
      <string>blue</string>
    </param>
    <param name=""color"">
      <color>
        <r>0.024140</r>
        <g>0.000000</g>
        <b>1.000000</b>
        <a>1.000000</a>
      </color>
    </param>
    <param name=""family"">
      <string>Sans Serif</string>
    </param>
    <param name=""style"">
      <integer value=""0"" static=""true""/>
    </param>
    <param name=""weight"">
      <integer value=""1000"" static=""true""/>
    </param>
    <param name=""direction"">
      <integer value=""0"" static=""true""/>
    </param>
    <param name=""compress"">
      <real value=""1.0000000000""/>
    </param>
    <param name=""vcompress"">
      <real value=""1.0000000000""/>
    </param>
    <param name=""size"">
      <vector>
        <x>1.1811848879</x>
        <y>0.7143880129</y>
      </vector>
    </param>
    <param name=""orient"">
      <vector>
        <x>0.5000000000</x>
        <y>0.5000000000</y>
      </vector>
    </param>
    <param name=""origin"">
      <vector>
        <x>1.4533854723</x>
        <y>-0.0471354164</y>
      </vector>
    </param>
    <param name=""use_kerning"">
      <bool value=""true""/>
    </param>
    <param name=""grid_fit"">
      <bool value=""false""/>
    </param>
    <param name=""invert"">
      <bool value=""false""/>
    </param>
  </layer>
</canvas>
".
Definition colours_files : files := [(s "colours.sif", Raw colours_text)].
(** What is read from it *)
Definition colours_root : node := Eval vm_compute in match load colours_files (s "colours.sif") with Ok a => am_root a | Err _ => Txt [] end.
Definition colours : anim := mkAnim colours_root FSif (Some (s "colours.sif")).
Lemma colours_loaded : load colours_files (s "colours.sif") = Ok colours.
Proof. vm_compute. reflexivity. Qed.
