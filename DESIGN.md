# Formal model of marnanel/sangfroid in Rocq (Coq 8.16.1)

This file says what is modelled, how each property of `properties.jsonl` is
stated and proved, and what the result rests on.

## 1. Shape of the development

Everything lives in `rocq/theories` (logical name `Verif`). For each area there are up to four kinds of files:

* `XModel.v`  – the code of /repo as total Gallina functions, one per Python function, each with a
  comment citing the file and lines. Exceptions are values (`Err ValueError`, ...).
* `XSpec.v`   – a small independent specification (what the English property means), which does not use the model's helpers.
* `XProofs.v`, `XProofs2.v`, ... – lemmas.
* `XProps.v`  – the property theorems, each with `Print Assumptions` below, and an
  `Example ..._nonvacuous` showing that a concrete non-trivial case meets the hypotheses.

| files | code |
|-------|------|
| `PyBase`, `PyFloat`, `PyFmt`, and proofs | the fragment of Python the code needs: exceptions, strings, dicts, binary64 floats, `float()`, `int()`, `%f`, `%g`, `repr` |
| `Registry*` | `registry.py`, `util.py` |
| `Time*` | `t.py` |
| `XmlModel` | the fragment of bs4 4.12 the code uses, on plain trees |
| `Val*` | `value/*.py` (Simple, String, Color, Vector, Transformation, Gradient, Canvas, BlendMethod) |
| `Tl*` | `value/value.py`: `is_animated`, Waypoint, Timeline |
| `Doc*` | documents in which every tag has an identity: moving, inserting, replacing tags as bs4 does |
| `Lay*` | `layer/layer.py`, `layer/group.py`, `field.py` |
| `Cls*` | the class table of `layer/*.py` (generated from the source text) and `_construct_empty_tag` |
| `Ser*`, `Xp*` | writing and reading XML: what lxml and bs4 do to text, attributes, white space, ends of lines |
| `Anim*` | `animation.py`, `format.py`, `keyframe.py`, with a file system and crash points |
| `Byw*` | `bywords/*.py` |
| `Rep*` | `template/replacer.py` |
| `Pex*` | `as_python_expression` of `value/*.py`; what Python literals mean is in `PexSpec.v` |
| `Etc*` | `etc/scan-synfig-source.py`, `etc/get-symbols.py`; what JSON means is in `EtcSpec.v` |
| `Wr*` | no code of its own: all calls of `Lay*`, `Val*`, `Tl*`, `Anim*`, `Byw*` that change a document, as edits |
| `View*` | `value/*.py`: values as containers: length, truth, iteration, `keys`, `values`, `items`, comparison of vectors, gradients and transformations |
| `Str*`, `SymTable` | `__str__` and `__repr__` of layers, keyframes, waypoints, timelines and values; SymTable is generated by `gen/sym_table.py` |
| `Type*` | `Value.our_type`, and `keys`, `values`, `items`, `len` and truth of timelines |
| `Scan*` | `template/__main__.py` |
| `Sav*` | no code of its own: layers and values after saving and loading |
| `LoopModel`, `Mov*` | `layer/group.py`: loops over the generator `children`, and histories of moves as operations on lists |
| `Var*`, `Mix*`, `Prm*`, `Wld*` | `layer/layer.py` `__setitem__` and `field.py` `ParamTagField.__set__`: histories of assignments to parameters, as variables; histories of moves and assignments; programs that also make layers and set attributes |
| `End*` | such programs, followed by saving and loading |
| `CpyModel`, `CpyProps` | `value/*.py`: values assigned to values, and to themselves |
| `Wpv*` | `value/value.py`: assigning to the value of a waypoint that was read from a timeline |
| `Pgm*` | programs as in `Wld*` and `End*` that also set fields of the animation and copy parameters between layers (`animation.py`, `field.py`) |
| `Two*` | several animations at once: layers moved between them (`group.py`, `t.py`) |
| `Cyc*` | a layer put into itself, and what that leaves of the document (`group.py`; `Tag.insert` of bs4 4.12.2) |
| `Util*` | `util.py`: texts of attributes |
| `Canv*` | `value/canvas.py` on documents: the layers of a canvas as its value |
| `Fnd*` | `layer/layer.py` `find_all()` with values of all classes but Canvas |
| `Fty*` | `find_all()` with a class, for all spellings of types and for classes with a parameter called type_ (C85; nothing new is modelled) |
| `Ctl*` | `value/value.py` the `timeline` setter with the timeline of another value |
| `Rat*` | `animation.py` the `fps` field, with the timelines of the values |
| `Ali*` | `value/value.py` `_set_animated` and `layer/layer.py` `__getitem__`, `__setitem__`: which tag each Value object holds |
| `Hld*` | `value/value.py` waypoints that are held: `Waypoint.from_tag`, `before`, `after`, `time`, and what clears a timeline |
| `HpaModel`, `HpaProps` | parts of transformations that are held: `value/transformation.py` the setter, with `get` |
| `Prt*` | changing parts in place: `value/transformation.py` `get`, `__getitem__`, `value/gradient.py` `value`, `__getitem__`, `value/color.py` setter |
| `Oat*` | value objects as Python objects: `value/vector.py` and `value/transformation.py` `__getattr__`, assigning to attributes, `copy.copy()` |
| `Idn*` | layer objects as Python objects: which object is got by `children`, `[i]`, `parent`, and how they compare |
| `Dsc*` | setting the description of an animation to any text, what it is after saving and loading (C107), and assigning things that are not text to it (C173) |
| `EncModel`, `EncSpec`, `EncProofs`, `EncProps`, `EncProps2` | loading in a locale whose encoding isn't UTF-8 |
| `TcpModel`, `TcpProps` | times made of times |
| `RlcModel`, `RlcProps` | the template replacer in any locale |
| `Tut*` | `docs/examples/stroop.py`, `docs/examples/french.py`; TutFile is `docs/examples/colours.sif` |
| `FindProps`, `MoreProps`, `MoreProps2` | further theorems about searches, about values and about what can't be assigned |

## 2. Modelling decisions

* **Strings** are lists of Unicode code points (`list N`). `str.lower` is modelled on A–Z only.
  `strip` uses Python's whole whitespace set. `float()`/`int()` accept ASCII digits only (Python also accepts other Unicode digits).
* **Floats** are the rationals of IEEE binary64. `rnd64 : Q -> Q` is a concrete, computable round-to-nearest-even to
  53 bits with minimum exponent -1074; each float operation is `rnd64` of the exact result. Not modelled: infinities, NaN,
  overflow (no upper exponent bound) and the sign of zero. `float("inf")` and friends give the distinguished error `EUnmodelled`.
* **Formatting** (`%.Nf`, `%g`, `%d`, `%02x`, `repr(float)`) is defined from the exact rational, as CPython does.
* **XML**: a node is text or an element with name, attributes and children. Values and timelines are functions on the
  subtree of their tag; the enclosing document enters as the attributes of the outermost canvas (or `None` when detached).
  Where tag *identity* matters (moving layers, aliasing) the `Doc*` files use trees with unique ids; `wf` says that the ids
  are unique, and every operation is proved to keep that.
  Values that a program assigns are trees of their own, not views of a tag in the document; `CpyModel.v` has the case that a value is assigned to itself.
* **Reading and writing XML** is modelled by concrete functions (`doc_out`, `doc_in`), with escaping, the declaration, what
  the reader does to ends of lines and white space, and UTF-8; comments, CDATA, processing instructions, entities other
  than the five predefined ones and character references, and namespaces are refused by the modelled reader.
  Round trips are theorems, not assumptions.
* **Files** are byte strings on a map from names. A save has a list of moments at which the process could die (`write_states`).
  gzip is an injective wrapper with a magic number; its compression is not modelled.
* **Generators** (`children`, `descendants`, iteration over timelines) are lists of what they yield; LoopModel.v has `children` as a generator, for loops that change the group.
* **Dicts** are association lists in insertion order; **sets** are lists of which only membership is used.
* **Not modelled**: logging, what `print` and warnings say (except where a property is about it), docstrings, `Field.__str__`,
  `pysrt` (subtitles enter as lists of start, end and text), the operating system's errors other than those stated, other processes, threads.

### Which parts of the code are modelled and which are not

Modelled: all of `t.py`, `registry.py`, `util.py`, `value/*.py`, `layer/layer.py`, `layer/group.py`, the tables in `layer/*.py`,
`field.py` (of `field.py`, the setters for values that are shared between documents give `EUnmodelled`), `animation.py`, `format.py`,
`keyframe.py`, `bywords/*.py`, `template/replacer.py`, `etc/*.py`.

`template/__main__.py` imports `sangfroid.template.read_existing`, which does not exist, so it cannot run as it is; what that would have
read is a parameter of the model. Not modelled:
`docs/` (except the programs in `docs/examples/`), `test/`; `Format.__getitem__`, `__len__`, `items`, `keys` and `values` in `format.py`, which use an attribute `_subfiles` that
nothing sets, so that they always raise AttributeError; `Field.__init__`, `__set_name__` and `__str__` in `field.py`, except that the names
and defaults they set are in the tables; attributes that a program adds to layer objects, as the model has documents, not Python objects (C153).

## 3. Refuted properties

Several properties that the documentation promises are false of the code. For these we keep the
English property, prove a `..._refuted` theorem (a concrete counterexample evaluated in the model) and prove the largest part
that does hold, with suffix `_partial`. They have status `partial` in MANIFEST.json; the note says what is missing or false.

## 4. Property by property

(The table is generated from `properties.jsonl` and `MANIFEST.json`.)

| id | property | how | status | theorems | note |
|----|----------|-----|--------|----------|------|
| C01 | Integer time specifications mean what they say | TimeModel: `T.__init__`, `_parse_time_spec`; induction over the rendered spec | proved | `C01_integer_specs` | Whole counts whose total stays within 2^53 (the exact range of floats). |
| C02 | Printing a time and parsing it back gives the same time | TimeModel: `T.__str__` and parsing; decimal printing/parsing round trips, bounds on rounding | partial | `C02_print_parse_partial`, `C02_print_parse_unanchored_partial`, `C02_negative_refuted`, `C02_fraction_refuted`, `C02_million_refuted` | Exact characterisation for whole frames at a whole FPS; the full property is false (negative times with two of h/m/s, fractions, a million frames without FPS). |
| C03 | Times are totally ordered by frame count | TimeModel: comparison, hash, arithmetic; order and algebra on Q | proved | `C03_order_is_frames`, `C03_trichotomy`, `C03_transitive` |  |
| C04 | Comparing times of different speed is refused exactly when documented | TimeModel: comparison, hash, arithmetic; order and algebra on Q | partial | `C04_conflict_partial`, `C04_zero_refuted` | Raises iff both FPS are known and differ; the documented exemption for zero frames does not exist in the code. |
| C05 | Equal times hash equally | TimeModel: comparison, hash, arithmetic; order and algebra on Q | partial | `C05_hash_partial`, `C05_refuted` | Holds for equal FPS and for zero; false when only one FPS is known. |
| C06 | Negative frame numbers count back from the end of the animation | TimeModel: comparison, hash, arithmetic; order and algebra on Q | partial | `C06_negative_index_partial`, `C06_refuted` | T(-n) = 1 + end - begin - n frames; this is the n-th last frame only if begin is 0. |
| C07 | frames, seconds and FPS are consistent | TimeModel: comparison, hash, arithmetic; order and algebra on Q | proved | `C07_seconds`, `C07_whole_seconds` |  |
| C08 | Malformed time specifications are rejected | TimeModel: `T.__init__`, `_parse_time_spec`; induction over the rendered spec | partial | `C08_accepted_shape_partial`, `C08_no_digit_partial`, `C08_refuted` | Accepted strings are numbers each followed by one distinct character, but the character may be any; '10', '5x' and '' are accepted. |
| C09 | A repeated unit is rejected | TimeModel: `T.__init__`, `_parse_time_spec`; induction over the rendered spec | proved | `C09_repeated_unit` |  |
| C10 | Seconds need an anchored reference | TimeModel: `T.__init__`, `_parse_time_spec`; induction over the rendered spec | proved | `C10_unanchored`, `C10_negative_frames`, `C10_zero_seconds_refuted`, `C10_bad_reference` | Property as stated holds; C10_zero_seconds_refuted records that the documentation's further claim about '0s 2f' is false. |
| C11 | Every tag of an animation gives the same time reference | TimeModel/XmlModel: `_canvas_root`; induction over paths | proved | `C11_any_tag_same_reference`, `C11_detached_no_reference`, `C11_missing` |  |
| C12 | Non-positive FPS never produces a time | TimeModel: comparison, hash, arithmetic; order and algebra on Q | proved | `C12_fps_positive`, `C12_nonpositive_raises` |  |
| C13 | Class lookup ignores case and underscores | RegistryModel; folds over registration histories | proved | `C13_lookup_ignores_case_and_underscores`, `C13_nothing_else_is_ignored` | ASCII letters only. |
| C14 | The last registration wins and disturbs nothing else | RegistryModel; folds over registration histories | proved | `C14_last_registration_wins`, `C14_lookup_is_last_equivalent`, `C14_keyerror_iff_never_registered` |  |
| C15 | Integer values survive storing | ValModel: Simple and String; decimal round trips, rounding lemmas | proved | `C15_integers_survive`, `C15_truths` |  |
| C16 | Bool values survive storing | ValModel: Simple and String; decimal round trips, rounding lemmas | proved | `C16_bools_survive`, `C16_every_string_reads_as_bool`, `C16_false_string_refuted`, `C16_truth` | also shown: assigning the str "false" stores true |
| C17 | Real values survive storing to within 5e-11 and re-storing is stable | ValModel: Simple and String; decimal round trips, rounding lemmas | proved | `C17_reals_to_ten_decimals`, `C17_read_values_are_kept`, `C17_restoring_writes_the_same`, `C17_truths` | the sign of zero is not modelled, so the written text is only compared when it is not a negative zero |
| C18 | Angle values survive storing | ValModel: Simple and String; decimal round trips, rounding lemmas | proved | `C18_angles_survive` |  |
| C19 | Failed assignment leaves a simple value unchanged | ValModel: Simple and String; decimal round trips, rounding lemmas | proved | `C19_failed_assignment_changes_nothing` |  |
| C20 | Real equality is a symmetric tolerance, not an equivalence | ValModel: Simple and String; decimal round trips, rounding lemmas | proved | `C20_real_equality_is_a_tolerance`, `C20_not_transitive` |  |
| C21 | String values survive storing | ValModel: Simple and String; decimal round trips, rounding lemmas | partial | `C21_strings_read_back`, `C21_strings_survive_files_partial`, `C21_empty_refuted`, `C21_blank_refuted` | in memory for all strings; through a file only for non-blank strings of XML characters, false for the others |
| C22 | Colours survive the hex notation | ValModel: Color; all 256 values by computation lifted to a quantifier, rounding | proved | `C22_colours_survive_hex`, `C22_comparing_with_hex`, `C22_bad_hex_accepted_refuted` |  |
| C23 | Colour tuples survive to 6 decimals | ValModel: Color; all 256 values by computation lifted to a quantifier, rounding | proved | `C23_colour_tuples_to_six_decimals`, `C23_three_components`, `C23_refused`, `C23_malformed` |  |
| C24 | Vector: reading gives what was last assigned | ValModel: Vector, Transformation, Gradient, Canvas; structural | partial | `C24_first_assignment_partial`, `C24_tuple_is_last_assigned_partial`, `C24_items_are_stale_refuted`, `C24_refused` | as_tuple is right for every history; items and attributes are stale after the second assignment |
| C25 | Assigning one key of a composite leaves the others alone | ValModel: Vector, Transformation, Gradient, Canvas; structural | partial | `C25_one_key_wipes_the_others_refuted`, `C25_shortcut_refuted` | False in the code: the setter clears the tag. So is it through a shortcut field of a group. |
| C26 | Composite round trip | ValModel: Vector, Transformation, Gradient, Canvas; structural | proved | `C26_transformations_survive`, `C26_any_keys`, `C26_unknown_key` |  |
| C27 | Gradients: reading gives what was assigned | ValModel: Vector, Transformation, Gradient, Canvas; structural | proved | `C27_gradients_read_as_assigned`, `C27_item_assignment`, `C27_too_few`, `C27_close_positions_refuted` | positions are whole millionths between 0 and 1, which are printed exactly |
| C28 | A timeline is a map from times to waypoints | TlModel: animation, Waypoint, Timeline; refinement to a finite map with sorted keys | partial | `C28_set_then_get_partial`, `C28_values_fit`, `C28_pairs_fit`, `C28_histories_partial`, `C28_the_abstract_map`, `C28_letters_refuted`, `C28_unsorted_files_refuted`, `C28_empty_vectors_refuted`, `C28_x_y` | C28_x_y: with the letters x_y anywhere in the value getting always raises, without them it gives the waypoint or a KeyError. |
| C29 | Waypoints are stored sorted and unique | TlModel: animation, Waypoint, Timeline; refinement to a finite map with sorted keys | partial | `C29_setting_sorts`, `C29_histories_partial`, `C29_duplicates_refuted` | Holds for item assignment, deletion and add; assigning a list with a time twice stores both. |
| C30 | Deleting a waypoint removes exactly it | TlModel: animation, Waypoint, Timeline; refinement to a finite map with sorted keys | proved | `C30_delete_removes_exactly_it`, `C30_missing_changes_nothing` | For values with a parent tag; see C31 for the last waypoint of a detached one. |
| C31 | Deleting the last waypoint leaves its value | TlModel: animation, Waypoint, Timeline; refinement to a finite map with sorted keys | partial | `C31_deleting_the_last`, `C31_detached_refuted` | Holds for a value in a document; for one without a parent tag it raises and the waypoint is lost. |
| C32 | Adding without overwrite never loses data | TlModel: animation, Waypoint, Timeline; refinement to a finite map with sorted keys | proved | `C32_add_keeps_all`, `C32_clash_changes_nothing`, `C32_add_to_static_value`, `C32_adding_nothing_refuted`, `C32_add_many` | Adding nothing to a static value loses the value. |
| C33 | Adding with overwrite replaces exactly the clashing waypoints | TlModel: animation, Waypoint, Timeline; refinement to a finite map with sorted keys | partial | `C33_overwriting`, `C33_same_time_twice_refuted`, `C33_last_one`, `C33_key_error` | False if two new waypoints are at the time of one old one: then there is always a KeyError, and nothing changes (C33_key_error). In all other cases the last of the new waypoints at each time is there afterwards, and nothing else changed (C33_last_one). |
| C34 | Animating and un-animating is the identity | TlModel: animation, Waypoint, Timeline; refinement to a finite map with sorted keys | partial | `C34_animating_and_back_partial`, `C34_colours_refuted`, `C34_detached_refuted` | Proved for the values the class keeps exactly; colours lose precision. |
| C35 | Interpolation names are canonical | TlModel: animation, Waypoint, Timeline; refinement to a finite map with sorted keys | proved | `C35_names_are_canonical`, `C35_waypoints_have_canonical_names`, `C35_setters_keep_names_canonical`, `C35_setters_set_their_own_side`, `C35_constructor` |  |
| C36 | String times work as timeline keys both ways | TlModel: animation, Waypoint, Timeline; refinement to a finite map with sorted keys | partial | `C36_set_then_delete_partial`, `C36_getting_refuted`, `C36_other_keys` | Set and delete work; get never does. |
| C37 | Times before the start are kept | TlModel: animation, Waypoint, Timeline; refinement to a finite map with sorted keys | partial | `C37_negative_times_refuted` | False: a negative time counts from the end when it is read. |
| C38 | A failed timeline operation changes nothing | TlModel: animation, Waypoint, Timeline; refinement to a finite map with sorted keys | partial | `C38_failed_set_changes_nothing_partial`, `C38_failed_delete_changes_nothing_partial`, `C38_failed_unanimate_changes_nothing_partial`, `C38_failed_add_changes_nothing_partial`, `C38_other_speed_refuted`, `C31_detached_refuted`, `C79_junk_refuted`, `C38_cleared_refuted`, `C38_mixed_list_refuted`, `C38_first_waypoint` | Proved for attached values and times not at another speed. Refuted otherwise: a time at another speed as key always clears a timeline before it raises (C38_cleared_refuted), and so does a list with times of two speeds (C38_mixed_list_refuted). |
| C39 | in-place add works | TlModel: animation, Waypoint, Timeline; refinement to a finite map with sorted keys | partial | `C39_always_raises_refuted`, `C39_but_adds_partial` | False: it always raises, after adding. |
| C40 | Children are the reverse of document order | LayModel on the identity-carrying trees of DocModel; induction over trees, frame lemmas | proved | `C40_children`, `C40_canvas` |  |
| C41 | append puts a layer at the end | LayModel on the identity-carrying trees of DocModel; induction over trees, frame lemmas | proved | `C41_append` | The rest of the document changes at most in white space. |
| C42 | insert behaves like list.insert | LayModel on the identity-carrying trees of DocModel; induction over trees, frame lemmas | partial | `C42_insert_partial`, `C42_insert_out_of_range`, `C42_insert_refuted`, `C42_no_insert_at_end`, `C42_plain` | As list.insert for the indexes of the children there are, counted from either end. An index past them is an IndexError (list.insert would append), and inserting a layer before itself is a ValueError, after a line break was added (C42_insert_refuted). |
| C43 | Moving a layer never duplicates or loses it | LayModel on the identity-carrying trees of DocModel; induction over trees, frame lemmas | partial | `C43_moves_partial`, `C43_others_stay_partial`, `C43_append_moves`, `C43_insert_moves`, `C43_append_last_raises`, `C43_within`, `C43_lost`, `C43_lost_append`, `C43_lost_insert`, `C43_all_modelled`, `C43_history`, `C43_refuted`, `C43_hangs_refuted` | CycModel.v: also a layer that is put into itself, which bs4 (4.12.2, pinned) allows: it is then in a cycle outside of the document, so the document loses it (C43_lost), or append never returns (C43_hangs_refuted). C43_history: over any history of moves nothing is duplicated, and without such moves nothing is lost. Appending the layer that is already last raises ValueError. |
| C44 | len agrees with the children | LayModel on the identity-carrying trees of DocModel; induction over trees, frame lemmas | partial | `C44_len_partial`, `C44_len_refuted` | len counts layers at all depths; true for groups with no nested layers. |
| C45 | descendants is complete | LayModel on the identity-carrying trees of DocModel; induction over trees, frame lemmas | partial | `C45_descendants_partial`, `C45_descendants_group_partial`, `C45_descendants_refuted`, `C45_only_groups` | C45_only_groups: which layers can have children. |
| C46 | find_all(True) finds every layer once, in document order | LayModel on the identity-carrying trees of DocModel; induction over trees, frame lemmas | proved | `C46_find_all_true`, `C46_find_all_true_layer`, `C46_find_all_none`, `C46_find_is_first` |  |
| C47 | find_all by type finds exactly the layers of that type | LayModel on the identity-carrying trees of DocModel; induction over trees, frame lemmas | partial | `C47_find_type_exact`, `C47_find_type_partial`, `C47_find_type_refuted`, `C47_find_blur_refuted` | What it finds is proved exactly; layers with a parameter of the name type_ are missed, and types spelt with underscores. |
| C48 | Several criteria all apply | LayModel on the identity-carrying trees of DocModel; induction over trees, frame lemmas | partial | `C48_criteria_partial`, `C48_one_criterion`, `C48_criteria_refuted`, `C48_by_desc`, `C48_by_truth`, `C48_attrs`, `C48_numbers` | The code takes any match for all. C48_by_desc, C48_by_truth: exactly what is found with one criterion, by the attributes in the file. C48_attrs: attrs={...} is the same as keywords. |
| C49 | recursive=False searches the immediate children | LayModel on the identity-carrying trees of DocModel; induction over trees, frame lemmas | partial | `C49_not_recursive_partial`, `C49_not_recursive_refuted` | True of an animation, in document order; of a group it finds none. |
| C50 | Parameter access is local to the layer | LayModel on the identity-carrying trees of DocModel; induction over trees, frame lemmas | partial | `C50_own_param_partial`, `C50_no_param_partial`, `C50_own_param_refuted`, `C50_nameless`, `C50_malformed` | The search goes into nested layers. |
| C51 | Setting a parameter is read back and disturbs nothing else | LayModel on the identity-carrying trees of DocModel; induction over trees, frame lemmas | partial | `C51_set_plain_partial`, `C51_set_object_partial`, `C51_set_errors`, `C51_set_field_partial`, `C51_set_object_refuted` | A Value object that is already in a document is taken from there. |
| C52 | Attribute fields round-trip | LayModel on the identity-carrying trees of DocModel; induction over trees, frame lemmas | proved | `C52_bool_fields`, `C52_desc`, `C52_no_desc` |  |
| C53 | Layer depth and parent agree with nesting | LayModel on the identity-carrying trees of DocModel; induction over trees, frame lemmas | proved | `C53_depth_parent` |  |
| C54 | A new layer carries its type and all default parameters | ClsTable (generated from the source) and `_construct_empty_tag`; computation over the whole finite class table | partial | `C54_new_layer_partial`, `C54_blend_method_refuted`, `C54_times_refuted`, `C54_halftone3_refuted` | Missing: Halftone3 cannot be constructed; reading the field blend_method raises AssertionError; the default times are written as "0", which cannot be read. |
| C55 | end_time is the animation's end | AnimModel: animation.py, keyframe.py, field.py; tree induction, reload lemmas | partial | `C55_end_time_partial`, `C55_end_time_refuted` | False: end_time reads an attribute named end_time, which files do not have, so it is 5s whatever the file says. |
| C56 | What save writes, load reads | AnimModel over a file system, with XpModel (XML reader and writer); invariants over histories, crash states | partial | `C56_loaded_partial`, `C56_settled_partial`, `C56_edited_partial`, `C56_refuted` | Holds for every document that was loaded from a file, and for every edited one up to white space; false for tabs and newlines in attributes, which come back as blanks. |
| C57 | save() goes back to the last file name, in its format | AnimModel over a file system, with XpModel (XML reader and writer); invariants over histories, crash states | partial | `C57_save_partial`, `C57_no_other_file`, `C57_any_history`, `C57_told_unique`, `C57_refuted` | For all histories, with saves that fail (C57_any_history): save() writes the file that was named last with a known extension, even if it could not be written then; so the property is false after a failed save(filename), see C58. |
| C58 | A failed save as does not change where save() writes | AnimModel over a file system, with XpModel (XML reader and writer); invariants over histories, crash states | partial | `C58_failed_save_partial`, `C58_refuted`, `C58_redirected_refuted`, `C58_exactly` | Holds for unsupported extensions; false for .sfg and for files that cannot be opened. |
| C59 | A crash during save never loses the old file | AnimModel over a file system, with XpModel (XML reader and writer); invariants over histories, crash states | partial | `C59_crash_partial`, `C59_last_state`, `C59_refuted` | False: the file is emptied before it is written. Proved what the file can hold, and that no other file is affected. |
| C60 | Keyframes: iteration and length agree with the document | AnimModel: animation.py, keyframe.py, field.py; tree induction, reload lemmas | proved | `C60_keyframes`, `C60_active` |  |
| C61 | framecount is the number of frames | AnimModel: animation.py, keyframe.py, field.py; tree induction, reload lemmas | partial | `C61_framecount_partial`, `C61_refuted` | framecount is one more than documented: int(end)-int(begin)+1. |
| C62 | Words appear progressively and end at the whole line | BywModel: bywords; induction over words and documents | partial | `C62_texts_grow`, `C62_whole_line_partial`, `C62_whole_line_refuted`, `C62_words_partial`, `C62_letters_partial`, `C62_words_refuted`, `C62_letters_refuted`, `C62_timeline_partial` | The texts always grow strictly and are beginnings of the line (C62_texts_grow, no conditions). That they end at exactly the words (letters) needs descriptions without a blank at the beginning or end; false otherwise (_refuted). C62_timeline_partial: that is what the timeline of the layer shows, in a whole document. |
| C63 | Word times lie within the subtitle and never go back | BywModel: bywords; induction over words and documents | partial | `C63_never_back_partial`, `C63_never_back_refuted`, `C63_within_partial`, `C63_within_refuted`, `C63_close_partial` | Never back: for starts up to 2^53 ms and durations that aren't negative; false for negative durations. Within start and end: for lines that are paced (bounded so that rounding doesn't matter); false for huge starts because of rounding. C63_close_partial: how near the times are to the exact ones. |
| C64 | Every word gets its own time | BywModel: bywords; induction over words and documents | partial | `C64_kept`, `C64_no_word_lost_partial`, `C64_refuted` | A word is kept unless a later one has the same time (C64_kept, exact). Hence every word of paced lines that don't overlap is in the timeline of its layer. False in general: words with the same time are lost (C64_refuted). |
| C65 | Only matched layers are touched | BywModel: bywords; induction over words and documents | proved | `C65_reported`, `C65_untouched`, `C65_untouched_partial` | C65_reported is exact. C65_untouched holds for every document, order and outcome. C65_untouched_partial also says what is changed, for documents in which no text layer is in two groups and each has a text. |
| C66 | Text outside replaced blocks is preserved | RepModel: replacer.py over a disk; induction over lines, crash states | partial | `C66_every_file`, `C66_partial`, `C66_line_ends_refuted`, `C66_end_refuted` | Lines outside of blocks, and in blocks without a field, are the same in the same order, and nothing else on the disk changes. Not byte by byte: CRLF becomes LF, and the line that ends any block gets the indentation of its beginning and loses white space. |
| C67 | Replacing is idempotent | RepModel: replacer.py over a disk; induction over lines, crash states | partial | `C67_partial`, `C67_marker_refuted`, `C67_class_refuted`, `C67_all` | If no line of a value is a marker or begins a class, no value has a carriage return and no class begins in a block. The refuted theorems show that without the first and the last it is false. |
| C68 | Unbalanced markers are an error and the file is left alone | RepModel: replacer.py over a disk; induction over lines, crash states | partial | `C68_partial`, `C68_any_error`, `C68_nested_refuted`, `C68_no_class_refuted`, `C68_unreadable` | Exactly when the error is raised, and that nothing is written then. Blocks in blocks and named blocks outside of classes are accepted. |
| C69 | Replacer writes are crash-safe | RepModel: replacer.py over a disk; induction over lines, crash states | proved | `C69_crash`, `C69_all_moments`, `C69_complete`, `C69_moments` |  |
| C70 | A failed assignment leaves a composite, gradient or canvas unchanged | ValModel: Vector, Transformation, Gradient, Canvas; structural | partial | `C70_detected_in_time_partial`, `C70_failed_composite_loses_refuted`, `C70_failed_gradient_loses_refuted`, `C70_failed_canvas_loses_refuted`, `C70_string_keys`, `C70_string_keys_refuted`, `C70_canvas_refuted` | false in the code, as the tag is cleared first |
| C71 | Assigning a value of the same class copies it | ValModel: Vector, Transformation, Gradient, Canvas; structural | partial | `C71_colours_copy_partial`, `C71_bools_copy_partial`, `C71_numbers_refuted`, `C71_transformation_refuted`, `C71_strings`, `C71_strings_refuted`, `C71_times_refuted`, `C71_vectors_partial`, `C71_gradients`, `C71_transformations_refuted`, `C71_itself_refuted`, `C71_itself_partial` | Holds for texts and gradients as they are stored, for colours (to six decimals), bools and new vectors (to ten). Numbers raise TypeError and times ValueError; animated texts become '(animated)'; transformations raise and lose their parts (C71_transformations_refuted), even if a transformation is assigned to itself (C71_itself_refuted). |
| C72 | Comparison returns a bool | ValModel: Vector, Transformation, Gradient, Canvas; structural | partial | `C72_numbers_compare_partial`, `C72_comparison_raises_refuted`, `C72_integer_equals_fraction_refuted`, `C72_colour_tuples`, `C72_colour_others`, `C72_no_number`, `C72_strings` | false in the code |
| C73 | Values made without arguments are usable | ValModel: Vector, Transformation, Gradient, Canvas; structural | partial | `C73_defaults_partial`, `C73_string_default_refuted`, `C73_vector_default_refuted`, `C73_blend_method` | False for String(), which is the text '()', and X_Y(), which can't be read again. |
| C74 | The class of a stored value is recognised | ValModel: Vector, Transformation, Gradient, Canvas; structural | partial | `C74_class_is_recognised_partial`, `C74_blend_method_refuted`, `C74_kept`, `C74_vector`, `C74_vector_refuted`, `C74_no_type` | False for blend methods, and for vectors that are assigned dictionaries of other keys. Strings, transformations, gradients and canvases keep their class whatever is assigned (C74_kept). |
| C75 | Times survive storing | TimeModel: `T.__str__` and parsing; decimal printing/parsing round trips, bounds on rounding | proved | `C75_times_survive`, `C75_seconds_refuted` | frame counts below a million, the range of the printed format |
| C76 | Timelines survive saving and loading | TlModel: animation, Waypoint, Timeline; refinement to a finite map with sorted keys | partial | `C76_timelines_survive_saving`, `C76_whole_frames_are_kept`, `C76_fractions_refuted`, `C76_values` | Whole frames, and values with solid tags (SavSpec2.v); fractions are rounded to six digits. |
| C77 | Iterating over a timeline goes forward in time | TlModel: animation, Waypoint, Timeline; refinement to a finite map with sorted keys | proved | `C77_iteration_is_in_order` |  |
| C78 | Equal timelines have equal waypoints | TlModel: animation, Waypoint, Timeline; refinement to a finite map with sorted keys | partial | `C78_equality_is_of_times_partial`, `C78_equality_ignores_values_refuted` | False: only the times are compared. |
| C79 | Assigning a list to a timeline stores exactly it | TlModel: animation, Waypoint, Timeline; refinement to a finite map with sorted keys | partial | `C79_assigning_a_list_partial`, `C79_assigning_nothing`, `C79_junk_refuted`, `C29_duplicates_refuted` | A list of something else clears the timeline before raising. |
| C80 | A waypoint reads back from its tag | TlModel: animation, Waypoint, Timeline; refinement to a finite map with sorted keys | partial | `C80_waypoint_tags_read_back`, `C80_read_waypoints_fit`, `C80_wrong_type_refuted` | Reading back holds; the type is not checked when a waypoint is set. |
| C81 | A layer that is found is true | LayModel on the identity-carrying trees of DocModel; induction over trees, frame lemmas | partial | `C81_truth_partial`, `C81_found_is_false_refuted` | False in the code: a layer without sublayers is false. |
| C82 | What a layer says does not depend on other layers | LayModel on the identity-carrying trees of DocModel; induction over trees, frame lemmas | partial | `C82_reading_partial`, `C82_version_refuted` | False for type and version of a layer that lacks them. |
| C83 | Misuse of find_all raises ValueError | LayModel on the identity-carrying trees of DocModel; induction over trees, frame lemmas | partial | `C83_misuse_partial`, `C83_misuse_refuted` | An exception is raised, but UnboundLocalError or AttributeError. |
| C84 | find_all with a function finds exactly what it accepts | LayModel on the identity-carrying trees of DocModel; induction over trees, frame lemmas | proved | `C84_find_function` | The function gets the tag of the layer. |
| C85 | find_all with a class finds the layers of that class | LayModel on the identity-carrying trees of DocModel; induction over trees, frame lemmas | partial | `C85_find_class_partial`, `C85_find_class_refuted`, `C85_exact_partial`, `C85_missed_refuted`, `C85_exact`, `C85_animated_refuted`, `C85_number_refuted` | C85_exact (FtyProps2.v) says exactly which layers are found: those of the class whose type is written without capitals and underscores, and none if the class has a parameter called type_ (C85_missed_refuted). It is for documents in which parameters called type_ are absent or are numbers. If one is animated, every search by class or type raises ValueError (C85_animated_refuted). A string that is a number finds layers by that parameter (C85_number_refuted). |
| C86 | Text(x) has the text x | LayModel on the identity-carrying trees of DocModel; induction over trees, frame lemmas | proved | `C86_new_text` |  |
| C87 | Times in params use the FPS of the animation | LayModel on the identity-carrying trees of DocModel; induction over trees, frame lemmas | proved | `C87_param_reference` |  |
| C88 | A field of the animation survives being saved | AnimModel: animation.py, keyframe.py, field.py; tree induction, reload lemmas | partial | `C88_field_round_trip`, `C88_field_read`, `C88_hyphens_refuted`, `C88_fields`, `C88_metadata_refuted` | The round trip holds for all fields; but gamma_r, gamma_g, gamma_b and view_box are never read from files, which call them gamma-r and so on. The metadata fields (grid_color and so on) can neither be read nor set. |
| C89 | A save that raises leaves the files as they were | AnimModel over a file system, with XpModel (XML reader and writer); invariants over histories, crash states | partial | `C89_failed_save_partial`, `C89_refuted` | False when the text cannot be encoded as UTF-8: the file is left empty. |
| C90 | A new animation can be saved, but needs a name | AnimModel over a file system, with XpModel (XML reader and writer); invariants over histories, crash states | proved | `C90_new_animation`, `C90_contents` |  |
| C91 | Loading goes by the content of the file, not by its name | AnimModel over a file system, with XpModel (XML reader and writer); invariants over histories, crash states | proved | `C91_load_by_content`, `C91_load_missing`, `C91_name_does_not_matter`, `C91_refused`, `C91_not_utf8` |  |
| C92 | A new layer is active and says its type and version | ClsTable (generated from the source) and `_construct_empty_tag`; computation over the whole finite class table | proved | `C92_new_attributes` | Halftone3 cannot be made at all (C54). |
| C93 | Boolean attributes and descriptions read as documented | ClsTable (generated from the source) and `_construct_empty_tag`; computation over the whole finite class table | proved | `C93_attribute_fields` |  |
| C94 | Reading a layer does not depend on other layers made before | ClsTable (generated from the source) and `_construct_empty_tag`; computation over the whole finite class table | partial | `C94_no_hidden_state_partial`, `C94_hidden_state_refuted` | False for the version (and type) of a layer whose tag does not have the attribute: the default is that of the class made last. |
| C95 | The bywords groups are the group layers that say so | BywModel: bywords; induction over words and documents | partial | `C95_groups_partial`, `C95_found_partial`, `C95_refuted`, `C95_no_description` | C95_no_description: a text layer without a description raises AttributeError and changes nothing. |
| C96 | Adjusting writes exactly the words that were found | BywModel: bywords; induction over words and documents | partial | `C96_exact_partial`, `C96_order_partial`, `C96_order_refuted` | For documents in which no text layer is in two groups and each has a text, and times that are 0 or at least 0.1 ms. C96_order_refuted: a text layer in two groups, where the result depends on the order of a set. |
| C97 | Running bywords again changes nothing | BywModel: bywords; induction over words and documents | partial | `C97_twice_partial`, `C97_refuted` | C97_refuted: false when a text is in two groups. |
| C98 | Pauses between words are weighted by their letters | BywModel: bywords; induction over words and documents | partial | `C98_first`, `C98_weighted_partial`, `C98_refuted` | C98_first is exact. The pauses are weighted so (up to rounding, bounded) when each layer has one word; in layers of several words they are weighted by the length of all the text shown so far, which refutes the documented claim. |
| C99 | Tidying a text is idempotent and leaves only letters, digits and spaces | BywModel: bywords; induction over words and documents | proved | `C99_tidy`, `C99_ascii`, `C99_parts` | All strings. |
| C100 | No subtitle makes bywords raise | BywModel: bywords; induction over words and documents | partial | `C100_works_partial`, `C100_zero`, `C100_refuted` | False: a subtitle of punctuation only, with a group without texts, raises ZeroDivisionError (C100_refuted); C100_zero says exactly when that division fails; C100_works_partial says when all is well. |
| C101 | The times of words are understood as they are written | BywModel: bywords; induction over words and documents | partial | `C101_read_partial`, `C101_refuted` | For 0 and times from 0.1 ms on. Smaller ones are written with an exponent and read as negative times (C101_refuted). |
| C102 | The bywords command changes only the .sif file, and only after everything worked | BywModel: bywords; induction over words and documents | proved | `C102_only_then`, `C102_written`, `C102_loads`, `C102_always` | C102_works_partial also says that the words are adjusted, for the documents of C96. |
| C103 | The default name of the subtitles | BywModel: bywords; induction over words and documents | proved | `C103_replaced`, `C103_added`, `C103_given` | All names. |
| C104 | Case, punctuation and line breaks do not matter when subtitles are compared | BywModel: bywords; induction over words and documents | partial | `C104_same`, `C104_refuted` | Case and punctuation: proved for ASCII texts. Line breaks: false, as they are removed and the words glued together (C104_refuted). |
| C105 | The size of an animation is its width and height | AnimModel: animation.py, keyframe.py, field.py; tree induction, reload lemmas | partial | `C105_size_partial`, `C105_size_set`, `C105_refuted` | False as stated: where the file has no width or height, those have defaults and size raises KeyError (C105_refuted). |
| C106 | The view box and the background are the numbers in the file | AnimModel: animation.py, keyframe.py, field.py; tree induction, reload lemmas | partial | `C106_viewbox`, `C106_written_exactly`, `C106_background`, `C106_set_viewbox_refuted` | Reading is proved; setting view_box does not change viewbox (C106_set_viewbox_refuted). |
| C107 | The name and the description of an animation are read from its own tags, and a description that was set is read back | AnimModel: animation.py, keyframe.py, field.py; tree induction, reload lemmas | partial | `C107_read`, `C107_missing`, `C107_set_partial`, `C107_inner_refuted`, `C107_set`, `C107_blank_refuted` | A description of only white space is read back at once, but after saving and loading it is one newline or one blank, or None if it was empty (C107_set gives the exact value, C107_blank_refuted). An animation without a description takes that of something in it (C107_inner_refuted). |
| C108 | Fields for metadata raise NotImplementedError and change nothing | AnimModel: animation.py, keyframe.py, field.py; tree induction, reload lemmas | proved | `C108_metadata` | Documents that these fields cannot be used. |
| C109 | Setting the end time of an animation sets it | AnimModel: animation.py, keyframe.py, field.py; tree induction, reload lemmas | partial | `C109_end_time_set`, `C109_longer_refuted` | The value is read back by end_time, but the length of the animation does not follow (C109_longer_refuted). |
| C110 | Replacing in all files is replacing in each, even if it is interrupted | RepModel: replacer.py over a disk; induction over lines, crash states | proved | `C110_all`, `C110_crash`, `C110_no_fields`, `C110_moments` |  |
| C111 | Fields without a block are reported | RepModel: replacer.py over a disk; induction over lines, crash states | proved | `C111_unseen` |  |
| C112 | Files are written only if there is something to replace | RepModel: replacer.py over a disk; induction over lines, crash states | proved | `C112_written` |  |
| C113 | Expressions of integers, truth values, angles and strings | PexModel: as_python_expression, with a reader of Python literals; structural induction, printing round trips | proved | `C113_literal_unique`, `C113_exact` | the meaning of Python literals (strings with escapes, numbers, tuples, dictionaries) is specified separately in PexSpec.v |
| C114 | Expressions of real numbers | PexModel: as_python_expression, with a reader of Python literals; structural induction, printing round trips | partial | `C114_partial`, `C114_assigned`, `C114_refuted` | proved: up to ten decimals, hence equal for the library, and exact for what was assigned; exactness for every number refuted |
| C115 | Expressions of vectors | PexModel: as_python_expression, with a reader of Python literals; structural induction, printing round trips | partial | `C115_partial`, `C115_assigned`, `C115_refuted`, `C115_other` | proved: up to ten decimals, and exact for what was assigned; a vector with more decimals compares unequal to its copy |
| C116 | Expressions of colours | PexModel: as_python_expression, with a reader of Python literals; structural induction, printing round trips | partial | `C116_partial`, `C116_exact`, `C116_refuted`, `C116_animated_refuted` | proved: up to six decimals, and exactly for colours with six decimals; otherwise the hexadecimal code can change; nothing recreated is animated |
| C117 | Expressions of gradients | PexModel: as_python_expression, with a reader of Python literals; structural induction, printing round trips | partial | `C117_partial`, `C117_exact`, `C117_refuted` | proved for gradients whose stops are at increasing multiples of a millionth; exact when colours have six decimals; C117_refuted: two stops less than a millionth apart become one |
| C118 | Expressions of transformations | PexModel: as_python_expression, with a reader of Python literals; structural induction, printing round trips | partial | `C118_partial`, `C118_refuted` | proved for transformations with plain parts; offset and scale up to ten decimals; C118_refuted: an animated offset gives an expression that is no literal |
| C119 | Expressions of times, blend methods and animated values | PexModel: as_python_expression, with a reader of Python literals; structural induction, printing round trips | partial | `C119_partial`, `C119_seconds_refuted`, `C119_blend_refuted`, `C119_animated_refuted` | proved for times of less than a second in whole frames; from one second on, for blend methods and for animated numbers, truth values and vectors it is refuted for every value |
| C120 | Blend methods are those of the header | EtcModel: the scanner, on top of RepModel; invariant over lines, pigeonhole on the numbers | partial | `C120_header`, `C120_partial`, `C120_files`, `C120_complete`, `C120_refuted` | Exact: of each line the first enumerator counts, of each number the last line. Complete where no line has two and no two share a number. Refuted in general: a second enumerator on a line is lost. |
| C121 | A header that can't be used changes nothing | EtcModel: the scanner, on top of RepModel; invariant over lines, pigeonhole on the numbers | proved | `C121_gap`, `C121_header`, `C121_no_directory` |  |
| C122 | The scanner survives crashes | EtcModel: the scanner, on top of RepModel; invariant over lines, pigeonhole on the numbers | proved | `C122_crash`, `C122_moments` |  |
| C123 | Symbols belong to their classes | EtcModel: get-symbols.py and json.dump, with a reader of JSON in EtcSpec; induction over lines and sections, round trip, disk states | partial | `C123_sections`, `C123_exact`, `C123_partial`, `C123_refuted` | Exact: the last symbol up to the next line that begins a layer, across files. That is the class's own symbol where symbols are only set in bodies of layers. Refuted: the symbol '?' of the class Layer goes to the last layer of the file read before layer.py. |
| C124 | The order of files doesn't matter | EtcModel: get-symbols.py and json.dump, with a reader of JSON in EtcSpec; induction over lines and sections, round trip, disk states | partial | `C124_partial`, `C124_refuted` | Holds where no file sets a symbol before its first layer; refuted with layer.py. |
| C125 | Duplicate classes are refused | EtcModel: get-symbols.py and json.dump, with a reader of JSON in EtcSpec; induction over lines and sections, round trip, disk states | proved | `C125_twice`, `C125_error` |  |
| C126 | layer-details.json survives crashes | EtcModel: get-symbols.py and json.dump, with a reader of JSON in EtcSpec; induction over lines and sections, round trip, disk states | partial | `C126_partial`, `C126_moments`, `C126_refuted` | Other files stay and the file is the old one or a beginning of the new one. Refuted: the file is not replaced atomically. |
| C127 | What was edited can be saved and loaded | WrSpec: one call of the API as an edit, with the condition that strings are XML; invariants (writable, no tag twice, the root where it was) preserved by each call, induction over the calls | proved | `C127_saves`, `C127_new`, `C127_strings_refuted` | C127_strings_refuted: without the condition on strings it is false, as half a surrogate pair can't be encoded. |
| C128 | Documents stay trees | WrSpec: one call of the API as an edit, with the condition that strings are XML; invariants (writable, no tag twice, the root where it was) preserved by each call, induction over the calls | proved | `C128_tree` | The animation itself is never moved into a group; putting a layer into itself is outside the model. |
| C129 | Calls only change what they name | WrSpec2: what it means that a call names a tag or something around it; where a node is (in which tag, or at the top) is kept by each change of the forest, induction over the calls | proved | `C129_others`, `C129_away` | For every history of modelled calls, starting from any document; exceptions are caught and the history goes on. Calls outside the model (EUnmodelled) leave the forest alone there. |
| C130 | Vectors are equal when their coordinates are | ViewModel: values as containers, on top of ValModel and TlModel; ViewSpec says what being readable means; case analysis and induction over the parts, refutations by computed witnesses | partial | `C130_numbers`, `C130_partial`, `C130_made`, `C130_equivalence`, `C130_refuted`, `C130_tuples_partial`, `C130_others`, `C130_elements`, `C130_dictionaries`, `C130_keys_refuted`, `C130_gradients_refuted`, `C130_transformations_refuted` | Exact for all readable vectors: they are equal if and only if their numbers are equal in the order of the file. The property holds when x comes before y in both (as in all vectors the library makes); C130_refuted shows the same point unequal, and different points equal, with y first. |
| C131 | Gradients are equal when they show the same colours at the same positions | ViewModel: values as containers, on top of ValModel and TlModel; ViewSpec says what being readable means; case analysis and induction over the parts, refutations by computed witnesses | proved | `C131_gradients`, `C131_equivalence`, `C131_others` | For gradients whose colours all have hex digits; the equality of float positions is that of rationals. |
| C132 | Transformations are equal when their parts are | ViewModel: values as containers, on top of ValModel and TlModel; ViewSpec says what being readable means; case analysis and induction over the parts, refutations by computed witnesses | partial | `C132_partial`, `C132_refuted`, `C132_dictionaries`, `C132_others` | Parts in any order, each once, with plain vectors and angles that aren't animated. C132_refuted: comparing with a dictionary of four other keys raises KeyError, and y before x matters. |
| C133 | The truth of a value is that of what it stands for | ViewModel: values as containers, on top of ValModel and TlModel; ViewSpec says what being readable means; case analysis and induction over the parts, refutations by computed witnesses | partial | `C133_partial`, `C133_bool`, `C133_refuted` | The property holds for Bool; for the others the theorem says exactly when they are true, and C133_refuted shows Real(5) and String('x') to be false. |
| C134 | The views of a value agree | ViewModel: values as containers, on top of ValModel and TlModel; ViewSpec says what being readable means; case analysis and induction over the parts, refutations by computed witnesses | partial | `C134_gradient`, `C134_vector_partial`, `C134_transformation_partial`, `C134_refuted`, `C134_transformation_refuted`, `C134_missing`, `C134_animated`, `C134_vector_missing`, `C134_coordinates` | C134_animated: iterating over an animated vector is a TypeError. |
| C135 | What a layer prints as tells its place, class, desc and text | StrModel: __str__ and __repr__, with the symbols of SymTable (generated from the source); what a part is printed as ends at a character which is not in it, reading back of PexProofs for quoted strings and floats | proved | `C135_layers`, `C135_line`, `C135_refuted` | Which characters Python calls printable is a parameter; the theorem about lines needs only that no line end is among them. C135_refuted: no desc and an empty one print alike. |
| C136 | Keyframes print as one line each, which tells them apart | StrModel: __str__ and __repr__, with the symbols of SymTable (generated from the source); what a part is printed as ends at a character which is not in it, reading back of PexProofs for quoted strings and floats | proved | `C136_keyframes`, `C136_list` | Times that differ may print alike (C138_refuted), so the theorem speaks of what they print as. |
| C137 | What a waypoint prints as tells its time, interpolations and value | StrModel: __str__ and __repr__, with the symbols of SymTable (generated from the source); what a part is printed as ends at a character which is not in it, reading back of PexProofs for quoted strings and floats | proved | `C137_waypoints`, `C137_made`, `C137_aligned` | Of canvases as values nothing is said: their printing isn't modelled. |
| C138 | Values print alike only if they are the same | StrModel: __str__ and __repr__, with the symbols of SymTable (generated from the source); what a part is printed as ends at a character which is not in it, reading back of PexProofs for quoted strings and floats | partial | `C138_partial`, `C138_vectors`, `C138_repr`, `C138_refuted`, `C138_gradients`, `C138_transformations`, `C138_animated` | Proved for Real, Integer, Bool, String, Color, BlendMethod and X_Y. C138_refuted shows different angles, and different times, that print alike, and a string that prints like something animated. Gradients: C138_gradients; transformations that aren't animated: C138_transformations. |
| C139 | What a timeline prints as tells its waypoints | StrModel; what is joined is split at the brackets that end each part | partial | `C139_partial`, `C139_refuted` | For values that print without brackets: all but strings, canvases, and the classes with several parts other than vectors. C139_refuted: a string may look like the end of a waypoint and another one. |
| C140 | A value keeps the type it has in the file | TypeModel; each operation keeps the type, then induction over histories | partial | `C140_timelines`, `C140_partial`, `C140_refuted`, `C140_not_implemented` | All classes but blend methods, whose type changes (C140_refuted). C140_timelines has no condition on the value at all. |
| C141 | The views of a timeline agree | TypeModel; induction over the dictionary that is built from the tags | proved | `C141_views`, `C141_failures`, `C141_files`, `C141_static` |  |
| C142 | The generator makes one block for each type of layer | ScanModel; induction over the layers of the file, with the types that were seen | partial | `C142_blocks`, `C142_capitals_refuted`, `C142_class_names`, `C142_all_layers`, `C142_canvas` | Types whose names differ only in capitals overwrite each other: C142_capitals_refuted. What read_existing (which doesn't exist in the repository) would return is a parameter. |
| C143 | What is in a generated block | ScanModel; induction over the params, with the dictionary that is built | partial | `C143_lines`, `C143_text`, `C143_animated`, `C143_nested_refuted`, `C143_inherited`, `C143_own`, `C143_exceptions`, `C143_no_more_exceptions`, `C143_field`, `C143_field_total`, `C143_line` | Params of layers within the layer are included: C143_nested_refuted. The expression for a blend method isn't Python (v.13), see C119. |
| C144 | Generating the fields twice is the same as doing it once | ScanModel; each line of the text is shown to be quiet, then C67 | partial | `C144_partial`, `C144_names_refuted`, `C144_program` | For names that are words and versions of one line; else C144_names_refuted. C144_program is the whole program, on all source files. The conditions on the files are those of C67. It is assumed that str.isprintable is false for surrogates. |
| C145 | The generator writes all or nothing | ScanModel; case analysis, and induction over layers and params | proved | `C145_all_or_nothing`, `C145_checked` |  |
| C146 | Layers are the same after saving and loading | SavSpec.v: the tag that is loaded is what was written for the old one (image), and the record same_layer of everything a layer shows. SavProofs.v: both trees are walked together, each tag with the tags it is in; searching, classes and parameters agree on both sides. With the files of AnimModel.v around it (saved_loads). | proved | `C146_layers`, `C146_fields`, `C146_condition_needed` | C146_condition_needed shows why there must be no line feeds in attributes. same_layer (SavSpec.v) says what is the same. |
| C147 | What was edited is the same after saving and loading | SavSpec2.v: strings of one line (tidy), which every edit keeps (SavProofs2.v, SavProofs3.v, like C127), solid tags and values that are the same (kept). SavProofs4.v: reading a value from a solid tag gives the same after it was written. With the machine of WrSpec.v and C146. | proved | `C147_loaded`, `C147_new`, `C147_values`, `C147_new_layers`, `C147_parts` | edit (WrSpec.v) lists the calls. The values of waypoints are in C76; texts that don't meet the condition on blanks change (C21_blank_refuted and others). |
| C148 | Groups behave like lists | MovSpec.v: lists of numbers and what append and insert do to them; MovProofs.v: canvases of groups stay their own through deletions and insertions, so each step changes the list of the target, and takes the layer out of all others; induction on the calls. | proved | `C148_lists`, `C148_loaded`, `C148_all_moved` | The lists are in MovSpec.v. Putting a layer into itself makes a cycle, which the model can't have (C43). |
| C149 | A loop over the children of a group may move them | LoopModel.v: the generator as an index into the canvas, which is looked at again in each step; MovProofs2.v: moves to other groups only take slots out of the canvas after the index, so the steps see the children of the start; induction on the index. | partial | `C149_loop_partial`, `C149_all_moved`, `C149_same_group_refuted`, `C149_emptied`, `C149_plain` | Proved for bodies that move the layer they are given to other groups. Bodies that move it within the group make the loop miss layers and raise ValueError (C149_same_group_refuted). C149_emptied: any body, when nothing is left after the first round. C149_plain: layers that aren't groups. |
| C150 | Parameters behave like variables | VarSpec.v: a store indexed by the params of the document, and what an assignment does to one variable; VarProofs.v: an assignment replaces the tag of one value by one without params in it, so all searches for params find the same ones; induction on the history. | proved | `C150_parameters`, `C150_read`, `C150_all`, `C150_last`, `C150_others` | The variables are the params of the document (VarSpec.v). |
| C151 | Moving layers and assigning to parameters don't disturb each other | MixSpec.v: lists and variables side by side; MixProofs.v: each part of a move keeps every param with its value, as neither the canvas nor the layer is in a value; an assignment keeps layers and canvases, as neither the old nor the new value has any; induction on the history. | partial | `C151_mixed`, `C151_single_partial`, `C151_same`, `C151_all`, `C151_group_refuted` | Proved for params wherever they are, and so for the parameters of all layers that have no layers in them. A parameter of a group may become another one when a layer is put into the group, as names are looked up in the layers inside, too (C151_group_refuted). |
| C152 | Attributes that are worked out can't be assigned | LayModel.v field_set, AnimModel.v anim_set: for each name, by the tables of all classes (none has a field of such a name, but for type_). | partial | `C152_layers`, `C152_animations`, `C152_blur_refuted` | False only of type_ of the six classes that have a parameter called type_ (C152_blur_refuted). |
| C153 | Fields that don't exist are refused | Case analysis of field_set and field_get; the witness is a Circle. | partial | `C153_partial`, `C153_read`, `C153_refuted` | Reading raises, and assigning changes nothing in the document; but assigning doesn't raise, so that the value is lost (C153_refuted). Methods that are hidden by an assignment are not modelled. |
| C154 | Parameters hold values and timelines through any history of edits of a document | PrmSpec.v: lists of children and a value for each param; PrmProofs.v: what edits make of a value without layers has none; PrmProofs2.v: each step, and induction on the history; PrmProofs3.v: the class of a value through operations on its timeline; then C28. | partial | `C154_acts`, `C154_read`, `C154_all`, `C154_history`, `C154_timelines_partial`, `C154_transformation_refuted` | The timelines of transformations are excepted, since they can't be read once they are animated (C154_transformation_refuted). Canvases are layers, C148. Which parameter a name means, and the speed of the canvas, are those of the document at that step. |
| C155 | A program that makes layers, moves them and sets their parameters, timelines and attributes does what it would do to lists, variables and dictionaries | WldSpec.v: lists, variables and dictionaries; WldProofs.v: an attribute is set; WldProofs2.v: a layer is made (by computation for all classes: there are no layers in its tag, and only groups have canvases); each step, and induction on the program. | proved | `C155_program`, `C155_all`, `C155_new`, `C155_last` | WldSpec.v says what each step means. Which parameter a name means, and the speed of the canvas, are those of the document at that step. C155_last is for values other than None. |
| C156 | What a program has made of an animation is what is read after it is saved and loaded | EndProofs.v: each step of a program is a list of edits in the sense of C127, so C147 applies; the attributes of the animation stay; EndProofs2.v: induction on the size of a layer, with the lemmas of C146; the attributes that the parser makes are strings; timelines: reading a waypoint commutes with writing, and the dictionary is made by times only. | partial | `C156_saved`, `C156_last`, `C156_waypoints`, `C156_refuted` | EndSpec.v says what it means that a layer of the loaded document is as the lists, variables and dictionaries of C155 say (told, by recursion into groups), and that timelines are steady; C156_waypoints: waypoints at whole frames are. Descriptions are of one line: those of more lines are joined (C156_refuted). Values whose tags aren't solid (with blank texts) are left to C147, and layers aren't put into themselves. The FPS is that of the animation as it was made or loaded. |
| C157 | Assigning to the value of a waypoint changes this waypoint only | WpvModel.v and WpvProofs.v: the dictionary of waypoints has as many entries as there are tags, so it lists the tags; changing the i-th tag changes the i-th entry of the list; the times stay, so the order does. The rest is set_value (C15 to C25). | partial | `C157_waypoint_partial`, `C157_values`, `C157_stores_partial`, `C157_errors`, `C157_missing`, `C157_static`, `C157_x_y_refuted`, `C157_spelling_refuted` | WpvModel.v: a waypoint is a new object, but its value is a view of the tag in the document. Missing for timeline[t]: times given as strings (C36_getting_refuted), values in which the letters x_y occur (refuted), types that aren't in small letters (refuted: the timeline can't be read any more). Transformations, gradients and canvases whose setters raise half way: C157_values says what then is in the waypoint. |
| C158 | Setting a parameter of all layers that say something does that and nothing else (stroop.py) | TutModel.v, TutProofs.v: the loop is a program of assignments (WldSpec.v), so that C155 and C156 apply: induction over the layers found, each step replaces one variable. Which layers are found: find_all calls the field text, which only the class Text has. | proved | `C158_recolour`, `C158_saved`, `C158_stops` | TutModel.v, TutSpec.v. The documents are usual ones (MovSpec.v: all layers are of known types, groups have a canvas). C158_nonvacuous is the program as it is, with docs/examples/colours.sif as it is (TutFile.v). |
| C159 | Translating all texts translates each of them once and changes nothing else (french.py) | As C158. The text that is read in each step is still the old one, since no earlier step has written this variable. | proved | `C159_translate`, `C159_saved` | TutModel.v, TutSpec.v. Text layers may not share a text (one inside another could), and no parameter is called type_ (C47). C159_nonvacuous is the program as it is, with docs/examples/colours.sif as it is (TutFile.v). |
| C160 | What the animation is like, and what its layers are like, do not get in each other's way, and both survive saving and loading | One step at a time, as C155, with one more dictionary; the lemmas about changing attributes hold for any tag that is not inside a value, and the root is one. Saving and loading as in C156. | proved | `C160_program`, `C160_times`, `C160_saved` | PgmSpec.v, on WldSpec.v and EndSpec.v. The description of the animation isn't among the fields (C107 has that, and how it can go wrong). Steps are those for which the variables say what happens (pacts_mean); in C160_saved, strings are of one line and frame rates are doubles. |
| C161 | What is copied from one layer to another is a copy | The copy is read from the document as the value of a variable, and is then one assignment of C155; a step changes no variable but the one it names, and new layers have new ones. By induction on the program. | partial | `C161_untouched`, `C161_independent`, `C161_arrives_partial`, `C161_numbers_refuted` | PgmSpec.v (PCopy), so that C160_program and C160_saved hold of programs with copies, too. C161_numbers_refuted: numbers and angles of the same kind can't be copied, for any documents and values: TypeError is raised, and the parameter keeps its value. C161_independent holds of all kinds of values; what arrives of vectors, gradients and transformations is in C71. Assigning a value to itself is in CpyModel.v (C71_itself). |
| C162 | A layer moved to another animation is in that one only, and its times are read with that one's frame rate | C41 to C43 give the document without the layer; a canvas directly in a document is found again there, and the frame rate is that of the last but one ancestor, which a tag has once. The times are those of C01 at both rates. | proved | `C162_moved`, `C162_params`, `C162_times` | TwoSpec.v. When the move succeeds, and what it raises otherwise, is in C41, C42 and C43. The layer is of the other animation, so no cycle can arise. |
| C163 | Values can be turned into texts of attributes and back | By cases on the type, with the round trips of numbers (C48, C72). The other direction is one line that raises. | partial | `C163_text_partial`, `C163_back_refuted` | UtilModel.v. type_and_str_to_value raises NameError always (util.py:24 uses v, its parameter is s). Nothing in the package calls either. |
| C164 | The layers of a canvas can be read and set as its value | Clearing a tag is a function on trees with numbers; by induction on the forest it permutes the numbers and changes no other tag. What bs4 does with a layer object in place of a tag is by cases on its parent. | partial | `C164_read`, `C164_assigned`, `C164_never_refuted`, `C164_layers_raise`, `C164_itself_refuted` | CanvModel.v. Only the empty list can be assigned. The setter clears the canvas, and then passes layer objects to bs4 in place of their tags, which raises AttributeError (canvas.py:34), so every other list leaves the canvas empty (C164_assigned) and its layers out of the document (C164_itself_refuted). |
| C165 | A layer is found by what was assigned to its parameters | What find_all compares is split by the class of the value; each is shown equal to what was assigned from the theorems about storing (C15 to C24), and a number with k decimals is shown to be a fixed point of storing. | partial | `C165_equal_partial`, `C165_found_partial`, `C165_one`, `C165_extends`, `C165_refuted`, `C165_text`, `C165_classes`, `C165_times`, `C165_found_times`, `C165_vectors_exactly`, `C165_colours_exactly` | FndModel.v: find_all with all classes but Canvas. Proved for integers, truth values, angles, strings, hex colours, reals up to 1e11 (they are compared with a tolerance), vectors with ten decimals, colour tuples with six, times in whole frames, transformations and gradients made of such parts. Refuted for others (C165_refuted): vectors and colours are rounded when stored and compared exactly, so that a layer at (1/3, 0) isn't found. C165_vectors_exactly and C165_colours_exactly say just when they are. |
| C166 | A timeline assigned to another value is a copy of it | Writing the waypoints and reading them is proved for any rate, generalising C79; the saved form is the text of the first rate, which is parsed at the second one, by the theorems about T (C06 to C10). | partial | `C166_copied`, `C166_same_rate`, `C166_itself`, `C166_static`, `C166_both_static`, `C166_saved`, `C166_saved_same_rate`, `C166_other_type_refuted`, `C166_saved_refuted`, `C166_lost_refuted` | CtlModel.v. In memory the waypoints of the copy are at the same frames at every rate (C166_copied); at the same rate that is the same timeline, also after saving. Refuted for different rates: what is saved are the seconds and frames of the first document, so every waypoint after the first second moves when the file is loaded (C166_saved_refuted, an equivalence), and two can fall together so that one is lost (C166_lost_refuted). Refuted for other types: they are accepted, and the timeline can't be read afterwards (C166_other_type_refuted). Saving is proved for whole frames and rates up to 1e6. |
| C167 | Changing the frame rate keeps every waypoint where the file will have it | C160 gives the document after the assignment; histories of timelines (C28) are read at the new rate as in C166, in memory and from the file. | partial | `C167_set`, `C167_texts`, `C167_assigned`, `C167_saved`, `C167_refuted` | RatProps.v. Nothing but the rate changes (C167_set) and texts are read at the new rate (C167_texts). Refuted for waypoints that were set by the program (C167_refuted, an equivalence): in memory they stay at the same frames (C167_assigned), and the file has the seconds and frames of the old rate (C167_saved), which are the same only in the first second, or if the rate didn't change. C167_saved is for whole frames and rates, and for new rates that aren't lower or times that stay in order. |
| C168 | Every object for a parameter shows what is in the document | A machine of numbered tags, one of them in the document, and objects that each hold one; induction over histories of acts. | partial | `C168_one_object`, `C168_several_partial`, `C168_left_behind_refuted`, `C168_never_arrives_refuted`, `C168_left_behind_stays`, `C168_again`, `C168_items_refuted`, `C168_put`, `C168_apart` | AliProps.v. Proved for whatever is done through one object (C168_one_object), and for any number of objects of a class while no act ends an animation (C168_several_partial). Refuted in general: when an animation is ended by one object, or when layer['k'] is assigned to, the other objects are left with a tag out of the document, animated and empty (C168_left_behind_refuted, C168_items_refuted), and nothing done through them arrives any more (C168_never_arrives_refuted). Getting the object again mends it (C168_again). Values on the right-hand side of an assignment are taken from other parameters. |
| C169 | A waypoint that a program holds stays a waypoint of the timeline | A machine of held waypoints, each a view of a slot of the timeline or on its own; refinement of acts on lists of waypoints by induction over histories (with C28 and C157 for the steps). | partial | `C169_histories_partial`, `C169_shared_partial`, `C169_own_refuted`, `C169_put_back_partial`, `C169_left_behind_refuted` | HldProps.v. What really happens, for all histories: C169_histories_partial refines HldSpec.v (what is missing: as in C28 and C157). Assignments to the value are in the document, and seen by other objects for it, until the timeline is written (C169_shared_partial). Refuted: assignments to before, after and time change nothing in the document (C169_own_refuted) until the waypoint is put back (C169_put_back_partial); and whenever the timeline is written, all held waypoints are left behind for good (C169_left_behind_refuted). |
| C170 | The parts of a transformation or gradient can be changed in place | PrtModel has the edit of a part by its name, over the editing machine of WrSpec, and the assignment to a colour of a gradient; programs of edits are shown by induction to act on each part by itself; the loss of pos is a theorem about all plain gradients. | partial | `C170_parts`, `C170_read`, `C170_one`, `C170_stops_refuted`, `C170_saved`, `C170_results`, `C170_stop_partial` | PrtProps.v. True of transformations, for all programs (C170_parts, C170_read, C170_one). Refuted for gradients: any colour that is assigned in place loses the pos attribute, and the gradient can't be read any more (C170_stops_refuted). |
| C171 | The parts of vectors and transformations are attributes of them, and values can be copied | OatModel has the dictionary of an object and the lookup of attributes, with the depth of the stack as a number; that the lookup of _tag in an empty transformation never ends is an induction over the depth; programs of assignments by induction. | partial | `C171_read`, `C171_assignment_refuted`, `C171_histories_partial`, `C171_copy_refuted`, `C171_copy` | OatProps.v. Reading is true (C171_read). Assigning is refuted: there is no __setattr__, so it never changes the document, and only that object shows it (C171_assignment_refuted; C171_histories_partial says it for all programs. Missing: names which the classes use for something else). Copying a transformation is a RecursionError at any depth of the stack (C171_copy_refuted); any other copy is an object for the same tag (C171_copy). |
| C172 | A layer is equal to itself | IdnModel numbers the objects in the order in which they are made; that results of calls are new is an invariant over all programs; comparing tags is shown to decide whether a layer is among the children of LayModel. | partial | `C172_kept`, `C172_never_equal_refuted`, `C172_in_refuted`, `C172_tags`, `C172_alike_refuted`, `C172_moved`, `C172_inserted` | IdnProps.v. Refuted: every access makes a new object, and Layer has no __eq__, so no two results of any program are ever equal (C172_never_equal_refuted), and no layer is ever among the children of a group (C172_in_refuted). The tags compared with == can be alike for different layers (C172_alike_refuted). True: objects keep to their layer (C172_kept), and comparing the tags with `is` gives the right answer (C172_tags). |
| C173 | A description that is refused leaves the one that was there | the setter of bs4 as the two steps it does, emptying the tag and then appending; histories by induction on the list of assigned values | partial | `C173_history_partial`, `C173_lost_refuted`, `C173_none` | DscProps2.v. Refuted: bs4 empties the tag before it looks at the value, so a number, None or a container raises and the description is lost, in every document (C173_lost_refuted). True: after any history of plain values nothing but that tag is changed and the description is what the last assignment left (C173_history_partial); without a description nothing changes (C173_none). Missing: assigning a T or a Value object. |
| C174 | What was saved is read back, whatever the encoding of the locale | EncModel.v has loading with any decoder; the reader is followed step by step on the bytes of a text, by induction over the text. | partial | `C174_sifz`, `C174_ascii_partial`, `C174_page`, `C174_refuted`, `C174_latin1`, `C174_grows`, `C174_goes_on`, `C174_encodings` | EncProps.v. Refuted: .sif files are written in UTF-8 but opened with the encoding of the locale. With any encoding in which each byte is a character, such as windows-1252, every document with a character outside ASCII is refused or read back wrongly (C174_refuted; C174_page: exactly which document is read, for every plain file); with ISO-8859-1 it's never refused (C174_latin1). True: .sifz files are read back in every locale (C174_sifz), and .sif files if all text is in ASCII and the locale knows ASCII (C174_ascii_partial). Missing: encodings with several bytes for a character, other than UTF-8. |
| C175 | A time made of a time is the same time, and its numbers are its frames | TcpModel.v; by cases on the sign of the frames, with C06 for those before 0. | partial | `C175_copy_partial`, `C175_int`, `C175_whole_partial`, `C175_unanchored_refuted`, `C175_negative_refuted` | TcpProps.v. Refuted: a time before 0 is taken as counted from the end once more, so T(t, ref) is later than t by the length of the animation (C175_negative_refuted), or a ValueError without ref (C175_unanchored_refuted). True of all other times (C175_copy_partial, C175_whole_partial up to 2^53 frames). What int(t) is, for all times: C175_int. |
| C176 | The template replacer works in every locale | RlcModel.v has the replacer with any encoding; the proofs about its lines are those for C66, and encoding is by induction over the text. | partial | `C176_partial`, `C176_refuted`, `C176_utf8`, `C176_page`, `C176_mixed_refuted` | RlcProps.v. True of every encoding that has all characters of the fields: all lines outside of blocks keep their bytes (C176_partial; up to ends of lines, as in C66), where encodings are UTF-8 (C176_utf8) and all those in which each byte is a character (C176_page). Refuted: a character which the locale hasn't got is an error that leaves an empty file behind (C176_refuted), and a field with a character outside ASCII makes a source file in UTF-8 invalid (C176_mixed_refuted). |
| C177 | A part of a transformation that is held stays a part of it | HpaModel.v has generations of tags: clearing a transformation begins a new one, and an object that is held refers to the one it was got from. The statements about histories are by induction over them. | partial | `C177_get`, `C177_partial`, `C177_refused`, `C177_refuted`, `C177_lost_refuted`, `C177_apart`, `C177_either` | HpaProps.v. True until the transformation itself is assigned to (C177_get, C177_partial), also if that is refused for its keys (C177_refused). Refuted: every assignment to the transformation that gets past the keys, even one that raises then, leaves all parts behind that were held (C177_refuted), and what is assigned to these is never in the transformation (C177_lost_refuted). Only assignments to value are modelled, not timelines of parts. |

## 5. Trusted base

* Coq 8.16.1's kernel, with its `vm_compute` conversion.
* The axioms that `Print Assumptions` lists: see section 6.
* That the definitions in the `*Model.v` files (and `ClsTable.v`) describe the Python code, with the simplifications listed above and in
  their comments. This was done by reading: the code was not run. Theorems were tested against edited models; see `seeded/LOG.jsonl`.
* That the definitions in the `*Spec.v` files say what the English says.

## 6. Assumptions printed

`Print Assumptions` stands below every theorem of the `*Props*.v` files and prints `Closed under the global context` for each of them:
no theorem of this development rests on an axiom, neither one of our own nor one of the standard library.

The check of the compiled files as a whole (`coqchk`, `vcheck`) also lists, for the libraries that are loaded, the fields of the
standard library's module type `Coq.ssr.ssrunder.Under_rel` (`Under_rel`, `Under_rel_from_rel`, `Under_relE`, `Over_rel`, `over_rel`,
`over_rel_done`, `under_rel_done`). They come with `Coq.ssr`, which is loaded by a library that we import; no theorem uses them.
