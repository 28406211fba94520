{"id": "C01", "title": "Integer time specifications mean what they say", "statement": "T(spec, ref), where spec is any list of distinct h/m/s/f parts with whole-number counts, in any order and with any amount of whitespace (or none) between the parts, succeeds and denotes (3600h+60m+s)*fps + f frames (minus f frames if the seconds part is negative).", "quantifier": "all integer part values, all orders and subsets of the four units, all whitespace separators, all whole FPS, as long as the partial sums stay below 2^53", "why_tests_cant": "infinitely many spellings and numbers; a test fixes a handful", "anchors": ["sangfroid/t.py:T.__init__", "sangfroid/t.py:T._parse_time_spec", "sangfroid/t.py:TIMESPEC_RE"]}
{"id": "C02", "title": "Printing a time and parsing it back gives the same time", "statement": "For every T, T(str(t), ref) == t when ref has t's FPS.", "quantifier": "all frame counts and all FPS", "why_tests_cant": "the failing cases are tiny or negative times that no test tries; the passing cases depend on float rounding of frames/fps for every pair", "anchors": ["sangfroid/t.py:T.__str__", "sangfroid/t.py:T._parse_time_spec"]}
{"id": "C03", "title": "Times are totally ordered by frame count", "statement": "For Ts whose FPS are not in conflict, exactly one of a<b, a==b, a>b holds, <= and >= are the matching unions, and < is transitive; all six agree with comparing the frame counts.", "quantifier": "all pairs and triples of T values", "why_tests_cant": "an order law ranges over all triples", "anchors": ["sangfroid/t.py:T._compare", "sangfroid/t.py:T.__lt__", "sangfroid/t.py:T.__eq__"]}
{"id": "C04", "title": "Comparing times of different speed is refused exactly when documented", "statement": "Comparing two Ts raises ValueError iff both FPS are known, differ, and (per the documentation) a frame count is non-zero.", "quantifier": "all pairs of T", "why_tests_cant": "quantifies over all pairs; the zero exemption is easily missed", "anchors": ["sangfroid/t.py:T._compare"]}
{"id": "C05", "title": "Equal times hash equally", "statement": "If a == b for two Ts then hash(a) == hash(b), so T works as a dictionary key.", "quantifier": "all pairs of T", "why_tests_cant": "needs all pairs incl. pairs from differently anchored refs", "anchors": ["sangfroid/t.py:T.__hash__", "sangfroid/t.py:T.__eq__"]}
{"id": "C06", "title": "Negative frame numbers count back from the end of the animation", "statement": "T(-n, ref) is the n-th last frame of the animation: T(-1) is the end time.", "quantifier": "all n, all begin and end times, all FPS", "why_tests_cant": "tests only use begin-time 0", "anchors": ["sangfroid/t.py:T.__init__"]}
{"id": "C07", "title": "frames, seconds and FPS are consistent", "statement": "t.seconds is frames/fps correctly rounded; for a T built from whole seconds it is exactly that number; it raises ValueError iff FPS is unknown and frames is non-zero.", "quantifier": "all T", "why_tests_cant": "floating-point statement over all doubles", "anchors": ["sangfroid/t.py:T.seconds"]}
{"id": "C08", "title": "Malformed time specifications are rejected", "statement": "T(s) raises ValueError unless s is a sequence of number+unit parts with each unit (h, m, s, f) at most once.", "quantifier": "all strings", "why_tests_cant": "the set of malformed strings is infinite", "anchors": ["sangfroid/t.py:T._parse_time_spec"]}
{"id": "C09", "title": "A repeated unit is rejected", "statement": "T(s) raises ValueError whenever the same unit occurs twice in s.", "quantifier": "all specs with a repeated unit", "why_tests_cant": "infinitely many positions and numbers", "anchors": ["sangfroid/t.py:T._parse_time_spec"]}
{"id": "C10", "title": "Seconds need an anchored reference", "statement": "Without an anchored ref, T(s) raises ValueError for every well-formed spec with non-zero seconds, and succeeds for frames-only specs and for zero; and with a sub-second part of seconds, a negative frame part is rejected.", "quantifier": "all integer specs, all sign combinations", "why_tests_cant": "infinite input space", "anchors": ["sangfroid/t.py:T._parse_time_spec"]}
{"id": "C11", "title": "Every tag of an animation gives the same time reference", "statement": "Using any tag inside the animation document as ref (the root canvas, any layer however deep, even inside nested inline canvases) yields the FPS of the outermost canvas; a tag of a layer that is in no document (its outermost tag has no canvas directly inside it) yields no reference.", "quantifier": "all documents, all tags at any depth", "why_tests_cant": "depth and shape of the document are unbounded", "anchors": ["sangfroid/t.py:_canvas_root"]}
{"id": "C12", "title": "Non-positive FPS never produces a time", "statement": "If the root canvas has fps <= 0, T(...) raises ValueError, so every T has fps None or > 0.", "quantifier": "all values and refs", "why_tests_cant": "ranges over all inputs", "anchors": ["sangfroid/t.py:T.__init__"]}
{"id": "C13", "title": "Class lookup ignores case and underscores", "statement": "Looking up a handler for any two names which differ only in letter case and underscores gives the same answer.", "quantifier": "all registration histories and all names", "why_tests_cant": "all histories and names", "anchors": ["sangfroid/registry.py:Registry", "sangfroid/util.py:normalise_synfig_layer_type_name"]}
{"id": "C14", "title": "The last registration wins and disturbs nothing else", "statement": "After registering a handler for name n, looking n up gives that handler and every lookup of a name that is not equivalent to n is unchanged; lookup raises KeyError iff no equivalent name was ever registered.", "quantifier": "all registration histories", "why_tests_cant": "all histories", "anchors": ["sangfroid/registry.py:Registry"]}
{"id": "C15", "title": "Integer values survive storing", "statement": "For every int n, Integer(n).value == n and reading the stored attribute back gives n.", "quantifier": "all integers", "why_tests_cant": "unbounded", "anchors": ["sangfroid/value/simple.py:Integer"]}
{"id": "C16", "title": "Bool values survive storing", "statement": "For every Python truth value b, Bool(b).value == b, and every stored attribute reads as a bool without raising.", "quantifier": "all bools and all stored strings", "why_tests_cant": "all strings", "anchors": ["sangfroid/value/simple.py:Bool"]}
{"id": "C17", "title": "Real values survive storing to within 5e-11 and re-storing is stable", "statement": "Real(x).value is the ten-decimal number nearest to x, so it differs from x by at most half of 1e-10 plus float rounding; storing the value that was read gives the same value again.", "quantifier": "all finite doubles", "why_tests_cant": "2^64 inputs", "anchors": ["sangfroid/value/simple.py:Real"]}
{"id": "C18", "title": "Angle values survive storing", "statement": "For every finite double x, Angle(x).value == x exactly, also after saving and loading.", "quantifier": "all finite doubles", "why_tests_cant": "2^64 inputs", "anchors": ["sangfroid/value/simple.py:Angle"]}
{"id": "C19", "title": "Failed assignment leaves a simple value unchanged", "statement": "If assigning to a Real/Integer/Angle/Bool/Time/Color value raises, its stored XML is unchanged.", "quantifier": "all right-hand sides and all prior states", "why_tests_cant": "all inputs and histories", "anchors": ["sangfroid/value/simple.py", "sangfroid/value/color.py"]}
{"id": "C20", "title": "Real equality is a symmetric tolerance, not an equivalence", "statement": "Real(x) == y iff |x-y| <= 0.0001 (up to the rounding of the difference); the relation is symmetric and reflexive; users relying on transitivity are wrong.", "quantifier": "all doubles", "why_tests_cant": "2^128 pairs", "anchors": ["sangfroid/value/simple.py:Real.__eq__"]}
{"id": "C21", "title": "String values survive storing", "statement": "For every string s, String(s).value == s, and it is still s after the file is saved and loaded.", "quantifier": "all strings", "why_tests_cant": "all strings incl. the empty one", "anchors": ["sangfroid/value/string.py:String"]}
{"id": "C22", "title": "Colours survive the hex notation", "statement": "For all 8-bit r, g, b, a: Color from '#rrggbb'/'#rrggbbaa' (any letter case) prints back as that hex, with alpha printed iff it isn't ff.", "quantifier": "all 2^32 colours and all letter cases", "why_tests_cant": "2^32 cases x cases of letters", "anchors": ["sangfroid/value/color.py:Color"]}
{"id": "C23", "title": "Colour tuples survive to 6 decimals", "statement": "Setting a colour from a tuple of floats and reading it gives each component rounded to 6 decimals, alpha 1 if it was not given.", "quantifier": "all component doubles", "why_tests_cant": "2^256 inputs", "anchors": ["sangfroid/value/color.py:Color"]}
{"id": "C24", "title": "Vector: reading gives what was last assigned", "statement": "After vector.value = (x, y), the tuple, the items ['x'], ['y'] and the attributes .x, .y are all x and y.", "quantifier": "all vectors and assignment histories", "why_tests_cant": "histories", "anchors": ["sangfroid/value/vector.py:Vector"]}
{"id": "C25", "title": "Assigning one key of a composite leaves the others alone", "statement": "group.offset = p (or transformation['offset']) changes only offset: angle, skew_angle and scale keep their values.", "quantifier": "all transformations and assignments", "why_tests_cant": "histories", "anchors": ["sangfroid/value/transformation.py", "sangfroid/field.py:ShortcutField"]}
{"id": "C26", "title": "Composite round trip", "statement": "Assigning a full dict to a composite and reading the keys back gives the assigned values; unknown keys raise KeyError and change nothing.", "quantifier": "all dicts over the keys", "why_tests_cant": "all values", "anchors": ["sangfroid/value/transformation.py"]}
{"id": "C27", "title": "Gradients: reading gives what was assigned", "statement": "After gradient[pos] = colour, gradient[pos] is that colour, other positions are unchanged and positions stay sorted; fewer than two colours raises ValueError.", "quantifier": "all gradients with distinct printed positions", "why_tests_cant": "histories", "anchors": ["sangfroid/value/gradient.py"]}
{"id": "C28", "title": "A timeline is a map from times to waypoints", "statement": "After timeline[t] = x, timeline[t] is a waypoint with value x and every other time reads as before.", "quantifier": "all reachable timelines, all times and values", "why_tests_cant": "arbitrary edit histories", "anchors": ["sangfroid/value/value.py:Timeline"]}
{"id": "C29", "title": "Waypoints are stored sorted and unique", "statement": "After any sequence of timeline edits, the waypoints in the XML are strictly increasing in time.", "quantifier": "all operation sequences", "why_tests_cant": "arbitrary histories", "anchors": ["sangfroid/value/value.py:Value._set_waypoints"]}
{"id": "C30", "title": "Deleting a waypoint removes exactly it", "statement": "del timeline[t] removes the waypoint at t and no other; if there is none it raises KeyError and changes nothing.", "quantifier": "all timelines and times", "why_tests_cant": "arbitrary histories", "anchors": ["sangfroid/value/value.py:Timeline.__delitem__"]}
{"id": "C31", "title": "Deleting the last waypoint leaves its value", "statement": "Deleting the only remaining waypoint turns the value into a static one equal to that waypoint's value.", "quantifier": "all values and waypoints", "why_tests_cant": "all values", "anchors": ["sangfroid/value/value.py:Timeline.__delitem__"]}
{"id": "C32", "title": "Adding without overwrite never loses data", "statement": "timeline.add(ws) raises ValueError if any new waypoint clashes with an existing one, and then nothing is changed; otherwise all old and new waypoints are present.", "quantifier": "all timelines and all lists of new waypoints", "why_tests_cant": "arbitrary sizes", "anchors": ["sangfroid/value/value.py:Timeline.add"]}
{"id": "C33", "title": "Adding with overwrite replaces exactly the clashing waypoints", "statement": "timeline.add(ws, overwrite=True) leaves every waypoint at a time not in ws untouched and has ws at all their times.", "quantifier": "all timelines and lists of new waypoints", "why_tests_cant": "arbitrary sizes", "anchors": ["sangfroid/value/value.py:Timeline.add"]}
{"id": "C34", "title": "Animating and un-animating is the identity", "statement": "is_animated=True followed by is_animated=False gives the original value back.", "quantifier": "all static values in a document", "why_tests_cant": "all values", "anchors": ["sangfroid/value/value.py:Value._set_animated"]}
{"id": "C35", "title": "Interpolation names are canonical", "statement": "A waypoint accepts exactly the documented interpolation names and synonyms; canonicalising twice is the same as once; anything else raises ValueError.", "quantifier": "all strings", "why_tests_cant": "all strings", "anchors": ["sangfroid/value/value.py:Waypoint"]}
{"id": "C36", "title": "String times work as timeline keys both ways", "statement": "If timeline['1s'] = x succeeds, then timeline['1s'] reads x and '1s' can be deleted.", "quantifier": "all time strings", "why_tests_cant": "all strings", "anchors": ["sangfroid/value/value.py:Timeline.__getitem__"]}
{"id": "C37", "title": "Times before the start are kept", "statement": "A waypoint set at a negative time is found at that time.", "quantifier": "all negative times", "why_tests_cant": "all times", "anchors": ["sangfroid/value/value.py:Timeline", "sangfroid/t.py:T.__init__"]}
{"id": "C38", "title": "A failed timeline operation changes nothing", "statement": "If an operation on a timeline raises, the timeline is as it was before.", "quantifier": "all timelines and operations", "why_tests_cant": "fault at any point", "anchors": ["sangfroid/value/value.py:Timeline"]}
{"id": "C39", "title": "in-place add works", "statement": "value.timeline += waypoint adds the waypoint and does not raise.", "quantifier": "all values and waypoints", "why_tests_cant": "all states", "anchors": ["sangfroid/value/value.py:Timeline.__iadd__"]}
{"id": "C40", "title": "Children are the reverse of document order", "statement": "list(group.children) is exactly the layer tags directly in the group's canvas, each once, last first.", "quantifier": "all groups", "why_tests_cant": "unbounded", "anchors": ["sangfroid/layer/group.py:Group._get_children"]}
{"id": "C41", "title": "append puts a layer at the end", "statement": "After group.append(layer) (layer not inside the group yet), children is the old children followed by layer, and nothing else in the document changes.", "quantifier": "all groups and layers", "why_tests_cant": "unbounded", "anchors": ["sangfroid/layer/group.py:Group.append"]}
{"id": "C42", "title": "insert behaves like list.insert", "statement": "After group.insert(i, layer), children is the old list with layer inserted before the child that had index i; IndexError iff i is out of range.", "quantifier": "all groups, all integer indexes", "why_tests_cant": "unbounded", "anchors": ["sangfroid/layer/group.py:Group.insert"]}
{"id": "C43", "title": "Moving a layer never duplicates or loses it", "statement": "append/insert of a layer that already lives somewhere moves it: it is present exactly once afterwards and all other layers stay present in their order.", "quantifier": "all documents and layers", "why_tests_cant": "aliasing over arbitrary trees", "anchors": ["sangfroid/layer/group.py:Group.append", "sangfroid/layer/group.py:Group.insert"]}
{"id": "C44", "title": "len agrees with the children", "statement": "len(group) == len(list(group.children)) == len(list(group)).", "quantifier": "all groups", "why_tests_cant": "unbounded nesting", "anchors": ["sangfroid/layer/layer.py:Layer.__len__"]}
{"id": "C45", "title": "descendants is complete", "statement": "group.descendants yields every layer nested at any depth exactly once.", "quantifier": "all nesting depths", "why_tests_cant": "unbounded nesting", "anchors": ["sangfroid/layer/group.py:Group.descendants"]}
{"id": "C46", "title": "find_all(True) finds every layer once, in document order", "statement": "layer.find_all(True) lists all layers at any depth below, each once, in document order; find_all(False) and find_all() list none; find is the first of find_all or None.", "quantifier": "all documents", "why_tests_cant": "unbounded nesting", "anchors": ["sangfroid/layer/layer.py:Layer.find_all"]}
{"id": "C47", "title": "find_all by type finds exactly the layers of that type", "statement": "find_all('name') returns exactly the layers whose type is name up to case and underscores.", "quantifier": "all documents and type names", "why_tests_cant": "unbounded", "anchors": ["sangfroid/layer/layer.py:Layer.find_all"]}
{"id": "C48", "title": "Several criteria all apply", "statement": "find_all(k1=v1, k2=v2) returns layers matching both.", "quantifier": "all documents and criteria", "why_tests_cant": "unbounded", "anchors": ["sangfroid/layer/layer.py:Layer.find_all"]}
{"id": "C49", "title": "recursive=False searches the immediate children", "statement": "group.find_all(True, recursive=False) returns exactly the group's children.", "quantifier": "all groups", "why_tests_cant": "unbounded", "anchors": ["sangfroid/layer/layer.py:Layer.find_all"]}
{"id": "C50", "title": "Parameter access is local to the layer", "statement": "layer[name], name in layer and field access read and write the layer's own parameter, never one of a layer nested in it, and agree with items().", "quantifier": "all documents", "why_tests_cant": "nesting", "anchors": ["sangfroid/layer/layer.py:Layer.__getitem__", "sangfroid/field.py:ParamTagField"]}
{"id": "C51", "title": "Setting a parameter is read back and disturbs nothing else", "statement": "After layer[name] = value, layer[name] is value, other parameters and other layers are unchanged; KeyError and no change if the parameter doesn't exist.", "quantifier": "all layers, names, values", "why_tests_cant": "frame condition over all documents", "anchors": ["sangfroid/layer/layer.py:Layer.__setitem__"]}
{"id": "C52", "title": "Attribute fields round-trip", "statement": "layer.active = b, layer.exclude_from_rendering = b, layer.desc = s/None read back as assigned and leave other attributes unchanged.", "quantifier": "all values and layers", "why_tests_cant": "all strings", "anchors": ["sangfroid/field.py:TagAttrField", "sangfroid/field.py:DescField"]}
{"id": "C53", "title": "Layer depth and parent agree with nesting", "statement": "tag_depth is the number of enclosing layers, parent is the nearest one (None at depth 0), and parent's depth is one less.", "quantifier": "all documents and layers", "why_tests_cant": "unbounded nesting", "anchors": ["sangfroid/layer/layer.py:Layer.tag_depth", "sangfroid/layer/layer.py:Layer.parent"]}
{"id": "C54", "title": "A new layer carries its type and all default parameters", "statement": "C() for every layer class C has type attribute resolving back to C and exactly one param per declared parameter field, each holding its default, readable through the field.", "quantifier": "all layer classes and all their fields", "why_tests_cant": "cross product of all classes and fields", "anchors": ["sangfroid/layer/layer.py:Layer._construct_empty_tag", "sangfroid/layer/tbd.py"]}
{"id": "C55", "title": "end_time is the animation's end", "statement": "animation.end_time equals the end-time stored in the file.", "quantifier": "all files", "why_tests_cant": "all files", "anchors": ["sangfroid/animation.py:Animation"]}
{"id": "C56", "title": "What save writes, load reads", "statement": "After animation.save(filename) with a supported extension, loading that file gives the same document.", "quantifier": "all documents, all file names, all prior states of the file system", "why_tests_cant": "all documents", "anchors": ["sangfroid/animation.py", "sangfroid/format.py"]}
{"id": "C57", "title": "save() goes back to the last file name, in its format", "statement": "save() with no name writes the file last loaded from or saved to, in that file's format; it never touches any other file.", "quantifier": "all sequences of load and save", "why_tests_cant": "histories", "anchors": ["sangfroid/format.py"]}
{"id": "C58", "title": "A failed save as does not change where save() writes", "statement": "If save(filename) raises, a later save() still writes the previous file.", "quantifier": "all histories", "why_tests_cant": "histories with faults", "anchors": ["sangfroid/format.py"]}
{"id": "C59", "title": "A crash during save never loses the old file", "statement": "If the process dies at any point during save(), the file holds either the complete old or the complete new content.", "quantifier": "all crash points", "why_tests_cant": "crash points", "anchors": ["sangfroid/format.py"]}
{"id": "C60", "title": "Keyframes: iteration and length agree with the document", "statement": "len(keyframes) is the number of keyframes iterated, which are all the keyframe tags of the document, each once, in the order they have in the file; each keyframe's time is read with the animation's FPS.", "quantifier": "all documents", "why_tests_cant": "unbounded", "anchors": ["sangfroid/keyframe.py"]}
{"id": "C61", "title": "framecount is the number of frames", "statement": "Animation length in frames is int(end_time)-int(begin_time) as documented.", "quantifier": "all begin and end times", "why_tests_cant": "all times", "anchors": ["sangfroid/animation.py:Animation.__len__"]}
{"id": "C62", "title": "Words appear progressively and end at the whole line", "statement": "The texts bywords shows for a line are strictly growing prefixes of the line, the last is the whole line.", "quantifier": "all lines", "why_tests_cant": "all strings", "anchors": ["bywords/adjust.py"]}
{"id": "C63", "title": "Word times lie within the subtitle and never go back", "statement": "Times at which the words of a line appear are non-decreasing and lie between start and end.", "quantifier": "all lines and all start/duration pairs", "why_tests_cant": "all inputs", "anchors": ["bywords/adjust.py"]}
{"id": "C64", "title": "Every word gets its own time", "statement": "No word of the line is lost from the timeline.", "quantifier": "all lines and durations", "why_tests_cant": "all inputs", "anchors": ["bywords/adjust.py"]}
{"id": "C65", "title": "Only matched layers are touched", "statement": "Adjusting, whether it succeeds or raises, changes nothing in the document but the insides of the text layers that match a line; every layer that does not match, and is not inside or around one that does, is exactly as before. Each unmatched line is reported.", "quantifier": "all documents and subtitle files", "why_tests_cant": "all inputs", "anchors": ["bywords/adjust.py"]}
{"id": "C66", "title": "Text outside replaced blocks is preserved", "statement": "Replacing blocks in a source file leaves every line outside the named blocks exactly as it was.", "quantifier": "all files and replacements", "why_tests_cant": "all files", "anchors": ["sangfroid/template/replacer.py"]}
{"id": "C67", "title": "Replacing is idempotent", "statement": "Running the replacer on its own output changes nothing.", "quantifier": "all files and replacements", "why_tests_cant": "all files", "anchors": ["sangfroid/template/replacer.py"]}
{"id": "C68", "title": "Unbalanced markers are an error and the file is left alone", "statement": "A block that is unclosed, unopened or outside a class raises an error and the file on disk is unchanged.", "quantifier": "all files with unbalanced markers", "why_tests_cant": "all files", "anchors": ["sangfroid/template/replacer.py"]}
{"id": "C69", "title": "Replacer writes are crash-safe", "statement": "At every crash point of write_to the target holds the complete old or complete new content.", "quantifier": "all crash points", "why_tests_cant": "crash points", "anchors": ["sangfroid/template/replacer.py"]}
{"id": "C70", "title": "A failed assignment leaves a composite, gradient or canvas unchanged", "statement": "If assigning to a Transformation, Gradient or Canvas value raises, the value reads as before.", "quantifier": "all prior values and right-hand sides", "why_tests_cant": "the failure can come at any element of any right-hand side", "anchors": ["sangfroid/value/transformation.py:Composite.value", "sangfroid/value/gradient.py:Gradient.value", "sangfroid/value/canvas.py:Canvas.value"]}
{"id": "C71", "title": "Assigning a value of the same class copies it", "statement": "a.value = b, where b is a value of a's class, makes a read as b. So does a.value = a: it changes nothing.", "quantifier": "all values of each class", "why_tests_cant": "ranges over all stored values", "anchors": ["sangfroid/value/simple.py:Simple.value", "sangfroid/value/color.py:Color.value", "sangfroid/value/transformation.py:Composite.value"]}
{"id": "C72", "title": "Comparison returns a bool", "statement": "value == x returns True or False for every x and never raises, and is True only if they are equal.", "quantifier": "all values and all Python objects", "why_tests_cant": "all objects on the right-hand side", "anchors": ["sangfroid/value/simple.py:Simple.__eq__", "sangfroid/value/simple.py:Real._compare_with"]}
{"id": "C73", "title": "Values made without arguments are usable", "statement": "Real(), Integer(), Angle(), Bool(), Color(), String() and X_Y() are the zero, false, white or empty value of the class and can be read from the document.", "quantifier": "all value classes and contexts", "why_tests_cant": "finite in classes, but for all documents", "anchors": ["sangfroid/value/value.py:Value.__init__", "sangfroid/value/simple.py", "sangfroid/value/string.py", "sangfroid/value/vector.py"]}
{"id": "C74", "title": "The class of a stored value is recognised", "statement": "After any successful assignment, reading the tag again gives a value of the same class.", "quantifier": "all classes, prior tags and right-hand sides", "why_tests_cant": "ranges over all right-hand sides that are accepted", "anchors": ["sangfroid/value/value.py:Value.from_tag", "sangfroid/value/blendmethod.py:BlendMethod"]}
{"id": "C75", "title": "Times survive storing", "statement": "A number of frames assigned to a Time value is read back as that number of frames at the document's FPS, also after saving and loading.", "quantifier": "all frame counts and frame rates", "why_tests_cant": "all counts and rates", "anchors": ["sangfroid/value/simple.py:Time", "sangfroid/t.py:T"]}
{"id": "C76", "title": "Timelines survive saving and loading", "statement": "The waypoints of a timeline, their times, interpolations and values are the same after the document is saved and loaded.", "quantifier": "all histories of edits, all whole frame times", "why_tests_cant": "arbitrary histories and times", "anchors": ["sangfroid/value/value.py:Waypoint.tag", "sangfroid/t.py:T.__str__"]}
{"id": "C77", "title": "Iterating over a timeline goes forward in time", "statement": "for w in timeline gives every waypoint once, in order of time, whatever their order in the file.", "quantifier": "all timelines that can be read", "why_tests_cant": "arbitrary files", "anchors": ["sangfroid/value/value.py:Timeline.__iter__"]}
{"id": "C78", "title": "Equal timelines have equal waypoints", "statement": "Two timelines compare equal exactly if they have the same waypoints.", "quantifier": "all pairs of timelines", "why_tests_cant": "all pairs", "anchors": ["sangfroid/value/value.py:Timeline.__eq__", "sangfroid/value/value.py:Waypoint.__eq__"]}
{"id": "C79", "title": "Assigning a list to a timeline stores exactly it", "statement": "After value.timeline = ws the waypoints are those of ws, in order of time; an empty list leaves the first waypoint's value as a static value; anything else raises and changes nothing.", "quantifier": "all lists of waypoints at different times", "why_tests_cant": "arbitrary lists", "anchors": ["sangfroid/value/value.py:Value.timeline"]}
{"id": "C80", "title": "A waypoint reads back from its tag", "statement": "Reading the tag of a waypoint gives a waypoint with the same time, interpolations and value; a waypoint whose value is of another type than the timeline is not accepted.", "quantifier": "all waypoints", "why_tests_cant": "all waypoints", "anchors": ["sangfroid/value/value.py:Waypoint.tag", "sangfroid/value/value.py:Waypoint.from_tag"]}
{"id": "C81", "title": "A layer that is found is true", "statement": "A layer object is true in a condition, so that `if animation.find(...)` tells whether something was found.", "quantifier": "all layers, with and without sublayers", "why_tests_cant": "needs every layer tree; the truth value comes from __len__, which counts something else", "anchors": ["sangfroid/layer/layer.py:Layer.__len__", "sangfroid/layer/layer.py:Layer.find"]}
{"id": "C82", "title": "What a layer says does not depend on other layers", "statement": "Reading any field of a layer gives the same whatever other layers have been constructed before.", "quantifier": "all layers, fields, and histories of constructing layers", "why_tests_cant": "the dependence is on the whole history of the process", "anchors": ["sangfroid/layer/layer.py:Layer._construct_empty_tag", "sangfroid/field.py:Field.__set_name__", "sangfroid/layer/layer.py:Layer.version"]}
{"id": "C83", "title": "Misuse of find_all raises ValueError", "statement": "find_all with more than one positional argument, or with the same criterion given twice, raises ValueError.", "quantifier": "all argument lists", "why_tests_cant": "infinitely many argument lists", "anchors": ["sangfroid/layer/layer.py:Layer.find_all"]}
{"id": "C84", "title": "find_all with a function finds exactly what it accepts", "statement": "find_all(f) lists the layers for which f is true, each once, in document order.", "quantifier": "all functions, all documents", "why_tests_cant": "all functions on all trees", "anchors": ["sangfroid/layer/layer.py:Layer.find_all"]}
{"id": "C85", "title": "find_all with a class finds the layers of that class", "statement": "find_all(C) lists exactly the layers below that are of the class C.", "quantifier": "all documents, all layer classes", "why_tests_cant": "all trees and all classes", "anchors": ["sangfroid/layer/layer.py:Layer.find_all", "sangfroid/util.py:normalise_synfig_layer_type_name"]}
{"id": "C86", "title": "Text(x) has the text x", "statement": "Text(x) constructs a text layer whose text reads back as x.", "quantifier": "all strings", "why_tests_cant": "all strings", "anchors": ["sangfroid/layer/text.py:Text.__init__"]}
{"id": "C87", "title": "Times in params use the FPS of the animation", "statement": "Reading a param field of any layer of an animation, however deep, gives a value whose times are read with the FPS of the animation's root, and whose class is the one the field promises.", "quantifier": "all documents, all layers at any depth, all param fields", "why_tests_cant": "a test has layers at a few depths; the reference is found by climbing through any number of inline canvases", "anchors": ["sangfroid/field.py:ParamTagField", "sangfroid/t.py:_canvas_root", "sangfroid/value/value.py:Value.tag"]}
{"id": "C88", "title": "A field of the animation survives being saved", "statement": "After animation.field = v (for width, height, fps, version, xres, yres, antialias, bgcolor ...), reading the field gives v, no other such field changes and no layer changes; and after saving under any supported name and loading, the field still reads v. A field read from a file is what the file says.", "quantifier": "all documents, all fields kept in attributes, all values of the type of the field, all file names", "why_tests_cant": "ranges over all doubles and all integers written as text and read back, in any document", "anchors": ["sangfroid/animation.py:Animation", "sangfroid/field.py:TagAttrField", "sangfroid/format.py"]}
{"id": "C89", "title": "A save that raises leaves the files as they were", "statement": "If save raises an exception, every file has the content it had before.", "quantifier": "all documents, all file names, all states of the file system", "why_tests_cant": "depends on where in the middle of writing the exception comes from, for any document", "anchors": ["sangfroid/format.py:Format.save", "sangfroid/format.py:Sif.save", "sangfroid/format.py:Sifz.save"]}
{"id": "C90", "title": "A new animation can be saved, but needs a name", "statement": "Animation() never fails; save() without a name raises and writes nothing; save with any supported name works, and loading that file gives the document of Animation().", "quantifier": "all file names, all states of the file system", "why_tests_cant": "any name and any prior content of the file", "anchors": ["sangfroid/animation.py:Animation.__init__", "sangfroid/format.py:Blank"]}
{"id": "C91", "title": "Loading goes by the content of the file, not by its name", "statement": "Whether a file is read as .sif or .sifz depends only on its content; the same content under another name gives the same document; a missing file, an empty one, or one that begins like neither XML nor gzip is refused.", "quantifier": "all file contents and names", "why_tests_cant": "all byte strings", "anchors": ["sangfroid/format.py:Format.from_filename"]}
{"id": "C92", "title": "A new layer is active and says its type and version", "statement": "C() for every layer class C is active, not excluded from rendering, has no description, has the type C's name and the version of C (or of the class it inherits from, or 0.0), all readable through the fields.", "quantifier": "all layer classes that can be made, all documents", "why_tests_cant": "cross product of all classes with all documents", "anchors": ["sangfroid/layer/layer.py:Layer._construct_empty_tag", "sangfroid/field.py:SynfigVersionField"]}
{"id": "C93", "title": "Boolean attributes and descriptions read as documented", "statement": "layer.active is true when the attribute is absent, exclude_from_rendering is false; when present each is true exactly for the word true in any case; desc is the text of the attribute, or None.", "quantifier": "all layers, all attribute values", "why_tests_cant": "all strings", "anchors": ["sangfroid/field.py:TagAttrField", "sangfroid/field.py:DescField", "sangfroid/layer/layer.py:Layer"]}
{"id": "C94", "title": "Reading a layer does not depend on other layers made before", "statement": "The value of a field of a layer depends on its tag only, not on which layers have been constructed before.", "quantifier": "all layers, fields and histories of constructing layers", "why_tests_cant": "hidden global state: all histories", "anchors": ["sangfroid/field.py:SynfigTypeField", "sangfroid/field.py:SynfigVersionField", "sangfroid/layer/layer.py:Layer._construct_empty_tag"]}
{"id": "C95", "title": "The bywords groups are the group layers that say so", "statement": "bywords considers exactly the group layers, at any depth, whose description begins with 'bywords' (in any case), in the order of their descriptions, each with the text layers anywhere in it, last in the file first; finding them raises nothing.", "quantifier": "all documents", "why_tests_cant": "all documents, with groups nested in any way", "anchors": ["bywords/bywords.py:BywordsGroup", "bywords/bywords.py:Bywords.__init__"]}
{"id": "C96", "title": "Adjusting writes exactly the words that were found", "statement": "After adjust(), the text of each text layer that matched a subtitle is animated with a constant waypoint with nothing at the beginning and one with each of its words at the time of the word, in order, and the result does not depend on the order in which Python goes through a set.", "quantifier": "all documents, all subtitles, all orders of the set", "why_tests_cant": "the order of a set differs from run to run", "anchors": ["bywords/adjust.py:adjust", "bywords/adjust.py:set_constant_waypoint"]}
{"id": "C97", "title": "Running bywords again changes nothing", "statement": "Adjusting a document that has been adjusted with the same subtitles gives the same document.", "quantifier": "all documents, all subtitles, all orders of the set", "why_tests_cant": "quantifies over documents", "anchors": ["bywords/adjust.py:adjust", "bywords/bywords.py:Bywords"]}
{"id": "C98", "title": "Pauses between words are weighted by their letters", "statement": "The first word of a line appears when the subtitle begins, and the pause after each word is proportional to the number of letters in that word, as the documentation says.", "quantifier": "all groups, subtitles, start times and durations", "why_tests_cant": "all texts and times, with floating point rounding", "anchors": ["bywords/bywords.py:BywordsGroup.matches", "docs/bywords.md"]}
{"id": "C99", "title": "Tidying a text is idempotent and leaves only letters, digits and spaces", "statement": "tidy_string(x) has only a-z, 0-9 and spaces; tidying again changes nothing; tidying a text is tidying its parts; for ASCII it is the lower case without the other characters.", "quantifier": "all strings", "why_tests_cant": "all strings", "anchors": ["bywords/bywords.py:tidy_string"]}
{"id": "C100", "title": "No subtitle makes bywords raise", "statement": "For every document and subtitles, adjust() raises nothing.", "quantifier": "all documents, all subtitles", "why_tests_cant": "quantifies over documents and subtitles", "anchors": ["bywords/adjust.py:adjust", "bywords/bywords.py:BywordsGroup.matches"]}
{"id": "C101", "title": "The times of words are understood as they are written", "statement": "The waypoint of a word is at the time of the word: the time in seconds, as Python prints it with an s after it, is parsed as that time.", "quantifier": "all times that are floats", "why_tests_cant": "all floats", "anchors": ["bywords/adjust.py:set_constant_waypoint", "sangfroid/t.py:T"]}
{"id": "C102", "title": "The bywords command changes only the .sif file, and only after everything worked", "statement": "bywords changes no file but the .sif file, and leaves that alone unless the subtitles could be read, the animation loaded and all words adjusted; then, if the file can be written and is named .sif or .sifz, it holds the adjusted document, which can be loaded again. Whatever happens, the file isn't left unreadable.", "quantifier": "all file systems, documents, subtitles, arguments", "why_tests_cant": "all failures at all points", "anchors": ["bywords/__main__.py:main"]}
{"id": "C103", "title": "The default name of the subtitles", "statement": "Without a second argument, bywords dir/stem.ext reads dir/stem.srt, and bywords dir/stem reads dir/stem.srt.", "quantifier": "all file names", "why_tests_cant": "all strings", "anchors": ["bywords/__main__.py:main"]}
{"id": "C104", "title": "Case, punctuation and line breaks do not matter when subtitles are compared", "statement": "Subtitles that differ only in the case of letters, in punctuation or in line breaks instead of spaces give the same words.", "quantifier": "all documents, all subtitles", "why_tests_cant": "all strings", "anchors": ["bywords/bywords.py:tidy_string", "bywords/bywords.py:Bywords.__init__"]}
{"id": "C105", "title": "The size of an animation is its width and height", "statement": "size is (width, height), and setting width and height sets size.", "quantifier": "all documents, all integers", "why_tests_cant": "all documents", "anchors": ["sangfroid/animation.py:Animation.size"]}
{"id": "C106", "title": "The view box and the background are the numbers in the file", "statement": "viewbox gives the numbers in the view-box attribute, in order and exactly; background is the colour that bgcolor says, to six decimals, opaque if there are only three numbers, and any other count of numbers is refused.", "quantifier": "all attribute texts, all lists of floats", "why_tests_cant": "all strings and all floats", "anchors": ["sangfroid/animation.py:Animation.viewbox", "sangfroid/animation.py:Animation.background"]}
{"id": "C107", "title": "The name and the description of an animation are read from its own tags, and a description that was set is read back", "statement": "name and desc are the text of the first such tag; setting desc changes that text and nothing else in the document, and it is still so after saving and loading.", "quantifier": "all documents, all texts, all files", "why_tests_cant": "all documents and texts", "anchors": ["sangfroid/animation.py:Animation.name", "sangfroid/field.py:NamedChildField"]}
{"id": "C108", "title": "Fields for metadata raise NotImplementedError and change nothing", "statement": "Getting or setting any of the fields for metadata raises NotImplementedError and leaves the document alone.", "quantifier": "all documents, all values, all such fields", "why_tests_cant": "all documents and values", "anchors": ["sangfroid/field.py:MetadataTagField", "sangfroid/animation.py:Animation"]}
{"id": "C109", "title": "Setting the end time of an animation sets it", "statement": "After setting end_time, reading it gives the same time, everything else in the document is as before, and the animation is as long as that says.", "quantifier": "all documents, all values", "why_tests_cant": "all documents and values", "anchors": ["sangfroid/animation.py:TagTimeAttrField", "sangfroid/animation.py:Animation.framecount"]}
{"id": "C110", "title": "Replacing in all files is replacing in each, even if it is interrupted", "statement": "handle_all_files() leaves every file as handling it alone would, up to the first file that raises, after which no file changes; if the process dies meanwhile, every file is its old or its new self.", "quantifier": "all sets of files, all fields, all crash points", "why_tests_cant": "all disks and crash points", "anchors": ["sangfroid/template/replacer.py:Replacer.handle_all_files"]}
{"id": "C111", "title": "Fields without a block are reported", "statement": "check_everything_was_seen() names, in order, exactly the fields for which none of the files has a block.", "quantifier": "all files and fields", "why_tests_cant": "all files", "anchors": ["sangfroid/template/replacer.py:Replacer.check_everything_was_seen"]}
{"id": "C112", "title": "Files are written only if there is something to replace", "statement": "A file is written, and reported as written, exactly if a block in it has the name of a field.", "quantifier": "all files and fields", "why_tests_cant": "all files", "anchors": ["sangfroid/template/replacer.py:Replacer.handle"]}
{"id": "C113", "title": "Expressions of integers, truth values, angles and strings", "statement": "The expression for an integer, truth value, angle or string that is not animated is a Python literal. Passing what it means to the constructor of the class gives an object with exactly the same value, in any document.", "quantifier": "all values of these classes, all strings of Unicode code points, whatever characters count as printable", "why_tests_cant": "all strings and numbers; quoting and escaping have many cases", "anchors": ["sangfroid/value/value.py:Value.as_python_expression", "sangfroid/value/simple.py:Angle.as_python_expression", "sangfroid/value/string.py:String.as_python_expression"]}
{"id": "C114", "title": "Expressions of real numbers", "statement": "The expression for a real number recreates the number, which the library considers equal to the original. A number assigned through the library is recreated exactly.", "quantifier": "all real number values that are not animated", "why_tests_cant": "all doubles", "anchors": ["sangfroid/value/value.py:Value.as_python_expression", "sangfroid/value/simple.py:Real"]}
{"id": "C115", "title": "Expressions of vectors", "statement": "The expression for a vector recreates the vector; one made by the library exactly, so that the two compare equal.", "quantifier": "all vectors that are not animated", "why_tests_cant": "all pairs of doubles", "anchors": ["sangfroid/value/vector.py:Vector", "sangfroid/value/value.py:Value.as_python_expression"]}
{"id": "C116", "title": "Expressions of colours", "statement": "The expression for a colour recreates the colour, with the same hexadecimal code.", "quantifier": "all colours", "why_tests_cant": "all components", "anchors": ["sangfroid/value/color.py:Color.as_python_expression"]}
{"id": "C117", "title": "Expressions of gradients", "statement": "The expression for a gradient recreates the gradient, with the same stops in the same order and the same colours.", "quantifier": "all gradients of two or more stops", "why_tests_cant": "any number of stops", "anchors": ["sangfroid/value/gradient.py:Gradient.as_python_expression"]}
{"id": "C118", "title": "Expressions of transformations", "statement": "The expression for a transformation recreates the transformation, with the same offset, angle, skew angle and scale.", "quantifier": "all transformations, the parts in any order", "why_tests_cant": "all numbers and orders", "anchors": ["sangfroid/value/transformation.py:Composite.as_python_expression"]}
{"id": "C119", "title": "Expressions of times, blend methods and animated values", "statement": "The expression for a time, a blend method or an animated value can be passed to the constructor of the class to recreate it.", "quantifier": "all times at all frame rates, all blend methods, all animated values", "why_tests_cant": "all times and frame rates", "anchors": ["sangfroid/value/simple.py:Time.as_python_expression", "sangfroid/value/blendmethod.py:BlendMethod.as_python_expression", "sangfroid/value/value.py:Value.as_python_expression"]}
{"id": "C120", "title": "Blend methods are those of the header", "statement": "After etc/scan-synfig-source.py has run, the block BlendMethod of a source file lists every enumerator BLEND_name=k of Synfig's color.h as name = k, in the order of the numbers, and nothing else (but END and BY_LAYER).", "quantifier": "all headers, all source files, all positions of enumerators", "why_tests_cant": "all texts of headers", "anchors": ["etc/scan-synfig-source.py:main", "etc/scan-synfig-source.py:BLEND_ENUM_RE"]}
{"id": "C121", "title": "A header that can't be used changes nothing", "statement": "If color.h is missing or isn't UTF-8, or its numbers have a gap, or the argument is not a directory, no file is changed; a gap gives AssertionError.", "quantifier": "all headers and disks", "why_tests_cant": "all sets of numbers", "anchors": ["etc/scan-synfig-source.py:main", "etc/scan-synfig-source.py:BLEND_ENUM_RE"]}
{"id": "C122", "title": "The scanner survives crashes", "statement": "Whenever the scanner of Synfig's sources dies, every source file is the old one or the complete new one, and no other files are changed but temporary ones.", "quantifier": "all disks, all moments", "why_tests_cant": "every moment of the run", "anchors": ["etc/scan-synfig-source.py:main", "etc/scan-synfig-source.py:BLEND_ENUM_RE"]}
{"id": "C123", "title": "Symbols belong to their classes", "statement": "layer-details.json gives every layer class in sangfroid/layer/*.py the symbol set in its own body, or none if there is none, and can be read back as JSON, whatever characters the symbols have.", "quantifier": "all source files, any number, all symbols", "why_tests_cant": "all texts; escapes of all characters", "anchors": ["etc/get-symbols.py"]}
{"id": "C124", "title": "The order of files doesn't matter", "statement": "layer-details.json doesn't depend on the order in which the files in sangfroid/layer are found.", "quantifier": "all sets of files, all orders", "why_tests_cant": "the order is that of the file system", "anchors": ["etc/get-symbols.py"]}
{"id": "C125", "title": "Duplicate classes are refused", "statement": "If a layer class is defined twice, or a file can't be read, get-symbols.py raises an exception and writes nothing; otherwise it succeeds.", "quantifier": "all files", "why_tests_cant": "all texts", "anchors": ["etc/get-symbols.py"]}
{"id": "C126", "title": "layer-details.json survives crashes", "statement": "Whenever get-symbols.py dies, layer-details.json is the old or the complete new file, and no other file is changed.", "quantifier": "all files, all moments", "why_tests_cant": "every moment of writing", "anchors": ["etc/get-symbols.py"]}
{"id": "C127", "title": "What was edited can be saved and loaded", "statement": "After any calls of the API on an animation that was loaded or new - making layers, assigning fields, parameters, values, gradients, timelines, waypoints and groups, whether or not they raise - save() works for every file that can be written, if the strings consist of characters allowed in XML, changes no other file, and loading the file gives the same tags.", "quantifier": "all documents, all sequences of calls, all arguments, all file names", "why_tests_cant": "any one of infinitely many sequences of calls could leave something that can't be written or read", "anchors": ["sangfroid/animation.py:Animation.save", "sangfroid/layer/layer.py:Layer", "sangfroid/layer/group.py:Group", "sangfroid/value/value.py:Value", "sangfroid/value/value.py:Timeline", "sangfroid/field.py"]}
{"id": "C128", "title": "Documents stay trees", "statement": "After any calls of the API, whether or not they raise, no tag is in two places, and the animation is still the root of its document, with the name it had.", "quantifier": "all documents, all sequences of calls, all arguments", "why_tests_cant": "all histories", "anchors": ["sangfroid/layer/group.py:Group", "sangfroid/layer/layer.py:Layer.__setitem__", "sangfroid/value/value.py:Value"]}
{"id": "C129", "title": "Calls only change what they name", "statement": "After any history of calls, take any layer, value or other tag. As long as further calls (constructors, item and field assignments, append, insert, edits of values and timelines, whether they succeed or raise) name neither it, nor anything in it, nor anything it is in, it stays exactly as it was: its name, its attributes, everything inside it, and what it is inside of. Calls on something it is in are harmless too when they only change attributes or another parameter of that, or move or replace it, or put layers into it.", "quantifier": "all documents, all histories of calls with any arguments, and all tags in or outside of the document", "why_tests_cant": "It is about every tag that is not named, in every document, after every sequence of calls with every argument; a test looks at a few tags after a few calls.", "anchors": ["sangfroid/layer/layer.py: Layer.__setitem__", "sangfroid/field.py: ParamTagField.__set__", "sangfroid/layer/group.py: Group.append, Group.insert", "sangfroid/value/value.py: Value.value, Timeline", "sangfroid/animation.py: Animation"]}
{"id": "C130", "title": "Vectors are equal when their coordinates are", "statement": "Comparing two vectors with == never raises when both can be read; it is an equivalence; and two vectors are equal if and only if they have the same x and the same y. The same goes for comparing a vector with a tuple of numbers. (False as it stands: the numbers are compared in the order in which the file has them.)", "quantifier": "all vectors that can be read, in any order of their tags and with any numbers", "why_tests_cant": "It ranges over all pairs of vectors, including those whose tags come in an unusual order; the tests compare a few written by the library.", "anchors": ["sangfroid/value/vector.py: Vector.__eq__, Vector.__iter__, Vector.__len__"]}
{"id": "C131", "title": "Gradients are equal when they show the same colours at the same positions", "statement": "Two gradients that can be read are equal if and only if they show the same colour (as hex digits) at the same positions, in whatever order the file has them and however the numbers are written. This is an equivalence.", "quantifier": "all pairs of gradients with any number of colours", "why_tests_cant": "It ranges over all pairs of gradients.", "anchors": ["sangfroid/value/value.py: Value.__eq__", "sangfroid/value/gradient.py: Gradient.value", "sangfroid/value/color.py: Color.__eq__"]}
{"id": "C132", "title": "Transformations are equal when their parts are", "statement": "Comparing a transformation with anything never raises, and two transformations are equal if and only if their offset, angle, skew angle and scale are, in whatever order the file has them. (Comparing with a dictionary with other keys does raise.)", "quantifier": "all pairs of transformations, in any order of their parts, and all other objects", "why_tests_cant": "It ranges over all pairs of transformations and orders of their parts.", "anchors": ["sangfroid/value/transformation.py: Composite.__eq__, Composite.get, Composite.__len__"]}
{"id": "C133", "title": "The truth of a value is that of what it stands for", "statement": "A value is true in a condition if and only if what it stands for is: a Bool when it is true, a number when it isn't 0, a string when it isn't empty, and so on. (Only Bool does this; other values made of one part are true if and only if they are animated and have waypoints, and those of several parts when there are parts.)", "quantifier": "all values of all classes, animated or not", "why_tests_cant": "It ranges over all values of all classes.", "anchors": ["sangfroid/value/value.py: Value.__len__", "sangfroid/value/simple.py: Bool.__bool__", "sangfroid/value/vector.py: Vector.__len__", "sangfroid/value/transformation.py: Composite.__len__", "sangfroid/value/gradient.py: Gradient.__len__"]}
{"id": "C134", "title": "The views of a value agree", "statement": "For gradients, vectors and transformations, keys(), values(), items(), len(), iteration, subscripts and (for transformations) attributes say the same: the items are the keys with the values in the same order, there are len() of them, no key is there twice, and v[k] is what the item k has, and only keys can be subscripts.", "quantifier": "all gradients, vectors and transformations that can be read", "why_tests_cant": "It ranges over all tags the classes accept, including repeated and reordered parts.", "anchors": ["sangfroid/value/gradient.py: Gradient.keys, values, items, __iter__, __getitem__, __len__", "sangfroid/value/vector.py: Vector.keys, values, items, __iter__, __getitem__, as_tuple, __len__", "sangfroid/value/transformation.py: Composite.keys, values, items, get, __getitem__, __getattr__, __len__"]}
{"id": "C135", "title": "What a layer prints as tells its place, class, desc and text", "statement": "repr() of a layer is one line; it begins with a bracket and as many hyphens as there are layers around it; and two layers print alike if and only if they are at the same depth, of the same class, and have the same desc (where an empty desc counts as none) and, for Text, the same text; whatever characters are in these.", "quantifier": "all pairs of layers of all classes, in all documents, with any desc and text", "why_tests_cant": "It ranges over all strings, with quotes, backslashes, line ends and characters outside of ASCII, and over all pairs of layers.", "anchors": ["sangfroid/layer/layer.py: Layer.__repr__, Layer.tag_depth", "sangfroid/layer/text.py: Text.__repr__"]}
{"id": "C136", "title": "Keyframes print as one line each, which tells them apart", "statement": "A keyframe prints as one line, and two keyframes print alike if and only if they have the same name, are both active or both inactive, and their times print alike. The keyframes of an animation print as one line about the animation, followed by exactly one line for each keyframe, in the order of the document, or by one line saying that there are none.", "quantifier": "all documents, with any number of keyframes and any names", "why_tests_cant": "It ranges over all names, including those with line ends and quotes in them, and all numbers of keyframes.", "anchors": ["sangfroid/keyframe.py: Keyframe.__str__, Keyframes.__str__", "sangfroid/t.py: T.__str__"]}
{"id": "C137", "title": "What a waypoint prints as tells its time, interpolations and value", "statement": "Two waypoints print alike if and only if their times print alike, they have the same interpolation before and after, and their values print alike. Every waypoint that was made can be printed if its value can.", "quantifier": "all pairs of waypoints, with values of all modelled classes", "why_tests_cant": "It ranges over all times, interpolations and values.", "anchors": ["sangfroid/value/value.py: Waypoint.__str__, INTERPOLATION_TYPES"]}
{"id": "C138", "title": "Values print alike only if they are the same", "statement": "Two values which aren't animated print alike if and only if they are the same value; repr() tells their classes, too. (False for angles and times, which are printed with six digits.)", "quantifier": "all pairs of values of all classes", "why_tests_cant": "It ranges over all pairs of values; printing floats exactly is about all of 2^64 of them.", "anchors": ["sangfroid/value/value.py: Value.__str__, Value.__repr__, Value._str_inner", "sangfroid/value/simple.py: Angle._str_inner", "sangfroid/value/vector.py: Vector._str_inner", "sangfroid/value/gradient.py: Gradient.__str__"]}
{"id": "C139", "title": "What a timeline prints as tells its waypoints", "statement": "Two timelines print alike if and only if their values are of the same class and they have the same times, in the same order, with waypoints that print alike. (False for strings, whose characters are printed as they are.)", "quantifier": "all pairs of timelines, with any number of waypoints", "why_tests_cant": "It ranges over all pairs of timelines of any length.", "anchors": ["sangfroid/value/value.py: Timeline.__str__, Waypoint.__str__"]}
{"id": "C140", "title": "A value keeps the type it has in the file", "statement": "Whatever is done to a value - animating it, changing its timeline, stopping the animation, assigning to it - whether that succeeds or raises, the type it has in the file (the name of its tag, or the attribute type of <animated>) stays the same. (False for blend methods, whose type becomes 'blendmethod' when they are assigned to.)", "quantifier": "all values, and all sequences of changes of any length, including those that fail", "why_tests_cant": "It ranges over all sequences of operations and over the partly done state after each exception.", "anchors": ["sangfroid/value/value.py: Value.our_type, Value._set_animated, Value._set_waypoints, Timeline.__setitem__, Timeline.__delitem__, Timeline.add"]}
{"id": "C141", "title": "The views of a timeline agree", "statement": "keys(), values(), items(), len() and the truth of a timeline describe the same waypoints, and if one of them raises, all do. For a timeline in a file there is one item for each time at which the file has waypoints, and it is the last of these.", "quantifier": "all timelines, with any number of waypoints in any order, with repeated times", "why_tests_cant": "It ranges over all files.", "anchors": ["sangfroid/value/value.py: Timeline.keys, Timeline.values, Timeline.items, Timeline.__len__, Timeline.__bool__, Value._waypoints"]}
{"id": "C142", "title": "The generator makes one block for each type of layer", "statement": "The program that writes the fields of the layer classes makes one block for each type of layer in the file it reads, named after the type, from the first layer of that type; further layers of the same type don't matter, even if they are malformed. (False for types whose names differ only in capitals.)", "quantifier": "all files, with any number of layers, at any depth", "why_tests_cant": "There is one input file in the repository; the claim is about all files.", "anchors": ["sangfroid/template/__main__.py: scan_pick_and_mix, is_inherited_param, tag_children, OVERRIDES"]}
{"id": "C143", "title": "What is in a generated block", "statement": "A block gives the version of the layer, and has one field for each name of a param, except those that the class inherits; of params with an index, only those with index 0 count. The field is made from the last param with that name, and gives the class of the value and an expression for it. Animated params are refused. (The params of layers within the layer are taken to be its own, too, which is false.)", "quantifier": "all layers, params and values", "why_tests_cant": "It ranges over all files.", "anchors": ["sangfroid/template/__main__.py: scan_pick_and_mix, is_inherited_param, tag_children, OVERRIDES"]}
{"id": "C144", "title": "Generating the fields twice is the same as doing it once", "statement": "If the generator is run twice on the same files, the second run changes nothing: what it writes never looks like the beginning or the end of a block, or like the beginning of a class.", "quantifier": "all input files whose names are fit for Python, and all source files where the blocks are well formed", "why_tests_cant": "It ranges over all values that can be in the file, among them texts with any characters.", "anchors": ["sangfroid/template/__main__.py: scan_pick_and_mix, is_inherited_param, tag_children, OVERRIDES", "sangfroid/template/replacer.py: Replacer"]}
{"id": "C145", "title": "The generator writes all or nothing", "statement": "If there is anything wrong with the input file - it is missing, not UTF-8, a layer has no type, no version, a param without a name, with several values, or of an unknown type - nothing on the disk changes.", "quantifier": "all disks and all input files", "why_tests_cant": "It ranges over all malformed files.", "anchors": ["sangfroid/template/__main__.py: scan_pick_and_mix, is_inherited_param, tag_children, OVERRIDES"]}
{"id": "C146", "title": "Layers are the same after saving and loading", "statement": "If a document is saved and the file is loaded, it has the same layers in the same order: each with the same class, attributes (type, description, active, excluded, version), length, depth, parent, children, names and parameters, and each parameter has the class it had; layers that are as they came from a file have fields with the same values. This needs that no attribute contains tabs or ends of lines, which XML reads as blanks.", "quantifier": "all documents that can be written, all layers in them at any depth, all names of parameters and fields, all files", "why_tests_cant": "It ranges over all documents, of any size and depth, after any edits.", "anchors": ["sangfroid/animation.py: Animation.save, Animation.__init__", "sangfroid/layer/layer.py: Layer", "sangfroid/layer/group.py: Group", "sangfroid/field.py: TagAttrField, ParamTagField"]}
{"id": "C147", "title": "What was edited is the same after saving and loading", "statement": "Whatever calls edit a new or loaded animation, if it is then saved and the file is loaded, all layers are there in the same order, each with the same class, attributes, length, depth, parent, children and parameters, and each parameter has the value it had. This needs that the strings that were assigned can be in XML, that those for attributes are of one line and, for values, that the tag of the parameter has no empty or adjacent texts, and texts of blanks are one blank.", "quantifier": "all sequences of calls that edit, including ones that raise; all new and loaded animations; all layers and parameters; all files", "why_tests_cant": "It ranges over all histories of edits of all documents.", "anchors": ["sangfroid/animation.py: Animation.save, Animation.__init__", "sangfroid/layer/layer.py: Layer", "sangfroid/layer/group.py: Group", "sangfroid/value/value.py: Value", "sangfroid/field.py: TagAttrField, ParamTagField"]}
{"id": "C148", "title": "Groups behave like lists", "statement": "After any sequence of append and insert calls, on any groups of a document and on the animation itself, the children of every group are what the same calls make of plain lists: the layer leaves the list it was in and goes to the end of the group's, or to just before the child at the index. Each call raises what it does there: ValueError for a layer that is already at that place, IndexError for an index that is out of range. So, for instance, appending all the children of one group to another empties the first and keeps their order.", "quantifier": "all documents whose layers have known types and whose groups have canvases; all sequences of calls, including ones that raise, that don't put a layer into itself; all groups and indexes", "why_tests_cant": "It ranges over all documents and all histories of calls, and says that groups that aren't named in a call keep their lists.", "anchors": ["sangfroid/layer/group.py: Group.append, Group.insert, Group.children", "sangfroid/layer/layer.py: Layer", "sangfroid/animation.py: Animation"]}
{"id": "C149", "title": "A loop over the children of a group may move them", "statement": "for l in g.children runs its body once for each child that there was at the start, in order, even if the body moves the layers: for instance, appending each to another group moves all of them and keeps their order.", "quantifier": "all documents whose layers have known types and whose groups have canvases; all groups; all bodies that move layers with append and insert, including ones that raise", "why_tests_cant": "children is a generator over a list that the body changes: what it does next depends on every change before, in every document.", "anchors": ["sangfroid/layer/group.py: Group.children, Group._get_children, Group.append, Group.insert"]}
{"id": "C150", "title": "Parameters behave like variables", "statement": "Through any history of assignments layer.k = v and layer['k'] = v, the parameters of the layers of a document are variables: each assignment returns or raises what it would for a value on its own, reading a parameter gives what was last assigned to it without an exception, in whichever way, and all other parameters, of the same layer or of others, keep their values. Two names of layers' parameters mean the same variable just when they find the same param, as when a group finds a parameter of a layer in it.", "quantifier": "all documents; all layers; all parameters with a single value that is a number, boolean, angle, time, string or colour; all lists of assignments of plain Python values, including ones that raise", "why_tests_cant": "It ranges over all documents and histories, and says that no assignment disturbs any other parameter.", "anchors": ["sangfroid/layer/layer.py: Layer.__setitem__, Layer.__getitem__", "sangfroid/field.py: ParamTagField.__set__, ParamTagField.__get__"]}
{"id": "C151", "title": "Moving layers and assigning to parameters don't disturb each other", "statement": "Through any history of append and insert calls and of assignments to parameters, in any order, the children of the groups are what the moves alone make of lists, and the parameters hold what the assignments alone make of variables. Each call returns or raises what it does there. In particular no move changes the value of a parameter of any layer, and no assignment changes what is in a group.", "quantifier": "all documents whose layers have known types and whose groups have canvases; all histories of moves that don't put a layer into itself, and of assignments of plain values to number, boolean, angle, time, string and colour parameters, including ones that raise", "why_tests_cant": "It ranges over all documents and all interleavings of two kinds of calls.", "anchors": ["sangfroid/layer/group.py: Group.append, Group.insert, Group.children", "sangfroid/layer/layer.py: Layer.__setitem__, Layer.__getitem__", "sangfroid/field.py: ParamTagField.__set__, ParamTagField.__get__"]}
{"id": "C152", "title": "Attributes that are worked out can't be assigned", "statement": "Assigning to tag, type_, parent, tag_depth or children of a layer, to canvas_tag or descendants of a group, or to begin_time, name, size, viewbox, framecount, background or keyframes of an animation raises (KeyError for tag, ValueError for type_, AttributeError for the rest) and leaves the document as it was.", "quantifier": "all layers of all classes, all animations, all values that are assigned", "why_tests_cant": "It ranges over all classes of layers, all documents and all values.", "anchors": ["sangfroid/field.py: TagField.__set__, TypeNameField.__set__", "sangfroid/layer/layer.py: Layer.parent, Layer.tag_depth, Layer.children", "sangfroid/layer/group.py: Group.canvas_tag, Group.descendants", "sangfroid/animation.py: Animation"]}
{"id": "C153", "title": "Fields that don't exist are refused", "statement": "Reading or assigning a field that the class of a layer doesn't have raises AttributeError, and changes nothing.", "quantifier": "all layers of all classes, all names, all values", "why_tests_cant": "It ranges over all names and all layers.", "anchors": ["sangfroid/layer/layer.py: Layer", "sangfroid/field.py: Field"]}
{"id": "C154", "title": "Parameters hold values and timelines through any history of edits of a document", "statement": "Through any history of append and insert calls, of assignments to parameters, and of assignments to the value, the items, the timeline and is_animated of what layer['name'] gives, in any order, each call returns or raises what it does for lists of children and for single values alone. At the end layer['name'] and layer.name give, for each parameter, what the assignments to it and the edits of it alone make of the value it had: nothing that is done to other parameters or to the tree of layers shows. If what was done to it were operations on its timeline, then its timeline is that of C28 and its class is what it was.", "quantifier": "all documents whose layers have known types and whose groups have canvases; all sequences of these calls with values that have no layers in them; all classes of values but Canvas", "why_tests_cant": "It ranges over all documents, all values, and all interleavings of calls, of any length.", "anchors": ["sangfroid/layer/layer.py: Layer.__getitem__, Layer.__setitem__", "sangfroid/field.py: Field", "sangfroid/layer/group.py: Group.append, Group.insert", "sangfroid/value/value.py: Value, Timeline"]}
{"id": "C155", "title": "A program that makes layers, moves them and sets their parameters, timelines and attributes does what it would do to lists, variables and dictionaries", "statement": "Through any sequence of making layers of the known classes, append and insert calls, assignments layer.name = value and layer['name'] = value, and edits of what layer['name'] gives, each step returns or raises what it does for lists of children, single values and dictionaries of attributes alone, and at the end the children of all groups, the values of all parameters and the attributes of all layers in the document are those. A new layer has no children and is in no group. What layer.desc, layer.active, layer.version or layer.exclude_from_rendering gives at the end is what was assigned to it last, if that succeeded, whatever else was done before and after.", "quantifier": "all documents whose layers have known types and whose groups have canvases; all sequences of these steps, of any length, on layers that were there or were made on the way, with values that have no layers in them; all classes of values but Canvas; layers aren't put into themselves", "why_tests_cant": "It ranges over all documents, all programs of any length and all values; that one part of a document doesn't depend on another is a statement about every interleaving.", "anchors": ["sangfroid/layer/layer.py: Layer.__init__, Layer.__setitem__", "sangfroid/layer/field.py: TagAttrField, ParamTagField, ShortcutField, DescField, NotImplementedField", "sangfroid/layer/group.py: Group.append, Group.insert", "sangfroid/value/value.py: Value, Timeline"]}
{"id": "C156", "title": "What a program has made of an animation is what is read after it is saved and loaded", "statement": "Take an animation that is new or was loaded, and any program that makes layers, moves them with append and insert, assigns layer.name = value and layer['name'] = value, and edits what layer['name'] gives. Save the animation and load the file. Then, from the top, the children of the loaded animation are those in the list of children that the program has built, in order; each of them has the attributes that the program gave it, the parameters have the values that were assigned, those that are animated have the waypoints that were set, at the same instants, with the same interpolations and values, and if it is a group then its children are those of its list, and so on down. The animation's own attributes are unchanged. layer.desc, layer.active, layer.version and layer.exclude_from_rendering, read in the loaded file, are what was assigned last.", "quantifier": "all animations, all programs of any length whose strings are XML and of one line where they become attributes, all file systems and file names in which saving is possible; for values, also those of waypoints: those whose tags are as Synfig writes them; for waypoints: times that the format keeps, as it does whole frames", "why_tests_cant": "It composes every history of edits with every document and with saving and loading, and speaks about trees of any depth.", "anchors": ["sangfroid/animation.py: Animation.save, Animation.__init__", "sangfroid/format.py: Format.from_filename, Sif, Sifz", "sangfroid/layer/layer.py: Layer.__init__, Layer.__setitem__", "sangfroid/layer/group.py: Group.append, Group.insert, Group.children", "sangfroid/layer/field.py: TagAttrField, ParamTagField, ShortcutField"]}
{"id": "C157", "title": "Assigning to the value of a waypoint changes this waypoint only", "statement": "value.timeline[t].value.value = x stores x in the waypoint at t as value.value = x does in a value that isn't animated. Its time and its interpolations stay, and so do all other waypoints. If x can't be stored, or there is no waypoint at t, then an exception is raised and nothing has changed. The same holds for timeline.values()[i].value.value = x.", "quantifier": "all timelines with any number of waypoints at distinct times in order, all times, all values", "why_tests_cant": "It ranges over all timelines and values; it says that everything else is unchanged.", "anchors": ["sangfroid/value/value.py: Timeline.__getitem__, Timeline.values, Waypoint.from_tag, Value._waypoints", "sangfroid/value/simple.py: Simple.value"]}
{"id": "C158", "title": "Setting a parameter of all layers that say something does that and nothing else (stroop.py)", "statement": "The first program of the tutorial: for item in animation.find_all(text=x): item[k] = v, and then save(filename=...). Each text layer whose text reads x, however deep in groups, has v in its parameter k afterwards. All other parameters of these and of all other layers, all attributes of layers, and the children of all groups are what they were. This holds for the animation in memory and for what is loaded from the file that was saved; no other file changes.", "quantifier": "all documents whose text layers have a text, all words, parameters and values that can be stored there, all file names of a known format", "why_tests_cant": "It ranges over all documents and values, and says that everything else is unchanged, in memory and after saving and loading.", "anchors": ["docs/examples/stroop.py: main", "docs/examples.md", "sangfroid/layer/layer.py: Layer.find_all, Layer.__setitem__", "sangfroid/animation.py: Animation.save"]}
{"id": "C159", "title": "Translating all texts translates each of them once and changes nothing else (french.py)", "statement": "The second program of the tutorial: for item in animation.find_all('text'): item['text'] = TRANSLATION.get(str(item['text']), default), and then save(filename=...). Each layer of the type text has the translation of its old text afterwards, or the default if the dictionary doesn't have it. All else is what it was, in memory and in the file that was saved; no other file changes.", "quantifier": "all documents in which the texts of text layers aren't animated, all dictionaries and defaults, all file names of a known format", "why_tests_cant": "It ranges over all documents and dictionaries, and says that everything else is unchanged, in memory and after saving and loading.", "anchors": ["docs/examples/french.py: main", "docs/examples.md", "sangfroid/layer/layer.py: Layer.find_all, Layer.__getitem__, Layer.__setitem__", "sangfroid/animation.py: Animation.save"]}
{"id": "C160", "title": "What the animation is like, and what its layers are like, do not get in each other's way, and both survive saving and loading", "statement": "A program makes layers, moves them, sets their parameters, timelines and attributes, and assigns to fields of the animation (size, frame rate, end, gamma and so on), in any order. It raises what the lists, variables and dictionaries of the layers and one dictionary of the animation say, and leaves behind what these say: setting a field of the animation changes no layer, and nothing that is done to layers changes a field of the animation. Assigning to fields that can only be read raises AttributeError and changes nothing. Times are read with the frame rate at that moment. After saving and loading, each field gives what was assigned to it last, and the layers are as the program left them.", "quantifier": "all documents of known layers, all such programs of any length, all values, all file names of a known format", "why_tests_cant": "It ranges over all programs, with failing steps anywhere in them, and all values.", "anchors": ["sangfroid/animation.py: Animation fields, Animation.save, Animation.load", "sangfroid/field.py: TagAttrField, MetadataTagField", "sangfroid/layer/layer.py: Layer", "sangfroid/value/value.py: Timeline"]}
{"id": "C161", "title": "What is copied from one layer to another is a copy", "statement": "layer.k = layer2['k2'] gives the parameter of the first layer the value that the second one has, if both are of the same kind: colours (to six decimals), texts, truth values, numbers and angles. From then on they are independent: whatever a program does later, to the one, to other parameters, to the layers (moving them, too) or to the animation, the other one is read as it was, as long as nothing is assigned to it. A parameter that a program doesn't assign to is read as before.", "quantifier": "all documents of known layers, all such programs of any length before and after the copy, all values", "why_tests_cant": "It ranges over all programs after the copy, and aliasing shows only in some of them.", "anchors": ["sangfroid/field.py: ParamTagField.__set__", "sangfroid/layer/layer.py: Layer.__getitem__", "sangfroid/value/value.py: Value.__init__", "sangfroid/value/color.py: Color.value", "sangfroid/value/simple.py: Simple.value"]}
{"id": "C162", "title": "A layer moved to another animation is in that one only, and its times are read with that one's frame rate", "statement": "With several animations open, appending a layer from one of them (at any depth) to another, or to a group in it, or inserting it there, takes it out of the first. It stays as it is, with all that is in it, and nothing else in either animation changes, up to white space. The params of the layer, and of layers in it, hold the same values, but times in them are read with the frame rate of the other animation: their text stays, so a time of seconds alone lasts as long as before, one of frames alone has as many frames as before, and others keep neither, unless the rates are the same.", "quantifier": "all sets of open documents, all layers at any depth, all groups, indexes and times written with whole numbers", "why_tests_cant": "It ranges over all pairs of documents, places in them and frame rates.", "anchors": ["sangfroid/layer/group.py: Group.append, Group.insert", "sangfroid/animation.py: Animation", "sangfroid/t.py: T.__init__", "sangfroid/field.py: ParamTagField.__get__"]}
{"id": "C163", "title": "Values can be turned into texts of attributes and back", "statement": "For the types of attributes (bool, int, float, str), type_and_value_to_str gives a text from which type_and_str_to_value gives the value back, and so does a field of that type; None stays None.", "quantifier": "all types of attributes and values of these types", "why_tests_cant": "It ranges over all numbers and texts.", "anchors": ["sangfroid/util.py: type_and_value_to_str", "sangfroid/util.py: type_and_str_to_value", "sangfroid/field.py: TagAttrField.__get__"]}
{"id": "C164", "title": "The layers of a canvas can be read and set as its value", "statement": "The value of a canvas is the list of its layers in the order of the file, if there is nothing else in it (otherwise a ValueError). Assigning a list of layers makes these the layers of the canvas; the former ones are taken out of the document, and nothing else changes. In particular, assigning its value to it changes nothing.", "quantifier": "all documents, canvases and lists", "why_tests_cant": "It ranges over all documents and lists of layers.", "anchors": ["sangfroid/value/canvas.py: Canvas.value", "sangfroid/layer/layer.py: Layer.parent"]}
{"id": "C165", "title": "A layer is found by what was assigned to its parameters", "statement": "After value.value = v, value == v is true. So after layer.k = v, find_all(k=v) finds this layer (among others), from wherever above it the search begins. With one criterion, find_all finds exactly the layers whose field can be read and is equal to what is looked for, whatever its class.", "quantifier": "all documents, layers, parameters and values, of all classes", "why_tests_cant": "It ranges over all documents and all numbers, among them those that are stored with fewer decimals than they have.", "anchors": ["sangfroid/layer/layer.py: Layer.find_all", "sangfroid/value/vector.py: Vector.__eq__", "sangfroid/value/color.py: Color.__eq__", "sangfroid/value/simple.py: Simple.__eq__"]}
{"id": "C166", "title": "A timeline assigned to another value is a copy of it", "statement": "After b.timeline = a.timeline, b has waypoints at the same times as a, with the same values and interpolations, and keeps them when it is saved and loaded, also when a and b are in documents of different frame rates. A timeline of another type is refused. Assigning a value's own timeline to it changes nothing.", "quantifier": "all values, timelines and pairs of documents with any frame rates", "why_tests_cant": "It ranges over all timelines and all pairs of frame rates; what is in memory and what is saved differ only for some of them.", "anchors": ["sangfroid/value/value.py: Value.timeline, Value._set_waypoints", "sangfroid/value/value.py: Waypoint.tag, Waypoint.from_tag", "sangfroid/t.py: T.__str__"]}
{"id": "C167", "title": "Changing the frame rate keeps every waypoint where the file will have it", "statement": "animation.fps = v changes no layer or parameter; times in the document are read with the new rate from then on. Times from the file, like \"2s 6f\", mean that many seconds and frames at the new rate; waypoints that were set by the program are where they will be after saving and loading.", "quantifier": "all documents, all programs that set waypoints, all old and new frame rates", "why_tests_cant": "It ranges over all pairs of rates and all times; in the first second nothing goes wrong.", "anchors": ["sangfroid/animation.py: Animation.fps", "sangfroid/value/value.py: Waypoint.tag, Waypoint.from_tag", "sangfroid/t.py: T.__str__, T._parse_time_spec"]}
{"id": "C168", "title": "Every object for a parameter shows what is in the document", "statement": "Value objects got from a layer's parameter at different times (a = layer['k']; b = layer['k']) stay views of that parameter: what is done through one is seen through the others and is in the document; whatever is done through one of them is as if there were no others.", "quantifier": "all parameters and classes, any number of objects, all histories of assignments, edits of timelines, item assignments and new look-ups, in any order", "why_tests_cant": "It ranges over all interleavings of edits through several objects; it only goes wrong after certain edits, and then silently.", "anchors": ["sangfroid/value/value.py: Value._set_animated, Value._set_waypoints, Value.timeline", "sangfroid/layer/layer.py: Layer.__getitem__, Layer.__setitem__"]}
{"id": "C169", "title": "A waypoint that a program holds stays a waypoint of the timeline", "statement": "w = value.timeline[t] can be kept: assigning to w.value.value, w.before, w.after or w.time changes the waypoint in the document, and w shows what is there, however the timeline is changed in between.", "quantifier": "all timelines, any number of held waypoints, all histories of assignments to them and changes of the timeline, in any order", "why_tests_cant": "It ranges over all interleavings of edits of the timeline and of waypoints got at different times; what is lost is lost silently.", "anchors": ["sangfroid/value/value.py: Waypoint.from_tag, Waypoint.tag, Waypoint.before, Waypoint.after, Value._set_waypoints, Timeline.__setitem__, Timeline.add"]}
{"id": "C170", "title": "The parts of a transformation or gradient can be changed in place", "statement": "transformation['angle'].value = 45, transformation['offset'].timeline[24] = (1,2) and gradient[0.5].value = 'ff0000' change just that part of the value, which then reads as what was assigned; the other parts are as they were, and a name that is not there is a KeyError.", "quantifier": "all transformations and gradients, all programs of assignments and timeline edits of their parts, in any order", "why_tests_cant": "It ranges over all interleavings of edits of the parts, each of which may replace the tag of the part by another (an animated one).", "anchors": ["sangfroid/value/transformation.py: Transformation.get, __getitem__", "sangfroid/value/gradient.py: Gradient.value, __getitem__", "sangfroid/value/color.py: Color.value", "sangfroid/value/value.py: Value.from_tag, _set_animated"]}
{"id": "C171", "title": "The parts of vectors and transformations are attributes of them, and values can be copied", "statement": "position.x and transformation.angle are the parts with those names; assigning to them sets these parts in the document, as reading them suggests; and copy.copy(value) gives a value like it.", "quantifier": "all values, names of parts, programs of assignments through any number of objects between any other changes of the document; for copying, all depths of the stack", "why_tests_cant": "Nothing is raised when an assignment is lost: the same object goes on showing what was assigned. It ranges over histories and over objects for the same tag.", "anchors": ["sangfroid/value/vector.py: Vector.__getattr__", "sangfroid/value/transformation.py: Composite.__getattr__, Composite.get", "sangfroid/value/value.py: Value.__init__"]}
{"id": "C172", "title": "A layer is equal to itself", "statement": "Two objects for the same layer, got in whatever ways, are equal, and objects for different layers aren't: so layer in group.children tells whether it is there, also after layers were moved.", "quantifier": "all documents, all programs that get layers by children, by index and by parent, and move them", "why_tests_cant": "It ranges over all histories of getting and moving layers; a comparison that is always false raises nothing.", "anchors": ["sangfroid/layer/layer.py: Layer, Layer.from_tag, Layer.parent", "sangfroid/layer/group.py: Group.children, Group.__getitem__"]}
{"id": "C173", "title": "A description that is refused leaves the one that was there", "statement": "If assigning to the description of an animation raises an exception, the description is what it was before, and whatever a program assigned before and after that, the description is the last text that was accepted.", "quantifier": "all documents, all sequences of assigned values", "why_tests_cant": "It ranges over all histories of accepted and refused assignments and over all documents.", "anchors": ["sangfroid/field.py: NamedChildField.__set__", "sangfroid/animation.py: Animation.desc"]}
{"id": "C174", "title": "What was saved is read back, whatever the encoding of the locale", "statement": "Saving an animation and then loading the file gives the same document on every computer: it doesn't matter which encoding the locale of the user has.", "quantifier": "all documents, all names of files, all ways to decode bytes", "why_tests_cant": "Tests run in one locale, and with a few documents, nearly all of them in ASCII; the claim is about every decoder and every character.", "anchors": ["sangfroid/format.py: Sif.main_file", "sangfroid/format.py: Sifz.main_file", "sangfroid/format.py: Format._write_to_file"]}
{"id": "C175", "title": "A time made of a time is the same time, and its numbers are its frames", "statement": "For every time t, T(t, ref) is equal to t and has the FPS of ref; float(t) is the number of frames and int(t) is that number without the part after the point, so that T(int(t), ref) is the start of the frame that t is in.", "quantifier": "all times, all references", "why_tests_cant": "It ranges over all times, also those before 0 and between two frames, and over all references.", "anchors": ["sangfroid/t.py: T.__init__", "sangfroid/t.py: T.__int__", "sangfroid/t.py: T.__float__"]}
{"id": "C176", "title": "The template replacer works in every locale", "statement": "Whatever the encoding of the locale is, the template replacer writes the blocks of each file anew and leaves all other lines as they are, byte by byte, and a source file in UTF-8 stays one.", "quantifier": "all encodings, all files, all fields", "why_tests_cant": "Tests run in one locale; the claim is about every encoding, every file and every set of fields.", "anchors": ["sangfroid/template/replacer.py: Replacer.handle", "sangfroid/template/replacer.py: Replacer.write_to"]}
{"id": "C177", "title": "A part of a transformation that is held stays a part of it", "statement": "After p = transformation['angle'], assigning to p.value changes the angle of the transformation and nothing else, at any later time; all objects got for the same part say the same.", "quantifier": "all transformations, all parts, all histories of getting parts, assigning to them and assigning to the transformation", "why_tests_cant": "Which tag an object refers to depends on everything that was done since it was got; tests use parts right after getting them.", "anchors": ["sangfroid/value/transformation.py: Composite.get", "sangfroid/value/transformation.py: Composite.value", "sangfroid/value/value.py: Value.__init__"]}
