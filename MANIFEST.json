{"claims": [
 {"property": "C01", "status": "proved", "theorems": ["C01_integer_specs"], "note": "Whole counts whose total stays within 2^53 (the exact range of floats)."},
 {"property": "C02", "status": "partial", "theorems": ["C02_print_parse_partial", "C02_print_parse_unanchored_partial", "C02_negative_refuted", "C02_fraction_refuted", "C02_million_refuted"], "note": "Exact characterisation for whole frames at a whole FPS; the full property is false (negative times with two of h/m/s, fractions, a million frames without FPS)."},
 {"property": "C03", "status": "proved", "theorems": ["C03_order_is_frames", "C03_trichotomy", "C03_transitive"], "note": ""},
 {"property": "C04", "status": "partial", "theorems": ["C04_conflict_partial", "C04_zero_refuted"], "note": "Raises iff both FPS are known and differ; the documented exemption for zero frames does not exist in the code."},
 {"property": "C05", "status": "partial", "theorems": ["C05_hash_partial", "C05_refuted"], "note": "Holds for equal FPS and for zero; false when only one FPS is known."},
 {"property": "C06", "status": "partial", "theorems": ["C06_negative_index_partial", "C06_refuted"], "note": "T(-n) = 1 + end - begin - n frames; this is the n-th last frame only if begin is 0."},
 {"property": "C07", "status": "proved", "theorems": ["C07_seconds", "C07_whole_seconds"], "note": ""},
 {"property": "C08", "status": "partial", "theorems": ["C08_accepted_shape_partial", "C08_no_digit_partial", "C08_refuted"], "note": "Accepted strings are numbers each followed by one distinct character, but the character may be any; '10', '5x' and '' are accepted."},
 {"property": "C09", "status": "proved", "theorems": ["C09_repeated_unit"], "note": ""},
 {"property": "C10", "status": "proved", "theorems": ["C10_unanchored", "C10_negative_frames", "C10_zero_seconds_refuted", "C10_bad_reference"], "note": "Property as stated holds; C10_zero_seconds_refuted records that the documentation's further claim about '0s 2f' is false."},
 {"property": "C11", "status": "proved", "theorems": ["C11_any_tag_same_reference", "C11_detached_no_reference", "C11_missing"], "note": ""},
 {"property": "C12", "status": "proved", "theorems": ["C12_fps_positive", "C12_nonpositive_raises"], "note": ""},
 {"property": "C13", "status": "proved", "theorems": ["C13_lookup_ignores_case_and_underscores", "C13_nothing_else_is_ignored"], "note": "ASCII letters only."},
 {"property": "C14", "status": "proved", "theorems": ["C14_last_registration_wins", "C14_lookup_is_last_equivalent", "C14_keyerror_iff_never_registered"], "note": ""},
 {"property": "C15", "status": "proved", "theorems": ["C15_integers_survive", "C15_truths"], "note": ""},
 {"property": "C16", "status": "proved", "theorems": ["C16_bools_survive", "C16_every_string_reads_as_bool", "C16_false_string_refuted", "C16_truth"], "note": "also shown: assigning the str \"false\" stores true"},
 {"property": "C17", "status": "proved", "theorems": ["C17_reals_to_ten_decimals", "C17_read_values_are_kept", "C17_restoring_writes_the_same", "C17_truths"], "note": "the sign of zero is not modelled, so the written text is only compared when it is not a negative zero"},
 {"property": "C18", "status": "proved", "theorems": ["C18_angles_survive"], "note": ""},
 {"property": "C19", "status": "proved", "theorems": ["C19_failed_assignment_changes_nothing"], "note": ""},
 {"property": "C20", "status": "proved", "theorems": ["C20_real_equality_is_a_tolerance", "C20_not_transitive"], "note": ""},
 {"property": "C21", "status": "partial", "theorems": ["C21_strings_read_back", "C21_strings_survive_files_partial", "C21_empty_refuted", "C21_blank_refuted"], "note": "in memory for all strings; through a file only for non-blank strings of XML characters, false for the others"},
 {"property": "C22", "status": "proved", "theorems": ["C22_colours_survive_hex", "C22_comparing_with_hex", "C22_bad_hex_accepted_refuted"], "note": ""},
 {"property": "C23", "status": "proved", "theorems": ["C23_colour_tuples_to_six_decimals", "C23_three_components", "C23_refused", "C23_malformed"], "note": ""},
 {"property": "C24", "status": "partial", "theorems": ["C24_first_assignment_partial", "C24_tuple_is_last_assigned_partial", "C24_items_are_stale_refuted", "C24_refused"], "note": "as_tuple is right for every history; items and attributes are stale after the second assignment"},
 {"property": "C25", "status": "partial", "theorems": ["C25_one_key_wipes_the_others_refuted", "C25_shortcut_refuted"], "note": "False in the code: the setter clears the tag. So is it through a shortcut field of a group."},
 {"property": "C26", "status": "proved", "theorems": ["C26_transformations_survive", "C26_any_keys", "C26_unknown_key"], "note": ""},
 {"property": "C27", "status": "proved", "theorems": ["C27_gradients_read_as_assigned", "C27_item_assignment", "C27_too_few", "C27_close_positions_refuted"], "note": "positions are whole millionths between 0 and 1, which are printed exactly"},
 {"property": "C28", "status": "partial", "theorems": ["C28_set_then_get_partial", "C28_values_fit", "C28_pairs_fit", "C28_histories_partial", "C28_the_abstract_map", "C28_letters_refuted", "C28_unsorted_files_refuted", "C28_empty_vectors_refuted", "C28_x_y"], "note": "C28_x_y: with the letters x_y anywhere in the value getting always raises, without them it gives the waypoint or a KeyError."},
 {"property": "C29", "status": "partial", "theorems": ["C29_setting_sorts", "C29_histories_partial", "C29_duplicates_refuted"], "note": "Holds for item assignment, deletion and add; assigning a list with a time twice stores both."},
 {"property": "C30", "status": "proved", "theorems": ["C30_delete_removes_exactly_it", "C30_missing_changes_nothing"], "note": "For values with a parent tag; see C31 for the last waypoint of a detached one."},
 {"property": "C31", "status": "partial", "theorems": ["C31_deleting_the_last", "C31_detached_refuted"], "note": "Holds for a value in a document; for one without a parent tag it raises and the waypoint is lost."},
 {"property": "C32", "status": "proved", "theorems": ["C32_add_keeps_all", "C32_clash_changes_nothing", "C32_add_to_static_value", "C32_adding_nothing_refuted", "C32_add_many"], "note": "Adding nothing to a static value loses the value."},
 {"property": "C33", "status": "partial", "theorems": ["C33_overwriting", "C33_same_time_twice_refuted", "C33_last_one", "C33_key_error"], "note": "False if two new waypoints are at the time of one old one: then there is always a KeyError, and nothing changes (C33_key_error). In all other cases the last of the new waypoints at each time is there afterwards, and nothing else changed (C33_last_one)."},
 {"property": "C34", "status": "partial", "theorems": ["C34_animating_and_back_partial", "C34_colours_refuted", "C34_detached_refuted"], "note": "Proved for the values the class keeps exactly; colours lose precision."},
 {"property": "C35", "status": "proved", "theorems": ["C35_names_are_canonical", "C35_waypoints_have_canonical_names", "C35_setters_keep_names_canonical", "C35_setters_set_their_own_side", "C35_constructor"], "note": ""},
 {"property": "C36", "status": "partial", "theorems": ["C36_set_then_delete_partial", "C36_getting_refuted", "C36_other_keys"], "note": "Set and delete work; get never does."},
 {"property": "C37", "status": "partial", "theorems": ["C37_negative_times_refuted"], "note": "False: a negative time counts from the end when it is read."},
 {"property": "C38", "status": "partial", "theorems": ["C38_failed_set_changes_nothing_partial", "C38_failed_delete_changes_nothing_partial", "C38_failed_unanimate_changes_nothing_partial", "C38_failed_add_changes_nothing_partial", "C38_other_speed_refuted", "C31_detached_refuted", "C79_junk_refuted", "C38_cleared_refuted", "C38_mixed_list_refuted", "C38_first_waypoint"], "note": "Proved for attached values and times not at another speed. Refuted otherwise: a time at another speed as key always clears a timeline before it raises (C38_cleared_refuted), and so does a list with times of two speeds (C38_mixed_list_refuted)."},
 {"property": "C39", "status": "partial", "theorems": ["C39_always_raises_refuted", "C39_but_adds_partial"], "note": "False: it always raises, after adding."},
 {"property": "C40", "status": "proved", "theorems": ["C40_children", "C40_canvas"], "note": ""},
 {"property": "C41", "status": "proved", "theorems": ["C41_append"], "note": "The rest of the document changes at most in white space."},
 {"property": "C42", "status": "partial", "theorems": ["C42_insert_partial", "C42_insert_out_of_range", "C42_insert_refuted", "C42_no_insert_at_end", "C42_plain"], "note": "As list.insert for the indexes of the children there are, counted from either end. An index past them is an IndexError (list.insert would append), and inserting a layer before itself is a ValueError, after a line break was added (C42_insert_refuted)."},
 {"property": "C43", "status": "partial", "theorems": ["C43_moves_partial", "C43_others_stay_partial", "C43_append_moves", "C43_insert_moves", "C43_append_last_raises", "C43_within", "C43_lost", "C43_lost_append", "C43_lost_insert", "C43_all_modelled", "C43_history", "C43_refuted", "C43_hangs_refuted"], "note": "CycModel.v: also a layer that is put into itself, which bs4 (4.12.2, pinned) allows: it is then in a cycle outside of the document, so the document loses it (C43_lost), or append never returns (C43_hangs_refuted). C43_history: over any history of moves nothing is duplicated, and without such moves nothing is lost. Appending the layer that is already last raises ValueError."},
 {"property": "C44", "status": "partial", "theorems": ["C44_len_partial", "C44_len_refuted"], "note": "len counts layers at all depths; true for groups with no nested layers."},
 {"property": "C45", "status": "partial", "theorems": ["C45_descendants_partial", "C45_descendants_group_partial", "C45_descendants_refuted", "C45_only_groups"], "note": "C45_only_groups: which layers can have children."},
 {"property": "C46", "status": "proved", "theorems": ["C46_find_all_true", "C46_find_all_true_layer", "C46_find_all_none", "C46_find_is_first"], "note": ""},
 {"property": "C47", "status": "partial", "theorems": ["C47_find_type_exact", "C47_find_type_partial", "C47_find_type_refuted", "C47_find_blur_refuted"], "note": "What it finds is proved exactly; layers with a parameter of the name type_ are missed, and types spelt with underscores."},
 {"property": "C48", "status": "partial", "theorems": ["C48_criteria_partial", "C48_one_criterion", "C48_criteria_refuted", "C48_by_desc", "C48_by_truth", "C48_attrs", "C48_numbers"], "note": "The code takes any match for all. C48_by_desc, C48_by_truth: exactly what is found with one criterion, by the attributes in the file. C48_attrs: attrs={...} is the same as keywords."},
 {"property": "C49", "status": "partial", "theorems": ["C49_not_recursive_partial", "C49_not_recursive_refuted"], "note": "True of an animation, in document order; of a group it finds none."},
 {"property": "C50", "status": "partial", "theorems": ["C50_own_param_partial", "C50_no_param_partial", "C50_own_param_refuted", "C50_nameless", "C50_malformed"], "note": "The search goes into nested layers."},
 {"property": "C51", "status": "partial", "theorems": ["C51_set_plain_partial", "C51_set_object_partial", "C51_set_errors", "C51_set_field_partial", "C51_set_object_refuted"], "note": "A Value object that is already in a document is taken from there."},
 {"property": "C52", "status": "proved", "theorems": ["C52_bool_fields", "C52_desc", "C52_no_desc"], "note": ""},
 {"property": "C53", "status": "proved", "theorems": ["C53_depth_parent"], "note": ""},
 {"property": "C54", "status": "partial", "theorems": ["C54_new_layer_partial", "C54_blend_method_refuted", "C54_times_refuted", "C54_halftone3_refuted"], "note": "Missing: Halftone3 cannot be constructed; reading the field blend_method raises AssertionError; the default times are written as \"0\", which cannot be read."},
 {"property": "C55", "status": "partial", "theorems": ["C55_end_time_partial", "C55_end_time_refuted"], "note": "False: end_time reads an attribute named end_time, which files do not have, so it is 5s whatever the file says."},
 {"property": "C56", "status": "partial", "theorems": ["C56_loaded_partial", "C56_settled_partial", "C56_edited_partial", "C56_refuted"], "note": "Holds for every document that was loaded from a file, and for every edited one up to white space; false for tabs and newlines in attributes, which come back as blanks."},
 {"property": "C57", "status": "partial", "theorems": ["C57_save_partial", "C57_no_other_file", "C57_any_history", "C57_told_unique", "C57_refuted"], "note": "For all histories, with saves that fail (C57_any_history): save() writes the file that was named last with a known extension, even if it could not be written then; so the property is false after a failed save(filename), see C58."},
 {"property": "C58", "status": "partial", "theorems": ["C58_failed_save_partial", "C58_refuted", "C58_redirected_refuted", "C58_exactly"], "note": "Holds for unsupported extensions; false for .sfg and for files that cannot be opened."},
 {"property": "C59", "status": "partial", "theorems": ["C59_crash_partial", "C59_last_state", "C59_refuted"], "note": "False: the file is emptied before it is written. Proved what the file can hold, and that no other file is affected."},
 {"property": "C60", "status": "proved", "theorems": ["C60_keyframes", "C60_active"], "note": ""},
 {"property": "C61", "status": "partial", "theorems": ["C61_framecount_partial", "C61_refuted"], "note": "framecount is one more than documented: int(end)-int(begin)+1."},
 {"property": "C62", "status": "partial", "theorems": ["C62_texts_grow", "C62_whole_line_partial", "C62_whole_line_refuted", "C62_words_partial", "C62_letters_partial", "C62_words_refuted", "C62_letters_refuted", "C62_timeline_partial"], "note": "The texts always grow strictly and are beginnings of the line (C62_texts_grow, no conditions). That they end at exactly the words (letters) needs descriptions without a blank at the beginning or end; false otherwise (_refuted). C62_timeline_partial: that is what the timeline of the layer shows, in a whole document."},
 {"property": "C63", "status": "partial", "theorems": ["C63_never_back_partial", "C63_never_back_refuted", "C63_within_partial", "C63_within_refuted", "C63_close_partial"], "note": "Never back: for starts up to 2^53 ms and durations that aren't negative; false for negative durations. Within start and end: for lines that are paced (bounded so that rounding doesn't matter); false for huge starts because of rounding. C63_close_partial: how near the times are to the exact ones."},
 {"property": "C64", "status": "partial", "theorems": ["C64_kept", "C64_no_word_lost_partial", "C64_refuted"], "note": "A word is kept unless a later one has the same time (C64_kept, exact). Hence every word of paced lines that don't overlap is in the timeline of its layer. False in general: words with the same time are lost (C64_refuted)."},
 {"property": "C65", "status": "proved", "theorems": ["C65_reported", "C65_untouched", "C65_untouched_partial"], "note": "C65_reported is exact. C65_untouched holds for every document, order and outcome. C65_untouched_partial also says what is changed, for documents in which no text layer is in two groups and each has a text."},
 {"property": "C66", "status": "partial", "theorems": ["C66_every_file", "C66_partial", "C66_line_ends_refuted", "C66_end_refuted"], "note": "Lines outside of blocks, and in blocks without a field, are the same in the same order, and nothing else on the disk changes. Not byte by byte: CRLF becomes LF, and the line that ends any block gets the indentation of its beginning and loses white space."},
 {"property": "C67", "status": "partial", "theorems": ["C67_partial", "C67_marker_refuted", "C67_class_refuted", "C67_all"], "note": "If no line of a value is a marker or begins a class, no value has a carriage return and no class begins in a block. The refuted theorems show that without the first and the last it is false."},
 {"property": "C68", "status": "partial", "theorems": ["C68_partial", "C68_any_error", "C68_nested_refuted", "C68_no_class_refuted", "C68_unreadable"], "note": "Exactly when the error is raised, and that nothing is written then. Blocks in blocks and named blocks outside of classes are accepted."},
 {"property": "C69", "status": "proved", "theorems": ["C69_crash", "C69_all_moments", "C69_complete", "C69_moments"], "note": ""},
 {"property": "C70", "status": "partial", "theorems": ["C70_detected_in_time_partial", "C70_failed_composite_loses_refuted", "C70_failed_gradient_loses_refuted", "C70_failed_canvas_loses_refuted", "C70_string_keys", "C70_string_keys_refuted", "C70_canvas_refuted"], "note": "false in the code, as the tag is cleared first"},
 {"property": "C71", "status": "partial", "theorems": ["C71_colours_copy_partial", "C71_bools_copy_partial", "C71_numbers_refuted", "C71_transformation_refuted", "C71_strings", "C71_strings_refuted", "C71_times_refuted", "C71_vectors_partial", "C71_gradients", "C71_transformations_refuted", "C71_itself_refuted", "C71_itself_partial"], "note": "Holds for texts and gradients as they are stored, for colours (to six decimals), bools and new vectors (to ten). Numbers raise TypeError and times ValueError; animated texts become '(animated)'; transformations raise and lose their parts (C71_transformations_refuted), even if a transformation is assigned to itself (C71_itself_refuted)."},
 {"property": "C72", "status": "partial", "theorems": ["C72_numbers_compare_partial", "C72_comparison_raises_refuted", "C72_integer_equals_fraction_refuted", "C72_colour_tuples", "C72_colour_others", "C72_no_number", "C72_strings"], "note": "false in the code"},
 {"property": "C73", "status": "partial", "theorems": ["C73_defaults_partial", "C73_string_default_refuted", "C73_vector_default_refuted", "C73_blend_method"], "note": "False for String(), which is the text '()', and X_Y(), which can't be read again."},
 {"property": "C74", "status": "partial", "theorems": ["C74_class_is_recognised_partial", "C74_blend_method_refuted", "C74_kept", "C74_vector", "C74_vector_refuted", "C74_no_type"], "note": "False for blend methods, and for vectors that are assigned dictionaries of other keys. Strings, transformations, gradients and canvases keep their class whatever is assigned (C74_kept)."},
 {"property": "C75", "status": "proved", "theorems": ["C75_times_survive", "C75_seconds_refuted"], "note": "frame counts below a million, the range of the printed format"},
 {"property": "C76", "status": "partial", "theorems": ["C76_timelines_survive_saving", "C76_whole_frames_are_kept", "C76_fractions_refuted", "C76_values"], "note": "Whole frames, and values with solid tags (SavSpec2.v); fractions are rounded to six digits."},
 {"property": "C77", "status": "proved", "theorems": ["C77_iteration_is_in_order"], "note": ""},
 {"property": "C78", "status": "partial", "theorems": ["C78_equality_is_of_times_partial", "C78_equality_ignores_values_refuted"], "note": "False: only the times are compared."},
 {"property": "C79", "status": "partial", "theorems": ["C79_assigning_a_list_partial", "C79_assigning_nothing", "C79_junk_refuted", "C29_duplicates_refuted"], "note": "A list of something else clears the timeline before raising."},
 {"property": "C80", "status": "partial", "theorems": ["C80_waypoint_tags_read_back", "C80_read_waypoints_fit", "C80_wrong_type_refuted"], "note": "Reading back holds; the type is not checked when a waypoint is set."},
 {"property": "C81", "status": "partial", "theorems": ["C81_truth_partial", "C81_found_is_false_refuted"], "note": "False in the code: a layer without sublayers is false."},
 {"property": "C82", "status": "partial", "theorems": ["C82_reading_partial", "C82_version_refuted"], "note": "False for type and version of a layer that lacks them."},
 {"property": "C83", "status": "partial", "theorems": ["C83_misuse_partial", "C83_misuse_refuted"], "note": "An exception is raised, but UnboundLocalError or AttributeError."},
 {"property": "C84", "status": "proved", "theorems": ["C84_find_function"], "note": "The function gets the tag of the layer."},
 {"property": "C85", "status": "partial", "theorems": ["C85_find_class_partial", "C85_find_class_refuted", "C85_exact_partial", "C85_missed_refuted", "C85_exact", "C85_animated_refuted", "C85_number_refuted"], "note": "C85_exact (FtyProps2.v) says exactly which layers are found: those of the class whose type is written without capitals and underscores, and none if the class has a parameter called type_ (C85_missed_refuted). It is for documents in which parameters called type_ are absent or are numbers. If one is animated, every search by class or type raises ValueError (C85_animated_refuted). A string that is a number finds layers by that parameter (C85_number_refuted)."},
 {"property": "C86", "status": "proved", "theorems": ["C86_new_text"], "note": ""},
 {"property": "C87", "status": "proved", "theorems": ["C87_param_reference"], "note": ""},
 {"property": "C88", "status": "partial", "theorems": ["C88_field_round_trip", "C88_field_read", "C88_hyphens_refuted", "C88_fields", "C88_metadata_refuted"], "note": "The round trip holds for all fields; but gamma_r, gamma_g, gamma_b and view_box are never read from files, which call them gamma-r and so on. The metadata fields (grid_color and so on) can neither be read nor set."},
 {"property": "C89", "status": "partial", "theorems": ["C89_failed_save_partial", "C89_refuted"], "note": "False when the text cannot be encoded as UTF-8: the file is left empty."},
 {"property": "C90", "status": "proved", "theorems": ["C90_new_animation", "C90_contents"], "note": ""},
 {"property": "C91", "status": "proved", "theorems": ["C91_load_by_content", "C91_load_missing", "C91_name_does_not_matter", "C91_refused", "C91_not_utf8"], "note": ""},
 {"property": "C92", "status": "proved", "theorems": ["C92_new_attributes"], "note": "Halftone3 cannot be made at all (C54)."},
 {"property": "C93", "status": "proved", "theorems": ["C93_attribute_fields"], "note": ""},
 {"property": "C94", "status": "partial", "theorems": ["C94_no_hidden_state_partial", "C94_hidden_state_refuted"], "note": "False for the version (and type) of a layer whose tag does not have the attribute: the default is that of the class made last."},
 {"property": "C95", "status": "partial", "theorems": ["C95_groups_partial", "C95_found_partial", "C95_refuted", "C95_no_description"], "note": "C95_no_description: a text layer without a description raises AttributeError and changes nothing."},
 {"property": "C96", "status": "partial", "theorems": ["C96_exact_partial", "C96_order_partial", "C96_order_refuted"], "note": "For documents in which no text layer is in two groups and each has a text, and times that are 0 or at least 0.1 ms. C96_order_refuted: a text layer in two groups, where the result depends on the order of a set."},
 {"property": "C97", "status": "partial", "theorems": ["C97_twice_partial", "C97_refuted"], "note": "C97_refuted: false when a text is in two groups."},
 {"property": "C98", "status": "partial", "theorems": ["C98_first", "C98_weighted_partial", "C98_refuted"], "note": "C98_first is exact. The pauses are weighted so (up to rounding, bounded) when each layer has one word; in layers of several words they are weighted by the length of all the text shown so far, which refutes the documented claim."},
 {"property": "C99", "status": "proved", "theorems": ["C99_tidy", "C99_ascii", "C99_parts"], "note": "All strings."},
 {"property": "C100", "status": "partial", "theorems": ["C100_works_partial", "C100_zero", "C100_refuted"], "note": "False: a subtitle of punctuation only, with a group without texts, raises ZeroDivisionError (C100_refuted); C100_zero says exactly when that division fails; C100_works_partial says when all is well."},
 {"property": "C101", "status": "partial", "theorems": ["C101_read_partial", "C101_refuted"], "note": "For 0 and times from 0.1 ms on. Smaller ones are written with an exponent and read as negative times (C101_refuted)."},
 {"property": "C102", "status": "proved", "theorems": ["C102_only_then", "C102_written", "C102_loads", "C102_always"], "note": "C102_works_partial also says that the words are adjusted, for the documents of C96."},
 {"property": "C103", "status": "proved", "theorems": ["C103_replaced", "C103_added", "C103_given"], "note": "All names."},
 {"property": "C104", "status": "partial", "theorems": ["C104_same", "C104_refuted"], "note": "Case and punctuation: proved for ASCII texts. Line breaks: false, as they are removed and the words glued together (C104_refuted)."},
 {"property": "C105", "status": "partial", "theorems": ["C105_size_partial", "C105_size_set", "C105_refuted"], "note": "False as stated: where the file has no width or height, those have defaults and size raises KeyError (C105_refuted)."},
 {"property": "C106", "status": "partial", "theorems": ["C106_viewbox", "C106_written_exactly", "C106_background", "C106_set_viewbox_refuted"], "note": "Reading is proved; setting view_box does not change viewbox (C106_set_viewbox_refuted)."},
 {"property": "C107", "status": "partial", "theorems": ["C107_read", "C107_missing", "C107_set_partial", "C107_inner_refuted", "C107_set", "C107_blank_refuted"], "note": "A description of only white space is read back at once, but after saving and loading it is one newline or one blank, or None if it was empty (C107_set gives the exact value, C107_blank_refuted). An animation without a description takes that of something in it (C107_inner_refuted)."},
 {"property": "C108", "status": "proved", "theorems": ["C108_metadata"], "note": "Documents that these fields cannot be used."},
 {"property": "C109", "status": "partial", "theorems": ["C109_end_time_set", "C109_longer_refuted"], "note": "The value is read back by end_time, but the length of the animation does not follow (C109_longer_refuted)."},
 {"property": "C110", "status": "proved", "theorems": ["C110_all", "C110_crash", "C110_no_fields", "C110_moments"], "note": ""},
 {"property": "C111", "status": "proved", "theorems": ["C111_unseen"], "note": ""},
 {"property": "C112", "status": "proved", "theorems": ["C112_written"], "note": ""},
 {"property": "C113", "status": "proved", "theorems": ["C113_literal_unique", "C113_exact"], "note": "the meaning of Python literals (strings with escapes, numbers, tuples, dictionaries) is specified separately in PexSpec.v"},
 {"property": "C114", "status": "partial", "theorems": ["C114_partial", "C114_assigned", "C114_refuted"], "note": "proved: up to ten decimals, hence equal for the library, and exact for what was assigned; exactness for every number refuted"},
 {"property": "C115", "status": "partial", "theorems": ["C115_partial", "C115_assigned", "C115_refuted", "C115_other"], "note": "proved: up to ten decimals, and exact for what was assigned; a vector with more decimals compares unequal to its copy"},
 {"property": "C116", "status": "partial", "theorems": ["C116_partial", "C116_exact", "C116_refuted", "C116_animated_refuted"], "note": "proved: up to six decimals, and exactly for colours with six decimals; otherwise the hexadecimal code can change; nothing recreated is animated"},
 {"property": "C117", "status": "partial", "theorems": ["C117_partial", "C117_exact", "C117_refuted"], "note": "proved for gradients whose stops are at increasing multiples of a millionth; exact when colours have six decimals; C117_refuted: two stops less than a millionth apart become one"},
 {"property": "C118", "status": "partial", "theorems": ["C118_partial", "C118_refuted"], "note": "proved for transformations with plain parts; offset and scale up to ten decimals; C118_refuted: an animated offset gives an expression that is no literal"},
 {"property": "C119", "status": "partial", "theorems": ["C119_partial", "C119_seconds_refuted", "C119_blend_refuted", "C119_animated_refuted"], "note": "proved for times of less than a second in whole frames; from one second on, for blend methods and for animated numbers, truth values and vectors it is refuted for every value"},
 {"property": "C120", "status": "partial", "theorems": ["C120_header", "C120_partial", "C120_files", "C120_complete", "C120_refuted"], "note": "Exact: of each line the first enumerator counts, of each number the last line. Complete where no line has two and no two share a number. Refuted in general: a second enumerator on a line is lost."},
 {"property": "C121", "status": "proved", "theorems": ["C121_gap", "C121_header", "C121_no_directory"], "note": ""},
 {"property": "C122", "status": "proved", "theorems": ["C122_crash", "C122_moments"], "note": ""},
 {"property": "C123", "status": "partial", "theorems": ["C123_sections", "C123_exact", "C123_partial", "C123_refuted"], "note": "Exact: the last symbol up to the next line that begins a layer, across files. That is the class's own symbol where symbols are only set in bodies of layers. Refuted: the symbol '?' of the class Layer goes to the last layer of the file read before layer.py."},
 {"property": "C124", "status": "partial", "theorems": ["C124_partial", "C124_refuted"], "note": "Holds where no file sets a symbol before its first layer; refuted with layer.py."},
 {"property": "C125", "status": "proved", "theorems": ["C125_twice", "C125_error"], "note": ""},
 {"property": "C126", "status": "partial", "theorems": ["C126_partial", "C126_moments", "C126_refuted"], "note": "Other files stay and the file is the old one or a beginning of the new one. Refuted: the file is not replaced atomically."},
 {"property": "C127", "status": "proved", "theorems": ["C127_saves", "C127_new", "C127_strings_refuted"], "note": "C127_strings_refuted: without the condition on strings it is false, as half a surrogate pair can't be encoded."},
 {"property": "C128", "status": "proved", "theorems": ["C128_tree"], "note": "The animation itself is never moved into a group; putting a layer into itself is outside the model."},
 {"property": "C129", "status": "proved", "theorems": ["C129_others", "C129_away"], "note": "For every history of modelled calls, starting from any document; exceptions are caught and the history goes on. Calls outside the model (EUnmodelled) leave the forest alone there."},
 {"property": "C130", "status": "partial", "theorems": ["C130_numbers", "C130_partial", "C130_made", "C130_equivalence", "C130_refuted", "C130_tuples_partial", "C130_others", "C130_elements", "C130_dictionaries", "C130_keys_refuted", "C130_gradients_refuted", "C130_transformations_refuted"], "note": "Exact for all readable vectors: they are equal if and only if their numbers are equal in the order of the file. The property holds when x comes before y in both (as in all vectors the library makes); C130_refuted shows the same point unequal, and different points equal, with y first."},
 {"property": "C131", "status": "proved", "theorems": ["C131_gradients", "C131_equivalence", "C131_others"], "note": "For gradients whose colours all have hex digits; the equality of float positions is that of rationals."},
 {"property": "C132", "status": "partial", "theorems": ["C132_partial", "C132_refuted", "C132_dictionaries", "C132_others"], "note": "Parts in any order, each once, with plain vectors and angles that aren't animated. C132_refuted: comparing with a dictionary of four other keys raises KeyError, and y before x matters."},
 {"property": "C133", "status": "partial", "theorems": ["C133_partial", "C133_bool", "C133_refuted"], "note": "The property holds for Bool; for the others the theorem says exactly when they are true, and C133_refuted shows Real(5) and String('x') to be false."},
 {"property": "C134", "status": "partial", "theorems": ["C134_gradient", "C134_vector_partial", "C134_transformation_partial", "C134_refuted", "C134_transformation_refuted", "C134_missing", "C134_animated", "C134_vector_missing", "C134_coordinates"], "note": "C134_animated: iterating over an animated vector is a TypeError."},
 {"property": "C135", "status": "proved", "theorems": ["C135_layers", "C135_line", "C135_refuted"], "note": "Which characters Python calls printable is a parameter; the theorem about lines needs only that no line end is among them. C135_refuted: no desc and an empty one print alike."},
 {"property": "C136", "status": "proved", "theorems": ["C136_keyframes", "C136_list"], "note": "Times that differ may print alike (C138_refuted), so the theorem speaks of what they print as."},
 {"property": "C137", "status": "proved", "theorems": ["C137_waypoints", "C137_made", "C137_aligned"], "note": "Of canvases as values nothing is said: their printing isn't modelled."},
 {"property": "C138", "status": "partial", "theorems": ["C138_partial", "C138_vectors", "C138_repr", "C138_refuted", "C138_gradients", "C138_transformations", "C138_animated"], "note": "Proved for Real, Integer, Bool, String, Color, BlendMethod and X_Y. C138_refuted shows different angles, and different times, that print alike, and a string that prints like something animated. Gradients: C138_gradients; transformations that aren't animated: C138_transformations."},
 {"property": "C139", "status": "partial", "theorems": ["C139_partial", "C139_refuted"], "note": "For values that print without brackets: all but strings, canvases, and the classes with several parts other than vectors. C139_refuted: a string may look like the end of a waypoint and another one."},
 {"property": "C140", "status": "partial", "theorems": ["C140_timelines", "C140_partial", "C140_refuted", "C140_not_implemented"], "note": "All classes but blend methods, whose type changes (C140_refuted). C140_timelines has no condition on the value at all."},
 {"property": "C141", "status": "proved", "theorems": ["C141_views", "C141_failures", "C141_files", "C141_static"], "note": ""},
 {"property": "C142", "status": "partial", "theorems": ["C142_blocks", "C142_capitals_refuted", "C142_class_names", "C142_all_layers", "C142_canvas"], "note": "Types whose names differ only in capitals overwrite each other: C142_capitals_refuted. What read_existing (which doesn't exist in the repository) would return is a parameter."},
 {"property": "C143", "status": "partial", "theorems": ["C143_lines", "C143_text", "C143_animated", "C143_nested_refuted", "C143_inherited", "C143_own", "C143_exceptions", "C143_no_more_exceptions", "C143_field", "C143_field_total", "C143_line"], "note": "Params of layers within the layer are included: C143_nested_refuted. The expression for a blend method isn't Python (v.13), see C119."},
 {"property": "C144", "status": "partial", "theorems": ["C144_partial", "C144_names_refuted", "C144_program"], "note": "For names that are words and versions of one line; else C144_names_refuted. C144_program is the whole program, on all source files. The conditions on the files are those of C67. It is assumed that str.isprintable is false for surrogates."},
 {"property": "C145", "status": "proved", "theorems": ["C145_all_or_nothing", "C145_checked"], "note": ""},
 {"property": "C146", "status": "proved", "theorems": ["C146_layers", "C146_fields", "C146_condition_needed"], "note": "C146_condition_needed shows why there must be no line feeds in attributes. same_layer (SavSpec.v) says what is the same."},
 {"property": "C147", "status": "proved", "theorems": ["C147_loaded", "C147_new", "C147_values", "C147_new_layers", "C147_parts"], "note": "edit (WrSpec.v) lists the calls. The values of waypoints are in C76; texts that don't meet the condition on blanks change (C21_blank_refuted and others)."},
 {"property": "C148", "status": "proved", "theorems": ["C148_lists", "C148_loaded", "C148_all_moved"], "note": "The lists are in MovSpec.v. Putting a layer into itself makes a cycle, which the model can't have (C43)."},
 {"property": "C149", "status": "partial", "theorems": ["C149_loop_partial", "C149_all_moved", "C149_same_group_refuted", "C149_emptied", "C149_plain"], "note": "Proved for bodies that move the layer they are given to other groups. Bodies that move it within the group make the loop miss layers and raise ValueError (C149_same_group_refuted). C149_emptied: any body, when nothing is left after the first round. C149_plain: layers that aren't groups."},
 {"property": "C150", "status": "proved", "theorems": ["C150_parameters", "C150_read", "C150_all", "C150_last", "C150_others"], "note": "The variables are the params of the document (VarSpec.v)."},
 {"property": "C151", "status": "partial", "theorems": ["C151_mixed", "C151_single_partial", "C151_same", "C151_all", "C151_group_refuted"], "note": "Proved for params wherever they are, and so for the parameters of all layers that have no layers in them. A parameter of a group may become another one when a layer is put into the group, as names are looked up in the layers inside, too (C151_group_refuted)."},
 {"property": "C152", "status": "partial", "theorems": ["C152_layers", "C152_animations", "C152_blur_refuted"], "note": "False only of type_ of the six classes that have a parameter called type_ (C152_blur_refuted)."},
 {"property": "C153", "status": "partial", "theorems": ["C153_partial", "C153_read", "C153_refuted"], "note": "Reading raises, and assigning changes nothing in the document; but assigning doesn't raise, so that the value is lost (C153_refuted). Methods that are hidden by an assignment are not modelled."},
 {"property": "C154", "status": "partial", "theorems": ["C154_acts", "C154_read", "C154_all", "C154_history", "C154_timelines_partial", "C154_transformation_refuted"], "note": "The timelines of transformations are excepted, since they can't be read once they are animated (C154_transformation_refuted). Canvases are layers, C148. Which parameter a name means, and the speed of the canvas, are those of the document at that step."},
 {"property": "C155", "status": "proved", "theorems": ["C155_program", "C155_all", "C155_new", "C155_last"], "note": "WldSpec.v says what each step means. Which parameter a name means, and the speed of the canvas, are those of the document at that step. C155_last is for values other than None."},
 {"property": "C156", "status": "partial", "theorems": ["C156_saved", "C156_last", "C156_waypoints", "C156_refuted"], "note": "EndSpec.v says what it means that a layer of the loaded document is as the lists, variables and dictionaries of C155 say (told, by recursion into groups), and that timelines are steady; C156_waypoints: waypoints at whole frames are. Descriptions are of one line: those of more lines are joined (C156_refuted). Values whose tags aren't solid (with blank texts) are left to C147, and layers aren't put into themselves. The FPS is that of the animation as it was made or loaded."},
 {"property": "C157", "status": "partial", "theorems": ["C157_waypoint_partial", "C157_values", "C157_stores_partial", "C157_errors", "C157_missing", "C157_static", "C157_x_y_refuted", "C157_spelling_refuted"], "note": "WpvModel.v: a waypoint is a new object, but its value is a view of the tag in the document. Missing for timeline[t]: times given as strings (C36_getting_refuted), values in which the letters x_y occur (refuted), types that aren't in small letters (refuted: the timeline can't be read any more). Transformations, gradients and canvases whose setters raise half way: C157_values says what then is in the waypoint."},
 {"property": "C158", "status": "proved", "theorems": ["C158_recolour", "C158_saved", "C158_stops"], "note": "TutModel.v, TutSpec.v. The documents are usual ones (MovSpec.v: all layers are of known types, groups have a canvas). C158_nonvacuous is the program as it is, with docs/examples/colours.sif as it is (TutFile.v)."},
 {"property": "C159", "status": "proved", "theorems": ["C159_translate", "C159_saved"], "note": "TutModel.v, TutSpec.v. Text layers may not share a text (one inside another could), and no parameter is called type_ (C47). C159_nonvacuous is the program as it is, with docs/examples/colours.sif as it is (TutFile.v)."},
 {"property": "C160", "status": "proved", "theorems": ["C160_program", "C160_times", "C160_saved"], "note": "PgmSpec.v, on WldSpec.v and EndSpec.v. The description of the animation isn't among the fields (C107 has that, and how it can go wrong). Steps are those for which the variables say what happens (pacts_mean); in C160_saved, strings are of one line and frame rates are doubles."},
 {"property": "C161", "status": "partial", "theorems": ["C161_untouched", "C161_independent", "C161_arrives_partial", "C161_numbers_refuted"], "note": "PgmSpec.v (PCopy), so that C160_program and C160_saved hold of programs with copies, too. C161_numbers_refuted: numbers and angles of the same kind can't be copied, for any documents and values: TypeError is raised, and the parameter keeps its value. C161_independent holds of all kinds of values; what arrives of vectors, gradients and transformations is in C71. Assigning a value to itself is in CpyModel.v (C71_itself)."},
 {"property": "C162", "status": "proved", "theorems": ["C162_moved", "C162_params", "C162_times"], "note": "TwoSpec.v. When the move succeeds, and what it raises otherwise, is in C41, C42 and C43. The layer is of the other animation, so no cycle can arise."},
 {"property": "C163", "status": "partial", "theorems": ["C163_text_partial", "C163_back_refuted"], "note": "UtilModel.v. type_and_str_to_value raises NameError always (util.py:24 uses v, its parameter is s). Nothing in the package calls either."},
 {"property": "C164", "status": "partial", "theorems": ["C164_read", "C164_assigned", "C164_never_refuted", "C164_layers_raise", "C164_itself_refuted"], "note": "CanvModel.v. Only the empty list can be assigned. The setter clears the canvas, and then passes layer objects to bs4 in place of their tags, which raises AttributeError (canvas.py:34), so every other list leaves the canvas empty (C164_assigned) and its layers out of the document (C164_itself_refuted)."},
 {"property": "C165", "status": "partial", "theorems": ["C165_equal_partial", "C165_found_partial", "C165_one", "C165_extends", "C165_refuted", "C165_text", "C165_classes", "C165_times", "C165_found_times", "C165_vectors_exactly", "C165_colours_exactly"], "note": "FndModel.v: find_all with all classes but Canvas. Proved for integers, truth values, angles, strings, hex colours, reals up to 1e11 (they are compared with a tolerance), vectors with ten decimals, colour tuples with six, times in whole frames, transformations and gradients made of such parts. Refuted for others (C165_refuted): vectors and colours are rounded when stored and compared exactly, so that a layer at (1/3, 0) isn't found. C165_vectors_exactly and C165_colours_exactly say just when they are."},
 {"property": "C166", "status": "partial", "theorems": ["C166_copied", "C166_same_rate", "C166_itself", "C166_static", "C166_both_static", "C166_saved", "C166_saved_same_rate", "C166_other_type_refuted", "C166_saved_refuted", "C166_lost_refuted"], "note": "CtlModel.v. In memory the waypoints of the copy are at the same frames at every rate (C166_copied); at the same rate that is the same timeline, also after saving. Refuted for different rates: what is saved are the seconds and frames of the first document, so every waypoint after the first second moves when the file is loaded (C166_saved_refuted, an equivalence), and two can fall together so that one is lost (C166_lost_refuted). Refuted for other types: they are accepted, and the timeline can't be read afterwards (C166_other_type_refuted). Saving is proved for whole frames and rates up to 1e6."},
 {"property": "C167", "status": "partial", "theorems": ["C167_set", "C167_texts", "C167_assigned", "C167_saved", "C167_refuted"], "note": "RatProps.v. Nothing but the rate changes (C167_set) and texts are read at the new rate (C167_texts). Refuted for waypoints that were set by the program (C167_refuted, an equivalence): in memory they stay at the same frames (C167_assigned), and the file has the seconds and frames of the old rate (C167_saved), which are the same only in the first second, or if the rate didn't change. C167_saved is for whole frames and rates, and for new rates that aren't lower or times that stay in order."},
 {"property": "C168", "status": "partial", "theorems": ["C168_one_object", "C168_several_partial", "C168_left_behind_refuted", "C168_never_arrives_refuted", "C168_left_behind_stays", "C168_again", "C168_items_refuted", "C168_put", "C168_apart"], "note": "AliProps.v. Proved for whatever is done through one object (C168_one_object), and for any number of objects of a class while no act ends an animation (C168_several_partial). Refuted in general: when an animation is ended by one object, or when layer['k'] is assigned to, the other objects are left with a tag out of the document, animated and empty (C168_left_behind_refuted, C168_items_refuted), and nothing done through them arrives any more (C168_never_arrives_refuted). Getting the object again mends it (C168_again). Values on the right-hand side of an assignment are taken from other parameters."},
 {"property": "C169", "status": "partial", "theorems": ["C169_histories_partial", "C169_shared_partial", "C169_own_refuted", "C169_put_back_partial", "C169_left_behind_refuted"], "note": "HldProps.v. What really happens, for all histories: C169_histories_partial refines HldSpec.v (what is missing: as in C28 and C157). Assignments to the value are in the document, and seen by other objects for it, until the timeline is written (C169_shared_partial). Refuted: assignments to before, after and time change nothing in the document (C169_own_refuted) until the waypoint is put back (C169_put_back_partial); and whenever the timeline is written, all held waypoints are left behind for good (C169_left_behind_refuted)."},
 {"property": "C170", "status": "partial", "theorems": ["C170_parts", "C170_read", "C170_one", "C170_stops_refuted", "C170_saved", "C170_results", "C170_stop_partial"], "note": "PrtProps.v. True of transformations, for all programs (C170_parts, C170_read, C170_one). Refuted for gradients: any colour that is assigned in place loses the pos attribute, and the gradient can't be read any more (C170_stops_refuted)."},
 {"property": "C171", "status": "partial", "theorems": ["C171_read", "C171_assignment_refuted", "C171_histories_partial", "C171_copy_refuted", "C171_copy"], "note": "OatProps.v. Reading is true (C171_read). Assigning is refuted: there is no __setattr__, so it never changes the document, and only that object shows it (C171_assignment_refuted; C171_histories_partial says it for all programs. Missing: names which the classes use for something else). Copying a transformation is a RecursionError at any depth of the stack (C171_copy_refuted); any other copy is an object for the same tag (C171_copy)."},
 {"property": "C172", "status": "partial", "theorems": ["C172_kept", "C172_never_equal_refuted", "C172_in_refuted", "C172_tags", "C172_alike_refuted", "C172_moved", "C172_inserted"], "note": "IdnProps.v. Refuted: every access makes a new object, and Layer has no __eq__, so no two results of any program are ever equal (C172_never_equal_refuted), and no layer is ever among the children of a group (C172_in_refuted). The tags compared with == can be alike for different layers (C172_alike_refuted). True: objects keep to their layer (C172_kept), and comparing the tags with `is` gives the right answer (C172_tags)."},
 {"property": "C173", "status": "partial", "theorems": ["C173_history_partial", "C173_lost_refuted", "C173_none"], "note": "DscProps2.v. Refuted: bs4 empties the tag before it looks at the value, so a number, None or a container raises and the description is lost, in every document (C173_lost_refuted). True: after any history of plain values nothing but that tag is changed and the description is what the last assignment left (C173_history_partial); without a description nothing changes (C173_none). Missing: assigning a T or a Value object."},
 {"property": "C174", "status": "partial", "theorems": ["C174_sifz", "C174_ascii_partial", "C174_page", "C174_refuted", "C174_latin1", "C174_grows", "C174_goes_on", "C174_encodings"], "note": "EncProps.v. Refuted: .sif files are written in UTF-8 but opened with the encoding of the locale. With any encoding in which each byte is a character, such as windows-1252, every document with a character outside ASCII is refused or read back wrongly (C174_refuted; C174_page: exactly which document is read, for every plain file); with ISO-8859-1 it's never refused (C174_latin1). True: .sifz files are read back in every locale (C174_sifz), and .sif files if all text is in ASCII and the locale knows ASCII (C174_ascii_partial). Missing: encodings with several bytes for a character, other than UTF-8."},
 {"property": "C175", "status": "partial", "theorems": ["C175_copy_partial", "C175_int", "C175_whole_partial", "C175_unanchored_refuted", "C175_negative_refuted"], "note": "TcpProps.v. Refuted: a time before 0 is taken as counted from the end once more, so T(t, ref) is later than t by the length of the animation (C175_negative_refuted), or a ValueError without ref (C175_unanchored_refuted). True of all other times (C175_copy_partial, C175_whole_partial up to 2^53 frames). What int(t) is, for all times: C175_int."},
 {"property": "C176", "status": "partial", "theorems": ["C176_partial", "C176_refuted", "C176_utf8", "C176_page", "C176_mixed_refuted"], "note": "RlcProps.v. True of every encoding that has all characters of the fields: all lines outside of blocks keep their bytes (C176_partial; up to ends of lines, as in C66), where encodings are UTF-8 (C176_utf8) and all those in which each byte is a character (C176_page). Refuted: a character which the locale hasn't got is an error that leaves an empty file behind (C176_refuted), and a field with a character outside ASCII makes a source file in UTF-8 invalid (C176_mixed_refuted)."},
 {"property": "C177", "status": "partial", "theorems": ["C177_get", "C177_partial", "C177_refused", "C177_refuted", "C177_lost_refuted", "C177_apart", "C177_either"], "note": "HpaProps.v. True until the transformation itself is assigned to (C177_get, C177_partial), also if that is refused for its keys (C177_refused). Refuted: every assignment to the transformation that gets past the keys, even one that raises then, leaves all parts behind that were held (C177_refuted), and what is assigned to these is never in the transformation (C177_lost_refuted). Only assignments to value are modelled, not timelines of parts."}
]}
