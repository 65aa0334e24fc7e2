{
 "claims": [
  {
   "property": "C01",
   "status": "proved",
   "theorems": [
    "C01_atom_fields_survive_encoding",
    "C01_truth_values",
    "C01_following_atoms"
   ],
   "note": "All constructors and all in-range field values; node atoms are covered by C04."
  },
  {
   "property": "C02",
   "status": "proved",
   "theorems": [
    "C02_atoms_never_confused",
    "C02_float_test_is_exact",
    "C02_structural_test_is_exact"
   ],
   "note": "Injectivity over all pairs of constructors; exact float and structural tests."
  },
  {
   "property": "C03",
   "status": "proved",
   "theorems": [
    "C03_stored_number",
    "C03_order_preserved",
    "C03_magnitude_never_grows",
    "C03_storing_is_idempotent",
    "C03_zero_and_one_exact"
   ],
   "note": "All finite 32-bit patterns; values decoded with SpecFloat at precision 24."
  },
  {
   "property": "C04",
   "status": "partial",
   "theorems": [
    "C04_node_id_refuted",
    "C04_undefined_reads_as_nil_refuted",
    "C04_undefined_number_distinct_refuted",
    "C04_special_atoms_partial"
   ],
   "note": "The full statement is false of the code: Node(id).getNodeID() is 0, UndefinedFloat and UndefinedTimestamp do not read as nil, UndefinedFloat is also the code of an ordinary number (refuted theorems). The partial theorem covers the remaining special atoms."
  },
  {
   "property": "C05",
   "status": "partial",
   "theorems": [
    "C05_timestamp_struct",
    "C05_timestamp_through_pointer",
    "C05_duration_through_pointer",
    "C05_duration_struct_partial",
    "C05_duration_struct_frame_refuted"
   ],
   "note": "Timestamps (both forms) and durations written through a pointer: full round trip and frame for every int64 value. Missing: the structure form of a duration truncates the code after it (refuted theorem); the partial theorem gives the round trip and the frame before the structure."
  },
  {
   "property": "C06",
   "status": "partial",
   "theorems": [
    "C06_string_round_trip_partial",
    "C06_non_ascii_refuted",
    "C06_length_255_refuted",
    "C06_length_300_refuted"
   ],
   "note": "Round trip and frame for strings of at most 254 bytes in 1..127. The unrestricted statement is false (non-ASCII bytes, length 255, length 300: refuted theorems)."
  },
  {
   "property": "C07",
   "status": "partial",
   "theorems": [
    "C07_resilience_covers_time_to_live",
    "C07_resilience_monotone",
    "C07_resilience_no_period",
    "C07_past_deadline_refuted",
    "C07_conversion_at_least_one_partial",
    "C07_conversion_refuted",
    "C07_goal_resilience_partial",
    "C07_goal_resilience_refuted"
   ],
   "note": "The first overload is exact for positive time to live. Refuted: past deadlines give a resilience below 1, the conversion overload shortens lives, and goal/prediction resilience ignores the base period."
  },
  {
   "property": "C08",
   "status": "proved",
   "theorems": [
    "C08_next_update",
    "C08_previous_update",
    "C08_never_updated"
   ],
   "note": "For times at or after the time reference (the time reference is taken when the executive starts); time arithmetic is unbounded."
  },
  {
   "property": "C09",
   "status": "proved",
   "theorems": [
    "C09_list_refines_sequence",
    "C09_reachable_lists_are_consistent",
    "C09_cells_reused"
   ],
   "note": "Any element type, any history whose erasures are at live locations (the class checks nothing); includes remove and the erase-while-iterating loop. Cell indices are unbounded (int32 in the code)."
  },
  {
   "property": "C10",
   "status": "partial",
   "theorems": [
    "C10_push_back_location",
    "C10_location_stable",
    "C10_erase_by_location",
    "C10_push_front_location_partial",
    "C10_push_front_location_refuted"
   ],
   "note": "Proved for push_back and erase, the only forms the executive uses. push_front reports the wrong location when it allocates a new cell (refuted theorem); the partial theorem covers cell reuse."
  },
  {
   "property": "C100",
   "status": "partial",
   "theorems": [
    "C100_matched_kept_refuted",
    "C100_matched_kept_partial"
   ],
   "note": "Refuted: an assignment replaces a binding. Proved: variables not assigned are unchanged, bound variables stay bound."
  },
  {
   "property": "C101",
   "status": "partial",
   "theorems": [
    "C101_scan_keeps_refuted",
    "C101_scan_keeps_partial"
   ],
   "note": "Refuted: a variable assigned twice. Proved when each variable is assigned once, with termination."
  },
  {
   "property": "C102",
   "status": "partial",
   "theorems": [
    "C102_scan_order_refuted",
    "C102_scan_literal_refuted",
    "C102_scan_exact_partial",
    "C102_scan_evaluates_partial"
   ],
   "note": "Refuted: order of guards; variables in literals. Proved: the exact condition that the scan decides; that it suffices when guards are written in order."
  },
  {
   "property": "C103",
   "status": "partial",
   "theorems": [
    "C103_scan_ends_refuted",
    "C103_scan_ends_partial"
   ],
   "note": "Refuted: two variables assigned from each other. Proved when first assignments can be ranked."
  },
  {
   "property": "C104",
   "status": "partial",
   "theorems": [
    "C104_timings_are_times_refuted",
    "C104_timings_are_times_partial"
   ],
   "note": "Refuted: numbers are accepted. Proved when the guards make times."
  },
  {
   "property": "C105",
   "status": "partial",
   "theorems": [
    "C105_timings_found_refuted",
    "C105_timings_found_partial"
   ],
   "note": "Refuted: when a guard needs a third variable. Proved otherwise, with the same values, in any order."
  },
  {
   "property": "C106",
   "status": "partial",
   "theorems": [
    "C106_copy_refuted",
    "C106_ends_refuted",
    "C106_copy_partial",
    "C106_hold_partial"
   ],
   "note": "Refuted: a word of a time, duration or string that looks like an internal pointer is replaced, or makes the copy run for ever. Proved for all other structures."
  },
  {
   "property": "C107",
   "status": "partial",
   "theorems": [
    "C107_bind_refuted",
    "C107_bind_partial"
   ],
   "note": "Refuted: a value that is a structure with a reference refers to another object in the result. Proved for all other values and all patterns."
  },
  {
   "property": "C108",
   "status": "partial",
   "theorems": [
    "C108_round_trip_refuted",
    "C108_round_trip_partial",
    "C108_one_partial"
   ],
   "note": "Refuted: the label of an empty set moves to the next structure, an empty set at the top is lost, a tail inside a structure swallows the parenthesis. Proved for all other structures, of any depth."
  },
  {
   "property": "C109",
   "status": "partial",
   "theorems": [
    "C109_reading_ends_refuted",
    "C109_reading_ends_partial",
    "C109_outcome_partial"
   ],
   "note": "Refuted: a string not closed before the end of the file, or a last line made of a space, and the reader never stops. Proved for every text that ends with a newline."
  },
  {
   "property": "C11",
   "status": "proved",
   "theorems": [
    "C11_view_round_trip",
    "C11_object_round_trip",
    "C11_view_format",
    "C11_object_format"
   ],
   "note": "All views and objects whose sizes fit the 32-bit count words and whose references fit the uint16 they are kept in; exact word format and frame."
  },
  {
   "property": "C110",
   "status": "partial",
   "theorems": [
    "C110_substitution_refuted",
    "C110_substitution_partial",
    "C110_expansion_partial",
    "C110_refused_partial"
   ],
   "note": "Refuted: a parameter that occurs twice is replaced once; an argument called like a later parameter is replaced in turn; a body that is a parameter is left. Proved when each parameter occurs once at most and arguments do not mention later parameters; refusal characterised fully."
  },
  {
   "property": "C111",
   "status": "proved",
   "theorems": [
    "C111_untouched",
    "C111_text"
   ],
   "note": "For all states, and from text to text."
  },
  {
   "property": "C112",
   "status": "partial",
   "theorems": [
    "C112_conditions_refuted",
    "C112_stops_partial",
    "C112_pending_partial",
    "C112_else_partial",
    "C112_skips_partial",
    "C112_active_partial"
   ],
   "note": "Refuted: the branch that does not hold is kept, and nothing is preprocessed after the first condition. What is proved is that the first condition ends the preprocessing."
  },
  {
   "property": "C113",
   "status": "partial",
   "theorems": [
    "C113_counters_refuted",
    "C113_counters_partial",
    "C113_start_partial",
    "C113_number_partial"
   ],
   "note": "Refuted: two uses of a macro that uses a counter get the same number. Proved for all code when there are no macros and no counter is called like a number or has an empty name."
  },
  {
   "property": "C114",
   "status": "partial",
   "theorems": [
    "C114_normal_form_refuted",
    "C114_normal_form_partial"
   ],
   "note": "Refuted: a use before the definition is left; a macro that uses itself is expanded for ever. Proved when definitions come first and the preprocessing ends."
  },
  {
   "property": "C115",
   "status": "partial",
   "theorems": [
    "C115_defined_refuted",
    "C115_defined_partial"
   ],
   "note": "Refuted: !undef of a macro that is not also a counter, !else without a condition, loading a file protected by a condition. Proved without conditions and !undef."
  },
  {
   "property": "C116",
   "status": "partial",
   "theorems": [
    "C116_first_partial",
    "C116_again_partial",
    "C116_once_partial"
   ],
   "note": "Proved amid lines that use nothing; that no file is loaded twice is proved of all texts. Missing: the place of the lines when loaded lines themselves contain directives."
  },
  {
   "property": "C117",
   "status": "proved",
   "theorems": [
    "C117_source",
    "C117_code",
    "C117_smallest"
   ],
   "note": "For all durations, texts after, codes and indexes within the range of pointers; the smallest duration is shown to be undefined."
  },
  {
   "property": "C118",
   "status": "proved",
   "theorems": [
    "C118_source",
    "C118_code"
   ],
   "note": "For all times whose difference fits; all codes and indexes within the range of pointers."
  },
  {
   "property": "C119",
   "status": "proved",
   "theorems": [
    "C119_read",
    "C119_undefined"
   ],
   "note": "Equivalence for all texts, and exact condition of the overflow."
  },
  {
   "property": "C12",
   "status": "partial",
   "theorems": [
    "C12_image_round_trip_partial",
    "C12_object_map_partial",
    "C12_file_round_trip",
    "C12_member_round_trip",
    "C12_class_round_trip_partial",
    "C12_class_refuted",
    "C12_large_image_refuted",
    "C12_many_objects_refuted"
   ],
   "note": "The full statement is false: classes are never read back by Metadata::read, code segments of 65536 words or more are misread, 65536 objects or more make loading diverge (refuted theorems). Proved below the 16-bit bounds for images, names, object maps and files."
  },
  {
   "property": "C120",
   "status": "partial",
   "theorems": [
    "C120_read_partial",
    "C120_range_refuted",
    "C120_form_refuted"
   ],
   "note": "Refuted: 18446744073710s:0ms:0us is read as 448384 microseconds; signs and blanks are accepted within; the negation may overflow. Proved for the usual form with a value that fits."
  },
  {
   "property": "C121",
   "status": "proved",
   "theorems": [
    "C121_one_kind"
   ],
   "note": "For all texts."
  },
  {
   "property": "C122",
   "status": "partial",
   "theorems": [
    "C122_code_partial",
    "C122_source_partial",
    "C122_ascii_refuted",
    "C122_length_255_refuted",
    "C122_length_260_refuted",
    "C122_quote_refuted"
   ],
   "note": "Refuted: characters that are not ASCII, 255 characters (overflow of the buffer), 256 and more (truncated), quotes. Proved for the others."
  },
  {
   "property": "C123",
   "status": "partial",
   "theorems": [
    "C123_kept_partial",
    "C123_apart_partial",
    "C123_words_refuted",
    "C123_time_refuted"
   ],
   "note": "Refuted: |nb is written as a number, |nid as |sid, |st as 0xc6ffffff, |ts as a time. Proved for the other seven."
  },
  {
   "property": "C124",
   "status": "proved",
   "theorems": [
    "C124_identifiers"
   ],
   "note": "For all identifiers and texts after."
  },
  {
   "property": "C125",
   "status": "partial",
   "theorems": [
    "C125_comments_refuted",
    "C125_comments_partial",
    "C125_whole_partial"
   ],
   "note": "Refuted: after a comment that ends in two dots, the next line is a comment as well. Proved for all other comments, on lines of their own or after a structure without a tail, a set or a development."
  },
  {
   "property": "C126",
   "status": "partial",
   "theorems": [
    "C126_documented_refuted",
    "C126_unreadable_refuted",
    "C126_written_partial",
    "C126_documented_partial"
   ],
   "note": "Refuted: four builders give the time of the cause otherwise than documented, and the backward guards cannot be read when the argument of the command is neither a float nor an object. Proved: what the code is read as, for all builders, models and heads."
  },
  {
   "property": "C127",
   "status": "proved",
   "theorems": [
    "C127_forward"
   ],
   "note": "For all builders with times, models, bindings and 64-bit times without overflow. Objects in arguments without structures inside."
  },
  {
   "property": "C128",
   "status": "partial",
   "theorems": [
    "C128_goal_refuted",
    "C128_backward_partial",
    "C128_constant_partial",
    "C128_round_trip_partial"
   ],
   "note": "Refuted: the builders with a constant change the times of the goal. Proved for the others, and what those do; forward then backward for all."
  },
  {
   "property": "C129",
   "status": "partial",
   "theorems": [
    "C129_observation_refuted",
    "C129_prediction_partial",
    "C129_inference_partial"
   ],
   "note": "Refuted: the ends of the prediction and of the cause. Proved: the starts; and the end of the prediction exactly when target and consequent last equally long."
  },
  {
   "property": "C13",
   "status": "partial",
   "theorems": [
    "C13_merge_partial",
    "C13_merge_all_bounds",
    "C13_merge_refuted"
   ],
   "note": "Proved for non-empty intervals, and the exact behaviour for all bounds; refuted for an empty input interval, which is accepted."
  },
  {
   "property": "C130",
   "status": "partial",
   "theorems": [
    "C130_product_refuted",
    "C130_any_value_refuted",
    "C130_found_partial",
    "C130_sum_partial",
    "C130_product_partial"
   ],
   "note": "Refuted: wrong bound of the second search, and any value accepted as a cause. Proved: what is found is right; sums are found."
  },
  {
   "property": "C131",
   "status": "partial",
   "theorems": [
    "C131_trip_refuted",
    "C131_trip_partial"
   ],
   "note": "Refuted: durations are compared as numbers, so that those of one and of two seconds share a variable. Proved when the tolerance on numbers is granted to the words of durations and strings too; structures inside an object hold atoms."
  },
  {
   "property": "C132",
   "status": "proved",
   "theorems": [
    "C132_pattern"
   ],
   "note": "For all objects that are complete, without variables and whose structures hold atoms only; for abstractions without synchronisation (C133 has the others)."
  },
  {
   "property": "C133",
   "status": "partial",
   "theorems": [
    "C133_times_refuted",
    "C133_first_partial",
    "C133_step_partial"
   ],
   "note": "Refuted: a fact within the first one has its times remembered instead. Proved for the other facts, and what the facts in step become."
  },
  {
   "property": "C134",
   "status": "partial",
   "theorems": [
    "C134_share_refuted",
    "C134_share_partial",
    "C134_entity_partial"
   ],
   "note": "Refuted for the times of facts when the search does not start at the first variable. Proved for the others, and for all entities."
  },
  {
   "property": "C135",
   "status": "proved",
   "theorems": [
    "C135_position"
   ],
   "note": "For maps of at most 256 variables (indices have eight bits) whose values are all there."
  },
  {
   "property": "C136",
   "status": "partial",
   "theorems": [
    "C136_build_refuted",
    "C136_build_partial"
   ],
   "note": "Refuted: a word of a duration in a template is replaced by the value of the variable that it looks like. Proved when no word of raw data in the template looks like a pointer or a variable and the template has no references."
  },
  {
   "property": "C137",
   "status": "partial",
   "theorems": [
    "C137_trip_refuted",
    "C137_unbound_refuted",
    "C137_trip_partial"
   ],
   "note": "Refuted for variables inside time intervals of the template, which then mean themselves, and for template variables without value, which are known afterwards. Proved for all other variables."
  },
  {
   "property": "C138",
   "status": "partial",
   "theorems": [
    "C138_abstract_refuted",
    "C138_abstract_partial",
    "C138_right_partial"
   ],
   "note": "Refuted: the arguments are numbered through without the two times, so that an argument behind them becomes the variable of a time. Proved: what is made of any instance, and that an argument becomes its variable exactly when this precedes both times."
  },
  {
   "property": "C139",
   "status": "partial",
   "theorems": [
    "C139_map_refuted",
    "C139_map_partial"
   ],
   "note": "Refuted: a word of a string in the objects is taken for a variable, and null entries are made below it. Proved when no word of raw data looks like a variable, for variables below 256."
  },
  {
   "property": "C14",
   "status": "partial",
   "theorems": [
    "C14_match_partial",
    "C14_object_value_refuted",
    "C14_all_bound_refuted",
    "C14_references_in_structures_refuted"
   ],
   "note": "Proved for patterns without (ti : :) whose structures fit 4096 words, relative to a member-wise equality. Refuted: a variable bound to an object accepts non-reference members, members left open by the object bind nothing, structures bound to variables lose their references."
  },
  {
   "property": "C140",
   "status": "partial",
   "theorems": [
    "C140_once_refuted",
    "C140_once_partial",
    "C140_least_partial",
    "C140_through_partial",
    "C140_aside_partial",
    "C140_missed_partial",
    "C140_kept_partial",
    "C140_instance_partial"
   ],
   "note": "Refuted: an input put aside for a target with variables is injected for another target and once more when the first target gets a value. Proved without targets that have variables, and when everything passes through; with them, that it is injected at least once."
  },
  {
   "property": "C141",
   "status": "proved",
   "theorems": [
    "C141_start",
    "C141_closed"
   ],
   "note": "The order in an unordered map is any; facts are goals or predictions (typed) for the second theorem."
  },
  {
   "property": "C142",
   "status": "partial",
   "theorems": [
    "C142_off_refuted",
    "C142_off_partial"
   ],
   "note": "Refuted: the success of a prediction makes extractors of goals build models although these are off. Proved when both are off; for one, C141 says that no extractor starts."
  },
  {
   "property": "C143",
   "status": "partial",
   "theorems": [
    "C143_hook_refuted",
    "C143_never_partial"
   ],
   "note": "Refuted; proved that no input is ever given to such a controller, because the test is the wrong way round."
  },
  {
   "property": "C144",
   "status": "partial",
   "theorems": [
    "C144_read_refuted",
    "C144_read_partial",
    "C144_first_partial",
    "C144_find_partial"
   ],
   "note": "Refuted: the first element is given whatever its age, and stays for ever. Proved for all others."
  },
  {
   "property": "C145",
   "status": "partial",
   "theorems": [
    "C145_group_refuted",
    "C145_group_partial",
    "C145_report_partial"
   ],
   "note": "Refuted for axioms that are injected again, for which there is no case. Proved for all other modes."
  },
  {
   "property": "C146",
   "status": "partial",
   "theorems": [
    "C146_confidence_refuted",
    "C146_hold_refuted",
    "C146_times_partial"
   ],
   "note": "Refuted: the confidence of copies is 1, and what holds on may end before it begins. Proved: the times in all modes."
  },
  {
   "property": "C147",
   "status": "partial",
   "theorems": [
    "C147_once_refuted",
    "C147_jobs_partial",
    "C147_threads_partial"
   ],
   "note": "Refuted with two threads that both find the controller alive. Proved when the jobs run one after the other; with threads, that after the end at most those that already waited report."
  },
  {
   "property": "C148",
   "status": "partial",
   "theorems": [
    "C148_tidy_refuted",
    "C148_overflow_refuted",
    "C148_tidy_partial"
   ],
   "note": "Refuted: the input at another place is left out instead of an instance, and memory beyond an array is written if an input comes twice. Proved when the instances come first and no input comes twice."
  },
  {
   "property": "C149",
   "status": "partial",
   "theorems": [
    "C149_rate_refuted",
    "C149_whole_partial"
   ],
   "note": "Refuted: the division is one of integers. Proved: the rate is 1 if all evidences are positive and 0 otherwise."
  },
  {
   "property": "C15",
   "status": "partial",
   "theorems": [
    "C15_bound_never_changes_partial",
    "C15_only_times_change",
    "C15_bound_never_changes_refuted"
   ],
   "note": "Proved for every history of object matches; for all histories only times change. Refuted for facts, whose bound times are narrowed by design."
  },
  {
   "property": "C150",
   "status": "partial",
   "theorems": [
    "C150_quaternion_refuted",
    "C150_sum_partial"
   ],
   "note": "Refuted for quaternions: the sum is computed and then replaced by nil. Proved for the other kinds, all dimensions and places of the operands, if the array of values does not move and stays below 4096 words."
  },
  {
   "property": "C151",
   "status": "partial",
   "theorems": [
    "C151_quaternion_refuted",
    "C151_scale_partial"
   ],
   "note": "Refuted for quaternions. Proved for the other kinds, in both orders and for quotients."
  },
  {
   "property": "C152",
   "status": "partial",
   "theorems": [
    "C152_distance_partial"
   ],
   "note": "Refuted for quaternions (C150_quaternion_refuted): the angle is computed and then replaced by nil. Proved for the other kinds; the root is a parameter."
  },
  {
   "property": "C153",
   "status": "partial",
   "theorems": [
    "C153_freed_refuted",
    "C153_safe_partial"
   ],
   "note": "Refuted: operands in a full array of values are read after it moved. Proved for all operators and kinds if there is room or the operands are elsewhere."
  },
  {
   "property": "C154",
   "status": "partial",
   "theorems": [
    "C154_device_refuted",
    "C154_differ_partial"
   ],
   "note": "Refuted: identifiers of devices may look like vectors and are added. Proved for vectors of different kinds or dimensions."
  },
  {
   "property": "C155",
   "status": "partial",
   "theorems": [
    "C155_mixed_refuted",
    "C155_infinity_refuted",
    "C155_quaternion_refuted",
    "C155_vectors_partial",
    "C155_numbers_partial"
   ],
   "note": "Refuted for a vector and a number, for infinite numbers and for quaternions. Proved for two vectors of the same kind and dimension and for two finite numbers."
  },
  {
   "property": "C156",
   "status": "partial",
   "theorems": [
    "C156_unknown_refuted",
    "C156_probe_refuted",
    "C156_together_partial"
   ],
   "note": "Refuted: an unknown function is noticed after the commands before it were carried out; a probe of 255 objects does not end. Proved otherwise, for all lists of commands."
  },
  {
   "property": "C157",
   "status": "partial",
   "theorems": [
    "C157_program_refuted",
    "C157_code_refuted",
    "C157_given_partial"
   ],
   "note": "Refuted: a new object in a production of red is made but the program itself is injected in its place, and a word of the code (or beyond it) is overwritten. Proved for commands that are not computed (C156_together_partial) and for computed ones on given objects."
  },
  {
   "property": "C158",
   "status": "partial",
   "theorems": [
    "C158_stop_refuted",
    "C158_many_refuted",
    "C158_empty_refuted",
    "C158_told_partial",
    "C158_groups_partial"
   ],
   "note": "Refuted: a stop is counted but not written; 128 commands to devices are announced as none; an object built without a view is notified as nothing. Proved for the other commands, if the notification is below 4096 words and references and 256 elements."
  },
  {
   "property": "C159",
   "status": "partial",
   "theorems": [
    "C159_view_refuted",
    "C159_path_partial",
    "C159_undefined_partial"
   ],
   "note": "Refuted: references in a view are looked up among those of the object, so that this.vw.grp is not the group. Proved, in both directions, for paths that follow no reference of a view."
  },
  {
   "property": "C16",
   "status": "partial",
   "theorems": [
    "C16_atom",
    "C16_object",
    "C16_variable_partial",
    "C16_atom_stable",
    "C16_object_stable",
    "C16_variables_distinct",
    "C16_structure_partial",
    "C16_nested_structure_refuted",
    "C16_search_start_refuted",
    "C16_output_argument_refuted",
    "C16_many_variables_refuted"
   ],
   "note": "Atoms and objects: first-or-fresh, stability over every history, distinctness. Structures: exact search behaviour; refuted for nested structures, out-of-range start index, unsearched output arguments and 4096 variables."
  },
  {
   "property": "C160",
   "status": "partial",
   "theorems": [
    "C160_group_refuted",
    "C160_undefined_refuted",
    "C160_inner_refuted",
    "C160_named_partial"
   ],
   "note": "Refuted: a group is dealt with like a view (or the program crashes); members of structures inside an object are taken as members of the object. Proved for members of views and objects."
  },
  {
   "property": "C161",
   "status": "partial",
   "theorems": [
    "C161_first_refuted",
    "C161_guard_refuted",
    "C161_anti_refuted",
    "C161_reduced_partial",
    "C161_only_partial"
   ],
   "note": "Refuted: the first input that does not fit ends a section; guards that are false pass; anti-patterns without guards fit nothing. Proved for inputs in the order of the sections; that nothing else is made is proved for any order."
  },
  {
   "property": "C162",
   "status": "partial",
   "theorems": [
    "C162_empty_refuted",
    "C162_early_refuted",
    "C162_frame_partial"
   ],
   "note": "Refuted for tolerances of half a period or more, and the interval may start after the execution. Proved: the interval is not empty, starts at most two tolerances later and ends with the frame."
  },
  {
   "property": "C163",
   "status": "partial",
   "theorems": [
    "C163_repeat_refuted",
    "C163_time_refuted",
    "C163_same_time_refuted",
    "C163_tail_refuted",
    "C163_fits_partial"
   ],
   "note": "Refuted: a variable used twice matches two different values; the words of a time are read as other words are, so that a time may match another one or not itself; :: stands for one member. Proved otherwise, in both directions, for all patterns and inputs."
  },
  {
   "property": "C164",
   "status": "partial",
   "theorems": [
    "C164_far_refuted",
    "C164_denotes_partial",
    "C164_kept_partial"
   ],
   "note": "Refuted: in a program beyond 256 words variables within structures denote something else. Proved for shorter programs, with the rest of the program unchanged."
  },
  {
   "property": "C165",
   "status": "partial",
   "theorems": [
    "C165_structure_refuted",
    "C165_argument_partial"
   ],
   "note": "Refuted: a variable within a structured parameter denotes a member of the wrong structure. Proved for the parameters themselves, in any number."
  },
  {
   "property": "C166",
   "status": "partial",
   "theorems": [
    "C166_set_refuted",
    "C166_far_refuted",
    "C166_guard_refuted",
    "C166_label_refuted",
    "C166_variable_refuted",
    "C166_twice_refuted",
    "C166_same_partial",
    "C166_one_partial"
   ],
   "note": "Refuted: a set of 256 elements is decompiled as an empty one; pointers beyond 4096 words lead elsewhere; the members left out in (ptn ::) are undefined; a label used by a later member of the same structure is decompiled as a copy of what it names, a variable within an earlier member as undefined; a name defined once outside a set and again within it, used in between, refers to something else. Proved otherwise, for all structures and names."
  },
  {
   "property": "C167",
   "status": "partial",
   "theorems": [
    "C167_leak_refuted",
    "C167_accepted_partial"
   ],
   "note": "Refuted: a set that ends with :: lets members of the structure around it be missing. Proved in both directions if no set does."
  },
  {
   "property": "C168",
   "status": "partial",
   "theorems": [
    "C168_assignment_refuted",
    "C168_duration_refuted",
    "C168_exact_partial",
    "C168_accepted_partial",
    "C168_refused_partial"
   ],
   "note": "Refuted: expressions of assignments are not looked at, so that references in them are accepted; the words of times and durations are taken for references, so that some durations are refused. Proved in both directions without those; what is accepted has no references if there are no assignments, what is refused has one if there are no times."
  },
  {
   "property": "C169",
   "status": "partial",
   "theorems": [
    "C169_shared_refuted",
    "C169_program_refuted",
    "C169_unknown_refuted",
    "C169_shifted_partial"
   ],
   "note": "Refuted: a time that two members have in common is changed twice; arguments of programs are left as they are; a time that is not known becomes a known one. Proved for objects without those, with all other words unchanged."
  },
  {
   "property": "C17",
   "status": "partial",
   "theorems": [
    "C17_durations_refuted",
    "C17_strings_refuted",
    "C17_timestamps_partial",
    "C17_string_lengths_partial",
    "C17_short_durations_partial",
    "C17_match_decides_agreement"
   ],
   "note": "Refuted for durations and strings (payload words compared as floats). Proved: object matching decides agreement, timestamps, string lengths, exact behaviour on durations below 2^31."
  },
  {
   "property": "C170",
   "status": "partial",
   "theorems": [
    "C170_time_partial",
    "C170_bound_partial",
    "C170_requirements_partial",
    "C170_root_partial",
    "C170_refuted"
   ],
   "note": "Refuted for a minimal time horizon below two microseconds: then no step takes any time, and requirements can be pursued without end. Proved: the exact time after any number of steps, the bound on steps through models and on requirements met, and the time given to a root. The number of composite states nested in each other is not bounded by time."
  },
  {
   "property": "C171",
   "status": "partial",
   "theorems": [
    "C171_modes_partial",
    "C171_refuted"
   ],
   "note": "Refuted: a composite state takes the opposite without making the branch mandatory, and takes it a second time. Proved for all branches without composite states."
  },
  {
   "property": "C172",
   "status": "proved",
   "theorems": [
    "C172_root",
    "C172_kept",
    "C172_first",
    "C172_command"
   ],
   "note": "Composite states included. The first step is taken to be one through a model; the confidences are copied numbers."
  },
  {
   "property": "C173",
   "status": "partial",
   "theorems": [
    "C173_simulated_partial",
    "C173_only_partial",
    "C173_real_partial",
    "C173_refuted"
   ],
   "note": "Refuted: the sub-goals of a real goal on a composite state are simulated ones without time, and lead to no goal at all. Proved: no simulated goal leads to a real one, over all branches; real goals come from real ones without time only; through models a real goal leads to exactly the real goals it should."
  },
  {
   "property": "C174",
   "status": "partial",
   "theorems": [
    "C174_known_partial",
    "C174_refuted"
   ],
   "note": "Refuted: the outcome of a simulated goal is built but given to nobody. Proved: what is known is not pursued, what is predicted is only watched, in all modes."
  },
  {
   "property": "C175",
   "status": "partial",
   "theorems": [
    "C175_once_partial",
    "C175_held_partial",
    "C175_dropped_partial",
    "C175_few_partial",
    "C175_time_refuted",
    "C175_once_refuted"
   ],
   "note": "Refuted twice: the same object at another time is dropped, and requirements are pursued again each time. Proved: nothing else is pursued twice over any sequence of calls, and a goal is dropped only for one with a matching object of the same kind."
  },
  {
   "property": "C176",
   "status": "partial",
   "theorems": [
    "C176_first_partial",
    "C176_again_partial",
    "C176_refuted"
   ],
   "note": "Refuted: with different validities, both withdrawn, the command survives. Proved: it is defeated only if it would be in both cases, and is if they share a validity that is withdrawn; it is started once."
  },
  {
   "property": "C177",
   "status": "partial",
   "theorems": [
    "C177_outcome_partial",
    "C177_counts_partial",
    "C177_forgets_partial",
    "C177_once_partial",
    "C177_refuted"
   ],
   "note": "Refuted: after an outcome that rests on an assumption, the requirements of the prediction are kept for ever. Proved: exactly what an outcome does and how often, that nothing is kept and nothing is told again otherwise. What the controllers of requirements do when told is not followed."
  },
  {
   "property": "C178",
   "status": "partial",
   "theorems": [
    "C178_contents_partial",
    "C178_ends_partial",
    "C178_import_partial",
    "C178_refuted"
   ],
   "note": "Refuted: with a cycle of references the calls never return. Proved: the exact contents whenever an image is made, that it is made if there are no cycles, and in any case when groups and origins are taken along."
  },
  {
   "property": "C179",
   "status": "partial",
   "theorems": [
    "C179_all_partial",
    "C179_live_partial",
    "C179_import_partial",
    "C179_found_partial",
    "C179_refuted"
   ],
   "note": "Refuted: in an image of the models a live object they refer to is left out, and the next reference takes its place. Proved: with all objects, with the live ones all listed, and with groups and origins taken along; up to 65536 objects."
  },
  {
   "property": "C18",
   "status": "partial",
   "theorems": [
    "C18_overlap_symmetric",
    "C18_overlap_partial",
    "C18_overlap_refuted",
    "C18_inclusion_is_subset",
    "C18_inclusion_order",
    "C18_sync_partial",
    "C18_sync_refuted",
    "C18_functions_read_bounds"
   ],
   "note": "Symmetry, inclusion order and subset proved in full; overlap = intersection and synchronous reflexivity proved for non-empty intervals, refuted for instantaneous facts."
  },
  {
   "property": "C180",
   "status": "partial",
   "theorems": [
    "C180_map_partial",
    "C180_refuted"
   ],
   "note": "Refuted: the hidden reference of a model is counted in the map but not written. Proved for images of other objects from which nothing is left out."
  },
  {
   "property": "C181",
   "status": "partial",
   "theorems": [
    "C181_all_partial",
    "C181_taken_partial",
    "C181_refuted"
   ],
   "note": "Refuted: a live object that is listed later comes after what refers to it. Proved with all objects, and for everything that is taken along."
  },
  {
   "property": "C182",
   "status": "partial",
   "theorems": [
    "C182_views_partial",
    "C182_import_partial",
    "C182_refuted"
   ],
   "note": "Refuted: a group that is not in the image becomes its first object. Proved if groups and origins are in the image, as they are when they are taken along; up to 65536 objects."
  },
  {
   "property": "C183",
   "status": "proved",
   "theorems": [
    "C183_only",
    "C183_all"
   ],
   "note": "What is found as requirements, the bindings and the guards are given. A prediction that matches an earlier one may stand for it."
  },
  {
   "property": "C184",
   "status": "partial",
   "theorems": [
    "C184_once_partial",
    "C184_refuted"
   ],
   "note": "Refuted: from a fact, with two requirements that give the same, it is predicted twice. Proved for predictions and simulations."
  },
  {
   "property": "C185",
   "status": "partial",
   "theorems": [
    "C185_confidence_partial",
    "C185_chain_partial",
    "C185_ends_partial",
    "C185_length_partial",
    "C185_refuted"
   ],
   "note": "Refuted: with models that never failed nothing is lost, and there is no end. Proved: the exact confidence after any chain, and the bound on its length by the rates. Exact numbers in place of floats."
  },
  {
   "property": "C186",
   "status": "proved",
   "theorems": [
    "C186_watched",
    "C186_unwatched",
    "C186_rated"
   ],
   "note": "Requirements are not watched."
  },
  {
   "property": "C187",
   "status": "partial",
   "theorems": [
    "C187_watched_partial",
    "C187_refuted"
   ],
   "note": "Refuted: if the prediction comes too late, its requirements are kept and nothing is awaited. Proved for facts if no prediction is late."
  },
  {
   "property": "C188",
   "status": "partial",
   "theorems": [
    "C188_inside_partial",
    "C188_outside_partial",
    "C188_refuted"
   ],
   "note": "Refuted: a simulated requirement sends a reduction marker to the output groups. Proved that there is nothing else."
  },
  {
   "property": "C189",
   "status": "partial",
   "theorems": [
    "C189_primary_partial",
    "C189_secondary_partial",
    "C189_refuted"
   ],
   "note": "Refuted: in the secondary group requirements are marked as allowed in any case. Proved for the primary group, and that models of the secondary group do nothing else than watch and tell of requirements."
  },
  {
   "property": "C19",
   "status": "partial",
   "theorems": [
    "C19_evidence",
    "C19_evidence_swap",
    "C19_timeless_partial",
    "C19_timeless_swap_refuted",
    "C19_timeless_denial_refuted"
   ],
   "note": "is_evidence proved in full (both polarities, swap). is_timeless_evidence: partial, with two refutations."
  },
  {
   "property": "C190",
   "status": "partial",
   "theorems": [
    "C190_use_partial",
    "C190_own_partial",
    "C190_first_partial",
    "C190_refuted"
   ],
   "note": "Refuted: an assumption that comes a second time is used, and leads to another one. Proved: the first time it is not, whatever comes before, and what each input is used for. What monitors and the overlay say is given."
  },
  {
   "property": "C191",
   "status": "proved",
   "theorems": [
    "C191_idle"
   ],
   "note": "Inputs that are assumptions of the model itself are left out. What the overlay says is given."
  },
  {
   "property": "C192",
   "status": "proved",
   "theorems": [
    "C192_late",
    "C192_once",
    "C192_job",
    "C192_from"
   ],
   "note": "The numbers of facts are their identities. The controller is not an orphan; jobs may be done in any order."
  },
  {
   "property": "C193",
   "status": "partial",
   "theorems": [
    "C193_refuted",
    "C193_none_partial"
   ],
   "note": "Refuted: it is the end of the prediction as a fact that counts, which is the moment at which it was made. Proved: no prediction made before it came is ever tried again."
  },
  {
   "property": "C194",
   "status": "partial",
   "theorems": [
    "C194_refuted",
    "C194_none_partial"
   ],
   "note": "Refuted: models of the secondary group keep no facts. Proved: none is ever tried again."
  },
  {
   "property": "C195",
   "status": "proved",
   "theorems": [
    "C195_kept"
   ],
   "note": "What is over may still be in a list until it is visited."
  },
  {
   "property": "C196",
   "status": "proved",
   "theorems": [
    "C196_only",
    "C196_falls"
   ],
   "note": "Matching is given. It falls if the weak requirement is not over; confidences are exact numbers."
  },
  {
   "property": "C197",
   "status": "partial",
   "theorems": [
    "C197_refuted",
    "C197_stand_partial"
   ],
   "note": "Refuted: a strong requirement of two simulations, or one that is not simulated, leaves the prediction. Proved: only those of exactly one simulation have an effect; what these do is C196."
  },
  {
   "property": "C198",
   "status": "proved",
   "theorems": [
    "C198_told"
   ],
   "note": "Each monitor is added once; whether it chains is given."
  },
  {
   "property": "C199",
   "status": "proved",
   "theorems": [
    "C199_once",
    "C199_final"
   ],
   "note": "Handlers are one step each. Matching and what is known are given."
  },
  {
   "property": "C20",
   "status": "partial",
   "theorems": [
    "C20_typed",
    "C20_other_types_fail",
    "C20_times",
    "C20_durations",
    "C20_time_duration",
    "C20_add_sub",
    "C20_sub_add",
    "C20_number_order",
    "C20_numbers",
    "C20_minimum",
    "C20_maximum",
    "C20_time_number",
    "C20_duration_number",
    "C20_converse",
    "C20_add_symmetric",
    "C20_distance_symmetric",
    "C20_mul_symmetric_partial",
    "C20_total_refuted",
    "C20_division_refuted",
    "C20_mul_symmetric_refuted",
    "C20_trichotomy_refuted"
   ],
   "note": "Types, times, durations, orders, rounding and symmetries are proved for all operands. Refuted: undefined behaviour for a duration divided by zero and for large numbers added to times; 1/infinity is infinity; number times duration differs from duration times number; 0 and -0 are neither equal, less nor greater. Missing: the value of a duration multiplied or divided by a number (float64), and the functions of the C library (ln, exp, log, e10)."
  },
  {
   "property": "C200",
   "status": "proved",
   "theorems": [
    "C200_groups",
    "C200_last"
   ],
   "note": "The model has an output group. Matching and what is known are given."
  },
  {
   "property": "C201",
   "status": "partial",
   "theorems": [
    "C201_refuted",
    "C201_taken_partial",
    "C201_settled_partial"
   ],
   "note": "Refuted: when the goal is predicted to be reached, it is invalidated, and nothing is reported of the drive any more. Proved: it gets an outcome at once or a monitor, and the outcome follows if the goal is neither predicted to be reached nor left to an extractor, or the drive is invalidated by another."
  },
  {
   "property": "C202",
   "status": "proved",
   "theorems": [
    "C202_assumption"
   ],
   "note": "Matching, evaluation of times and guards, and the look-up of requirements are given. Rationals instead of floats."
  },
  {
   "property": "C203",
   "status": "partial",
   "theorems": [
    "C203_end_refuted",
    "C203_confidence_partial",
    "C203_end_partial",
    "C203_length_partial"
   ],
   "note": "Refuted: two models with success rate 1, each of which has the other's left side as its right side, make assumptions of each other's assumptions without end and without loss. Proved: the confidence is bounded by the power of the highest rate, and a line is only as long as this is above the lowest threshold."
  },
  {
   "property": "C204",
   "status": "partial",
   "theorems": [
    "C204_refuted",
    "C204_after_partial",
    "C204_before_partial",
    "C204_only_partial"
   ],
   "note": "Refuted: if the prediction comes before the fact is kept, and another overlay keeps it, the two stand against each other; only predictions that another kept fact has given way to are looked at. Proved: a kept fact gives way to all that comes later and to nothing else, and nothing is kept any more against what another has given way to. Matching is given."
  },
  {
   "property": "C205",
   "status": "proved",
   "theorems": [
    "C205_one",
    "C205_overlay"
   ],
   "note": "One simulation; copies of overlays are overlays of their own. Matching is given."
  },
  {
   "property": "C206",
   "status": "proved",
   "theorems": [
    "C206_origin",
    "C206_all",
    "C206_in_the_way"
   ],
   "note": "Whether a prediction can be injected is given. Matching is given."
  },
  {
   "property": "C207",
   "status": "partial",
   "theorems": [
    "C207_refuted",
    "C207_top_refuted",
    "C207_all_partial",
    "C207_only_partial",
    "C207_input_partial",
    "C207_taken_partial"
   ],
   "note": "Refuted: if inputs come to the models in another order than they are built on each other, the later ones stay and take inputs; top-level models do not look at what they are built on, and stay. Proved: for other models, once inputs have come in the order of the building, all are gone; nothing else is gone; a model built directly on one that is gone takes no input, and all that are there do. Without template arguments."
  },
  {
   "property": "C21",
   "status": "partial",
   "theorems": [
    "C21_requests_counted_once_partial",
    "C21_one_update_partial",
    "C21_in_range_partial",
    "C21_raising_requests_raise",
    "C21_lowering_requests_lower",
    "C21_in_range_refuted",
    "C21_requests_counted_once_refuted"
   ],
   "note": "Refinement to the mean-of-requests specification proved while fewer than 2^32 requests are pending; range proved for finite requests; direction proved. Refuted for infinite requests (NaN) and for 2^32 requests (count wraps, all lost)."
  },
  {
   "property": "C22",
   "status": "partial",
   "theorems": [
    "C22_flags",
    "C22_requests_settled_partial",
    "C22_in_range_partial",
    "C22_immediate_members",
    "C22_immediate_in_range",
    "C22_other_members_untouched",
    "C22_all_parameters_refuted",
    "C22_only_at_updates_refuted",
    "C22_in_range_refuted"
   ],
   "note": "Refinement to the mean-of-requests specification, for all histories without injection of existing objects, for five of the seven parameters (saliency threshold: without decay); range proved for finite requests; immediate members proved in full. Refuted for the two c-thresholds (never settled), for requests settled early by injections, and for infinite requests. Flags proved."
  },
  {
   "property": "C23",
   "status": "partial",
   "theorems": [
    "C23_stored_once",
    "C23_what_is_held",
    "C23_never_undefined",
    "C23_group_stored_refuted",
    "C23_unknown_program_refuted"
   ],
   "note": "Stored once, lookup, iteration and deletion proved for all histories; refuted for a view of an existing group injected in a second group (not stored) and for unknown C++ programs (view without controller, undefined behaviour at an update)."
  },
  {
   "property": "C24",
   "status": "partial",
   "theorems": [
    "C24_active_iff_above_partial",
    "C24_signalled_once_partial",
    "C24_threshold_refuted",
    "C24_evaluation_order_refuted",
    "C24_existing_object_refuted"
   ],
   "note": "Proved for calm histories (no request on the activation threshold, no injection of existing objects, left-to-right evaluation, no skipped view), with signals exactly once; refuted for a raised threshold, for the other evaluation order, and after injections of existing objects."
  },
  {
   "property": "C25",
   "status": "partial",
   "theorems": [
    "C25_countdown_partial",
    "C25_unlimited",
    "C25_removed_iff",
    "C25_view_countdown_partial",
    "C25_view_unlimited",
    "C25_view_countdown_refuted",
    "C25_view_expires_refuted"
   ],
   "note": "Exact countdown in a group proved over all histories for resilience up to 2^23, unlimited resilience and exact conditions of removal proved; refuted above 2^23 (counts by two, never expires)."
  },
  {
   "property": "C26",
   "status": "partial",
   "theorems": [
    "C26_terminates",
    "C26_each_object_once",
    "C26_linked_reached_partial",
    "C26_only_reached",
    "C26_all_reached_refuted",
    "C26_requests",
    "C26_one_request_per_view"
   ],
   "note": "Termination, at most one job per object, exact set of objects reached (those directly linked), exact requests and at most one request per view proved for every graph; refuted that objects two links away are reached."
  },
  {
   "property": "C27",
   "status": "proved",
   "theorems": [
    "C27_time_jobs_in_order"
   ],
   "note": "For every sequence of handler behaviours. Equal targets run in the order they entered the queue; a rerun request enters before the jobs pushed by the same handler."
  },
  {
   "property": "C28",
   "status": "partial",
   "theorems": [
    "C28_tick_times",
    "C28_ticks_on_schedule_partial",
    "C28_first_tick_refuted"
   ],
   "note": "Tick times and schedule proved in full; \"after every due job\" fails for the initial call only (refuted)."
  },
  {
   "property": "C29",
   "status": "partial",
   "theorems": [
    "C29_fifo_exactly_once",
    "C29_bounded_bursts_partial",
    "C29_limit_refuted"
   ],
   "note": "Order, at-most-once and no loss proved in full. The limit between two ticks is refuted for every limit; bounded bursts proved."
  },
  {
   "property": "C30",
   "status": "partial",
   "theorems": [
    "C30_exact_timer_partial",
    "C30_delegated_partial",
    "C30_early_timer_refuted",
    "C30_runs_are_asked_partial",
    "C30_unasked_run_refuted"
   ],
   "note": "Refuted for early timers (target 0 handed over) and for unasked reruns; proved for exact timers and for jobs delegated when first taken."
  },
  {
   "property": "C31",
   "status": "partial",
   "theorems": [
    "C31_never_both_partial",
    "C31_never_both_refuted",
    "C31_failed_refused",
    "C31_refusal_renews",
    "C31_failure_renews_refuted",
    "C31_forgotten_only",
    "C31_forgotten",
    "C31_answer",
    "C31_same_answer",
    "C31_equal_content",
    "C31_content_equal_partial",
    "C31_relearned_refuted"
   ],
   "note": "Proved: answers to submissions, refusal while remembered, renewal, forgetting only by a late clean-up, stability of the known answer, never both live and failed for regular histories. False in general: a re-learned pair can leave the second model both live and failed, a repeated failure does not renew the memory, and a model about instances of a re-created model is learned again."
  },
  {
   "property": "C32",
   "status": "partial",
   "theorems": [
    "C32_pair_partial",
    "C32_second",
    "C32_pair_refuted"
   ],
   "note": "Proved: the exact answers in all cases; an answer for the second model is always live. False in general: the first model can be answered without being live (second refused or already known)."
  },
  {
   "property": "C33",
   "status": "partial",
   "theorems": [
    "C33_rollback_refuted",
    "C33_unpatch_refuted",
    "C33_rollback_partial",
    "C33_rollback_exact",
    "C33_commit_keeps",
    "C33_first_rollback",
    "C33_unpatch_partial",
    "C33_reset"
   ],
   "note": "Proved when the places changed since the commit had their original content; refuted when a committed place is changed again. The exact effect of a rollback is proved for all cases."
  },
  {
   "property": "C34",
   "status": "partial",
   "theorems": [
    "C34_every_combination_refuted",
    "C34_sound",
    "C34_once",
    "C34_every_combination_partial"
   ],
   "note": "Soundness and single firing proved for every match relation; completeness proved when no input matches two waiting patterns, refuted otherwise. Matching one input with one pattern and the guards are parameters."
  },
  {
   "property": "C35",
   "status": "partial",
   "theorems": [
    "C35_quiet_refuted",
    "C35_job_fires",
    "C35_notice_refuted",
    "C35_notice_partial"
   ],
   "note": "Refuted twice: a pending job is not cancelled by an occurrence, and a candidate whose guards fail blinds the program. Proved: without guards that fail, exactly the occurrences start a new period."
  },
  {
   "property": "C36",
   "status": "partial",
   "theorems": [
    "C36_round_trip_partial",
    "C36_twice_refuted",
    "C36_duration_refuted"
   ],
   "note": "Proved for every well-formed pattern of packed size up to 4096, to any nesting depth: packing succeeds, keeps the pattern, and unpacking returns it exactly. False in general: an object using one reference twice, and a guard constant whose data word looks like a pointer."
  },
  {
   "property": "C37",
   "status": "proved",
   "theorems": [
    "C37_kept",
    "C37_once",
    "C37_order",
    "C37_cleaned",
    "C37_not_found",
    "C37_found",
    "C37_found_actual"
   ],
   "note": "For all histories of stores, look-ups and invalidations: usable evidence is kept, once, most recent first, nothing else but stored evidence; look-ups find the first usable match and nothing only if there is none."
  },
  {
   "property": "C38",
   "status": "proved",
   "theorems": [
    "C38_balance",
    "C38_modulo"
   ],
   "note": "For all histories, exact while the balances are in the range of the counters, modulo 2^32 otherwise."
  },
  {
   "property": "C39",
   "status": "partial",
   "theorems": [
    "C39_stays_meaningful",
    "C39_count_rule_partial",
    "C39_rates_and_requests",
    "C39_count_saturates_refuted",
    "C39_strong_failure_counted_refuted",
    "C39_strong_only_by_inertia",
    "C39_inertia_makes_strong",
    "C39_strong_stays_strong",
    "C39_deleted_when",
    "C39_deleted_once"
   ],
   "note": "For all histories and settings: rate in [0,1], positive integer evidence, exact count and rate rules below 2^23, strength only by inertia, deletion exactly at the threshold and once. Refuted: counting at 2^23, and counting the failure that phases out a strong model."
  },
  {
   "property": "C40",
   "status": "partial",
   "theorems": [
    "C40_once_refuted",
    "C40_some_refuted",
    "C40_lost_refuted",
    "C40_anti_refuted",
    "C40_dropped_refuted",
    "C40_twice",
    "C40_outcomes",
    "C40_gone",
    "C40_once_partial",
    "C40_exact_partial",
    "C40_exactly_one_partial"
   ],
   "note": "Refuted in five ways (two outcomes when a reduction core and a time core overlap; none after a predicted success or when the controller is inactive at the deadline; a wrong one when the evidence comes right after predicted evidence was found wrong, or for anti-facts). Proved for any interleaving: at most two outcomes, their kinds, silence afterwards; for handlers that do not overlap: at most one and exactly which."
  },
  {
   "property": "C41",
   "status": "partial",
   "theorems": [
    "C41_once_refuted",
    "C41_twice",
    "C41_reports",
    "C41_gone",
    "C41_once_partial",
    "C41_exact_partial",
    "C41_deadline_partial"
   ],
   "note": "Refuted by an interleaving that reports twice. Proved for any interleaving: at most two, their kinds, the monitor is gone; for handlers that do not overlap: at most one and exactly which."
  },
  {
   "property": "C42",
   "status": "partial",
   "theorems": [
    "C42_unique_refuted",
    "C42_unique_partial",
    "C42_made_up",
    "C42_kept",
    "C42_ends",
    "C42_large_refuted",
    "C42_suffixes",
    "C42_aa_refuted",
    "C42_variables",
    "C42_inserted"
   ],
   "note": "Refuted for two objects with the same user-defined name and for images of more than 65535 objects (never ends). Proved otherwise; made-up names, suffixes and variable names are unique in all cases."
  },
  {
   "property": "C43",
   "status": "partial",
   "theorems": [
    "C43_equal_same_hash_partial",
    "C43_equal_is_sameness",
    "C43_equivalence",
    "C43_equal_same_hash_refuted",
    "C43_hash_after_change_refuted",
    "C43_existence_check_refuted"
   ],
   "note": "Hash/equality consistency and equivalence proved within a hash bucket for objects with an up-to-date cached hash; refuted for objects of different sizes, for objects changed after hashing, and for the existence check, which looks nothing up."
  },
  {
   "property": "C44",
   "status": "partial",
   "theorems": [
    "C44_other_members",
    "C44_other_atoms_unchanged",
    "C44_range_partial",
    "C44_modification_effect",
    "C44_set_range_refuted",
    "C44_nan_refuted",
    "C44_structured_refuted"
   ],
   "note": "No effect on other members or atoms proved in full; range proved for modifications by numbers and settings in [0,1] when the threshold is the last atom; refuted for set (no clamp), NaN, and objects with structured members."
  },
  {
   "property": "C45",
   "status": "partial",
   "theorems": [
    "C45_unique_partial",
    "C45_unique_refuted"
   ],
   "note": "Uniqueness proved for images with distinct defined identifiers while the 32-bit counter does not wrap; refuted for images holding an object with the undefined identifier."
  },
  {
   "property": "C46",
   "status": "partial",
   "theorems": [
    "C46_fully_specified",
    "C46_counted_matching",
    "C46_counted_new_variable",
    "C46_counted_abstraction",
    "C46_copy_partial",
    "C46_copy_refuted"
   ],
   "note": "Proved for every reachable map; copying proved below 256 values and refuted at 256 (the copy loop does not end)."
  },
  {
   "property": "C47",
   "status": "proved",
   "theorems": [
    "C47_new_fact",
    "C47_absentee",
    "C47_opposite"
   ],
   "note": ""
  },
  {
   "property": "C48",
   "status": "partial",
   "theorems": [
    "C48_end_partial",
    "C48_end_refuted"
   ],
   "note": "Refuted; proved that nothing happens one sampling period or more after the end."
  },
  {
   "property": "C49",
   "status": "partial",
   "theorems": [
    "C49_store_never_fails",
    "C49_delete_only_that_object",
    "C49_lists_live_objects_partial",
    "C49_lists_live_objects_refuted"
   ],
   "note": "Totality and exact deletion proved for all histories; exact listing proved when no object is registered twice; refuted otherwise (notifications injected in two groups)."
  },
  {
   "property": "C50",
   "status": "partial",
   "theorems": [
    "C50_low_and_high_notified",
    "C50_activation_notified",
    "C50_period_zero_refuted",
    "C50_low_periods",
    "C50_high_periods_partial",
    "C50_high_periods_refuted"
   ],
   "note": "Low count proved for all histories; high count refuted (not cleared by a low period) and proved when the saliency never goes below the low threshold. The notifications of groups are characterised exactly, for saliencies and activations, for every history with a constant integer period of 1 to 2^24; with the period 0 notifications are refuted to mean what they say."
  },
  {
   "property": "C51",
   "status": "partial",
   "theorems": [
    "C51_copied_value_in_range_partial",
    "C51_copied_value_in_range_refuted",
    "C51_stays_hidden_refuted",
    "C51_stays_visible_refuted"
   ],
   "note": "Range proved when the source threshold is positive; refuted when it is 0; side of the threshold refuted both ways."
  },
  {
   "property": "C52",
   "status": "partial",
   "theorems": [
    "C52_regular_partial",
    "C52_none_missing",
    "C52_surrounding_updates",
    "C52_resumes_refuted"
   ],
   "note": "Regular grid, none missing and surrounding updates proved for constant periods; resuming after a period of zero refuted for all histories."
  },
  {
   "property": "C53",
   "status": "partial",
   "theorems": [
    "C53_average_and_high_partial",
    "C53_low_refuted"
   ],
   "note": "Averages and greatest values proved when no view is skipped; least value refuted."
  },
  {
   "property": "C54",
   "status": "partial",
   "theorems": [
    "C54_injected",
    "C54_renewed",
    "C54_newly_salient_partial",
    "C54_only_views_held",
    "C54_newly_salient_refuted"
   ],
   "note": "Proved when the update does not change the saliency threshold and skips no view; refuted when the threshold is lowered. What injections hand over, and the renewal of injection times, are proved for all histories."
  },
  {
   "property": "C55",
   "status": "partial",
   "theorems": [
    "C55_direction_kept_partial",
    "C55_direction_kept_refuted"
   ],
   "note": "Proved for finite changes when the source threshold is positive; refuted when it is 0."
  },
  {
   "property": "C56",
   "status": "partial",
   "theorems": [
    "C56_failure_lowers_partial",
    "C56_success_raises_partial",
    "C56_perfect_stays",
    "C56_success_raises_refuted"
   ],
   "note": "Failures never raise the rate (proved); successes never lower it when the rate is at most 1-(n+1)/2^22 or is 1; refuted in general."
  },
  {
   "property": "C57",
   "status": "partial",
   "theorems": [
    "C57_counted",
    "C57_withdrawn_partial",
    "C57_twice_refuted",
    "C57_undefined_refuted",
    "C57_never_refuted"
   ],
   "note": "Proved when only the primary controller is killed, or the secondary once. False when both are killed (the counters wrap below 0, or an element is read that does not exist) and when the views are deleted otherwise (never withdrawn)."
  },
  {
   "property": "C58",
   "status": "partial",
   "theorems": [
    "C58_none",
    "C58_weak_only",
    "C58_mixed",
    "C58_strong_only_partial",
    "C58_cells",
    "C58_undefined_refuted",
    "C58_loses_refuted"
   ],
   "note": "Proved for all caches and matching relations when there are weak requirements, or none at all; with strong requirements only, as long as no cached entry has expired. False otherwise: the expired entry is erased from the wrong list, outside its cells or losing a usable entry."
  },
  {
   "property": "C59",
   "status": "proved",
   "theorems": [
    "C59_simulated_forward",
    "C59_simulated_forward_strong_only",
    "C59_backward",
    "C59_backward_strong_only"
   ],
   "note": "For all caches, matching relations and simulations; matching itself is given."
  },
  {
   "property": "C60",
   "status": "partial",
   "theorems": [
    "C60_sound_partial",
    "C60_flag_refuted"
   ],
   "note": "The flag is sound. It is not complete: a weak requirement met later that does not clash clears it."
  },
  {
   "property": "C61",
   "status": "partial",
   "theorems": [
    "C61_comparisons",
    "C61_agrees_partial",
    "C61_agrees_refuted"
   ],
   "note": "Proved for comparisons on all numbers and for arithmetic without +infinity and without a division by zero; refuted for those."
  },
  {
   "property": "C62",
   "status": "partial",
   "theorems": [
    "C62_times_partial",
    "C62_symmetric",
    "C62_reflexive",
    "C62_opposite",
    "C62_same_refuted",
    "C62_different_refuted",
    "C62_transitive_refuted"
   ],
   "note": "Proved when no word of the counts can be taken for a pointer or a structure; refuted otherwise (both ways); symmetric and reflexive, not transitive between embedded and referenced objects."
  },
  {
   "property": "C63",
   "status": "partial",
   "theorems": [
    "C63_values_refuted",
    "C63_exact",
    "C63_code_partial"
   ],
   "note": "The code is proved to be the committed one (places not committed before); the values are refuted: they lie 128 places further than the code says."
  },
  {
   "property": "C64",
   "status": "partial",
   "theorems": [
    "C64_read_back_refuted",
    "C64_read_back_partial"
   ],
   "note": "Proved with fewer than 4096 atoms of results; refuted beyond."
  },
  {
   "property": "C65",
   "status": "partial",
   "theorems": [
    "C65_once_refuted",
    "C65_per_input_partial",
    "C65_then_dead",
    "C65_anti_once",
    "C65_input_less_once"
   ],
   "note": "Refuted for programs with inputs (queued inputs); proved once per input, and over all executions for anti-programs and input-less programs."
  },
  {
   "property": "C66",
   "status": "partial",
   "theorems": [
    "C66_again_refuted",
    "C66_silent"
   ],
   "note": "Refuted; proved that it fires at most once while nothing occurs."
  },
  {
   "property": "C67",
   "status": "partial",
   "theorems": [
    "C67_freed_refuted",
    "C67_kept_partial"
   ],
   "note": "Refuted, under the assumption that a reference-counted object is released when the last P<> is dropped (the CoreLibrary is not in the repository)."
  },
  {
   "property": "C68",
   "status": "partial",
   "theorems": [
    "C68_once_per_scope_refuted",
    "C68_once_per_scope_partial",
    "C68_period"
   ],
   "note": "Proved for a program that stays active; refuted for one that is deactivated and activated again."
  },
  {
   "property": "C69",
   "status": "partial",
   "theorems": [
    "C69_reissued_refuted",
    "C69_silent",
    "C69_never_new",
    "C69_ignored",
    "C69_inject_once_partial"
   ],
   "note": "Refuted: after a predicted success the monitor does nothing anymore. What it does instead is proved."
  },
  {
   "property": "C70",
   "status": "partial",
   "theorems": [
    "C70_met_refuted",
    "C70_irrelevant",
    "C70_once_partial"
   ],
   "note": "Refuted: a requirement that was met is still reported a failure at the deadline. At most once, and not before, is proved."
  },
  {
   "property": "C71",
   "status": "partial",
   "theorems": [
    "C71_mandatory_refuted",
    "C71_best_refuted",
    "C71_invalidated_refuted",
    "C71_cave_in",
    "C71_best_partial",
    "C71_none",
    "C71_stopped"
   ],
   "note": "Refuted in three ways (mandatory solutions without an optional one; a score that is not a number; invalidated mandatory solutions). Proved when scores are numbers and some optional solution is usable."
  },
  {
   "property": "C72",
   "status": "partial",
   "theorems": [
    "C72_stopped_refuted",
    "C72_stopped_partial",
    "C72_first"
   ],
   "note": "Refuted: a mandatory damaging simulation hides the others. Proved exactly which simulations are stopped in both cases."
  },
  {
   "property": "C73",
   "status": "partial",
   "theorems": [
    "C73_once_refuted",
    "C73_removed",
    "C73_once_partial",
    "C73_invalidated"
   ],
   "note": "Refuted: it decides twice. Proved that it is removed and when the second decision changes nothing."
  },
  {
   "property": "C74",
   "status": "partial",
   "theorems": [
    "C74_ends_refuted",
    "C74_too_many",
    "C74_unpushed_refuted",
    "C74_labels_partial"
   ],
   "note": "Refuted: with more than 65535 items the insertion never ends, and the label of an item that was not pushed is put at the start of the stream. Proved otherwise."
  },
  {
   "property": "C75",
   "status": "partial",
   "theorems": [
    "C75_left_out_refuted",
    "C75_unnamed_partial",
    "C75_all"
   ],
   "note": "Refuted for OIDs that are equal modulo 65536; proved for OIDs below 65536."
  },
  {
   "property": "C76",
   "status": "partial",
   "theorems": [
    "C76_refused_refuted",
    "C76_stale_refuted",
    "C76_again_partial"
   ],
   "note": "Refuted in two ways; proved that the same image gets the same names again."
  },
  {
   "property": "C77",
   "status": "partial",
   "theorems": [
    "C77_clash_refuted",
    "C77_variables_partial"
   ],
   "note": "Refuted for labels and variables of models; proved for labels (C42_variables) and for variables separately. The rendering of the code is not modelled."
  },
  {
   "property": "C78",
   "status": "partial",
   "theorems": [
    "C78_visibility_partial",
    "C78_injected_group_refuted"
   ],
   "note": "Proved for histories without requests on the visibility threshold, injections of groups or existing objects, and skipped views; refuted for groups injected in a group that is not c-active."
  },
  {
   "property": "C79",
   "status": "partial",
   "theorems": [
    "C79_saliency_change_reported",
    "C79_activation_change_reported",
    "C79_saliency_countdown_partial",
    "C79_activation_countdown_partial",
    "C79_stopped",
    "C79_every_period_refuted"
   ],
   "note": "The reports are characterised exactly for all histories; the countdown for a constant integer period. Refuted: changes are looked at every period plus one updates."
  },
  {
   "property": "C80",
   "status": "partial",
   "theorems": [
    "C80_saliency_decays",
    "C80_threshold_decays",
    "C80_percentage_refuted"
   ],
   "note": "From a new group on, with a constant integer period up to 2^24 and no request on the decaying value: each update in the period adds the fraction of the current value, so that (refuted) the total is not the percentage."
  },
  {
   "property": "C81",
   "status": "proved",
   "theorems": [
    "C81_instance_is_complete_and_live"
   ],
   "note": "For any binder; promotion of facts within simulations is not modelled."
  },
  {
   "property": "C82",
   "status": "partial",
   "theorems": [
    "C82_guards_refuted",
    "C82_guards_ignored"
   ],
   "note": "Refuted: the guards are never evaluated, for code is loaded by the constructor of every overlay; proved that they have no effect at all."
  },
  {
   "property": "C83",
   "status": "partial",
   "theorems": [
    "C83_every_combination_refuted",
    "C83_every_combination_partial"
   ],
   "note": "Refuted: a fact that fits several components is tried with the first only. Proved for facts that fit one component, outside simulations."
  },
  {
   "property": "C84",
   "status": "partial",
   "theorems": [
    "C84_once_refuted",
    "C84_once_partial"
   ],
   "note": "Refuted for a fact that is delivered twice; proved when each fact arrives once."
  },
  {
   "property": "C85",
   "status": "partial",
   "theorems": [
    "C85_confidence_refuted",
    "C85_lowest_partial",
    "C85_injected_above_threshold_partial"
   ],
   "note": "Refuted: the fact has confidence 1. Proved: the lowest confidence is computed and compared with the thresholds."
  },
  {
   "property": "C86",
   "status": "proved",
   "theorems": [
    "C86_mode"
   ],
   "note": "All three modes, with the grounds and simulations."
  },
  {
   "property": "C87",
   "status": "partial",
   "theorems": [
    "C87_unmixed_refuted",
    "C87_unmixed_partial"
   ],
   "note": "Refuted for predictions that belong to several simulations; proved when each belongs to one at most."
  },
  {
   "property": "C88",
   "status": "partial",
   "theorems": [
    "C88_validities_refuted",
    "C88_validities_partial"
   ],
   "note": "Refuted when the last component is not a prediction; proved when all inputs are predictions."
  },
  {
   "property": "C89",
   "status": "partial",
   "theorems": [
    "C89_in_time_refuted",
    "C89_in_time_partial"
   ],
   "note": "Refuted: only the interval of the first component counts; proved for that interval."
  },
  {
   "property": "C90",
   "status": "proved",
   "theorems": [
    "C90_sub_goals_needed",
    "C90_all_pursued",
    "C90_registered",
    "C90_no_duplicates"
   ],
   "note": "Evidence and matching of objects are parameters; register_goal_target with a root simulation."
  },
  {
   "property": "C91",
   "status": "partial",
   "theorems": [
    "C91_unchanged_refuted",
    "C91_unchanged_partial"
   ],
   "note": "Refuted: a component without variables is negated in place; proved for goals to be reached, and for components with variables."
  },
  {
   "property": "C92",
   "status": "partial",
   "theorems": [
    "C92_dropped_refuted",
    "C92_dropped_partial"
   ],
   "note": "Refuted: only the first component is watched. Proved: exact condition."
  },
  {
   "property": "C93",
   "status": "partial",
   "theorems": [
    "C93_indices_refuted",
    "C93_number_refuted",
    "C93_all_visited_partial",
    "C93_membership_partial",
    "C93_is_simulation_partial"
   ],
   "note": "Refuted: the index is off by one, so that index 0 gives the last simulation (the count in the set atom is taken for a reference); 256 simulations read as none. Proved for fewer than 256: all are visited, rotated by one."
  },
  {
   "property": "C94",
   "status": "partial",
   "theorems": [
    "C94_first_refuted",
    "C94_some_partial",
    "C94_first_partial"
   ],
   "note": "Refuted as C93; proved: some simulation with that root, the first if roots are distinct."
  },
  {
   "property": "C95",
   "status": "partial",
   "theorems": [
    "C95_inherited_refuted",
    "C95_inherited_partial"
   ],
   "note": "Refuted for 256 simulations; proved for fewer, up to the order, through any chain."
  },
  {
   "property": "C96",
   "status": "proved",
   "theorems": [
    "C96_invalidated_iff"
   ],
   "note": "Exact, with memoised flags; cycles excluded by a rank."
  },
  {
   "property": "C97",
   "status": "proved",
   "theorems": [
    "C97_invalidated_stays"
   ],
   "note": "For any continuation of a history."
  },
  {
   "property": "C98",
   "status": "partial",
   "theorems": [
    "C98_guards_hold_refuted",
    "C98_guards_hold_partial"
   ],
   "note": "Refuted: a later assignment may spoil an earlier test. Proved when each variable is assigned once, unbound before, from a definite expression."
  },
  {
   "property": "C99",
   "status": "partial",
   "theorems": [
    "C99_assignment_binds_refuted",
    "C99_assignment_value_refuted",
    "C99_template_refuted",
    "C99_assignment_binds_partial"
   ],
   "note": "Refuted: booleans and other atoms are not bound; a literal object is bound with variable pointers inside; a template argument may stay unbound. Proved for the other expressions."
  }
 ]
}