{
 "claims": [
  {
   "property": "C01",
   "status": "proved",
   "theorems": [
    "C01_fields",
    "C01_recognised",
    "C01_read",
    "C01_starts",
    "C01_number_name_refuted",
    "C01_bracket_refuted"
   ],
   "note": "All lines of the printed form, exact fields and correctly rounded time; two side conditions shown necessary by refutations. C01_read: for every line whatsoever, reading never fails, gives nothing exactly if the line has not the parts of a trace line, and otherwise the values of such parts with the longest task name."
  },
  {
   "property": "C02",
   "status": "proved",
   "theorems": [
    "C02_total",
    "C02_times",
    "C02_strict",
    "C02_sorted"
   ],
   "note": "Times as exact IEEE-754 doubles; total: no line raises."
  },
  {
   "property": "C03",
   "status": "proved",
   "theorems": [
    "C03_base_end",
    "C03_lines",
    "C03_body"
   ],
   "note": "Includes the start of the body and the file lines before it."
  },
  {
   "property": "C04",
   "status": "proved",
   "theorems": [
    "C04_dispatch",
    "C04_nowhere",
    "C04_recorded",
    "C04_once",
    "C04_by_name_refuted"
   ],
   "note": "Dispatch iff independent relation; the reading 'by event name' is refuted (substring anywhere in the line)."
  },
  {
   "property": "C05",
   "status": "proved",
   "theorems": [
    "C05_reject",
    "C05_accept",
    "C05_table",
    "C05_words",
    "C05_attrs"
   ],
   "note": "Exact error condition and the exact word table."
  },
  {
   "property": "C06",
   "status": "proved",
   "theorems": [
    "C06_round_trip",
    "C06_rendered"
   ],
   "note": "Exact cells of every field; values characterised by the independent int_literal grammar."
  },
  {
   "property": "C07",
   "status": "proved",
   "theorems": [
    "C07_decompose",
    "C07_error_iff",
    "C07_ok_keys",
    "C07_words_after_integer_dropped"
   ],
   "note": "Exact error condition for every payload; also proves that bare words after an integer value are dropped silently (finding)."
  },
  {
   "property": "C08",
   "status": "proved",
   "theorems": [
    "C08_int_iff",
    "C08_str_iff",
    "C08_decimal",
    "C08_hex_oct_bin",
    "C08_padded_text",
    "C08_zeros",
    "C08_literal_unique"
   ],
   "note": "Iff with an independent grammar of base-0 literals, on blank-free text (what split() produces)."
  },
  {
   "property": "C09",
   "status": "proved",
   "theorems": [
    "C09_explode",
    "C09_dict",
    "C09_trace"
   ],
   "note": "Per payload, per dictionary and for the whole trace of an event."
  },
  {
   "property": "C10",
   "status": "proved",
   "theorems": [
    "C10_terminates",
    "C10_fuel_irrelevant",
    "C10_terminates_all_refuted",
    "C10_frame_refuted"
   ],
   "note": "Terminates under the token condition; unconditional termination refuted by a payload that loops for every iteration budget."
  },
  {
   "property": "C11",
   "status": "proved",
   "theorems": [
    "C11_lengths",
    "C11_first_without_array",
    "C11_all_lines_refuted"
   ],
   "note": "Exact table; the unconditional reading is refuted."
  },
  {
   "property": "C12",
   "status": "proved",
   "theorems": [
    "C12_rows",
    "C12_total",
    "C12_metadata_refuted"
   ],
   "note": "Exact rows; metadata columns can be overridden by payload fields (refuted reading)."
  },
  {
   "property": "C13",
   "status": "proved",
   "theorems": [
    "C13_unique",
    "C13_trace_frames",
    "C13_small_groups",
    "C13_groups",
    "C13_sort",
    "C13_four_refuted",
    "C13_five_refuted",
    "C13_doubles_refuted"
   ],
   "note": "Identity on repetition-free indexes in any arithmetic; strictness with up to three equal times in exact rationals, the exact spread whenever it fits; failures with four and five equal times and in doubles proved as refutations."
  },
  {
   "property": "C14",
   "status": "proved",
   "theorems": [
    "C14_scopes",
    "C14_register",
    "C14_selected",
    "C14_unregister",
    "C14_undo",
    "C14_hidden_refuted",
    "C14_replaced_refuted"
   ],
   "note": "Exact effect on every dictionary and on selection, for every reachable registry; the unconditional reading is refuted (hidden and replaced classes)."
  },
  {
   "property": "C15",
   "status": "proved",
   "theorems": [
    "C15_selected",
    "C15_grow",
    "C15_unique"
   ],
   "note": "Every requested name is answered; exact set of selected classes."
  },
  {
   "property": "C16",
   "status": "proved",
   "theorems": [
    "C16_rows",
    "C16_trace"
   ],
   "note": "Binary-search slice proved equal to the closed-interval filter, for any frame (after sorting) and for parsed traces."
  },
  {
   "property": "C17",
   "status": "proved",
   "theorems": [
    "C17_superset",
    "C17_exact",
    "C17_kept",
    "C17_intersection_refuted",
    "C17_zero_end_refuted"
   ],
   "note": "Kept set characterised exactly; intersection proved when at most one end is given, refuted otherwise (finding: the code takes the later end); end zero is no end (finding)."
  },
  {
   "property": "C18",
   "status": "proved",
   "theorems": [
    "C18_offset",
    "C18_order",
    "C18_exact",
    "C18_distinct_refuted"
   ],
   "note": "One offset; weak order and non-negativity on parsed traces; exactness by Sterbenz up to twice the base; collapse beyond it refuted with a three-line trace."
  },
  {
   "property": "C19",
   "status": "proved",
   "theorems": [
    "C19_span",
    "C19_empty",
    "C19_bounds"
   ],
   "note": "Exact span over all rows, empty case, non-negative, at least the span of every event."
  },
  {
   "property": "C20",
   "status": "proved",
   "theorems": [
    "C20_disabled",
    "C20_transparent",
    "C20_no_classes_refuted",
    "C20_same_name_refuted"
   ],
   "note": "Equality with the cache disabled over every history of constructions and file edits; hypotheses: no line contains two classes' words, class names unique, digests faithful, tables read back exactly or not at all, a class with no events has an empty frame. Refuted without them: no classes selected (never parsed), two classes of one Python name. The ambiguous-line case is C23_ambiguous_refuted."
  },
  {
   "property": "C21",
   "status": "proved",
   "theorems": [
    "C21_fresh",
    "C21_replaced"
   ],
   "note": "For every cache content, without the hypotheses of C20."
  },
  {
   "property": "C22",
   "status": "proved",
   "theorems": [
    "C22_crashes",
    "C22_cut_table_refuted",
    "C22_foreign_refuted"
   ],
   "note": "Crashes between file system steps and inside rmtree. A table cut short inside to_csv is accepted silently (refuted), and a cache written by a trace class without the ftrace entry makes FTrace raise KeyError."
  },
  {
   "property": "C23",
   "status": "proved",
   "theorems": [
    "C23_dispatch",
    "C23_ambiguous_refuted"
   ],
   "note": "The positive half (no misattribution without ambiguous lines) is C20_transparent."
  },
  {
   "property": "C24",
   "status": "proved",
   "theorems": [
    "C24_text",
    "C24_table",
    "C24_empty",
    "C24_text_column_iff",
    "C24_truth",
    "C24_names",
    "C24_padded_refuted",
    "C24_mixed_refuted",
    "C24_words_refuted"
   ],
   "note": "Text level for all records; table level for all tables with unambiguous columns; exact characterisation for text columns. Time text and floats of other columns through a reader/writer pair assumed to round-trip on the values present. pandas behaviour is modelled from its documentation."
  },
  {
   "property": "C25",
   "status": "proved",
   "theorems": [
    "C25_once",
    "C25_order",
    "C25_trace",
    "C25_map_order",
    "C25_row",
    "C25_unsorted_refuted",
    "C25_index_refuted"
   ],
   "note": "Frames are lists of rows with a line number; on parsed traces the hypotheses are discharged. A name that is not an event of the trace (AttributeError) and a frame without a __line column (KeyError) are not modelled; exceptions raised by callbacks are not modelled."
  },
  {
   "property": "C26",
   "status": "proved",
   "theorems": [
    "C26_body",
    "C26_no_marker",
    "C26_cpus",
    "C26_cpus_error",
    "C26_end_refuted"
   ],
   "note": "Lines carry their newline as in Python's text iteration; the theorem is an iff with an independent relation, the specification is shown to determine the body."
  },
  {
   "property": "C27",
   "status": "proved",
   "theorems": [
    "C27_all",
    "C27_total",
    "C27_round_trip",
    "C27_other_traces",
    "C27_text_refuted"
   ],
   "note": "Full characterisation over all payloads; with the caveat (refuted statement) that plain text starting with a capital letter is lost."
  },
  {
   "property": "C28",
   "status": "proved",
   "theorems": [
    "C28_named",
    "C28_choice",
    "C28_fails",
    "C28_given_dat",
    "C28_given_txt",
    "C28_given_other",
    "C28_txt_refuted",
    "C28_only_file_refuted"
   ],
   "note": "posixpath.splitext/join are modelled as in CPython; isfile is an arbitrary predicate. Finding: a .txt path with a .dat sibling reads the .dat; files with other extensions are never read."
  },
  {
   "property": "C29",
   "status": "proved",
   "theorems": [
    "C29_value",
    "C29_only",
    "C29_unique",
    "C29_after",
    "C29_before_refuted"
   ],
   "note": "Header = lines up to and including the first trace line (the first trace line itself is searched too, refuted variant included)."
  },
  {
   "property": "C30",
   "status": "proved",
   "theorems": [
    "C30_fields",
    "C30_kernel",
    "C30_rows",
    "C30_arrow_in_name_refuted",
    "C30_numeric_name_refuted",
    "C30_blanks_refuted"
   ],
   "note": "Findings: an arrow inside the first task name, names beginning with a number, runs of blanks. Frame rows proved for payloads without '{'."
  },
  {
   "property": "C31",
   "status": "proved",
   "theorems": [
    "C31_enter_iff",
    "C31_enter_fields",
    "C31_exit_iff",
    "C31_exit_fields",
    "C31_enter_printed",
    "C31_exit_printed",
    "C31_enter_rows",
    "C31_exit_rows",
    "C31_no_call",
    "C31_negative_number_refuted"
   ],
   "note": "Exact characterisation of accepted payloads. Finding: sys_enter rejects NR -1 although sys_exit accepts it. Latin-1 text only (\\d on other scripts is not modelled)."
  },
  {
   "property": "C32",
   "status": "proved",
   "theorems": [
    "C32_count",
    "C32_empty"
   ],
   "note": "Every hexadecimal mask with commas, of any length; masks without digits are a ValueError. Other texts int(,16) accepts (0x, sign, underscores) are counted too."
  },
  {
   "property": "C33",
   "status": "proved",
   "theorems": [
    "C33_last_known",
    "C33_missing",
    "C33_stamps",
    "C33_same_label_refuted"
   ],
   "note": "For every order of the set of masks, every total order of time stamps, missing values included; two masks with one label: rows lost depending on set order (C33_same_label_refuted)."
  },
  {
   "property": "C34",
   "status": "proved",
   "theorems": [
    "C34_level",
    "C34_groups_total",
    "C34_all",
    "C34_node",
    "C34_index",
    "C34_index_found",
    "C34_index_error",
    "C34_all_span_refuted"
   ],
   "note": "For every enumeration order of the node set and every sequence of add_to_level calls. C34_all_span_refuted: the span of 'all' counts nodes, and a level stored under 'all' cannot be read."
  },
  {
   "property": "C35",
   "status": "proved",
   "theorems": [
    "C35_rows",
    "C35_list",
    "C35_no_pivot",
    "C35_no_column",
    "C35_name_ignored",
    "C35_name_unbound",
    "C35_column_refuted"
   ],
   "note": "Rows for numeric values; missing columns are ignored for value filters and are a KeyError for function filters. A column name as value is ignored by the code (C35_name_ignored, C35_column_refuted)."
  },
  {
   "property": "C36",
   "status": "proved",
   "theorems": [
    "C36_stored",
    "C36_fun",
    "C36_fails",
    "C36_none",
    "C36_repeat_refuted"
   ],
   "note": "C36_stored: what the triggers store; C36_fun: sums with an aggregation function, the state is unchanged; C36_none: k calls without one, for disjoint groups (C36_repeat_refuted shows the second call differs)."
  },
  {
   "property": "C37",
   "status": "proved",
   "theorems": [
    "C37_unify",
    "C37_unified",
    "C37_fails"
   ],
   "note": "For every total order of times."
  },
  {
   "property": "C38",
   "status": "proved",
   "theorems": [
    "C38_front",
    "C38_back",
    "C38_front_meet",
    "C38_back_meet",
    "C38_zero"
   ],
   "note": "C38_front/C38_back give the shift and the moved series, C38_front_meet/C38_back_meet the coinciding samples. Missing values count as non-zero, as in numpy."
  },
  {
   "property": "C39",
   "status": "proved",
   "theorems": [
    "C39_value",
    "C39_agree",
    "C39_total",
    "C39_chars",
    "C39_name"
   ],
   "note": "For every text of an expression in the documented grammar (levels of precedence, left association, blanks, calls, accessors, signed exponents), followed by anything that cannot continue it, the parser's value is that of the expression (C39_value); it has no value when the expression has none, if nothing raises an IndexError (C39_agree); the parser stops on every text (C39_total). Values and operators are arbitrary, and an operator may fail; parse actions are modelled as pyparsing runs them, with an IndexError taken for a failed match. Which exception wins when several operands fail is not compared. Findings: text after the expression is ignored without notice (2**-x is 2, 1e5 is 1), the power is left associative, an unknown one-letter name or a call without arguments silently ends the expression, an unknown name means the column of its second letter."
  },
  {
   "property": "C40",
   "status": "proved",
   "theorems": [
    "C40_session",
    "C40_first",
    "C40_sketch",
    "C40_index",
    "C40_absent",
    "C40_sorted",
    "C40_own",
    "C40_scan",
    "C40_scan_total",
    "C40_solve",
    "C40_accessor",
    "C40_own_event_refuted",
    "C40_ignored_refuted"
   ],
   "note": "A parser is followed through any sequence of solve calls, including failing ones (Session, which always exists and is unique). For each column the table shows the rows of the first readable event used with that name: one column per pivot value, in each cell the last value known (C40_first, with filling; C40_sketch without), on the sorted union of the times read (C40_index); a column is absent iff no accessor of it could be read (C40_absent). So an accessor denotes its own event when no other event was used with that column (C40_own). The accessors found in a text are those of the expression and of the ignored rest (C40_scan), and solve gives the value of the expression with the resulting table or fails (C40_solve, C40_accessor). Assumed: frames with strictly increasing times and a pivot value in every row; default reindex method and limit. Findings: a second event's column of the same name is shadowed by the first; accessors in the ignored rest of a text are read and can make solve fail."
  },
  {
   "property": "C41",
   "status": "proved",
   "theorems": [
    "C41_series",
    "C41_keys",
    "C41_default",
    "C41_no_column",
    "C41_missing_refuted",
    "C41_reserved_refuted"
   ],
   "note": "Whatever order Python's set gives. Findings C41_missing_refuted (rows without a pivot value are in no series), C41_reserved_refuted (the reserved default value as a pivot value selects all rows)."
  },
  {
   "property": "C42",
   "status": "proved",
   "theorems": [
    "C42_zip",
    "C42_permute",
    "C42_pairs",
    "C42_error",
    "C42_twice_refuted"
   ],
   "note": "Permuted, constraint i*m+j has trace i and column j; C42_pairs gives all pairs. Finding C42_twice_refuted: one trace and two columns give each constraint twice and a trace index that does not exist."
  },
  {
   "property": "C43",
   "status": "proved",
   "theorems": [
    "C43_grid",
    "C43_axis",
    "C43_distinct",
    "C43_finish",
    "C43_none"
   ],
   "note": "The i-th plot has the i-th cell in reading order. Columns below 1 are errors (C43_ex_cols)."
  },
  {
   "property": "C44",
   "status": "proved",
   "theorems": [
    "C44_intervals",
    "C44_order",
    "C44_empty",
    "C44_rename_refuted",
    "C44_numeric_refuted"
   ],
   "note": "For regular histories: text names, pids not negative, a task switched to twice without a switch-out has kept its name. Such a doubtful first interval is dropped (the next row that mentions the task does not switch it out). Findings: C44_rename_refuted (IndexError, or a complete interval of another name removed), C44_numeric_refuted (a name that reads as a number: AttributeError)."
  },
  {
   "property": "C45",
   "status": "proved",
   "theorems": [
    "C45_name",
    "C45_runs",
    "C45_runs_exist",
    "C45_acronym_refuted"
   ],
   "note": "Capitalised words of two or more letters; acronyms refuted."
  },
  {
   "property": "C46",
   "status": "proved",
   "theorems": [
    "C46_export",
    "C46_determined",
    "C46_once",
    "C46_once_lib",
    "C46_fails",
    "C46_chop_refuted",
    "C46_alias_refuted",
    "C46_region_refuted"
   ],
   "note": "Whole exports (all cells, all outputs, state kept between them): only the html of display data of code cells changes; each text becomes the concatenation of what its lines become; determinism of that specification; each file and library at most once per export; failure exactly on an unreadable import. Findings: last character of an unterminated file lost; two spellings of one path are two files; an unclosed region ends with its output."
  },
  {
   "property": "C47",
   "status": "proved",
   "theorems": [
    "C47_drop_empty",
    "C47_glue_refuted"
   ],
   "note": "Exact result on words; gluing and the trailing empty array shown by refutation."
  },
  {
   "property": "C48",
   "status": "proved",
   "theorems": [
    "C48_builtin",
    "C48_import",
    "C48_table",
    "C48_events_refuted"
   ],
   "note": "C48_table spells out the 35 registered classes: in any order of import, a trace of a scope has exactly the attributes of the table."
  },
  {
   "property": "C49",
   "status": "proved",
   "theorems": [
    "C49_fields",
    "C49_error_iff",
    "C49_clk_name_refuted"
   ],
   "note": "Finding: a field called clk_name is overwritten."
  },
  {
   "property": "C50",
   "status": "proved",
   "theorems": [
    "C50_fields",
    "C50_only_text",
    "C50_blank_refuted"
   ],
   "note": "Finding: a double blank shifts the pairs; numbers stay text."
  },
  {
   "property": "C51",
   "status": "proved",
   "theorems": [
    "C51_fields",
    "C51_checkpoint"
   ],
   "note": "Commas inside values become blanks, as the code does."
  },
  {
   "property": "C52",
   "status": "proved",
   "theorems": [
    "C52_rows"
   ],
   "note": ""
  },
  {
   "property": "C53",
   "status": "proved",
   "theorems": [
    "C53_rows",
    "C53_capacity",
    "C53_frequency",
    "C53_rate",
    "C53_inode",
    "C53_collision_refuted"
   ],
   "note": ""
  },
  {
   "property": "C54",
   "status": "proved",
   "theorems": [
    "C54_mask_iff",
    "C54_rows",
    "C54_binary_refuted",
    "C54_long_zero_refuted"
   ],
   "note": "Columns with missing cells (floats in pandas) are outside the model. Findings: '0b000001' and long zero masks."
  },
  {
   "property": "C55",
   "status": "proved",
   "theorems": [
    "C55_load",
    "C55_normalized",
    "C55_absent_mask",
    "C55_freqs"
   ],
   "note": "Division abstract (the two integers divided are stated). Rows in time order, one row per mask and time. pandas' DataFrame(dict of series) and fillna modelled."
  },
  {
   "property": "C56",
   "status": "proved",
   "theorems": [
    "C56_total",
    "C56_bound"
   ],
   "note": "Exact rational arithmetic in place of doubles; the correlation of a group is a parameter."
  },
  {
   "property": "C57",
   "status": "proved",
   "theorems": [
    "C57_pad",
    "C57_uniform",
    "C57_fails"
   ],
   "note": "get_uniform in exact rational arithmetic; padding for every total order."
  },
  {
   "property": "C58",
   "status": "proved",
   "theorems": [
    "C58_chosen",
    "C58_inspect",
    "C58_empty_refuted"
   ],
   "note": "C58_chosen holds for every frame with strictly increasing times; C58_inspect for every text of an accessor. Finding: inspecting an event with a pivot whose frame has no columns is a KeyError."
  },
  {
   "property": "C59",
   "status": "proved",
   "theorems": [
    "C59_window",
    "C59_early_refuted"
   ],
   "note": "Finding C59_early_refuted: a window that starts before the first row selects nothing (NaN sorts last in slicing, an assumption about pandas)."
  },
  {
   "property": "C60",
   "status": "proved",
   "theorems": [
    "C60_all",
    "C60_int",
    "C60_hex",
    "C60_plain",
    "C60_permute"
   ],
   "note": "int() and int(_, 16) are arbitrary partial functions."
  },
  {
   "property": "C61",
   "status": "proved",
   "theorems": [
    "C61_series",
    "C61_line",
    "C61_concat",
    "C61_grid_refuted",
    "C61_shift_refuted",
    "C61_concat_refuted"
   ],
   "note": "permute is not modelled here. Findings: C61_grid_refuted (two traces with the same four pivots, two per line: IndexError), C61_shift_refuted (a missing pivot mixes pivots on one axis), C61_concat_refuted (two columns of one trace share the first axis, the second stays empty)."
  },
  {
   "property": "C62",
   "status": "proved",
   "theorems": [
    "C62_describe",
    "C62_reject",
    "C62_unique",
    "C62_colours",
    "C62_colours_ok",
    "C62_check",
    "C62_check_reject",
    "C62_mixed_refuted",
    "C62_range_refuted"
   ],
   "note": "describe_ok is an iff against an independent reading of a definition (Spec/Signals.v). Findings: a colour on only one of several signals makes the interactive plot fail with TypeError; out-of-range, negative, fewer components and a trailing colon are accepted."
  },
  {
   "property": "C63",
   "status": "proved",
   "theorems": [
    "C63_plot",
    "C63_fails",
    "C63_ranked",
    "C63_average_refuted",
    "C63_duplicate_lane_refuted",
    "C63_lane_range_refuted",
    "C63_listed_refuted"
   ],
   "note": "Times are rationals. Findings (refuted theorems): the average divides by the number of intervals plus one; of two lanes with one name the first stays empty; lanes of events are not checked against num_lanes; names without time are not listed though their data are kept; the keys argument is ignored."
  },
  {
   "property": "C64",
   "status": "proved",
   "theorems": [
    "C64_page",
    "C64_fails",
    "C64_distinct",
    "C64_negative_refuted"
   ],
   "note": "Figure names are drawn from an arbitrary function uuid; C64_distinct needs it to be injective (uuid4 collisions are not modelled). HTML is modelled as a list of tags and cells. Finding: a negative per_line gives a page without cells and a KeyError."
  },
  {
   "property": "C65",
   "status": "proved",
   "theorems": [
    "C65_frame",
    "C65_frame_fails",
    "C65_plot",
    "C65_concat",
    "C65_permuted",
    "C65_permuted_short",
    "C65_permuted_index",
    "C65_permuted_single",
    "C65_distinct",
    "C65_small_groups",
    "C65_legends_refuted",
    "C65_interpolate_refuted"
   ],
   "note": "Values are rationals or missing; handle_duplicate_index enters as the function dedup (C13), with C65_small_groups discharging the hypothesis in exact arithmetic. Findings: equal legends (two traces of one name) lose the first series; interpolation is by position instead of time; permute with two pivot values ends in IndexError and with a single unlisted trace in TypeError."
  },
  {
   "property": "C66",
   "status": "proved",
   "theorems": [
    "C66_number",
    "C66_number_unique",
    "C66_id",
    "C66_id_clean",
    "C66_results",
    "C66_results_some",
    "C66_combine",
    "C66_distinct_refuted",
    "C66_latest_refuted"
   ],
   "note": "get_run_number through its two regular expressions (metrics without newline), the run id through re.sub, the nested dictionary of get_results as the table of first scores with the exact condition under which a file can be read, combine_results as columns side by side. float() is abstract; csv.reader's rows are the input; the DataFrame made of the table and the plots are not modelled. Refuted: distinct metrics have distinct runs (Overall_Score and Overall_Score_1 are both run 0), a later score replaces an earlier one."
  },
  {
   "property": "C67",
   "status": "proved",
   "theorems": [
    "C67_parameters",
    "C67_distinct",
    "C67_unterminated_refuted"
   ],
   "note": "The listing and the files of the thermal zone are the input. Refuted: a number in a file without final newline is read as it stands (its last digit is dropped). The names are searched, not matched whole, so xcdev1_weight_old is a property too. The HTML table is not modelled."
  },
  {
   "property": "C68",
   "status": "proved",
   "theorems": [
    "C68_freqs",
    "C68_missing",
    "C68_repeat"
   ],
   "note": "Composed of the model of pivot_with_labels and get_all_freqs (C33, C55). Division is abstract. Repeated times of the GPU events are an error unless both have the same times (C68_repeat)."
  },
  {
   "property": "C69",
   "status": "proved",
   "theorems": [
    "C69_load",
    "C69_one",
    "C69_freqs",
    "C69_count",
    "C69_hists",
    "C69_temps",
    "C69_temps_fail",
    "C69_temps_refuted"
   ],
   "note": "Which axis shows which plot of which run, for the seven comparison functions; matplotlib's subplots returns an array of axes squeezed to its shape, as modelled. The histogram of requested frequencies is headed freq out like the granted one (not modelled). C69_count discharges the hypothesis of C69_freqs from the model of get_all_freqs_data. A run with temperatures after one without is lost (C69_temps_refuted, C69_temps_fail)."
  },
  {
   "property": "C70",
   "status": "proved",
   "theorems": [
    "C70_power",
    "C70_power_fails",
    "C70_weighted",
    "C70_no_weights",
    "C70_many_refuted"
   ],
   "note": "Scaling a value by a weight is abstract. C70_weighted needs weights named by numbers without leading zeros; their order is that of the text, so from eleven devices on actors get the weights of others (C70_many_refuted). Columns and weights are chosen by prefix only. A run without weights beside one with them is a TypeError (C70_mixed)."
  },
  {
   "property": "C71",
   "status": "proved",
   "theorems": [
    "C71_title",
    "C71_temperature",
    "C71_fails",
    "C71_zone_refuted"
   ],
   "note": "Division by 1000 is abstract. Asking for zone 0 filters the temperatures only, not the control temperature (C71_zone_refuted); when no temperature of the zone exists the temperatures of the governor events of all zones are drawn. 'is not \"\"' is read as inequality."
  },
  {
   "property": "C72",
   "status": "proved",
   "theorems": [
    "C72_bars",
    "C72_apart",
    "C72_unequal",
    "C72_nothing"
   ],
   "note": "Exact rationals in place of doubles. C72_apart: no two bars drawn side by side overlap. Series of different lengths are an error (C72_unequal)."
  },
  {
   "property": "C73",
   "status": "proved",
   "theorems": [
    "C73_figure",
    "C73_normal",
    "C73_concat",
    "C73_shared",
    "C73_permute",
    "C73_missing",
    "C73_order",
    "C73_stable",
    "C73_name",
    "C73_distinct",
    "C73_numbers",
    "C73_legend_refuted",
    "C73_title_refuted"
   ],
   "note": "Colours are indexes into the colour map. Labels of pivots and the text of the column list are parameters. A pivot that one constraint lacks makes the legend (concat) or the title (by pivot) wrong: C73_legend_refuted, C73_title_refuted. C73_permute takes the sorted constraints as a grid of columns and traces; with two traces, two columns and two pivots at the default two axes per line the call is an IndexError (C73_permute_ex)."
  },
  {
   "property": "C74",
   "status": "proved",
   "theorems": [
    "C74_published",
    "C74_none_left",
    "C74_twice",
    "C74_untouched",
    "C74_iline",
    "C74_event_refuted",
    "C74_extension_refuted"
   ],
   "note": "Proved for all texts: the chain of replacements equals the simultaneous replacement (both directions), leaves no listed path, is idempotent. C74_event_refuted: EventPlot pages ask for d3.min while d3.v3.min is replaced."
  },
  {
   "property": "C75",
   "status": "proved",
   "theorems": [
    "C75_installed",
    "C75_scripts",
    "C75_served",
    "C75_asked",
    "C75_ends",
    "C75_missing",
    "C75_kept",
    "C75_frame",
    "C75_again",
    "C75_unknown",
    "C75_fresh_refuted"
   ],
   "note": "Proved over an abstract file system (path to directory or file), an arbitrary web and package. Not modelled: parents that cannot be created, partial writes of urlretrieve. C75_fresh_refuted: a web resource already there is never refreshed."
  },
  {
   "property": "C76",
   "status": "proved",
   "theorems": [
    "C76_rejected",
    "C76_added",
    "C76_first",
    "C76_absent",
    "C76_builtin",
    "C76_filters",
    "C76_literal",
    "C76_once",
    "C76_order",
    "C76_frames",
    "C76_unnamed",
    "C76_untimed",
    "C76_names",
    "C76_ftrace",
    "C76_late",
    "C76_hint",
    "C76_constructed",
    "C76_lost",
    "C76_taken",
    "C76_names_refuted",
    "C76_frames_refuted"
   ],
   "note": "Histories are lists of additions and normalisations of one BareTrace whose rejected additions are caught; times are any type with a subtraction. Refuted parts (shared frames, reserved names) are findings."
  },
  {
   "property": "C77",
   "status": "proved",
   "theorems": [
    "C77_frames",
    "C77_trace",
    "C77_late_array_refuted"
   ],
   "note": "End-to-end: header, lines, dispatch, tie breaking, arrays, payloads, windows and normalisation composed; classes that override create_dataframe or finalize_object are outside (mk hypothesis). Arrays absent from a class's first event are refuted (C77_late_array_refuted)."
  },
  {
   "property": "C78",
   "status": "proved",
   "theorems": [
    "C78_raw",
    "C78_registered",
    "C78_command",
    "C78_dash_refuted",
    "C78_runs",
    "C78_same",
    "C78_fails",
    "C78_temporary",
    "C78_history",
    "C78_leak_refuted",
    "C78_place",
    "C78_shared",
    "C78_table",
    "C78_two_slashes_refuted"
   ],
   "note": "C78_raw/C78_registered: raw events; C78_command: how trace-cmd reads its arguments; C78_runs, C78_same, C78_fails: outcome of a construction; C78_temporary, C78_history: temporary files; C78_place, C78_shared, C78_table: place of the cache. Refuted: a path starting with a dash (C78_dash_refuted), temporary files after failures (C78_leak_refuted), two leading slashes (C78_two_slashes_refuted). Symbolic links are not followed by the code or the model."
  },
  {
   "property": "C79",
   "status": "proved",
   "theorems": [
    "C79_rows",
    "C79_frame",
    "C79_warns",
    "C79_meminfo",
    "C79_meminfo_only",
    "C79_types",
    "C79_fails",
    "C79_nothing"
   ],
   "note": "C79_rows, C79_frame: memory readings do not matter; C79_warns: the warning; C79_meminfo; C79_types, C79_fails, C79_nothing: optimize_dataframe. The comparison with 0.9 of the free memory is a parameter."
  },
  {
   "property": "C80",
   "status": "proved",
   "theorems": [
    "C80_load",
    "C80_normalized",
    "C80_repeat",
    "C80_hists",
    "C80_temperature",
    "C80_unsorted_refuted",
    "C80_titles_refuted",
    "C80_gpu_refuted"
   ],
   "note": "Joined tables of cluster and GPU loads, histograms; the order of pandas' union is a parameter, proved for the sorted one and refuted for the other; titles of input and GPU histograms are refuted"
  },
  {
   "property": "C81",
   "status": "proved",
   "theorems": [
    "C81_shift",
    "C81_groups",
    "C81_missing",
    "C81_symmetric",
    "C81_self",
    "C81_symmetric_refuted",
    "C81_again_refuted"
   ],
   "note": "correlation function, grid and aggregators are parameters; exact arithmetic for the weighted mean; aggregators must not change what they aggregate (those without a function do: C81_again_refuted)"
  },
  {
   "property": "C82",
   "status": "proved",
   "theorems": [
    "C82_figures",
    "C82_unread",
    "C82_types",
    "C82_keyword",
    "C82_ylim",
    "C82_summary",
    "C82_ylim_refuted"
   ],
   "note": "Reading and drawing are arbitrary partial functions; any figure may fail."
  },
  {
   "property": "C83",
   "status": "proved",
   "theorems": [
    "C83_range",
    "C83_setup",
    "C83_sizes",
    "C83_inout",
    "C83_narrow_refuted",
    "C83_twice_refuted"
   ],
   "note": "Rationals stand for floats."
  },
  {
   "property": "C84",
   "status": "proved",
   "theorems": [
    "C84_gradient",
    "C84_user",
    "C84_exact",
    "C84_late",
    "C84_inverse",
    "C84_shades",
    "C84_own_refuted",
    "C84_many_refuted"
   ],
   "note": "matplotlib's Normalize and Colormap call are modelled as documented (double arithmetic)."
  },
  {
   "property": "C85",
   "status": "proved",
   "theorems": [
    "C85_limits",
    "C85_shows",
    "C85_nothing",
    "C85_nan",
    "C85_title",
    "C85_all",
    "C85_one",
    "C85_all_refuted"
   ],
   "note": "Rationals for floats, None for NaN; ASCII letters."
  },
  {
   "property": "C86",
   "status": "proved",
   "theorems": [
    "C86_forwards",
    "C86_bar",
    "C86_line",
    "C86_draw",
    "C86_interactive",
    "C86_colour_refuted",
    "C86_height_refuted"
   ],
   "note": "A user keyword args_to_forward is not modelled."
  },
  {
   "property": "C87",
   "status": "proved",
   "theorems": [
    "C87_lane",
    "C87_draw",
    "C87_total",
    "C87_stride",
    "C87_position",
    "C87_overlap_refuted",
    "C87_edge_refuted",
    "C87_once_refuted",
    "C87_stride_refuted"
   ],
   "note": "EventPlot.js 45-58, 834-924 and EventPlot.py's grouping. Refuted parts: overlapping events are lost, widened bars pass the right edge, a single event is drawn twice, sampling is never done."
  },
  {
   "property": "C88",
   "status": "proved",
   "theorems": [
    "C88_consistent",
    "C88_brush",
    "C88_zoom",
    "C88_guides",
    "C88_delta",
    "C88_label_refuted",
    "C88_small_brush_refuted",
    "C88_resize_refuted",
    "C88_resize_zoom_refuted",
    "C88_global_width_refuted",
    "C88_no_summary_refuted"
   ],
   "note": "EventPlot.js 88-480: view, brush, zoom, guides and resizing as a state machine; d3's zoom and scales are trusted. Refuted: label of the distance, brush and gestures after a resize, shared width, resize without summary, very small brushes."
  },
  {
   "property": "C89",
   "status": "proved",
   "theorems": [
    "C89_never",
    "C89_prefix",
    "C89_own",
    "C89_default",
    "C89_inside",
    "C89_apart",
    "C89_info_refuted",
    "C89_own_refuted",
    "C89_empty_refuted"
   ],
   "note": "Colours, rows and getCurrentInfo of EventPlot.js. Refuted: the event under the mouse is never reported; colours shift when a name has none."
  },
  {
   "property": "C90",
   "status": "proved",
   "theorems": [
    "C90_sync",
    "C90_rows",
    "C90_there",
    "C90_distinct",
    "C90_total",
    "C90_common",
    "C90_order",
    "C90_zoom",
    "C90_total_refuted",
    "C90_order_refuted",
    "C90_order_zoom_refuted",
    "C90_zoom_refuted",
    "C90_width_refuted"
   ],
   "note": "ILinePlot.js 17-173 as a state machine of a page; Dygraph is trusted to keep ranges. Refuted: rows out of order when only a part is shown or after zooming, links that outlive a plot not wanting them, width after resize, plots without data."
  },
  {
   "property": "C91",
   "status": "proved",
   "theorems": [
    "C91_runs",
    "C91_chosen",
    "C91_inside",
    "C91_systrace",
    "C91_fails",
    "C91_kind",
    "C91_inside_refuted",
    "C91_idle_refuted"
   ],
   "note": "plotter/__init__.py 55-86 with Utils.py 46-101, EventPlot.py and EventPlot.js composed; opening of a trace is a parameter. Refuted: rows for cpus beyond the header's count; pids=0."
  },
  {
   "property": "C92",
   "status": "proved",
   "theorems": [
    "C92_frames",
    "C92_trace",
    "C92_braces_refuted"
   ],
   "note": "Every class trappy registers is covered; texts with a brace outside arrays are excluded (C92_braces_refuted), columns have distinct names, and arrays appear from the first event on."
  },
  {
   "property": "C93",
   "status": "proved",
   "theorems": [
    "C93_report",
    "C93_window",
    "C93_time"
   ],
   "note": "Times are the exact values of the doubles (C93_time). Pids and cpus that are not numbers, and columns only some rows have, are outside the model; Regular (Spec/Residency.v) is the condition of C44 on the printed switches."
  },
  {
   "property": "C94",
   "status": "proved",
   "theorems": [
    "C94_export",
    "C94_done",
    "C94_page",
    "C94_publish",
    "C94_title_refuted",
    "C94_declared_refuted",
    "C94_local_refuted"
   ],
   "note": "Model/Page.v has the text of the pages; JSON texts and the style sheet are given."
  },
  {
   "property": "C95",
   "status": "proved",
   "theorems": [
    "C95_source",
    "C95_solve",
    "C95_missing",
    "C95_syscalls",
    "C95_distinct",
    "C95_time",
    "C95_orders",
    "C95_pivots"
   ],
   "note": "The grammar's view of an FTrace of a written report; parser with fill, classes named otherwise than by the trace must be classes of the trace. Filters and windows of the parser included."
  },
  {
   "property": "C96",
   "status": "proved",
   "theorems": [
    "C96_frame",
    "C96_same",
    "C96_read",
    "C96_number_refuted"
   ],
   "note": "For classes with the default payload parser; times are assumed to survive Python's repr and float, and pandas is modelled by its documented behaviour (Model/Csv.v). Rows of one class must have the same columns: the frame model does not tell a missing cell from NaN."
  },
  {
   "property": "C97",
   "status": "proved",
   "theorems": [
    "C97_iff",
    "C97_lost",
    "C97_words",
    "C97_calls",
    "C97_taken",
    "C97_others",
    "C97_readable_refuted"
   ],
   "note": "C97_iff: for payloads without braces, failure of the constructor iff some printed payload is Unreadable (independent description of the texts); C97_lost: one line is enough, whatever else is in the file; C97_words, C97_calls: simple sufficient conditions; C97_taken, C97_others: with the built-in classes imported in any order; C97_readable_refuted: reports with workqueue or per-syscall events."
  },
  {
   "property": "C98",
   "status": "proved",
   "theorems": [
    "C98_iff",
    "C98_errors",
    "C98_endless",
    "C98_builtin",
    "C98_attribute",
    "C98_dynamic",
    "C98_subclass_refuted",
    "C98_raw_refuted"
   ],
   "note": "C98_iff, C98_errors, C98_endless: exactly which chains of classes succeed, and how the others fail, for every recursion limit of at least 4 calls; C98_builtin, C98_attribute, C98_dynamic for trappy's own; C98_subclass_refuted, C98_raw_refuted are findings."
  },
  {
   "property": "C99",
   "status": "proved",
   "theorems": [
    "C99_pids",
    "C99_report",
    "C99_none",
    "C99_number_refuted"
   ],
   "note": "C99_pids over any frame whose rows have both columns; C99_report composes it with reading a written report (C92); C99_none and C99_number_refuted: the failures. pandas with DataFrame.ix (removed in 1.0) is assumed."
  },
  {
   "property": "C100",
   "status": "proved",
   "theorems": [
    "C100_solve",
    "C100_frames",
    "C100_missing",
    "C100_unknown",
    "C100_pivot",
    "C100_grouped_refuted"
   ],
   "note": "all inputs; C100_solve assumes a subtraction of times that keeps their order (exact arithmetic); C100_frames speaks of the frames as they are and needs no such assumption"
  },
  {
   "property": "C101",
   "status": "proved",
   "theorems": [
    "C101_trigger",
    "C101_fails",
    "C101_aggregate"
   ],
   "note": "Times within one class are supposed distinct for aggregation (as pandas needs for the in-place writes); the aggregation function is an arbitrary pure function; the aggregator without one is C36_none."
  },
  {
   "property": "C102",
   "status": "proved",
   "theorems": [
    "C102_calls",
    "C102_unknown",
    "C102_lines",
    "C102_order_refuted"
   ],
   "note": "The line numbers are supposed to be as printed (C102_lines says when they are). Cells that are no integers in the column __line count as an error in the model."
  },
  {
   "property": "C103",
   "status": "proved",
   "theorems": [
    "C103_trace",
    "C103_marker",
    "C103_cpus",
    "C103_no_cpus",
    "C103_empty_refuted"
   ],
   "note": "C103_trace: the frames of a page; C103_marker: the parts of a marker are its columns; C103_cpus and C103_no_cpus: the count of cpus, with its two degenerate cases; C103_empty_refuted: an empty trace reads lines after the end of the script."
  },
  {
   "property": "C104",
   "status": "proved",
   "theorems": [
    "C104_page",
    "C104_window",
    "C104_nothing",
    "C104_rows_refuted"
   ],
   "note": "C104_page (default construction), C104_window (any windows), C104_nothing (no switches), C104_rows_refuted (cpus without switches)."
  },
  {
   "property": "C105",
   "status": "proved",
   "theorems": [
    "C105_same",
    "C105_read",
    "C105_numbers_refuted"
   ],
   "note": "Hypotheses: the shown columns are integers of 64 bits or texts that are not mistaken for numbers, times round-trip through their text, digests of the files differ, and no line mentions two classes."
  },
  {
   "property": "C106",
   "status": "proved",
   "theorems": [
    "C106_series",
    "C106_default",
    "C106_colons",
    "C106_attribute",
    "C106_zip",
    "C106_permuted",
    "C106_pivots",
    "C106_index",
    "C106_early_refuted",
    "C106_colon_refuted",
    "C106_twice_refuted"
   ],
   "note": "Composition of the reading of a written report with the selection of a plot: series, labels, pivots, windows."
  },
  {
   "property": "C107",
   "status": "proved",
   "theorems": [
    "C107_view",
    "C107_concat",
    "C107_reject",
    "C107_pivot_refuted"
   ],
   "note": "Model/LineReport.v composes the signals (C62), the constraints (C106) and the frames and page (C65) over a trace parsed from a written report; columns with texts, permute and the colours are not covered; times are exact."
  },
  {
   "property": "C108",
   "status": "proved",
   "theorems": [
    "C108_name",
    "C108_published",
    "C108_fails",
    "C108_apart",
    "C108_again",
    "C108_clash_refuted",
    "C108_onto_refuted",
    "C108_extension_refuted"
   ],
   "note": "Model/PublishFile.v: signing is a parameter that does not touch the notebook; paths are compared as text (no links)."
  },
  {
   "property": "C109",
   "status": "proved",
   "theorems": [
    "C109_shows",
    "C109_lines",
    "C109_view",
    "C109_concat",
    "C109_names_refuted",
    "C109_lacking_refuted"
   ],
   "note": "C109_shows ties the tables to the printed report; C109_lines, C109_view and C109_concat are over any tables that show one. C109_names_refuted and C109_lacking_refuted are findings. Permute and colours are outside (C106, C62)."
  },
  {
   "property": "C110",
   "status": "proved",
   "theorems": [
    "C110_read"
   ],
   "note": "Closed under the global context. How an integer becomes a floating point number and its text are parameters; reading a number's text gives the number back and it is not an integer's text. In pandas such a column is of floating point numbers before it is written too."
  }
 ]
}
