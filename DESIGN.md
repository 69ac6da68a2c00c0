# Formal model of trappy — design

## Approach
Shallow embedding in Coq 8.16: each modelled Python function is a small total
Gallina function over strings (`list ascii`, code points 0–255), integers (`Z`),
IEEE-754 binary64 values (Flocq) and association lists; exceptions are values
(`res A := Ok a | Err e`).  Regular expressions are modelled by one generic
backtracking matcher (`Lib/Regex.v`) that follows the leftmost/greedy/backtracking
order of Python's `re`, and each pattern is written as an AST.  Functions that loop
take fuel and return an error value when it runs out; each has a theorem that this
never happens, or a refutation showing the Python loop does not stop.

Layout (`rocq/theories`):
* `Lib/*`    strings, Python int parsing, regex engine, floats, orders, and lemmas about them
* `Model/*`  one file per modelled source area; definitions only, each citing /repo lines
* `Spec/*`   small independent specifications used in theorem statements
* `Proofs/*` lemmas
* `Props/*`  the property theorems (`exact` of a lemma), Examples showing that their
  hypotheses are met by concrete cases, and `Print Assumptions`

A theorem whose name ends in `_refuted` proves that a plausible reading of a property is
false of the code; each is listed under Findings.  No theorem is partial at present.

## Plan per property
The model column names the file in `Model/`, the property theorems are in the file of `Props/`
given in the third column.

| id | model | theorems in | proof method |
|---|---|---|---|
| C01 | Line (SPECIAL_FIELDS_RE as regex AST) | P_Line | backtracking analysis: the greedy task name is forced to the last '-pid [cpu]'; exact decimal to binary64 rounding |
| C02 | Populate (fold of `__populate_data` on binary64) | P_Trace | loop invariant; Flocq Bsucc and rounding lemmas |
| C03 | Populate | P_Trace | loop invariant |
| C04 | Populate (`__get_trace_class`) | P_Trace | induction on the class table, against an independent relation |
| C05 | Populate, Registry | P_Select | exact error condition by induction |
| C06 | Base (`generate_data_dict`) | P_Base | induction on fields |
| C07 | Base | P_Base | exact error condition |
| C08 | Lib/PyStr (int with base 0) | P_Base | equivalence with an independent grammar of literals |
| C09 | Base (`trace_parser_explode_array`) | P_Base | induction on segments |
| C10 | Base | P_Base | termination measure; diverging witness |
| C11 | Base (`__get_trace_array_lengths`) | P_Base | induction on lines |
| C12 | Base | P_Base | induction on events |
| C13 | Dups (any arithmetic) | P_Dups | induction on groups; witnesses in rationals and doubles |
| C14 | Registry | P_Select | induction on dictionaries, reachable registries |
| C15 | Registry | P_Select | induction |
| C16 | Window | P_Window | binary search slice equals interval filter |
| C17 | Window | P_Window | case analysis; witnesses |
| C18 | Window | P_Window | monotonicity of rounding, Sterbenz; witness |
| C19 | Window | P_Window | order reasoning |
| C20 | Cache (file system state machine) | P_Cache | invariant over all histories of constructions and edits |
| C21 | Cache | P_Cache | for every cache content |
| C22 | Cache | P_Cache | every prefix of the write steps |
| C23 | Cache | P_Cache | witness; positive half is C20 |
| C24 | Csv (quote-minimal writer, type-guessing reader) | P_Csv | induction on text and tables |
| C25 | Callbacks | P_Callbacks | merge invariant |
| C26 | Systrace | P_Systrace | induction on lines, relation shown functional |
| C27 | Systrace | P_Systrace | regex inversion |
| C28 | Files | P_Files | case analysis on path texts |
| C29 | Files | P_Files | induction on header lines |
| C30 | Events (sched_switch) | P_Events | string surgery lemmas |
| C31 | Events (raw syscalls) | P_Events | regex inversion |
| C32 | Power | P_Power | induction on digits |
| C33 | Power (`pivot_with_labels`) | P_Power | last value before a time, any total order |
| C34 | Topology | P_Stats | any enumeration order of sets |
| C35 | Stats (Trigger) | P_Stats | filter specification |
| C36 | Stats (Aggregator) | P_Stats | sums over groups |
| C37 | Stats (Indexer) | P_Stats | sorted union |
| C38 | Stats (align, shift_series) | P_Stats | positional lemmas |
| C39 | Grammar (pyparsing's precedence machinery) | P_Grammar | inversion of the grammar for every text |
| C40 | Accessor | P_Accessor | sessions of solve calls, first readable event |
| C41 | Constraint | P_Constraint | filter partition |
| C42 | Constraint (ConstraintManager) | P_Constraint | index arithmetic |
| C43 | Layout | P_Layout | division and remainder |
| C44 | Residency | P_Residency | invariant over switch histories |
| C45 | Registry (`_get_name`) | P_Select | induction on words |
| C46 | Export | P_Export | relation on lines, state kept between cells |
| C47 | Populate (`drop_empty`) | P_Trace | induction on words |
| C48 | Builtin | P_Select | any sublist and order of registrations |
| C49–C54 | Events, Builtin | P_Events | per-class payload and frame specifications |
| C55 | Power (load tables) | P_Power | composition with C33 |
| C56 | Stats (Correlator) | P_Stats | rational arithmetic |
| C57 | Stats (resampling) | P_Stats | padding on any total order |
| C58 | Accessor | P_Accessor | filter specification |
| C59 | Constraint | P_Constraint | slices |
| C60 | Constraint (pivots) | P_Constraint | sorted set, abstract int() |
| C61 | Layout (StaticPlot axes) | P_Layout | index arithmetic; witnesses |
| C62 | Signals | P_Signals | regex inversion, both directions |
| C63 | EventPlot | P_EventPlot | folds over intervals |
| C64 | ILineGen | P_ILineGen | page as tags and cells |
| C65 | ILine | P_ILine | frames by column |
| C66 | Results | P_Results | regex inversion, first-wins table |
| C67 | Sysfs | P_Sysfs | table of properties |
| C68 | AllFreqs | P_AllFreqs | composition of C33 and C55 |
| C69 | Compare | P_Compare | which axis shows what, squeezed subplots |
| C70 | Governor | P_Governor | order of texts |
| C71 | Temperature | P_Temperature | case analysis |
| C72 | Bars | P_Bars | rational arithmetic |
| C73 | Legend | P_Legend | invariant of the drawing loop |
| C74 | Publish | P_Publish | sequential = simultaneous replacement when paths and URLs never overlap |
| C75 | Publish (installation) | P_Publish | file system invariants |
| C76 | Bare | P_Bare | invariant of histories with a heap of frames |
| C77 | Line, Populate, Base, Window, Cache | P_Written | composition of C01, C02, C06-C12, C16-C18 over printed reports |
| C78 | Report, Cache, Files | P_Report | case analysis, histories; path normalisation against a walk of directories |
| C79 | Memory, Base | P_Memory | induction over the events with the counter |
| C80 | Loads, Power, AllFreqs | P_Loads | composition of C33 and C55, join of indexes |
| C81 | Correlate, Stats | P_Correlate | composition of C37, C56 and C57; swapping the series negates the shift |
| C82 | Summary, Sysfs | P_Summary | induction over the runs, case analysis of keywords and failures |
| C83 | Figures, Temperature | P_Figures | rational arithmetic, floor; induction over the columns |
| C84 | Colours | P_Colours | error bounds of binary64 division and multiplication (Flocq); up to 21 colours by computation |
| C85 | BenchPlot | P_BenchPlot | folds for minimum and maximum with NaN, rational arithmetic; letters by enumeration |
| C86 | Attrs | P_Attrs | induction over histories and keywords, case analysis of names |
| C87 | EventBars | P_EventBars | correctness of the binary search, induction over lanes; rational arithmetic |
| C88 | EventView | P_EventView | invariant over all sequences of actions; rational arithmetic |
| C89 | EventInfo | P_EventInfo | induction over names, rational arithmetic |
| C90 | Sync | P_Sync | invariants over all sequences of actions, induction for hulls |
| C91 | PlotTrace | P_PlotTrace | composition of C44, C63, C87 and C89 |
| C92 | Classes | P_Classes | composition of C77, C30, C31 and C49 to C54 by a case analysis on the class; finalisation row by row |
| C93 | PlotReport | P_PlotReport | composition of C92, C29 and C91; doubles become the rationals they stand for |
| C94 | Page (text of the pages), Export, Publish | P_Page | runs of the filter compose; marks cannot straddle separators; lines are published one by one |
| C95 | Solve (classes and frames as the grammar sees them) | P_Solve | composition of C92 and C40; printed cells are unique, so rows and cells correspond |
| C96 | CsvCache (tables of frames, their CSV text) over Csv and Cache | P_Cached | composition of C20, C22, C24 and C77; rows of one class have the same columns in the same order |
| C97 | Classes, Cache, Populate, Registry, Builtin | P_Readable | per payload, failure of each class's parser is an independent condition on the text; lifted over mapM to frames and traces |
| C98 | Init (constructors along the method resolution order) | P_Init | closed description of the chains that succeed; recursion limit as fuel, endless = out of fuel for every limit |
| C99 | Tasks (get_pids over frames) composed with Classes | P_Tasks | first occurrences by increasing positions; composition with C92 |
| C100 | Added (trace of Bare as a world of Accessor) | P_Added | positions in the added frame; erasure of pivots along histories; composition with C40 and C76 |
| C101 | Triggers (Stats and Topology over the frames of Classes) | P_Triggers | rows of a frame = printed events (C92); composition with C34, C35, C36, C37 |
| C102 | Replay (Callbacks over the frames of Classes) | P_Replay | merge of sorted lists that agree name by name; composition with C25 and C92 |
| C103 | SysReport (Systrace around Cache and Classes) | P_SysReport | the body of a page is its lines; generic reading of a report over the frames of the classes; composition with C26, C27, C92 |
| C104 | SysPlot (PlotTrace over SysReport) | P_SysPlot | rows of the page as switches; composition of C103 with C93 |
| C105 | CsvCache over Classes and Cache | P_CachedClasses | order of the columns of the finished frames; each column integers or texts that survive; composition with C20, C22, C92, C96_frame |
| C106 | ConstraintReport (Constraint over Solve/Classes) | P_ConstraintReport | columns and cells of the rows against printed events; windows over times; composition with C41, C42, C59, C60, C95 |
| C107 | LineReport (Signals, ConstraintReport, Dups, ILine over Classes) | P_LineReport | curves as sublists of the printed events; no repeated times so the frames are those of the curves; composition with C62, C65, C106 |
| C108 | PublishFile | P_PublishFile | case analysis over the file system; C74 for the text |
| C109 | LineTraces | P_LineTraces | C107 line by line; the pairing of C106 |
| C110 | CsvCache over Csv | P_Missing | columns by case: integers, integers with gaps, text; C24 for the text |

## Trusted base
1. **Coq's kernel** (8.16.1).  `vm_compute` is used for closed examples, refutation witnesses and
   a few finite side conditions; no native compilation, no plugin, no kernel check switched off.
2. **Axioms.**  No axiom of our own.  The axioms listed by `Print Assumptions` are these four of the
   standard library, which enter through the real numbers on which Flocq states its rounding lemmas:
   * `ClassicalDedekindReals.sig_forall_dec`
   * `ClassicalDedekindReals.sig_not_dec`
   * `FunctionalExtensionality.functional_extensionality_dep`
   * `Classical_Prop.classic`

   These four are listed for exactly the following theorems:
   C01_fields, C01_read, C01_number_name_refuted, C01_bracket_refuted;
   C02_total, C02_times, C02_strict, C02_sorted;
   C03_base_end, C03_lines;
   C04_recorded, C04_once, C04_by_name_refuted;
   C13_trace_frames, C13_doubles_refuted;
   C16_rows, C16_trace;
   C17_superset, C17_exact, C17_kept, C17_intersection_refuted, C17_zero_end_refuted;
   C18_offset, C18_order, C18_exact, C18_distinct_refuted;
   C19_span, C19_empty, C19_bounds;
   C20_disabled, C20_transparent, C20_no_classes_refuted, C20_same_name_refuted;
   C21_fresh, C21_replaced;
   C22_crashes, C22_cut_table_refuted, C22_foreign_refuted;
   C23_dispatch, C23_ambiguous_refuted;
   C25_trace, C25_map_order;
   C33_stamps;
   C77_frames, C77_trace, C77_late_array_refuted;
   C78_runs, C78_same, C78_fails, C78_temporary, C78_history, C78_leak_refuted;
   C84_gradient, C84_user, C84_exact, C84_late, C84_inverse, C84_shades, C84_own_refuted, C84_many_refuted;
   C92_frames, C92_trace, C92_braces_refuted;
   C93_report, C93_window, C93_time;
   C95_source, C95_solve, C95_missing, C95_syscalls, C95_distinct, C95_time;
   C96_same, C96_read, C96_number_refuted;
   C97_iff, C97_lost, C97_others, C97_readable_refuted;
   C99_report;
   C101_trigger, C101_fails, C101_aggregate;
   C102_calls, C102_unknown, C102_order_refuted;
   C103_trace, C103_cpus, C103_no_cpus;
   C104_page, C104_window, C104_nothing, C104_rows_refuted;
   C105_same, C105_read, C105_numbers_refuted;
   C106_series, C106_default, C106_early_refuted, C106_twice_refuted;
   C107_view, C107_concat, C107_pivot_refuted;
   C109_shows, C109_names_refuted, C109_lacking_refuted.
   Every other theorem named in MANIFEST.json (521 of 627) is closed under the global context.
   C02, C03, C18 and their kin need them because correct rounding is a statement about reals.
3. **The model**: that the definitions under `Model/` say what the Python code does.  The next two
   sections list what they cover and what was assumed.

## What is modelled
| file in /repo | modelled | not modelled |
|---|---|---|
| trappy/ftrace.py | line pattern, parse loop, dispatch, registration and selection of classes, `events=`, unique-word check, windows, cache with all file system steps, header metadata, choice of file, the trace-cmd command line, temporary file and place of the cache, `get_all_freqs_data`, load tables and frequency histograms, `apply_callbacks`, the hint of `__getattr__`, events as attributes of a constructed trace | `trace-cmd` itself (an arbitrary function from command and file to lines or failure), symbolic links, drawing itself, `generate_*` of raw file names beyond `__process_path`, printing |
| trappy/base.py | payload parsing, integer casting, array explosion, frames, cached tables, low-memory warning, storage types | pandas itself (see assumptions) |
| trappy/bare_trace.py | duration, normalisation, `add_parsed_event`, `get_filters`, attributes and shared frames (heap) | attributes set from outside the class |
| trappy/dynamic.py | class names to event names, dynamic registration, constructors (C98) | the metaclass `DynamicTypeFactory` (only makes the name a str), multiple inheritance |
| trappy/systrace.py, fallback.py | body extraction, marker payloads, fallback class, the construction with its count of cpus | HTML outside the body |
| trappy/sched.py, function.py, function_graph.py, idle.py, common_clk.py, filesystem.py, raw_syscalls.py, pid_controller.py, thermal.py (classes), devfreq_power.py | own payload parsers, `finalize_object`, registration data, pivots, `get_pids` |  |
| trappy/cpu_power.py | mask counting, pivoting, load tables, frequencies | |
| trappy/utils.py | `handle_duplicate_index` | |
| trappy/thermal.py, plot_utils.py | figure sizes and limits (rationals for floats), which data are drawn on which axis with which label, for the power, temperature, load, frequency and controller comparisons | saving, histogram binning |
| trappy/compare_runs.py | order of reading, tables and figures, keywords, failures (C82) | the IPython display itself |
| trappy/stats/* | Trigger, Indexer, Aggregator, Correlator, Topology, the whole expression grammar and its accessors | scipy/numpy correlation functions (parameters) |
| trappy/plotter/* | signals, constraints, pivots, windows, layout, axes, colours, legends, titles, bars, attributes and forwarded arguments, interactive frames and page, event plot data, residency, resources and their installation | matplotlib, dygraphs and d3 drawing, AttrConf.MPL_STYLE |
| trappy/plotter/js/EventPlot.js, ILinePlot.js | search and bars, view, guides, colours, rows, information, synchronisation, purging (C87–C90) | styles, texts, tooltips, help; drawing by d3 3.5.6 and Dygraph 1.1.1 |
| trappy/nbexport/exporter.py | the whole filter over all cells | nbconvert |
| trappy/wa/* | results, their titles and limits, sysfs parameters | HTML tables, bars of result plots |
| scripts/publish_interactive_plots.py | replacement of paths, names and files of the output | argument parsing, signing itself |
| tests/, doc/, notebooks | — | all |

## Assumptions about what surrounds the code
* **Text** is Latin-1: characters 0–255; `\d`, `\w`, `isspace` on other scripts are outside the model.
  Newline translation of text mode is not modelled; lines carry their `\n`.
* **Python**: dictionaries keep insertion order; sets enumerate in an arbitrary order (theorems hold for
  every order); `min`/`max`/`sorted` are stable; `is not ""` is read as `!= ""` (C71).
* **Numbers**: timestamps of the parser are exact binary64.  Rationals stand for doubles in C13 (both are
  treated), C56, C57, C63, C65, C72, C83 and C85; division is abstract in C55, C68, C71 and C80 (means and deviations too), scaling in C70,
  `float()` in C66 and in the csv reader of C24.
* **pandas**: `concat`/`DataFrame(dict of series)` give the sorted union of indexes (C80 also treats the unsorted one), slices by label on a
  sorted index are closed intervals and a NaN bound sorts last (C59), `reindex` with default method and
  limit, `fillna(method="pad")`, positional linear `interpolate` (C65), `read_csv`'s type guessing by
  column (C24); a column-less frame cannot be plotted (C70).
* **matplotlib**: `subplots` squeezes dimensions of length one (C43, C69); `bar` broadcasts only
  one-element arrays (C72); an empty series is drawn without points (C71); colours are indexes into
  the colour map (C73); `Normalize(0, n)` divides as doubles and a map of N colours takes entry int(x*N), the last from 1 on (C84).
* **d3 3.5.6**: linear scales, `zoom` keeps `x` as its scale's rescaled original domain and clamps `scale` to its extent (C88; both are
  treated), brushes report their extents. **Dygraph 1.1.1** keeps the ranges it is given and synchronised graphs follow each other (C90);
  names of elements are not reused after a plot was linked. JavaScript numbers are rationals in C87–C90.
* **pyparsing**: the combinators the grammar uses, packrat off, as modelled in `Model/Grammar.v`; a parse
  action's IndexError is a failed match; functions returning `None` or lists are treated specially by
  pyparsing and are excluded.
* **hashlib.md5** does not collide on the traces compared (C20, C21; a hypothesis of the theorems).
* **uuid4** names are distinct (hypothesis of C64_distinct only).
* **csv.reader** rows, directory listings, the web and the package's files are inputs (C66, C67, C75).
* Aliasing of the caller's lists (EventPlot's events) is not modelled.
* nbconvert calls `preprocess_cell` once per cell in order (C46).

## Findings
Each is proved in the model by the theorem named (by a concrete witness), or noted as unmodelled.

**Parsing.**
* C01_number_name_refuted: an event name of the form of a time is taken for the time stamp.
* C01_bracket_refuted: a payload with `-N [` hijacks task, pid and cpu.
* C04_by_name_refuted: dispatch is by substring anywhere in the line, not by event name.
* C07: bare words after an integer value are dropped silently.
* C10_terminates_all_refuted, C10_frame_refuted: the payload `a={1} }{={1 2}` makes the array explosion loop for ever.
* C11_all_lines_refuted: if the first line has no arrays, arrays of later lines are not found.
* C12_metadata_refuted: payload keys like `__pid` override the metadata columns.
* C13_four_refuted, C13_five_refuted, C13_doubles_refuted: four equal times can collide with the next, five can
  overshoot it, and in doubles two can stay equal.
* C47_glue_refuted: removing an empty array glues neighbouring text.
* C30_arrow_in_name_refuted, C30_numeric_name_refuted, C30_blanks_refuted: an arrow in a task name, names
  beginning with a number, runs of blanks.
* C31_negative_number_refuted: `NR -1` is rejected by sys_enter.
* C49_clk_name_refuted: a field clk_name is overwritten. C50_blank_refuted: a double blank shifts all ext4 pairs.
* C53_collision_refuted: renaming onto an existing column duplicates it.
* C54_binary_refuted, C54_long_zero_refuted: the mask text "0b000001" becomes "00000001"; longer zero masks are cut.
* C26_end_refuted: the end marker without newline or with blanks does not end a systrace; (C26) a selected but
  empty sched_switch raises KeyError.
* C27_text_refuted: userspace text starting with a capital letter is lost.
* C28_txt_refuted, C28_only_file_refuted: the .dat beside a given .txt is read instead; other extensions and the hidden
  file ".txt" are never read.
* C29_before_refuted: the first trace line is itself searched for metadata; metadata values are strings.

**Registry.**
* C14_hidden_refuted, C14_replaced_refuted: a class can be hidden by a dynamic one of the same name, and
  unregistering does not bring back a replaced class.
* C45_acronym_refuted: acronyms are split letter by letter.
* C48_events_refuted: sys_enter_* style events cannot be asked for by name with the built-in classes.
* C98_subclass_refuted: no subclass of a class returned by `register_dynamic_ftrace` can be constructed (TypeError; endless recursion for
  classes made for a name in `events`), because `default_init` starts again after the class of the object.
* C98_raw_refuted: a class with `parse_raw = True` and no constructor is asked for raw, but its objects say they are not.
* Events named like attributes of the trace ("lines", "name", "basetime") overwrite them (C76).

**Windows and time.**
* C17_intersection_refuted: with window and abs_window the later end is used. C17_zero_end_refuted: an end of 0 is no end.
* C18_distinct_refuted: normalising can make distinct times equal.

**Cache.**
* C20_no_classes_refuted: with no classes selected a trace is never parsed once cached (`all([])`).
* C20_same_name_refuted: tables are keyed by the class's `__name__`.
* C22_cut_table_refuted: a table cut short inside `to_csv` is accepted silently; a crash after mkdir leaves a cache
  directory that raises an IOError, truncated metadata a JSON error.
* C22_foreign_refuted: a cache without the "ftrace" entry raises KeyError. `lines`, `_cpus`, `_version` are missing from a cached trace.
* C23_ambiguous_refuted: lines with two classes' words are attributed differently when only some classes are cached.
* C24_padded_refuted, C24_mixed_refuted, C24_words_refuted: zero-padded masks and numeric names come back as integers,
  mixed columns as text, NULL/NA as missing.

**Callbacks.** C25_unsorted_refuted, C25_index_refuted: frames out of order are replayed out of order; a payload column "Index"
hides the time.

**Power tables.** C33_same_label_refuted: two masks with one label lose rows depending on set order. C32: "0x", signs and
underscores are accepted in masks. C55: a mapped mask without rows makes the normalised load fail.
C68: a labelled mask missing in one event is a KeyError; one GPU event alone is not shown; repeated GPU times are a ValueError.

**Stats.**
* C34_all_span_refuted: the span of "all" counts nodes though it is one group; a level named "all" cannot be read.
* C35_name_ignored, C35_column_refuted: a column name as trigger value is ignored (the last filter value is used; NameError
  without filters); a list of values is a conjunction.
* C36_repeat_refuted: aggregating without a function adds again at each call.
* C38: missing counts as non-zero; aligning at the front drops trailing samples.
* C39: text after the expression is ignored (2**-x is 2, 1e5 is 1); power is left associative; an IndexError silently
  truncates; an unknown name means the column of its second letter; nan and inf are numbers.
* C40_own_event_refuted, C40_ignored_refuted: a second event's column of the same name is shadowed; accessors in the ignored tail are read.
* C58_empty_refuted: inspecting a pivot event with a column-less frame is a KeyError.
* C56: groups without a correlation still weigh. C57: the last event is never sampled.
* Unmodelled: a single trigger that is not in a list is not iterable in the Aggregator.

**Plots.**
* C41_missing_refuted, C41_reserved_refuted: rows without a pivot value are lost; the reserved default value selects all rows.
* C42_twice_refuted: one trace and two columns permuted give each constraint twice.
* C44_rename_refuted, C44_numeric_refuted: renamed tasks, numeric task names. An empty frame is an IndexError.
* C59_early_refuted: a window starting before the first event selects nothing.
* C61_grid_refuted, C61_shift_refuted, C61_concat_refuted; C73_legend_refuted, C73_title_refuted: grids of more series than
  cells are an IndexError; a pivot missing in one trace mixes axes, titles and legends; concat of two columns of one trace shares the first axis.
* C62_mixed_refuted, C62_range_refuted: a colour for only one signal is a TypeError; out-of-range colours are accepted.
* C63_average_refuted, C63_duplicate_lane_refuted, C63_lane_range_refuted, C63_listed_refuted: the average divides by n+1; duplicate lane names;
  unchecked lanes; unlisted names. The `keys` and `stride` arguments are ignored.
* C64_negative_refuted: a negative per_line gives a page without cells.
* C65_legends_refuted, C65_interpolate_refuted: equal legends lose a series; interpolation is by position.
* C66_distinct_refuted, C66_latest_refuted: Overall_Score and Overall_Score_1 are both run 0; the first score wins.
* C67_unterminated_refuted: the last digit of an unterminated value is lost.
* C69_temps_refuted: a run with temperatures after one without is lost. Histograms of requested frequencies are titled "freq out".
* C70_many_refuted: weights are sorted as text, so from eleven devices on actors get others' weights.
* C71_zone_refuted: zone 0 draws the control temperatures of all zones.
* C72: series of unequal length are a ValueError.

**Notebook tools.**
* C46_chop_refuted, C46_alias_refuted, C46_region_refuted: last character of an unterminated import lost; two spellings of a path
  are inlined twice; an unclosed region ends with its output.
* C74_event_refuted: event plot pages ask for `d3.min`, publishing replaces `d3.v3.min`, so their d3 stays local. The path of the help
  picture is mangled (C74_help_ex). Unmodelled: require.js appends ".js" to the published URLs that already end in it.
* C75_fresh_refuted: a web resource already present, even incomplete, is never fetched again.

**Attributes of a trace.**
* C76_frames_refuted: `normalize_time` works in place on the frame the caller passed; two events added with one frame (as
  tests/test_baretrace.py does) are shifted twice, and the caller's frame changes. C76_unnamed: a frame whose index is not named
  "Time" makes normalising fail, after its index was already reset.
* C76_names_refuted, C76_lost, C76_taken: an event named like an attribute set before parsing hides it ("basetime", "name"); one named
  like an attribute set after ("window", "normalize_time", …) makes construction fail with AttributeError.
* A frame without columns counts as empty for normalising but not for `get_duration`.
* The key of `get_filters` is a pattern, not a text (C76_pattern_ex).

**Reports.**
* C77_late_array_refuted: a class whose first event prints no array never has its arrays exploded; a later array stays one text cell.
* C78_leak_refuted: the temporary file holding trace-cmd's report is removed only at the end of `_do_parse`; a failing trace-cmd or
  parser leaves it in the temporary directory.
* C78_dash_refuted: the path is put on trace-cmd's command line without `--`; a relative path starting with a dash is an option.
* C78_two_slashes_refuted: `normpath` keeps exactly two leading slashes, so such a path names the cache by another string.
* C79_nothing: `optimize_dataframe` drops the results of its conversions and looks for numpy kind 'S', which pandas never uses for
  text, so it changes nothing. C79_warns: memory is looked at after the first row and then only every 10000 rows.
* C80_titles_refuted: `plot_freq_hists` titles the histograms of input frequencies "freq out …" (`"out"` is passed for both).
* C80_gpu_refuted: the GPU's histogram is titled "freq": `.name = "GPU"` on a one-column frame does not rename the column.
  The values are in MHz but labelled "KHz".
* C80_unsorted_refuted: with a pandas that does not sort the union in `concat(axis=1)` (1.0 on), loads from the future are carried
  back to earlier times.
* C81_symmetric_refuted: groups only the second aggregator has are left out silently; the other way round it is an IndexError.
* C81_again_refuted: with aggregators without a function (which add up in place, C36) every call of `correlate`, and building the
  correlator, changes the series, so asking again gives another answer.
* The shift is computed without the keyword arguments `correlate` passes on (C81's model shows this: `None` against `Some kw`).
* C82_ylim_refuted: `compare_runs` passes its keywords to both temperature and load figures; `ylim`, which only the first takes, is a
  TypeError after that figure was drawn. Unknown keywords fail only once all traces have been read.
* Unmodelled: `pretty_print_in_ipython` uses `DataFrame.from_items`, gone from pandas 1.0 on.
* C83_narrow_refuted: a width below the golden ratio without a height gives a figure of height zero.
* C83_twice_refuted: `plot_inout_power` ignores text after "_in", so one actor may be drawn twice.
* C84_own_refuted: with 22 colours the 16th is never used, its line has the 15th: int(15/22*22) is 14 in binary64. C84_many_refuted: from
  257 lines on the gradient repeats colours. C84_late: lines beyond the list of colours all get the last.
* C85_all_refuted: `enlarge_axis` uses Python's `min`/`max`; if the first cell is NaN nothing is enlarged. It also reads the limits of
  pyplot's current axes but sets those of its own.
* C86_colour_refuted: registering "color" for forwarding makes every plot using it a TypeError. C86_height_refuted: an interactive plot
  ignores `height`. Registering the name of an attribute (such as "title") takes the keyword away from the plot.

**Scripts in the browser.**
* C87_overlap_refuted: `search_data` needs events that do not overlap on a lane; one that covers later ones is not drawn when the window
  starts inside it. C87_edge_refuted: bars widened to a pixel pass the right edge. C87_once_refuted: the only event of a lane is drawn
  twice. C87_stride_refuted: sampling is never done, `stride` is not passed on to the drawing.
* C88_label_refuted: the distance of the guides is announced as "A - B" but is B - A. C88_resize_refuted, C88_resize_zoom_refuted: after
  a resize the zoom uses the old width. C88_global_width_refuted: `width` is declared without `var`, so plots share the last one's.
  C88_no_summary_refuted: resizing fails without a summary. C88_small_brush_refuted: brushes below 1/4096 are clamped by d3.
* C89_info_refuted: `getCurrentInfo` takes the lanes of a name for its events and never reports one; it is a TypeError if a name has no
  events on lane 0. C89_own_refuted: a name missing from the map of colours shifts the colours of the others.
  C89_empty_refuted: with an empty map of colours nothing has a colour.
* C90_order_refuted, C90_order_zoom_refuted: the empty rows added for synchronisation are put at the ends of what is shown, so a plot
  with a narrower `xlim`, or one zoomed before another was added, has rows out of order. C90_zoom_refuted: plots stay linked after one
  that does not want it has joined. C90_width_refuted: a resize makes a plot three pixels wider. C90_total_refuted: a plot without data
  makes the next one of its group fail.
* C91_inside_refuted: `plot_trace` makes as many rows as the header's "cpus=" says, which counts the cpus with data; those with larger
  numbers are drawn below the chart. C91_idle_refuted: `pids=0` is taken for no choice. Unmodelled: `pids` as a text, which the
  documentation allows, chooses nothing.
* C92_braces_refuted: a task named "a={}" makes its sched_switch lose prev_comm and prev_pid: the name is taken for an empty array and removed
  with the blank after it.
* C94_title_refuted: a title that mentions a mark of the exporter removes the data of its plot, the call stays. C94_declared_refuted: when
  the plots do not fill the last row, the page has scripts that use undeclared data. C94_local_refuted: an exported event plot still names
  the path of the notebook server (for the picture of its help). C74_extension_refuted: the URLs of published pages end in `.js`, to which
  the page adds another `.js`.
* C95_syscalls: the pivot of `SysEnter` and `SysExit` is `pid`, but their frames only have `__pid`, so `sys_enter:nr` and every other
  accessor of a system call raises KeyError.
* C96_number_refuted: if all events of a class come from tasks whose names are numbers, the `__comm` column holds text when the trace is
  parsed and integers when it is read from the cache.
* C97_readable_refuted: the words of some built-in classes end without a colon, so they also occur in other events. A report with one
  `workqueue_execute_start` event (its text has the word "function") or one `sys_enter_openat` event cannot be read at all by `FTrace`
  with its default scope: the constructor raises `ParseError` or `ValueError` (`C97_others` says this of all such lines).
* C99_number_refuted: one task named by a number makes `get_pids` raise for every key (its name was cast to an integer).
* C100_grouped_refuted: `add_parsed_event(..., pivot=p)` sets the pivot on the event object, but the parser of expressions reads it from the class, so the values are never grouped.
* C102_order_refuted: an event that prints a field named `__line` has the printed value in place of its line number, and `apply_callbacks` then calls the functions in an order that is not that of the report.
* C103_empty_refuted: the end of the script is looked for only after the first line of the trace, so when the trace of a page is empty, lines further down the page that look like trace lines are read as events.
* C103_cpus: a window that leaves no sched_switch row makes the number of cpus nan, without an error.
* C104_rows_refuted: a SysTrace counts its cpus from the switches alone, so the plot of a page has no row for a cpu on which only other events were printed.
* C105_numbers_refuted: the padded mask "00000003" of sched_load_avg_sg and the inode text of ext4 events come back from the cache as the integers 3 and 99, since finalize_object is not run on cached classes.
* C106_early_refuted: a plot whose window begins before the first event of a kind shows nothing of that kind (in particular window=(0, x) on any event that is not the first of the trace).
* C106_colon_refuted: a table whose name begins or ends with a colon cannot be plotted (the name is stripped before getattr).
* C106_twice_refuted: get_column_index gives a column that is given twice the index of its first place both times.
* C107_pivot_refuted: a signal whose event does not have the pivot column is left out of an interactive plot without a word; if no signal has it the plot fails with a RuntimeError.
* C108_clash_refuted, C108_onto_refuted, C108_extension_refuted: published notebooks of one name from two directories overwrite each other; -o may name the notebook itself; the default output of a file without .ipynb is not a notebook. The option -p is ignored.
* C109_names_refuted, C109_lacking_refuted: of two traces given the same name only the lines of the second are shown (the lines are keyed by their labels); a signal that one of the traces lacks ends the whole plot with an AttributeError.
