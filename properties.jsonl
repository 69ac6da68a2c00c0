{"id": "C01", "title": "Trace line fields are recovered exactly", "statement": "Parsing a report line 'COMM-PID [(TGID)] [CPU] [FLAGS] SEC.USEC: event: DATA' yields exactly the comm, pid, tgid text, cpu, timestamp text and data that were printed, whatever the task name is (including names containing '-', spaces, brackets-free text, digits and colons).", "quantifier": "every comm without newline or leading blank, every pid, cpu, timestamp, every optional tgid/flags column, every run of blanks, every event name and every one-line data payload without '['", "why_tests_cant": "the pattern is ambiguous and backtracking; tests sample a handful of task names out of infinitely many", "anchors": ["trappy/ftrace.py:SPECIAL_FIELDS_RE", "trappy/ftrace.py:GenericFTrace.__populate_data"]}
{"id": "C02", "title": "Timestamps of parsed events are strictly increasing and unique", "statement": "Over the whole trace every parsed line gets a timestamp strictly greater than that of the line parsed before it (until the float range is exhausted at +inf), a line that was printed later than its predecessor keeps exactly its printed time, and any other line gets the next representable double after its predecessor.", "quantifier": "every sequence of trace lines with arbitrary (repeated, decreasing, huge) timestamps, in exact IEEE-754 binary64 arithmetic", "why_tests_cant": "depends on float rounding of arbitrary decimal strings and on the whole history of preceding lines", "anchors": ["trappy/ftrace.py:GenericFTrace.__populate_data"]}
{"id": "C03", "title": "basetime, endtime and line numbers describe the trace", "statement": "After parsing, basetime is the time of the first parsed line, endtime that of the last one, both are non-zero, every event's __line is the position of its line counted from the first line of the trace body, and trace.lines is the number of body lines.", "quantifier": "every trace body, whatever classes are selected", "why_tests_cant": "needs an invariant over the parse loop for arbitrary inputs", "anchors": ["trappy/ftrace.py:GenericFTrace.__populate_data"]}
{"id": "C04", "title": "Each line is dispatched to at most one event class, specific before fallback", "statement": "A line whose data belongs to some registered event is recorded in exactly one event: the first non-fallback class whose unique word occurs in the line, otherwise a fallback class if one matches; lines matching no unique word are recorded nowhere, and nothing else is recorded.", "quantifier": "every line and every ordered set of event classes", "why_tests_cant": "all combinations of overlapping words and class orders cannot be enumerated", "anchors": ["trappy/ftrace.py:GenericFTrace.__get_trace_class", "trappy/ftrace.py:GenericFTrace.__populate_data"]}
{"id": "C05", "title": "Construction rejects ambiguous unique words", "statement": "Building a trace fails with RuntimeError exactly when the unique word of one selected class contains that of another one, and when it succeeds no two selected classes share a unique word, so the internal 'two parsers for one word' error cannot occur later.", "quantifier": "every registry content", "why_tests_cant": "quantifies over arbitrary user-registered parsers", "anchors": ["trappy/ftrace.py:GenericFTrace.__init__", "trappy/ftrace.py:GenericFTrace.__parse_trace_file"]}
{"id": "C06", "title": "key=value payloads round-trip", "statement": "Printing any list of fields with distinct keys as 'k1=v1 k2=v2 ...' and parsing it gives back every key with its value: integers as integers, text as text (with multi-word text re-joined by single spaces), and no other key.", "quantifier": "every list of fields, keys and values of any length", "why_tests_cant": "infinitely many payloads; the parser is a stateful fold over words", "anchors": ["trappy/base.py:Base.generate_data_dict", "trappy/base.py:Base.string_cast_int"]}
{"id": "C07", "title": "Words before the first key=value field are an error, never silent data loss in the other fields", "statement": "generate_data_dict raises TrappyParseError exactly when a payload has '=' in it but a bare word precedes the first usable key; when it does not raise, every field 'k=v' present in the payload contributes its key.", "quantifier": "every payload string", "why_tests_cant": "exact characterisation of an error branch over all strings", "anchors": ["trappy/base.py:Base.generate_data_dict"]}
{"id": "C08", "title": "Integer detection follows Python base-0 literals", "statement": "A value is turned into an integer exactly when it is a Python base-0 integer literal; decimal, 0x, 0o and 0b renderings of every integer are recovered exactly, and zero-padded decimals stay text.", "quantifier": "every integer and every string", "why_tests_cant": "infinitely many numerals", "anchors": ["trappy/base.py:Base.string_cast_int"]}
{"id": "C09", "title": "Array fields become uniformly numbered, zero-padded columns", "statement": "If a payload holds arrays name={v0 v1 ...}, exploding it gives name0=v0 ... name(k-1)=v(k-1) followed by name(i)=0 up to the longest array of that name in the event's trace, leaving every other character of the payload as it was; hence all rows of an event get the same array columns.", "quantifier": "every payload made of ordinary fields and arrays with brace-free names and values, any number and length of arrays, every table of maximum lengths", "why_tests_cant": "unbounded number and size of arrays; loop with string surgery", "anchors": ["trappy/base.py:trace_parser_explode_array", "trappy/base.py:Base.__get_trace_array_lengths"]}
{"id": "C10", "title": "Array explosion terminates", "statement": "trace_parser_explode_array terminates for every payload whose array names contain no braces; there are payloads with braces in names on which it never terminates.", "quantifier": "every payload string; for the diverging one, every number of loop iterations", "why_tests_cant": "non-termination cannot be observed by a finite test and termination needs a measure", "anchors": ["trappy/base.py:trace_parser_explode_array"]}
{"id": "C11", "title": "Array length scan looks at every line", "statement": "The table of array lengths holds, for every array name, the maximum length over all lines of the event, provided the first line has an array; if the first line has none, arrays of later lines are not exploded at all.", "quantifier": "every list of payload lines", "why_tests_cant": "early exit of a scan depends on line order", "anchors": ["trappy/base.py:Base.__get_trace_array_lengths"]}
{"id": "C12", "title": "One data frame row per recorded event, in order, with all metadata", "statement": "The data frame of an event has exactly one row per recorded line, in recording order, carrying that line's time, comm, pid, cpu and line number along with the parsed payload; fields of the payload never disappear.", "quantifier": "every sequence of recorded events", "why_tests_cant": "needs induction over the recorded history", "anchors": ["trappy/base.py:Base.append_data", "trappy/base.py:Base.generate_parsed_data", "trappy/base.py:Base.create_dataframe"]}
{"id": "C13", "title": "handle_duplicate_index leaves unique indexes alone and separates small groups", "statement": "With a sorted index: if no timestamp repeats the data is unchanged; if every timestamp occurs at most three times the result is strictly increasing, keeps all rows in order, and leaves first occurrences where they were. With four or more equal timestamps the result can contain duplicates or become unsorted.", "quantifier": "every sorted index and every max_delta > 0", "why_tests_cant": "depends on the multiplicities and gaps of an arbitrary index", "anchors": ["trappy/utils.py:handle_duplicate_index"]}
{"id": "C14", "title": "Registering and unregistering parsers", "statement": "After register_parser(c, scope) the class is selected by traces of that scope and of 'all' and no other class of another name changes; after unregister_parser(c) no scope selects c, and all other classes remain as they were.", "quantifier": "every registry state, class and scope, every sequence of registrations", "why_tests_cant": "arbitrary histories of a global registry", "anchors": ["trappy/ftrace.py:GenericFTrace.register_parser", "trappy/ftrace.py:GenericFTrace.unregister_parser"]}
{"id": "C15", "title": "events= always results in an attribute", "statement": "For any list of event names passed as events=, every requested name ends up selected: a known class if the name is the unique word or the name of a registered event, a new class with unique word 'name:' otherwise; already selected classes stay selected.", "quantifier": "every registry, every list of names", "why_tests_cant": "arbitrary registries and lists", "anchors": ["trappy/ftrace.py:GenericFTrace.__add_events"]}
{"id": "C16", "title": "Window selection keeps exactly the events inside the window", "statement": "With window=(s,e) and/or abs_window=(s,e), the frame of each event contains exactly the rows whose timestamp lies in the closed interval used by the trace, in order; a missing or zero end means no upper limit.", "quantifier": "every sorted frame, window, abs_window and base time", "why_tests_cant": "all combinations of optional ends, and arbitrary frames", "anchors": ["trappy/ftrace.py:GenericFTrace._windowify_class", "trappy/ftrace.py:GenericFTrace._calc_max_window"]}
{"id": "C17", "title": "Combining window and abs_window is an intersection only for the start", "statement": "When both windows are given the start used is the later one; the end used is the later one too, so the selection contains the documented intersection and equals it unless both ends are given and differ (in which case events outside one of the windows can be kept).", "quantifier": "every pair of windows and base time", "why_tests_cant": "exact characterisation over all windows", "anchors": ["trappy/ftrace.py:GenericFTrace._calc_max_window"]}
{"id": "C18", "title": "Normalising time keeps order and subtracts one common offset", "statement": "Normalisation subtracts the same base time from all timestamps of all events; the order of events is preserved (weakly) for every trace, and distinct timestamps stay distinct whenever they are at most twice the base time; without that bound two distinct timestamps can collapse.", "quantifier": "every pair of finite binary64 timestamps not before the base time, exact IEEE-754 subtraction", "why_tests_cant": "rounding behaviour over all doubles", "anchors": ["trappy/base.py:Base.normalize_time", "trappy/bare_trace.py:BareTrace._normalize_time"]}
{"id": "C19", "title": "get_duration spans all events", "statement": "get_duration is the difference between the latest and the earliest timestamp over all non-empty events, 0 if there is no event, never negative, and is at least the span of each individual event.", "quantifier": "every trace with sorted frames", "why_tests_cant": "arbitrary number and content of events", "anchors": ["trappy/bare_trace.py:BareTrace.get_duration"]}
{"id": "C20", "title": "The cache is transparent", "statement": "For any history of constructing traces over the same file (any scopes, events, windows, cache on or off), each construction gives the same frames, base and end time as a fresh parse without cache, provided no line matches the unique words of two classes, classes with equal names are equal, and frames survive CSV.", "quantifier": "every history of constructions, every trace content", "why_tests_cant": "depends on arbitrary histories of persistent state", "anchors": ["trappy/ftrace.py:GenericFTrace._do_parse", "trappy/ftrace.py:GenericFTrace._load_cache", "trappy/ftrace.py:GenericFTrace._update_cache"]}
{"id": "C21", "title": "A modified trace never yields stale data", "statement": "If the trace file content changes between constructions to one with another digest, the next construction returns the frames of the new content and none of the old cached tables survives.", "quantifier": "every pair of contents with different digests, every cache content", "why_tests_cant": "arbitrary cache states", "anchors": ["trappy/ftrace.py:GenericFTrace._is_cache_valid", "trappy/ftrace.py:GenericFTrace._update_cache"]}
{"id": "C22", "title": "Crash points while the cache is written", "statement": "If the process dies between two file-system steps of writing the cache, a later construction either returns exactly what a fresh parse returns or fails; it fails exactly when the directory exists without a complete metadata file. Dying inside a table write can silently shorten that event.", "quantifier": "every crash point of the cache update, every trace and class set", "why_tests_cant": "crash points multiply with inputs", "anchors": ["trappy/ftrace.py:GenericFTrace._update_cache", "trappy/ftrace.py:GenericFTrace._get_cache_metadata"]}
{"id": "C23", "title": "Partially cached traces may misattribute ambiguous lines", "statement": "When some classes are loaded from the cache they take no part in dispatch, so a line belonging to a cached class and containing another selected class's word is recorded again in that other class; this cannot happen when no line matches two unique words.", "quantifier": "every trace and every subset of cached classes", "why_tests_cant": "depends on cache history", "anchors": ["trappy/ftrace.py:GenericFTrace.__parse_trace_file", "trappy/ftrace.py:GenericFTrace._load_cache"]}
{"id": "C24", "title": "Cached tables keep values that read back unambiguously", "statement": "Writing a frame to CSV and reading it back gives the same frame when no text column consists only of integer-looking text and no cell is a missing-value word; a zero-padded cpu mask column is not restored.", "quantifier": "every frame", "why_tests_cant": "type inference depends on whole columns", "anchors": ["trappy/base.py:Base.write_csv", "trappy/base.py:Base.read_csv", "trappy/sched.py:SchedLoadAvgSchedGroup.finalize_object"]}
{"id": "C25", "title": "apply_callbacks replays the trace in order", "statement": "apply_callbacks calls the function of each requested event exactly once per row of that event, across events in ascending line order, with no other calls.", "quantifier": "every set of frames with ascending line numbers, every callback selection", "why_tests_cant": "k-way merge over arbitrary data", "anchors": ["trappy/ftrace.py:GenericFTrace.apply_callbacks"]}
{"id": "C26", "title": "SysTrace body extraction", "statement": "From an HTML systrace file the lines considered are exactly those from the first trace line after the trace-data marker up to the first line ending in '</script>' with a newline, and nothing if no marker precedes.", "quantifier": "every list of file lines", "why_tests_cant": "state machine over arbitrary files", "anchors": ["trappy/systrace.py:drop_before_trace", "trappy/systrace.py:SysTrace.trace_hasnt_finished"]}
{"id": "C27", "title": "Userspace systrace markers", "statement": "A payload 'X|PID|FUNC|DATA' (with missing parts allowed) is decomposed into exactly those parts; text not starting with an upper-case letter is kept verbatim as string; any text starting with an upper-case letter is taken as a marker and loses its text.", "quantifier": "every payload", "why_tests_cant": "regular expression over all strings", "anchors": ["trappy/systrace.py:SYSTRACE_EVENT", "trappy/systrace.py:SysTrace.generate_data_dict"]}
{"id": "C28", "title": "Choice of the file to parse", "statement": "Given a path, the trace read is the .dat (converted) if it exists, else the .txt, both next to the given name or 'trace.*' in the given directory; if neither exists construction fails; an existing file with another extension is never read itself.", "quantifier": "every path and every set of existing files", "why_tests_cant": "all file-system states", "anchors": ["trappy/ftrace.py:FTrace.__process_path"]}
{"id": "C29", "title": "Trace header metadata", "statement": "version and cpus are taken from the first header line matching each key before the first trace line; lines after it never influence them.", "quantifier": "every list of lines", "why_tests_cant": "arbitrary headers", "anchors": ["trappy/ftrace.py:FTrace.__get_trace_metadata"]}
{"id": "C30", "title": "sched_switch payloads", "statement": "For every sched_switch payload 'prev_comm=.. ==> next_comm=..' all fields on both sides of the arrow are recovered, also with blanks in task names.", "quantifier": "all field values", "why_tests_cant": "infinitely many names", "anchors": ["trappy/sched.py:SchedSwitch.create_dataframe"]}
{"id": "C31", "title": "Raw syscall payloads", "statement": "'NR <n> (a, b, c, d, e, f)' and 'NR <n> = <r>' payloads are decoded to the numbers printed, for every syscall number, argument list and return value.", "quantifier": "all integers", "why_tests_cant": "infinitely many values", "anchors": ["trappy/raw_syscalls.py:SysEnter", "trappy/raw_syscalls.py:SysExit"]}
{"id": "C32", "title": "CPU mask population count", "statement": "num_cpus_in_mask returns the number of set bits of the mask, commas ignored.", "quantifier": "every hexadecimal mask of any length", "why_tests_cant": "unbounded masks", "anchors": ["trappy/cpu_power.py:num_cpus_in_mask"]}
{"id": "C33", "title": "Pivoted tables hold the last known value", "statement": "In the table built from a power/frequency event, the cell of (time, label) is the value of the last event of that label at or before that time, and empty before the first one, when labels are distinct.", "quantifier": "every frame and mapping", "why_tests_cant": "arbitrary interleavings", "anchors": ["trappy/cpu_power.py:pivot_with_labels"]}
{"id": "C34", "title": "Topology queries agree", "statement": "flatten lists every node exactly once, in the order of Python's set; get_level('all') is one group of all nodes; get_index inverts get_level; level_span counts groups for stored levels, but counts nodes for 'all'.", "quantifier": "every sequence of add_to_level calls", "why_tests_cant": "arbitrary topologies", "anchors": ["trappy/stats/Topology.py:Topology"]}
{"id": "C35", "title": "Trigger filtering", "statement": "A trigger fires exactly on the rows of its pivot node passing all filters; a filter given as a list of values is a conjunction, so two different values select nothing.", "quantifier": "every frame, filter and node", "why_tests_cant": "arbitrary data", "anchors": ["trappy/stats/Trigger.py:Trigger.generate"]}
{"id": "C36", "title": "Aggregation is the sum of the group's nodes and is repeatable only with a fresh aggregation function", "statement": "aggregate(level) returns for each group the sum over its nodes of the aggregated series; with an aggregation function producing fresh series, repeating the call gives the same result; with the default (identity) it does not.", "quantifier": "every topology level, every stored results, any number of calls", "why_tests_cant": "histories of calls with aliasing", "anchors": ["trappy/stats/Aggregator.py:MultiTriggerAggregator.aggregate"]}
{"id": "C37", "title": "Unified index", "statement": "The unified indexer's series index is strictly increasing and is the union of all events' and traces' indexes.", "quantifier": "every set of indexes", "why_tests_cant": "arbitrary data", "anchors": ["trappy/stats/Indexer.py:get_unified_indexer", "trappy/stats/Indexer.py:Indexer._unify"]}
{"id": "C38", "title": "Alignment of series", "statement": "Aligning two series shifts the earlier one later so that their first (front) or last (back) non-zero samples coincide; the other is unchanged; lengths are unchanged.", "quantifier": "every pair of equally long non-zero series", "why_tests_cant": "arbitrary series", "anchors": ["trappy/stats/Correlator.py:align", "trappy/stats/Correlator.py:shift_series"]}
{"id": "C39", "title": "Expression precedence and associativity", "statement": "For every expression built from numbers, variables and the documented operators, the value solve() computes is that of the documented precedence with all binary operators left associative, including **.", "quantifier": "every expression tree of any depth and every interpretation of the operators", "why_tests_cant": "infinitely many expressions", "anchors": ["trappy/stats/grammar.py:get_parse_expression", "trappy/stats/grammar.py:iterate_binary_ops"]}
{"id": "C40", "title": "Accessors read the event they name", "statement": "event:column in an expression denotes that event's column, as long as no two events used by one parser share a column name; otherwise the first one used wins.", "quantifier": "every sequence of accessors", "why_tests_cant": "history of a parser's cache", "anchors": ["trappy/stats/grammar.py:Parser._pre_process", "trappy/stats/grammar.py:Parser._parse_var_id"]}
{"id": "C41", "title": "Constraint selection partitions the data", "statement": "For a pivot column, the series of the pivots hold exactly the filtered rows of the frame, each row in exactly the series of its pivot value, in time order.", "quantifier": "every frame, filters, pivot", "why_tests_cant": "arbitrary data", "anchors": ["trappy/plotter/Constraint.py:Constraint._apply"]}
{"id": "C42", "title": "Constraint expansion", "statement": "Zipped: the number of constraints is the common length after single entries are repeated, and constraint i uses trace i, column i and template i; mismatched lengths are an error; with permutation the constraints are all trace x column pairs.", "quantifier": "all lengths of lists", "why_tests_cant": "all combinations", "anchors": ["trappy/plotter/Constraint.py:ConstraintManager"]}
{"id": "C43", "title": "Plot grid", "statement": "For any number of plots and columns the grid has enough cells, fewer than one spare row, distinct plots get distinct cells inside the grid, and finishing removes exactly the unused cells.", "quantifier": "all numbers of plots and columns >= 1", "why_tests_cant": "all pairs of numbers", "anchors": ["trappy/plotter/PlotLayout.py:PlotLayout"]}
{"id": "C44", "title": "Residency intervals", "statement": "For a sched_switch history the intervals reported per task are ordered, do not overlap, start no later than they end, begin exactly at the switch-in events and end at the next switch-out of the task (or at the end of the trace).", "quantifier": "every sched_switch history", "why_tests_cant": "arbitrary, also inconsistent, schedules", "anchors": ["trappy/plotter/Utils.py:get_trace_event_data"]}
{"id": "C45", "title": "Class names to event names", "statement": "The attribute name of a dynamic event whose class name is a concatenation of capitalised words is the lower-case words joined by underscores.", "quantifier": "all lists of words", "why_tests_cant": "infinitely many names", "anchors": ["trappy/dynamic.py:_get_name"]}
{"id": "C46", "title": "Notebook export filter", "statement": "Removed regions and lines never appear in the output, all other lines are kept in order, and each imported module is inlined at most once per export.", "quantifier": "every list of cells and lines", "why_tests_cant": "state machine over arbitrary text", "anchors": ["trappy/nbexport/exporter.py:HTML.filter_output"]}
{"id": "C47", "title": "Empty arrays are dropped from payloads", "statement": "Before a payload is stored, every empty array 'name={} ' followed by a blank is removed and every other word stays, in order; an empty array at the end of the line stays, and text glued in front of the array's name is joined to the next word.", "quantifier": "every payload made of blank-separated words, any number of empty arrays", "why_tests_cant": "leftmost substitution over arbitrary text", "anchors": ["trappy/ftrace.py:GenericFTrace.__populate_data"]}
{"id": "C48", "title": "A trace can always be built from the built-in events", "statement": "Whatever part of the event classes shipped with trappy is registered, in whatever order the modules were imported, constructing a trace with any scope passes the unique-word check; asking by name for an event whose word contains that of a built-in class (e.g. sys_enter_openat) always fails.", "quantifier": "every sublist and order of the built-in registrations, every history of register/unregister, every scope", "why_tests_cant": "import order depends on the directory listing; all histories and subsets cannot be tried", "anchors": ["trappy/__init__.py", "trappy/ftrace.py:GenericFTrace.__init__", "trappy/dynamic.py:register_dynamic_ftrace"]}
{"id": "C49", "title": "Clock event payloads", "statement": "A clock payload '<name> <fields>' gives the fields and a column clk_name with the name; a payload without a blank raises ValueError, and no other does.", "quantifier": "all names and field lists", "why_tests_cant": "infinitely many payloads", "anchors": ["trappy/common_clk.py:CommonClkBase.generate_data_dict"]}
{"id": "C50", "title": "ext4 event payloads", "statement": "An ext4 payload 'k v k v ...' gives one text column per pair; no value ever becomes a number.", "quantifier": "all lists of pairs", "why_tests_cant": "infinitely many payloads", "anchors": ["trappy/filesystem.py:FilesystemExt4Base.generate_data_dict"]}
{"id": "C51", "title": "f2fs event payloads", "statement": "An f2fs payload 'k = v, k = v' gives one column per field, commas inside a value becoming blanks; 'checkpoint is v' is a field too.", "quantifier": "all field lists", "why_tests_cant": "infinitely many payloads", "anchors": ["trappy/filesystem.py:FilesystemF2FSBase.generate_data_dict", "trappy/filesystem.py:FilesystemF2FSSyncFileExit.generate_data_dict"]}
{"id": "C52", "title": "Idle exit state", "statement": "After finalisation of cpu_idle exactly the cells equal to 2^32-1 are changed, to -1.", "quantifier": "every frame", "why_tests_cant": "arbitrary frames", "anchors": ["trappy/idle.py:CpuIdle.finalize_object"]}
{"id": "C53", "title": "Renamed columns", "statement": "Renaming moves exactly one column (cpu_id to cpu, state to capacity, frequency or rate, ino to inode) and keeps every other, when the new name is free.", "quantifier": "every frame", "why_tests_cant": "arbitrary frames", "anchors": ["trappy/sched.py:SchedCpuFrequency.finalize_object", "trappy/sched.py:SchedCpuCapacity.finalize_object", "trappy/common_clk.py:CommonClkSetRate.finalize_object"]}
{"id": "C54", "title": "CPU masks keep their eight digits", "statement": "The cpus column of sched_load_avg_sg shows every mask of at most eight hexadecimal digits padded to eight, except exactly those that read as a Python binary literal.", "quantifier": "every hexadecimal mask of at most eight digits", "why_tests_cant": "2^32 masks, exceptions are rare", "anchors": ["trappy/sched.py:SchedLoadAvgSchedGroup.finalize_object"]}
{"id": "C55", "title": "Load tables of the power allocator", "statement": "get_load_data holds for each label the total load (all columns whose name starts with load) of its last event; get_normalized_load_data holds total load x frequency divided by (highest frequency of that mask x number of cpus in the mask); a mask of the mapping that never occurs makes the call fail.", "quantifier": "every frame, mapping and set order", "why_tests_cant": "normalisation mixes masks, maxima and counts over the whole frame; tests use one small trace", "anchors": ["trappy/cpu_power.py:CpuInPower._get_load_series", "trappy/cpu_power.py:CpuInPower.get_load_data", "trappy/cpu_power.py:CpuInPower.get_normalized_load_data"]}
{"id": "C56", "title": "The total correlation is a weighted mean", "statement": "Correlator's total is the sum over the groups with a defined correlation of weight times correlation, divided by the sum of all weights; it lies between -1 and 1 when the correlations do. A group without a defined correlation still weighs.", "quantifier": "every list of groups, weights and correlations", "why_tests_cant": "arbitrary data", "anchors": ["trappy/stats/Correlator.py:Correlator.correlate"]}
{"id": "C57", "title": "Resampling holds the value in force", "statement": "Resampling a series on a grid gives at each grid time the value of the last entry at or before it; the uniform grid starts at the first time, has the given spacing and stays strictly below the last time.", "quantifier": "every series with increasing times, every grid, every positive spacing", "why_tests_cant": "arbitrary data", "anchors": ["trappy/stats/Correlator.py:Correlator._resample", "trappy/stats/Indexer.py:Indexer.get_uniform"]}
{"id": "C58", "title": "A parser's window and filters choose the rows", "statement": "The rows a statistics parser reads from an event are exactly those inside its time window (ends included) whose values in every filtered column that the frame has are among the wanted ones, in order; inspect reports their number, whether the column exists, and the sorted distinct pivot values.", "quantifier": "every frame in time order, window, set of filters and accessor", "why_tests_cant": "arbitrary frames and filters", "anchors": ["trappy/stats/grammar.py:Parser._get_data_frame", "trappy/stats/grammar.py:Parser.inspect", "trappy/stats/grammar.py:Parser._parse_for_info"]}
{"id": "C59", "title": "The window of a constraint", "statement": "For a frame in time order a constraint with a window uses the rows from the last one at or before the start of the window to the first one at or after its end, when some row is at or before the start; otherwise it uses none.", "quantifier": "every frame in time order, every window", "why_tests_cant": "arbitrary data", "anchors": ["trappy/plotter/Constraint.py:Constraint.__init__"]}
{"id": "C60", "title": "The pivots of the constraints", "statement": "The pivots of a set of constraints are listed each once, in order of their integer value if all have one, else of their hexadecimal value if all have one, else of the values themselves; permuted, they are all pairs of trace index and pivot, and their number is returned.", "quantifier": "every set of pivot values, every iteration order of the set", "why_tests_cant": "arbitrary data", "anchors": ["trappy/plotter/Constraint.py:ConstraintManager.generate_pivots"]}
{"id": "C61", "title": "The axes of a static plot", "statement": "A static plot puts each series (constraint and pivot) on one axis: with one row or one column of axes and every pivot in every constraint, the axis of the pivot; with concat, the axis of the constraint's trace; more series than cells of a grid with several rows and columns is an IndexError.", "quantifier": "every list of constraints and pivots, every number of axes per line", "why_tests_cant": "depends on which pivots each trace has; tests draw one or two small plots", "anchors": ["trappy/plotter/StaticPlot.py:StaticPlot._resolve", "trappy/plotter/PlotLayout.py:PlotLayout.get_axis"]}
{"id": "C62", "title": "Signal definitions", "statement": "A definition event:column[:colour] selects the first class any trace has under that event name, the named column and the colour given by up to three decimal or hexadecimal components; the lists of templates, columns and colours are in the order of the definitions, and every other definition is rejected with ValueError.", "quantifier": "every list of definitions and traces", "why_tests_cant": "infinitely many texts", "anchors": ["trappy/plotter/AbstractDataPlotter.py:AbstractDataPlotter._parse_value", "trappy/plotter/AbstractDataPlotter.py:AbstractDataPlotter._describe_signals", "trappy/plotter/AbstractDataPlotter.py:AbstractDataPlotter._check_data", "trappy/plotter/ColorMap.py:ColorMap.to_dygraph_colors"]}
{"id": "C63", "title": "The data of an event plot", "statement": "An EventPlot lists the names with non-zero total time, ordered by total time over one more than the number of intervals (longest first, ties in data order); each lane of each name holds exactly the intervals of the events on it, in order; lanes carry the given labels or prefix and number; an event on a lane that is not listed, or no lanes at all, is a RuntimeError.", "quantifier": "all data, lane lists and numbers of lanes", "why_tests_cant": "arbitrary data", "anchors": ["trappy/plotter/EventPlot.py:EventPlot.__init__", "trappy/plotter/EventPlot.py:EventPlot._get_lanes", "trappy/plotter/EventPlot.py:EventPlot._group_data_by_lanes"]}
{"id": "C64", "title": "The page of an interactive plot", "statement": "The page of an interactive plot is one well-formed table in which plot i stands in line i / w and column i mod w (w plots per line, at most as many as there are plots) with its legend directly below; the data handed to the page for plot i are the index and values of its frame, under the name of that cell. Without plots, with no plot per line or with a frame of more values than allowed the call fails.", "quantifier": "every number of plots, plots per line, title and frames", "why_tests_cant": "arbitrary sizes", "anchors": ["trappy/plotter/ILinePlotGen.py:ILinePlotGen.__init__", "trappy/plotter/ILinePlotGen.py:ILinePlotGen._init_html", "trappy/plotter/ILinePlotGen.py:ILinePlotGen.add_plot", "trappy/plotter/ILinePlotGen.py:df_to_dygraph"]}
{"id": "C65", "title": "The data of an interactive plot", "statement": "Each plot shows, for its pivot value (or with concat its constraint, or with permute its trace and pivot value), every series under its legend, the last one of equal legends; several series share all their times once and in order, known values stay and gaps are filled by holding, looking ahead or interpolating by position as the drawing style asks.", "quantifier": "all constraints, results, pivots and drawing styles, series whose times are distinct after handle_duplicate_index", "why_tests_cant": "arbitrary data", "anchors": ["trappy/plotter/ILinePlot.py:ILinePlot._plot", "trappy/plotter/ILinePlot.py:ILinePlot._plot_concat", "trappy/plotter/ILinePlot.py:ILinePlot._fix_indexes", "trappy/plotter/Constraint.py:Constraint.__str__"]}
{"id": "C66", "title": "The results of benchmark runs", "statement": "The run number of a metric Overall_Score…, score… or FPS… is the last number after a blank or underscore (one less after exactly Overall_Score, 0 without such a number), other metrics are no results; the run id is the given name, else the first column without its underscored numbers; the cell of a benchmark, run id and run number holds the first score of them in the file; combining results puts the runs of each benchmark of the first result side by side.", "quantifier": "every metric without newline, every file of rows, every list of results", "why_tests_cant": "infinitely many texts and tables", "anchors": ["trappy/wa/results.py:get_run_number", "trappy/wa/results.py:get_results", "trappy/wa/results.py:combine_results"]}
{"id": "C67", "title": "The thermal parameters of a run", "statement": "The parameters of a run are the seven fixed properties and the files of the thermal zone named with cdevN_weight or trip_point_N_temp, each that is a file exactly once, with the contents without their last character, as a number if they are one.", "quantifier": "every directory listing and every contents of the files", "why_tests_cant": "arbitrary file names and contents", "anchors": ["trappy/wa/sysfs_extractor.py:SysfsExtractor.__init__", "trappy/wa/sysfs_extractor.py:SysfsExtractor.get_parameters"]}
{"id": "C68", "title": "Requested and granted frequencies", "statement": "get_all_freqs_data returns for each label of the map, in order, a frame over the times of either cpu power event with the last known requested and granted frequency of the label's mask in MHz, and last one for the GPU exactly if both its events have frequencies; a labelled mask that one event lacks is a KeyError.", "quantifier": "every time ordered frames, every order of the mask sets, every map with distinct labels", "why_tests_cant": "arbitrary traces", "anchors": ["trappy/ftrace.py:GenericFTrace.get_all_freqs_data", "trappy/devfreq_power.py:DevfreqInPower.get_all_freqs", "trappy/devfreq_power.py:DevfreqOutPower.get_all_freqs", "trappy/cpu_power.py:CpuInPower.get_all_freqs", "trappy/cpu_power.py:CpuOutPower.get_all_freqs"]}
{"id": "C69", "title": "Comparison of runs side by side", "statement": "The comparison plots give each run its own column of axes, in the order of the runs, and each of its plots its own row: load above normalised load, the frequencies of each label one below the other, the histograms of granted frequencies above those of requested ones; no axis is used twice. Histograms of temperatures need the runs with temperatures to come first, a run with temperatures after one without is a KeyError.", "quantifier": "every list of runs and labels", "why_tests_cant": "the layout depends on the number of runs, labels and GPU events; tests draw one or two runs", "anchors": ["trappy/plot_utils.py:plot_load", "trappy/plot_utils.py:plot_allfreqs", "trappy/plot_utils.py:plot_controller", "trappy/plot_utils.py:plot_input_power", "trappy/plot_utils.py:plot_output_power", "trappy/plot_utils.py:plot_freq_hists", "trappy/plot_utils.py:plot_temperature_hist"]}
{"id": "C70", "title": "Power of the actors", "statement": "The plots of requested and granted power show the columns whose name starts with req_power or granted_power, in order, under the names of the actors, and fail unless there are as many actors as columns; the weighted plot scales the i-th of them by the i-th weight of the cooling devices ordered by name as text, and draws nothing if no run has weights.", "quantifier": "every frame, list of actors, parameters and runs", "why_tests_cant": "arbitrary frames and parameters; mismatches appear only with more than ten devices", "anchors": ["trappy/thermal.py:ThermalGovernor.plot_input_power", "trappy/thermal.py:ThermalGovernor.plot_output_power", "trappy/thermal.py:ThermalGovernor.plot_weighted_input_power", "trappy/plot_utils.py:plot_weighted_input_power"]}
{"id": "C71", "title": "Temperatures of runs", "statement": "The temperature plot draws for each run in order its temperatures (of the zone asked for) in degrees, and beside them the control temperature from its governor events; a line is named by the run and what it shows, without a dash if one is empty. It fails exactly if a nonzero zone is asked for and a run has no governor events.", "quantifier": "every list of runs, every zone", "why_tests_cant": "arbitrary runs", "anchors": ["trappy/plot_utils.py:plot_temperature", "trappy/plot_utils.py:normalize_title", "trappy/thermal.py:Thermal.plot_temperature", "trappy/thermal.py:ThermalGovernor.plot_temperature"]}
{"id": "C72", "title": "Bars of a bar plot", "statement": "A bar plot draws one bar per value, of the height of the value, in the slot of its position: side by side with equal widths that never overlap, or stacked with its foot at the sum of the values below it. Series of different lengths cannot be drawn side by side.", "quantifier": "every list of series of equal length, every spacing between 0 and 1", "why_tests_cant": "arbitrary numbers of series and values", "anchors": ["trappy/plotter/BarPlot.py:BarPlot.plot_axis"]}
{"id": "C73", "title": "Lines, colours, titles and legend of a static plot", "statement": "A static plot draws each constraint with each of its pivots once, with colours counted on each axis; when every constraint has every pivot and the axes form one line, the axis of a pivot has its title and the legend names the constraint of every colour; with concat the axis of a constraint has its name and the legend names the pivots; with permute the axis of a trace and pivot has the trace's name and the legend names the columns. The legend is right for all lines exactly if lines of one colour have one label; with concat two constraints of one trace are an IndexError.", "quantifier": "every list of constraints and pivots, every number of axes per line", "why_tests_cant": "which colour a series gets depends on which pivots the other series have; tests only check that drawing does not fail", "anchors": ["trappy/plotter/StaticPlot.py:StaticPlot._resolve", "trappy/plotter/StaticPlot.py:StaticPlot.make_title", "trappy/plotter/StaticPlot.py:StaticPlot.add_to_legend", "trappy/plotter/LinePlot.py:LinePlot.plot_axis", "trappy/plotter/Constraint.py:Constraint.__str__", "trappy/plotter/Constraint.py:Constraint.get_data_name"]}
{"id": "C74", "title": "Publishing a notebook with interactive plots", "statement": "Publishing a notebook replaces every occurrence of a listed local script path by its public URL, all at once and from the left, so that no URL put in is changed again; no listed path remains, all other text is unchanged, and publishing twice is publishing once. No local script path of a page of an interactive line plot remains (for event plots this fails: the listed path of d3 is not the one the page uses).", "quantifier": "every text, both web bases", "why_tests_cant": "seven replacements in sequence: that none of them touches what another put in or splits is a fact about all texts", "anchors": ["scripts/publish_interactive_plots.py:change_resource_paths", "trappy/plotter/IPythonConf.py:add_web_base"]}
{"id": "C75", "title": "Installing the scripts of interactive plots", "statement": "If installing a plot's resources ends normally, every script its pages ask for is a file below the served directory: a local resource has the package's contents, a web resource what was there before or, if it was not there, what the web gave. It ends normally whenever every missing web resource can be fetched, needs no web a second time and then changes nothing; a missing resource that cannot be fetched is an ImportError naming its place; however it ends nothing disappears and no other path changes.", "quantifier": "every file system, every state of the web and of the package, every directory", "why_tests_cant": "depends on network and on the files left by earlier installations", "anchors": ["trappy/plotter/IPythonConf.py:iplot_install", "trappy/plotter/IPythonConf.py:install_resource", "trappy/plotter/IPythonConf.py:install_http_resource", "trappy/plotter/IPythonConf.py:install_local_resource", "trappy/plotter/IPythonConf.py:get_scripts_path"]}
{"id": "C76", "title": "Events as attributes of a trace", "statement": "After any history of added events and normalisations, the attribute of a name holds the first event added under it, with its frame and pivot; names the trace or its class already has are rejected and never hidden; the filters are the names some part of which matches the key, once each, in the order added. If every event has a frame of its own indexed by time, every later offset is subtracted from it exactly once and no other frame changes (events sharing one frame are shifted once per event). Asking a parsed trace for the unique word of a differently named event hints at that name and nothing else does. Construction gives every class its attribute if no class has a reserved name.", "quantifier": "every history, every set of class attributes, every pattern, every table of classes", "why_tests_cant": "histories are unbounded, aliasing of frames and clashes of names only show in combinations", "anchors": ["trappy/bare_trace.py:BareTrace.add_parsed_event", "trappy/bare_trace.py:BareTrace.get_filters", "trappy/bare_trace.py:BareTrace._normalize_time", "trappy/base.py:Base.normalize_time", "trappy/ftrace.py:GenericFTrace.__getattr__", "trappy/ftrace.py:GenericFTrace.__init__"]}
{"id": "C77", "title": "A written report is read back", "statement": "Constructing a trace from a report gives exactly what was written: after any header, every event written for a selected class is one row of that class's frame, in file order, with a cell for each printed field (integers as integers, text as text) and each array element up to the longest array of the trace, with its task, pid, cpu and line number, at its printed time or the next double after the previous event if that is later; rows outside the windows are left out and times start at the first event if normalised. Text without a bracket or a colon and blank between event lines is ignored. Arrays must appear from the first event of a class on.", "quantifier": "every header, every number and mix of lines, task names, fields, arrays, classes and windows", "why_tests_cant": "the statement joins line pattern, dispatch, tie breaking, array explosion, payload parsing, windows and normalisation for reports of any length; tests parse a few fixed files", "anchors": ["trappy/ftrace.py:GenericFTrace._do_parse", "trappy/ftrace.py:GenericFTrace.__populate_data", "trappy/ftrace.py:GenericFTrace.__parse_trace_file", "trappy/base.py:Base.create_dataframe", "trappy/base.py:Base.generate_parsed_data"]}
{"id": "C78", "title": "Binary traces and the place of the cache", "statement": "trace-cmd is asked for the .dat file and, unformatted, for exactly the registered events whose class sets parse_raw (unless the path starts with a dash, when it is taken for an option). It is run at most once per construction, and not at all exactly if the cache is in use and holds readable tables of all wanted classes for the present contents, or its metadata is unusable. A construction from a .dat file gives the frames and leaves the cache that the printed text would. A temporary file remains exactly after constructions that ran the command and failed. The cache lies beside the trace whatever path is used: two paths share a cache exactly if they lead to the same directory entry.", "quantifier": "every registry, configuration, cache state, outcome of trace-cmd, history of constructions, working directory and path", "why_tests_cant": "trace-cmd is not available in most test environments; failures, histories and path spellings are unbounded", "anchors": ["trappy/ftrace.py:FTrace.__generate_trace_txt", "trappy/ftrace.py:FTrace.__get_raw_event_list", "trappy/ftrace.py:FTrace._parsing_setup", "trappy/ftrace.py:FTrace._parsing_teardown", "trappy/ftrace.py:GenericFTrace._do_parse", "trappy/ftrace.py:GenericFTrace._trace_cache_path", "trappy/ftrace.py:GenericFTrace._get_csv_path"]}
{"id": "C79", "title": "Memory bookkeeping leaves the data alone", "statement": "The rows and the frame made from the events of a class do not depend on the memory figures read on the way. At most one low-memory warning is issued: after the first of the rows 0, 10000, 20000, ... at which the resident size has grown beyond the limit, if all rows before could be parsed and the free memory is known and not zero. The free memory is the figure of the MemFree line. Choosing storage types keeps all names and values; only byte columns with at most half different values change type (so with text stored as objects nothing is optimised), and it fails exactly for a byte column without rows.", "quantifier": "every list of events, every sequence of memory readings, every frame", "why_tests_cant": "depends on readings of process memory; needs more than 10000 rows to show", "anchors": ["trappy/base.py:Base.generate_parsed_data", "trappy/base.py:_get_free_memory_kb", "trappy/base.py:Base.optimize_dataframe", "trappy/base.py:Base.create_dataframe"]}
{"id": "C80", "title": "Load plots and histograms", "statement": "The plot of loads (plain and normalised) has a column for every cluster and one for the GPU if its event carries loads; at each time of either event a cell holds the last load known then, normalised by the highest frequency. The first half of the axes given to plot_freq_hists shows the histograms of the output frequencies of each cluster and the GPU, the second half those of the input frequencies, each of the last known values at all times, from zero to the greatest; the GPU is shown if both its events occur. The histogram of temperatures shows all of them. This needs pandas to sort the union of times; repeated GPU times are a ValueError.", "quantifier": "every list of events, masks, labels, titles and axes", "why_tests_cant": "whether the carried values are right depends on how the times of two events interleave", "anchors": ["trappy/ftrace.py:GenericFTrace.plot_load", "trappy/ftrace.py:GenericFTrace.plot_normalized_load", "trappy/ftrace.py:GenericFTrace.plot_freq_hists", "trappy/ftrace.py:_plot_freq_hists", "trappy/plot_utils.py:plot_hist", "trappy/thermal.py:Thermal.plot_temperature_hist"]}
{"id": "C81", "title": "Correlation of two traces", "statement": "A correlator unifies the indexes of its two aggregators and keeps the shift that aligns their fronts or, if that gives a greater correlation (NaN counting as zero), their backs. Asked for a level it resamples both results of every group onto the common grid, delays one of them by the shift, and returns their correlations and the mean of those that are numbers, weighted by the values that are not zero. A group missing in the second is an IndexError. With as many groups in both and a symmetric correlation the order of the two does not matter; an aggregator correlated with itself gives 1.", "quantifier": "every pair of aggregators, grid, correlation function, level and state", "why_tests_cant": "symmetry and reflexivity quantify over all series and all correlation functions; tests compare one pair", "anchors": ["trappy/stats/Correlator.py:Correlator.__init__", "trappy/stats/Correlator.py:Correlator.correlate", "trappy/stats/Correlator.py:Correlator._align_top_level", "trappy/stats/Correlator.py:Correlator._resample"]}
{"id": "C82", "title": "The summary of one or several runs", "statement": "compare_runs checks the types of actor order and map first, then reads the traces in order, showing the parameters found beside each as a table sorted by name, then draws eight figures in a fixed order, each with the width and height given (default 20 and 5), tz_id reaching only the temperature figures; the first failure ends it with everything before done, and an IndexError of the load figure becomes a ValueError. An unreadable trace stops before anything is drawn. Unknown keywords are a TypeError after all traces were read (ylim: after the first figure). summary_plots is compare_runs of the one run given by title and path.", "quantifier": "every list of runs, keywords, outcomes of reading and drawing", "why_tests_cant": "the order of effects under every possible failure; tests only check that no exception is raised", "anchors": ["trappy/compare_runs.py:compare_runs", "trappy/compare_runs.py:summary_plots", "trappy/wa/sysfs_extractor.py:SysfsExtractor.pretty_print_in_ipython"]}
{"id": "C83", "title": "Sizes and limits of figures, figures of input and output power", "statement": "The limit 'range' makes the interval shown one fifth longer around the same middle; labels, title and limits are set if given and left alone otherwise. A figure of n rows is n times as high as one; a height gives the width by the golden ratio and a width the height, rounded down. plot_inout_power draws for every input power but the total one figure with the input and the output of that actor, and is a KeyError if one of the two is missing.", "quantifier": "every interval, size, number of rows, set of columns and title", "why_tests_cant": "arithmetic over all sizes and limits; pictures are not inspected by tests", "anchors": ["trappy/plot_utils.py:set_lim", "trappy/plot_utils.py:pre_plot_setup", "trappy/plot_utils.py:post_plot_setup", "trappy/thermal.py:ThermalGovernor.plot_inout_power"]}
{"id": "C84", "title": "Colours of the lines of a plot", "statement": "Without colours of the user line i of k gets entry 256*i/k (rounded down) of the gradient, so that up to 256 lines have different colours; counted from the end it is entry 256*(k-i)/k, at most 255. With a list of colours line i gets colour i or the one before it, exactly colour i if there are at most 21 or a power of two of them, and the last one if there are not enough; each shade is the double nearest to its part of 255, and different shades stay different.", "quantifier": "every number of lines and colours (up to 2^40 and 2^50), every index", "why_tests_cant": "depends on rounding of i/k*k in binary64; the first wrong colour appears with 22 colours", "anchors": ["trappy/plotter/ColorMap.py:ColorMap.__init__", "trappy/plotter/ColorMap.py:ColorMap.cmap", "trappy/plotter/ColorMap.py:ColorMap.cmap_inv", "trappy/plotter/ColorMap.py:ColorMap.rgb_cmap"]}
{"id": "C85", "title": "Drawing benchmark results", "statement": "enlarge_axis moves a limit the data reach or pass beyond them by a tenth of their range, at least one, and leaves the others: afterwards all numbers lie strictly between the limits, which have not come closer. It does nothing if the first cell is NaN, needs axes only if a limit changes, and is a ValueError for no data. The default title of a benchmark has blanks for underscores and every word capitalised; plot_results draws every benchmark with that title.", "quantifier": "every table with missing cells, every pair of limits, every name", "why_tests_cant": "arithmetic and NaN over all tables; tests say they cannot test drawing", "anchors": ["trappy/wa/results.py:Result.enlarge_axis", "trappy/wa/results.py:Result.plot_results_benchmark", "trappy/wa/results.py:Result.plot_results"]}
{"id": "C86", "title": "Keywords of plots", "statement": "After any registrations a keyword is passed on to matplotlib exactly if the last word about it was to register it, or there was none and it is one of the six there from the start. Of the keywords given to a plot these become arguments of the drawing calls and all others attributes, which else have their defaults; scatter replaces line style, marker and, if a point size is given, marker size. A forwarded colour fails before the first line, filling under steps after it. The parameters of a figure of an interactive plot are those and no others that its keywords determine.", "quantifier": "every history of registrations, every set of keywords", "why_tests_cant": "the list is global and changed by every registration; combinations of keywords are unbounded", "anchors": ["trappy/plotter/__init__.py:register_forwarding_arg", "trappy/plotter/__init__.py:unregister_forwarding_arg", "trappy/plotter/StaticPlot.py:StaticPlot.__init__", "trappy/plotter/StaticPlot.py:StaticPlot.set_defaults", "trappy/plotter/LinePlot.py:LinePlot._check_add_scatter", "trappy/plotter/LinePlot.py:LinePlot.fill_line", "trappy/plotter/ILinePlot.py:ILinePlot.set_defaults", "trappy/plotter/ILinePlotGen.py:ILinePlotGen.add_plot"]}
{"id": "C87", "title": "Bars of an EventPlot", "statement": "On each lane the events that follow each other and lie in the shown window get their bars, clipped to the window and at least a pixel wide at the position of the lane; from the data passed to Python to the strokes every visible event is drawn on its lane in the path of its name, and nothing else is. Any lane with events can be drawn; with sampling a lane takes at most 2001 strokes.", "quantifier": "every set of events, every window and scale", "why_tests_cant": "binary search and clipping over all windows; the script is not tested", "anchors": ["trappy/plotter/js/EventPlot.js:search_data", "trappy/plotter/js/EventPlot.js:getPaths", "trappy/plotter/EventPlot.py:EventPlot._group_data_by_lanes"]}
{"id": "C88", "title": "The view of an EventPlot", "statement": "Whatever sequence of brushing, zooming, clicking and resizing happens, the view stays inside the data and axis and brush show the same as long as the browser is not resized; a brush chooses the view and a gesture leads to the nearest window inside the data. A guide keeps its time and is drawn there; the shown number is the time from the first guide to the second.", "quantifier": "every sequence of actions of the user", "why_tests_cant": "state spread over scales, zoom and brush; sequences are unbounded", "anchors": ["trappy/plotter/js/EventPlot.js:generate", "trappy/plotter/js/EventPlot.js:drawMain", "trappy/plotter/js/EventPlot.js:resize_main"]}
{"id": "C89", "title": "Colours, rows and information of an EventPlot", "statement": "A name has the colour it was given if all names before it were given one, and without given colours they are taken in turn; the strokes lie inside the chart and those of different lanes do not touch. The information about the event under the mouse is never found: the function returns nothing or fails when some name has no event on lane 0.", "quantifier": "every set of names, lanes and colours, every position of the mouse", "why_tests_cant": "all numbers of lanes and maps of colours; the script is not tested", "anchors": ["trappy/plotter/js/EventPlot.js:getCurrentInfo", "trappy/plotter/js/EventPlot.js:generate"]}
{"id": "C90", "title": "Synchronised interactive line plots", "statement": "Two or more plots of a group get the smallest ranges holding what each shows, with one empty row at each end of their data, and other plots are untouched; in every sequence of adding plots, removing cells and zooming the rows of a plot are those it was made with and at most these two, and nothing fails if every plot has data. Plots made one after the other show the hull of what they were made to show, their rows stay in the order of time if each showed all of its rows, and zooming one zooms all of a group whose plots all ask for it.", "quantifier": "every sequence of actions on a page, every number of plots and groups", "why_tests_cant": "page-wide state over unbounded sequences in a browser", "anchors": ["trappy/plotter/js/ILinePlot.js:sync", "trappy/plotter/js/ILinePlot.js:purge", "trappy/plotter/js/ILinePlot.js:generate", "trappy/plotter/js/ILinePlot.js:create_graph"]}
{"id": "C91", "title": "Plots of whole traces", "statement": "plot_trace shows, whatever window is looked at, a bar in the path of the task and on the row of the cpu for each time a chosen task ran, and nothing else, with one labelled row per cpu; a path ending in html is read as a systrace. All of it is inside the chart if no cpu has a number as large as their number, as in every systrace. Without IPython, switches or a known number of cpus it fails.", "quantifier": "every table of switches in the order of time, every choice of tasks, every window", "why_tests_cant": "joins three layers in two languages over unbounded traces", "anchors": ["trappy/plotter/__init__.py:plot_trace", "trappy/plotter/Utils.py:get_trace_event_data", "trappy/plotter/js/EventPlot.js:getPaths"]}
{"id": "C92", "title": "Reports of the events trappy knows", "statement": "A written report, in which the selected events print their fields in the way of their own class (key=value and arrays, task switches with an arrow, system calls, clocks, the two file systems, free text), is read back: after construction each attribute has one row per event inside the windows, in the order of the file, with a cell for all that was printed under the name the class gives to it (renamed columns, idle states, masks of eight digits), and the command, pid, cpu and line of the event.", "quantifier": "every report of such events in any number and order, every selection of classes, header and windows", "why_tests_cant": "the composition of the line parser, dispatch, ten payload parsers, array explosion, finalisation and windows over unbounded files", "anchors": ["trappy/bare_trace.py:finalize_objects", "trappy/sched.py", "trappy/raw_syscalls.py", "trappy/common_clk.py", "trappy/filesystem.py", "trappy/idle.py", "trappy/fallback.py", "trappy/ftrace.py:__populate_data"]}
{"id": "C93", "title": "From the text of a report to its plot", "statement": "plot_trace of the path of a text report draws what the report says: with the lines printed for the context switches (among any other selected, foreign or unreadable lines) and a header that counts the cpus, the bars are those of the times at which the printed switches say that a chosen task ran, relative to the first event, in the path named after the task and on the row of the cpu the line was printed for; nothing else is drawn, and there is a row for each of the counted cpus. The same holds for a trace constructed with windows.", "quantifier": "every such report, selection of classes, choice of tasks, zoom window and number of cpus; times are the doubles nearest to those printed", "why_tests_cant": "the composition of parsing, dispatch, data frames, residencies, event plots and the drawing script over unbounded files", "anchors": ["trappy/plotter/__init__.py:plot_trace", "trappy/plotter/Utils.py:get_trace_event_data", "trappy/ftrace.py:_do_parse", "trappy/ftrace.py:__get_trace_metadata", "trappy/sched.py:SchedSwitch", "trappy/plotter/js/EventPlot.js"]}
{"id": "C94", "title": "Exporting and publishing the pages of interactive plots", "statement": "The HTML exporter turns a notebook whose outputs are pages of line plots and event plots (and any other text without marks) into self-contained pages: tables, titles, data and the calls that draw the plots stay, the set-up of the notebook server goes, and the libraries and the script of the package come exactly once, with the first plot of each kind in the notebook. No mark is left and exporting again changes nothing. The publishing script instead changes exactly the lines with paths of the server.", "quantifier": "every sequence of such pages, number of figures, titles, colours and data that do not mention the marks (the paths); every content of the package's scripts", "why_tests_cant": "the page text and the exporter are written in different modules that agree only by the marks; tests look at one page", "anchors": ["trappy/plotter/ILinePlotGen.py:_add_graph_cell", "trappy/plotter/ILinePlotGen.py:html", "trappy/plotter/EventPlot.py:_init_html", "trappy/plotter/EventPlot.py:_add_css", "trappy/nbexport/exporter.py:filter_output", "scripts/publish_interactive_plots.py:change_resource_paths"]}
{"id": "C95", "title": "Expressions over a written report", "statement": "Solving an expression event:column with a parser made from an FTrace of a report gives what the report prints: the index is the times of the printed events of that class inside the windows of the trace and of the parser and with the wanted values, there is one series for each printed pivot value, and each cell is the value printed last for that series. When there is no such event the result is a ValueError; when the column or the pivot column is not printed, a KeyError. So no column of system calls can be used: their pivot is a column that they never have.", "quantifier": "every report of lines printed by the kernel for the selected classes, any windows, filters and other events; times distinct after normalising, and the pivot column printed by all events of a class or by none", "why_tests_cant": "composes the line parser, the payload parser, the finalisation of the classes, the windows and the grammar; tests use fixed traces", "anchors": ["trappy/stats/grammar.py:solve", "trappy/stats/grammar.py:_pre_process", "trappy/stats/grammar.py:_get_data_frame", "trappy/ftrace.py:_do_parse", "trappy/base.py:create_dataframe", "trappy/raw_syscalls.py:SysEnter"]}
{"id": "C96", "title": "Reports read through the files of the cache", "statement": "When the tables of the cache are CSV files as pandas writes and reads them, constructing a trace of a written report gives the same whether the events are parsed or read from the files, and the rows are those that the present report prints, whatever was constructed, edited or interrupted before. A frame is read back from its file when its columns are integers of 64 bits, or text of which no cell looks like a missing value and one looks like no number or truth value.", "quantifier": "every history of constructions, edits and crashes over files holding reports whose events of one class print the same fields, every selection of their classes", "why_tests_cant": "composes the line and payload parsers with the text of the tables and with every history of the cache; tests use fixed traces and one or two constructions", "anchors": ["trappy/ftrace.py:_do_parse", "trappy/ftrace.py:_update_cache", "trappy/ftrace.py:_load_cache", "trappy/base.py:write_csv", "trappy/base.py:read_csv", "trappy/base.py:create_dataframe"]}
{"id": "C97", "title": "When a report can be read at all", "statement": "If no payload holds an array, a trace can be constructed unless some line of a selected event has a payload its class cannot read: words before the first key=value (or after a field whose key is empty) where key=value is expected, no numbered call where a system call is expected, no blank after the name of a clock. One such line is enough, whatever the others are, and the error is ParseError or ValueError. The built-in classes take every line that has their word anywhere in it.", "quantifier": "every file, every selection of classes, every order of importing the built-in classes", "why_tests_cant": "the file is arbitrary and the failure must be traced to exactly one kind of line; tests only try reports that can be read", "anchors": ["trappy/ftrace.py:_do_parse", "trappy/ftrace.py:__populate_data_from_file", "trappy/base.py:generate_data_dict", "trappy/base.py:create_dataframe", "trappy/raw_syscalls.py:create_dataframe", "trappy/common_clk.py:generate_data_dict", "trappy/function.py:FunctionTracer"]}
{"id": "C98", "title": "Which event classes can be constructed", "statement": "A class inheriting from Base through any number of classes, each with no constructor of its own or one of the kinds trappy uses, can be constructed exactly when at most one of them defines a constructor (two for a class made for a name without parse_raw over a fallback), the constructor made for dynamic classes belongs to the class itself, and one that hands on parse_raw finds it; its objects are raw and fallbacks as that constructor says. All others fail with TypeError, AttributeError or by endless recursion. All built-in classes can be constructed; no subclass of a dynamic class can.", "quantifier": "every chain of classes, every recursion limit", "why_tests_cant": "subclasses are unbounded and written by users; tests construct the classes of trappy only", "anchors": ["trappy/dynamic.py:default_init", "trappy/dynamic.py:register_dynamic_ftrace", "trappy/base.py:Base.__init__", "trappy/fallback.py:FallbackEvent", "trappy/raw_syscalls.py:SysEnter", "trappy/sched.py:SchedSwitch", "trappy/function.py:FunctionTracer", "trappy/ftrace.py:GenericFTrace.__init__"]}
{"id": "C99", "title": "The tasks of the load average events", "statement": "get_pids lists each pair of name and pid of the sched_load_avg_task events whose name the key matches, once, in the order in which they first appear; from a report these are the pairs its lines print. Without such events it raises KeyError, and if the name of a task is a number it raises AttributeError or ValueError.", "quantifier": "every report and frame, every key (regular expression)", "why_tests_cant": "names and numbers are unbounded and the failing names are unusual; tests use one trace", "anchors": ["trappy/sched.py:SchedLoadAvgTask.get_pids"]}
{"id": "C100", "title": "Expressions over events added with add_parsed_event", "statement": "A parser made with a trace to which a program added events answers name:column with the values of the frame first added under that name, at the times left by the offsets subtracted since, inside the window and as the filters want, in one column; no row left or no such event is a ValueError, no such column a KeyError. The pivot given to add_parsed_event never matters.", "quantifier": "every program that adds events and normalises times, every window, filter, name and column, every two programs that differ in pivots only", "why_tests_cant": "histories, frames, windows and filters are unbounded; no test gives a pivot and solves an expression", "anchors": ["trappy/bare_trace.py:BareTrace.add_parsed_event", "trappy/stats/grammar.py:Parser._pre_process", "trappy/stats/grammar.py:Parser._pivot", "trappy/stats/grammar.py:Parser._get_data_frame", "trappy/stats/grammar.py:Parser.inspect"]}
{"id": "C101", "title": "Triggers and aggregators over a written report", "statement": "Trigger.generate(node) on a trace read from a report gives the times of exactly the printed events of its class that have the node in the pivot column and pass its filters, each with the trigger's value; a pivot or function column no event has is a KeyError, an unknown event an AttributeError. MultiTriggerAggregator(triggers, topology, aggfunc).aggregate(level) gives for each group the sum of aggfunc over its nodes' series, which run over the times of all events of the triggers' classes and hold the value of the last trigger that fires at a time, zero where none does.", "quantifier": "every report of printed events, window, set of classes, list of triggers and filters, topology, level and aggregation function", "why_tests_cant": "reports, triggers and topologies are unbounded; tests use one small report and add values that cannot tell which trigger won", "anchors": ["trappy/stats/Trigger.py:Trigger.generate", "trappy/stats/Indexer.py:MultiTriggerIndexer._unify", "trappy/stats/Aggregator.py:MultiTriggerAggregator.aggregate", "trappy/stats/Aggregator.py:MultiTriggerAggregator._aggregate_base", "trappy/stats/Aggregator.py:AbstractAggregator._add_result"]}
{"id": "C102", "title": "Callbacks over a written report", "statement": "apply_callbacks on a trace read from a report calls the functions once for each printed event of their names inside the windows, in the order of the report whatever the order of the map, each with a dictionary of what the event printed (nan in the columns only other events of the class have) and its time under Index; an unknown name is an AttributeError. A printed field named __line takes the place of the line number and changes the order.", "quantifier": "every report of printed events, window, set of classes and set of names", "why_tests_cant": "reports and sets of names are unbounded; tests replay one small trace whose classes print the same columns in every line", "anchors": ["trappy/ftrace.py:GenericFTrace.apply_callbacks", "trappy/base.py:Base.generate_data_dict", "trappy/base.py:Base.create_dataframe"]}
{"id": "C103", "title": "SysTrace pages read into frames", "statement": "A SysTrace constructed from a page (begin marker, data marker, header, printed events, possibly the end of the script and more page) has, for each selected class, one row for each printed event of the class inside the windows, in order: of a user space marker its event letter, pid, function and data (or its text), of any other event its printed fields. Its cpus are one more than the largest cpu a task switch in the windows was printed on; a page without task switches raises KeyError and a window without them gives nan. If the trace in the page is empty, lines after the end of the script are read as events.", "quantifier": "every page, list of printed events, window and set of classes", "why_tests_cant": "pages, events and windows are unbounded; the tests read two stored files", "anchors": ["trappy/systrace.py:SysTrace.__init__", "trappy/systrace.py:drop_before_trace", "trappy/systrace.py:SysTrace.generate_data_dict", "trappy/fallback.py:FallbackEvent.generate_data_dict"]}
{"id": "C104", "title": "From a systrace page to the bars of its plot", "statement": "plot_trace of the path of a systrace page draws exactly the times at which the switches printed in the page (inside the windows) say that a chosen task ran, over the span of those switches, with one row for each cpu up to the largest that a switch was printed on; a page without switches raises KeyError. A cpu on which only other events were printed has no row.", "quantifier": "every page, list of printed events, window, set of classes and choice of tasks", "why_tests_cant": "pages and events are unbounded and the drawing is not tested at all", "anchors": ["trappy/plotter/__init__.py:plot_trace", "trappy/systrace.py:SysTrace.__init__", "trappy/plotter/Utils.py:get_trace_event_data"]}
{"id": "C105", "title": "Reports of trappy's own events through the files of the cache", "statement": "Over any history of constructions, copies, edits and (for the reading) crashes, on files that hold reports of the events trappy knows whose columns survive csv, constructing with the cache gives the trace that is constructed without it, and its frames show exactly what the present report prints: columns renamed, idle states of 2^32-1 as -1, masks padded. Masks without a letter and the inodes of ext4 events do not survive: read from the cache they are integers.", "quantifier": "every history of file-system operations, report, selection of classes, window and normalisation", "why_tests_cant": "the tests of the cache compare one trace with two classes; finalize_object is never run on what is read from the cache", "anchors": ["trappy/ftrace.py:GenericFTrace._do_parse", "trappy/bare_trace.py:BareTrace.finalize_objects", "trappy/base.py:Base.write_csv", "trappy/base.py:Base.read_csv", "trappy/sched.py:SchedLoadAvgSchedGroup.finalize_object", "trappy/idle.py:CpuIdle.finalize_object", "trappy/filesystem.py"]}
{"id": "C106", "title": "The series of a plot over a written report", "statement": "For a trace constructed from a report of the events trappy knows, a constraint on an event, a column, a pivot, filters and a window gives one series for each value that a plotted event prints in the pivot column: exactly the points (time, value) of the printed events of that attribute that lie in the window (from the last event at or before its start to the first at or after its end), have wanted values in the filtered columns that exist, and have that pivot value, in the order of the report; without a pivot one series of them all; without the column none. Colons around the name of the template do not matter, an event that the trace does not have is an AttributeError. A plot has one constraint for each pair (or each permutation) with the label trace:event:column, and its pivots are exactly the values that have a series, numbers ascending.", "quantifier": "every report, selection of classes, window of the trace and of the plot, normalisation, pivot, column, filters, order of Python's sets; every list of traces, columns and templates", "why_tests_cant": "the tests plot small DataFrames and check a handful of values; windows and filters on parsed reports are not combined", "anchors": ["trappy/plotter/Constraint.py:Constraint", "trappy/plotter/Constraint.py:ConstraintManager", "trappy/plotter/Utils.py:decolonize", "trappy/plotter/AttrConf.py:PIVOT_VAL", "trappy/ftrace.py:GenericFTrace._do_parse"]}
{"id": "C107", "title": "An interactive line plot of a written report", "statement": "For a trace constructed from a report of the events trappy knows, an interactive line plot of signals event:column[:colour] has one plot for each value of the pivot for which some signal has a curve (numbers ascending; one plot in all without a pivot), and in it, under the label trace:event:column, the curve of each signal that has one: exactly the points (time, printed integer or gap) of the printed events of that attribute which lie in the window, have wanted values in the filtered columns and the pivot value, in the order of the report, merged over the times of all curves of the plot and filled as the style of drawing says. Concatenated there is one plot for each signal with its curves under the values of the pivot. Signals that are malformed or name an event that no trace has are a ValueError.", "quantifier": "every report, selection of classes, window, normalisation, list of signals with integer columns, pivot, filters, style, layout and title, when events of one attribute have different times", "why_tests_cant": "the tests only check that plots are made, never what the page shows of a parsed trace", "anchors": ["trappy/plotter/ILinePlot.py:ILinePlot._plot", "trappy/plotter/ILinePlot.py:ILinePlot._plot_concat", "trappy/plotter/AbstractDataPlotter.py:AbstractDataPlotter._describe_signals", "trappy/plotter/Constraint.py:ConstraintManager", "trappy/ftrace.py:GenericFTrace._do_parse"]}
{"id": "C108", "title": "The files of publishing a notebook", "statement": "The publishing script writes the notebook, with its local script paths replaced, to the file published_NAME in the working directory, NAME being the last part of the notebook's path, or to the given name, to which .ipynb is added unless it ends in it. It changes no other file; without -o never the notebook itself. If the notebook is not a file or the output cannot be written nothing changes and there is an IOError; signing comes after writing. Publishing the output onto itself changes nothing.", "quantifier": "every file system, notebook, option and version of IPython", "why_tests_cant": "the script has no tests", "anchors": ["scripts/publish_interactive_plots.py:publish", "scripts/publish_interactive_plots.py:main"]}
{"id": "C109", "title": "An interactive line plot of several traces", "statement": "An interactive line plot of several parsed reports pairs traces and signals: the i-th with the i-th, a single trace with every signal, a single signal with every trace. Each pair is a line, labelled by the name of the trace (or its number), the event and the column. There is one plot for each value of the pivot that some line has a curve for, ascending if the values are integers, holding the curves of the lines that have one, under their labels; concatenated, one plot for each line holding its curves under the values of the pivot. A curve holds the events printed in the report of that trace that satisfy filters and window, in the order of printing.", "quantifier": "every list of traces and signals that fit, every report, pivot, filter, window and layout", "why_tests_cant": "tests plot a single trace and only check that nothing is raised", "anchors": ["trappy/plotter/ILinePlot.py:ILinePlot.view", "trappy/plotter/ILinePlot.py:ILinePlot._plot", "trappy/plotter/ILinePlot.py:ILinePlot._plot_concat", "trappy/plotter/Constraint.py:ConstraintManager", "trappy/plotter/AbstractDataPlotter.py:AbstractDataPlotter._describe_signals"]}
{"id": "C110", "title": "Rows that lack columns, through the cache", "statement": "A table whose rows do not all have the same columns is read back from its file in the cache row by row: each row has its time and every column that some row has, in the order in which the rows first have them, text as it was, integers as they were or, in a column that some row lacks, as floating point numbers, and a missing value where the row has no such column.", "quantifier": "every table of such columns, every text of times and numbers that is read back", "why_tests_cant": "tests compare one cached trace", "anchors": ["trappy/base.py:Base.create_dataframe", "trappy/base.py:Base.write_csv", "trappy/base.py:Base.read_csv"]}
