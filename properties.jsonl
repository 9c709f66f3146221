{"id": "C01", "title": "The trie is a finite map over every history of operations", "statement": "After any sequence of insert, set, find, remove and clear calls that starts from an initialised trie and keeps the stored keys prefix-free, a lookup returns exactly the leaf and value last stored under that key and not removed since, or nothing if there is none; iteration lists exactly the stored leaves in insertion order; and a failed insertion (allocation failure) leaves the map unchanged.", "quantifier": "all operation histories, all byte-string keys (any length), all values, every pattern of allocation failures, every OFFSET_MAX >= 1 (so both 32- and 64-bit builds, including the jump nodes)", "why_tests_cant": "the node shapes depend on the whole insertion/removal history and on the exact nibble at which keys diverge; jump nodes need keys longer than 2^47 bytes to appear on a 64-bit machine", "anchors": [{"file": "src/trie.c", "symbols": ["trie_insert_mem", "trie_find_mem", "trie_remove", "trie_set_mem", "trie_get_mem", "trie_clear"]}]}
{"id": "C02", "title": "Longest-prefix lookup", "statement": "Looking up the stored string that is the longest prefix of a query string returns a stored string that is a prefix of the query and is at least as long as every other stored prefix, and returns nothing exactly when no stored string is a prefix of the query.", "quantifier": "all tries reachable by insertions and removals of NUL-terminated strings, all query strings", "why_tests_cant": "the search may skip bytes, follows only one path and inspects at most two levels sideways; correctness depends on where keys happen to branch", "anchors": [{"file": "src/trie.c", "symbols": ["trie_find_prefix", "trie_terminal_leaf", "trie_check_prefix"]}]}
{"id": "C03", "title": "Completion lookup", "statement": "Looking up any stored string that starts with a query string returns a stored string starting with the query, and returns nothing exactly when no stored string starts with it.", "quantifier": "all reachable tries of NUL-terminated strings, all query strings", "why_tests_cant": "the search follows the query's nibbles only at branch points, so its correctness depends on all keys in a subtree agreeing", "anchors": [{"file": "src/trie.c", "symbols": ["trie_find_postfix", "trie_representative"]}]}
{"id": "C04", "title": "Expression evaluation is left to right with short circuit", "statement": "Evaluating an expression on a file performs exactly the side effects, in order, and yields the truth value prescribed by the find grammar: -a stops at the first false operand, -o at the first true one, ! negates, the comma operator evaluates everything and yields its last operand, and after -quit (or exit) nothing further is evaluated.", "quantifier": "all expression trees with operators of any arity and depth, all behaviours of tests and actions (arbitrary, possibly history dependent)", "why_tests_cant": "trees are unbounded and actions arbitrary; -quit may occur anywhere", "anchors": [{"file": "src/eval.c", "symbols": ["eval_and", "eval_or", "eval_not", "eval_comma", "eval_expr", "eval_quit"]}]}
{"id": "C05", "title": "Rewriting passes of the optimizer (-O1, -O3) preserve observable behaviour", "statement": "Canonicalisation, cost-based reordering and simplification of the command line expression never change which side effects are performed, in which order, whether the search is quit, nor (when it is used) the result.", "quantifier": "all expression trees, all files, all behaviours of tests and actions consistent with their purity annotations, every cost/probability assignment", "why_tests_cant": "the passes interact through nested negation, flattening, dead-code removal and arbitrary cost orders; a difference only shows for particular trees and actions", "anchors": [{"file": "src/opt.c", "symbols": ["canonicalize", "sink_not_andor", "reorder", "simplify", "annotate", "opt_const", "sort_exprs"]}]}
{"id": "C06", "title": "Data-flow optimization (-O2 and above) preserves observable behaviour", "statement": "Replacing sub-expressions whose outcome is implied by earlier tests, and dropping unreachable ones, never changes which side effects are performed nor the final result.", "quantifier": "all expression trees, all files, all starting facts", "why_tests_cant": "facts flow through operators of any nesting; only specific combinations of tests, operators and ignored results are wrong", "anchors": [{"file": "src/opt.c", "symbols": ["data_flow", "data_flow_visit", "data_flow_enter", "data_flow_leave", "opt_ignore"]}]}
{"id": "C07", "title": "The whole optimizer preserves observable behaviour", "statement": "For every optimization level, running the optimized expression (with the optimizer's adjusted -mindepth/-maxdepth) on any file performs the same side effects in the same order as running the expression the user wrote.", "quantifier": "all optimization levels 0-4, all trees, all files, any number of pass iterations", "why_tests_cant": "composition of all passes over three rounds; unit tests only compare a few golden dumps", "anchors": [{"file": "src/opt.c", "symbols": ["bfs_optimize", "optimize"]}]}
{"id": "C08", "title": "Every file is visited exactly once", "statement": "A complete walk invokes the callback exactly once in pre-order for every root and for every file reachable from a root through directories that were not pruned, whatever the order in which asynchronous opens, stats and closes complete and however small the directory cache and I/O queue are.", "quantifier": "all finite file trees, all root lists, all prune decisions, strategies breadth-first and depth-first, sorted/buffered/unbuffered, every asynchronous completion order, every descriptor limit >= 2", "why_tests_cant": "the outcome depends on thread scheduling and on resource limits; a lost or duplicated visit only occurs for rare interleavings", "anchors": [{"file": "src/bftw.c", "symbols": ["bftw_impl", "bftw_visit", "bftw_push_dir", "bftw_pop", "bftw_queue_push", "bftw_queue_flush"]}]}
{"id": "C09", "title": "Parents before children, and children before parents in post-order", "statement": "During a walk a directory's pre-order visit precedes the visits of all its descendants, and with -depth its post-order visit happens exactly once, after all its descendants' visits.", "quantifier": "all trees, strategies, completion orders and descriptor limits as in C08", "why_tests_cant": "depends on reference counts reaching zero at the right moment for every interleaving", "anchors": [{"file": "src/bftw.c", "symbols": ["bftw_gc", "bftw_call_back", "bftw_visit"]}]}
{"id": "C10", "title": "Breadth-first and depth-first order", "statement": "With sorting, breadth-first search visits all files of depth d before any of depth d+1, and siblings in sorted order; depth-first search visits the whole subtree of a directory before its next sibling.", "quantifier": "all finite trees, all root lists, every collation order", "why_tests_cant": "needs all tree shapes", "anchors": [{"file": "src/bftw.c", "symbols": ["bftw_list_sort", "bftw_queue_pop", "bftw_state_init"]}]}
{"id": "C11", "title": "Pruning and stopping", "statement": "When the callback prunes a directory none of its descendants is visited and everything else still is; when it asks to stop no further callback is made.", "quantifier": "all trees, all callback decisions, all schedules", "why_tests_cant": "schedule dependent: opens may already be in flight when the decision is taken", "anchors": [{"file": "src/bftw.c", "symbols": ["bftw_call_back", "bftw_drain", "bftw_state_destroy"]}]}
{"id": "C12", "title": "Iterative and exponential deepening visit the same files as breadth-first search", "statement": "Iterative deepening and exponential deepening each invoke the user's callback exactly once in pre-order for every file breadth-first search would visit, and iterative deepening does so in order of depth; the search terminates. With -depth, last visits come after all first ones: in iterative deepening for every file that is not pruned, the deepest first, and in exponential deepening for every directory that was searched, after everything in it, once each.", "quantifier": "all finite trees, all callback decisions (prune/continue/stop)", "why_tests_cant": "the number of rounds and the pruned-set bookkeeping depend on the tree's depth", "anchors": [{"file": "src/bftw.c", "symbols": ["bftw_ids", "bftw_eds", "bftw_ids_callback"]}]}
{"id": "C13", "title": "The asynchronous I/O queue neither loses nor duplicates requests", "statement": "Every request accepted by the I/O queue is handed to exactly one worker and completes exactly once, and is returned to the caller exactly once, for every interleaving of pushes, pops, skips and wakeups; no thread sleeps forever on a slot that has been filled. (A queue that is cancelled while requests are pending may lose them if a worker is interrupted for a whole lap of the ring: finding F21.)", "quantifier": "every number of producers and consumers, every interleaving, queues of any capacity, any number of operations", "why_tests_cant": "lock-free protocol with rare races", "anchors": [{"file": "src/ioq.c", "symbols": ["ioq_slot_push", "ioq_slot_pop", "ioqq_push_batch", "ioqq_pop_batch", "ioq_slot_wait", "ioq_slot_wake"]}]}
{"id": "C14", "title": "-exec ... + runs on every file exactly once, in order, within the size limit", "statement": "With {} +, the command invocations' appended arguments, concatenated in invocation order, are exactly the matched paths in the order they were matched, each exactly once, and no invocation's arguments exceed the computed size limit unless it has a single path.", "quantifier": "all path sequences of any lengths, all size limits, all kernel E2BIG thresholds that admit the arguments", "why_tests_cant": "batching depends on the accumulated lengths and on adaptive limits learned from E2BIG failures", "anchors": [{"file": "src/exec.c", "symbols": ["bfs_exec_multi", "bfs_exec_push", "bfs_exec_flush", "bfs_exec_would_overflow", "bfs_exec_update_min", "bfs_exec_update_max"]}]}
{"id": "C15", "title": "-execdir runs commands in the file's own directory", "statement": "Every -execdir invocation runs with its working directory set to the directory that contains each of the files passed to it, and the paths passed resolve to those files from there.", "quantifier": "all sequences of visited paths, single and + forms", "why_tests_cant": "depends on the sequence of directories, including roots with trailing slashes or no slash", "anchors": [{"file": "src/exec.c", "symbols": ["bfs_exec_changed_dirs", "bfs_exec_openwd", "bfs_exec_format_path"]}]}
{"id": "C16", "title": "{} substitution", "statement": "Every argument template is expanded by replacing every occurrence of {} by the path and changing nothing else.", "quantifier": "all templates, all paths (including paths containing {} themselves)", "why_tests_cant": "all strings", "anchors": [{"file": "src/exec.c", "symbols": ["bfs_exec_format_arg"]}]}
{"id": "C17", "title": "Shell quoting round-trips", "statement": "The quoted form bfs prints for a string, read back as a shell word, denotes exactly the original bytes, contains only printable characters, and is never longer than 4n+3 characters for n input bytes.", "quantifier": "all byte strings, every locale (any multibyte decoder and printable-character predicate satisfying the C standard's contract)", "why_tests_cant": "all byte sequences including invalid and truncated multibyte sequences", "anchors": [{"file": "src/bfstd.c", "symbols": ["wordesc", "wordnesc", "dollar_quote", "double_quote", "single_quote", "bare_len"]}, {"file": "src/dstring.c", "symbols": ["dstrnescat"]}]}
{"id": "C18", "title": "dirname/basename decomposition", "statement": "The directory and base name of a path agree with POSIX dirname/basename: the base name contains no slash unless it is the root, and the directory, a slash, and the base name reassemble a path equivalent to the original.", "quantifier": "all byte strings without NUL, including empty, all-slash and repeated/trailing slashes", "why_tests_cant": "all strings", "anchors": [{"file": "src/bfstd.c", "symbols": ["xdirname", "xbasename", "xbaseoff"]}]}
{"id": "C19", "title": "UTC time conversion agrees with the proleptic Gregorian calendar", "statement": "Converting broken-down UTC time to seconds since the epoch yields the number of seconds determined by the proleptic Gregorian calendar, for any year and with out-of-range fields normalised, or reports overflow.", "quantifier": "all years (positive and negative) and all field values for which the C arithmetic is defined", "why_tests_cant": "about 2^192 inputs; leap-year arithmetic around century boundaries and negative years", "anchors": [{"file": "src/xtime.c", "symbols": ["xtimegm", "month_length", "floor_div", "wrap", "safe_add"]}]}
{"id": "C20", "title": "Timestamp arithmetic", "statement": "Adding and subtracting timestamps gives the normalised timestamp of the mathematical sum/difference of nanoseconds, comparison is the order of the represented instants, and min/max choose accordingly.", "quantifier": "all normalised timestamps whose sum is representable", "why_tests_cant": "all inputs", "anchors": [{"file": "src/xtime.c", "symbols": ["timespec_add", "timespec_sub", "timespec_cmp", "timespec_min", "timespec_max"]}]}
{"id": "C21", "title": "Typo suggestions use a true edit distance", "statement": "The distance used to suggest corrections equals the minimum total cost over all sequences of insertions, deletions and substitutions (with keyboard-distance substitution costs) turning one string into the other; it is zero exactly for equal strings and symmetric. For a word that is not known, one of the known words with the least distance is suggested, and taken in its place if and only if it can start a primary and an interactive user says yes.", "quantifier": "all pairs of strings", "why_tests_cant": "minimum over an unbounded set of edit scripts", "anchors": [{"file": "src/parse.c", "symbols": ["table_lookup_fuzzy", "parse_primary"]}, {"file": "src/typo.c", "symbols": ["typo_distance", "char_distance", "key_coords"]}]}
{"id": "C22", "title": "Allocators never hand out overlapping or too small blocks", "statement": "Over any history of allocations and frees, live blocks of an arena are pairwise disjoint, lie inside the arena's slabs, are aligned, and blocks from a sized arena are at least as large as requested; growing arrays always have room for the next element.", "quantifier": "all histories of alloc/free/realloc, all sizes", "why_tests_cant": "free lists depend on the history", "anchors": [{"file": "src/alloc.c", "symbols": ["arena_alloc", "arena_free", "varena_alloc", "varena_realloc", "reserve", "varena_size_class"]}]}
{"id": "C23", "title": "Operator precedence and grammar of expressions", "statement": "The expression tree built from the command line tokens is the one prescribed by the find grammar (parentheses, then !, then implicit/explicit -a, then -o, then comma; left to right), every well-formed expression is accepted, every ill-formed one rejected, and -print is appended exactly when no action is present.", "quantifier": "all token sequences", "why_tests_cant": "all nestings", "anchors": [{"file": "src/parse.c", "symbols": ["parse_factor", "parse_term", "parse_clause", "parse_expr", "parse_whole_expr"]}]}
{"id": "C24", "title": "Numeric arguments", "statement": "An integer argument is accepted exactly when it is an optional sign followed by digits denoting a value in the target type's range, and the parsed value is the denoted one; +N, -N and N select greater, less and equal.", "quantifier": "all strings, all target types", "why_tests_cant": "all strings around overflow boundaries", "anchors": [{"file": "src/parse.c", "symbols": ["parse_int", "parse_icmp", "looks_like_icmp"]}, {"file": "src/bfstd.c", "symbols": ["xstrtoll"]}]}
{"id": "C25", "title": "-perm symbolic modes", "statement": "Symbolic modes are interpreted as chmod(1) prescribes, clause by clause and action by action; octal modes denote themselves.", "quantifier": "all mode strings, all umasks", "why_tests_cant": "grammar with unboundedly many clauses", "anchors": [{"file": "src/parse.c", "symbols": ["parse_mode", "parse_perm"]}]}
{"id": "C26", "title": "-size rounds up and compares in the chosen unit", "statement": "-size N in unit u matches exactly the files whose size rounded up to whole units equals (is above, is below) N.", "quantifier": "all sizes representable in off_t, all units, all N", "why_tests_cant": "all 64-bit sizes", "anchors": [{"file": "src/eval.c", "symbols": ["eval_size", "bfs_expr_cmp"]}]}
{"id": "C27", "title": "-printf formats", "statement": "Parsing a format string yields a directive list that, printed, reproduces exactly the literal text with escapes interpreted and each directive applied once with its flags, width and precision, in order; malformed formats are rejected.", "quantifier": "all format strings", "why_tests_cant": "all strings", "anchors": [{"file": "src/printf.c", "symbols": ["bfs_printf_parse", "append_literal", "append_directive"]}]}
{"id": "C28", "title": "Growable strings behave as byte strings", "statement": "A growable string always holds exactly the concatenation of what was appended (including embedded NULs), is NUL terminated within its capacity, and its capacity never decreases below its length; failed allocation leaves the contents intact.", "quantifier": "all operation histories", "why_tests_cant": "all histories", "anchors": [{"file": "src/dstring.c", "symbols": ["dstralloc", "dstrxcat", "dstrxcpy", "dstresize", "dstreserve", "dstrnescat"]}]}
{"id": "C29", "title": "Sorting is stable", "statement": "Directory entry sorting (and operand sorting) returns a permutation of its input, ordered by the comparison, keeping equal elements in their original order.", "quantifier": "all lists, all comparison functions that are total preorders", "why_tests_cant": "all lists", "anchors": [{"file": "src/bftw.c", "symbols": ["bftw_list_sort"]}, {"file": "src/opt.c", "symbols": ["sort_exprs"]}]}
{"id": "C30", "title": "-print0 and -printx output can be decoded unambiguously", "statement": "The -printx encoding of a path contains no unescaped character that xargs(1) treats specially, and removing the escapes gives back the path; the -print0 output of a list of paths determines the list.", "quantifier": "all paths", "why_tests_cant": "all byte strings", "anchors": [{"file": "src/eval.c", "symbols": ["eval_fprintx", "eval_fprint0"]}]}
{"id": "C31", "title": "Directory cache never exceeds its descriptor budget", "statement": "At every moment of a walk the number of directory descriptors held by the cache is within the budget given by the caller, pinned directories are never closed, and the eviction order is a permutation of the unpinned cached directories.", "quantifier": "all sequences of add/remove/pin/unpin operations allowed by the API", "why_tests_cant": "history dependent", "anchors": [{"file": "src/bftw.c", "symbols": ["bftw_cache_add", "bftw_cache_remove", "bftw_cache_pin", "bftw_cache_unpin", "bftw_cache_pop"]}]}
{"id": "C32", "title": "Intrusive lists behave as sequences", "statement": "Singly and doubly linked list operations (append, prepend, insert, remove, pop, splice) implement the corresponding operations on finite sequences, with the tail pointer always correct.", "quantifier": "all heaps and operation histories", "why_tests_cant": "aliasing of tail pointers with the head or an item's link", "anchors": [{"file": "src/list.h", "symbols": ["SLIST_INSERT", "SLIST_REMOVE", "SLIST_SPLICE", "SLIST_POP", "LIST_INSERT", "LIST_REMOVE"]}]}
{"id": "C33", "title": "Paths reported by the walk", "statement": "The path reported for each file is its root followed by the names leading to it joined by single slashes (no slash is added after a component that already ends in one), and the reported name offset is where its last name begins.", "quantifier": "all trees and names", "why_tests_cant": "the path buffer is reused incrementally between files", "anchors": [{"file": "src/bftw.c", "symbols": ["bftw_build_path", "bftw_prepend_path", "bftw_child_nameoff", "bftw_file_new"]}]}
{"id": "C34", "title": "-unique visits each file identity once", "statement": "With -unique, a file is processed exactly the first time its (device, inode) pair is met.", "quantifier": "all sequences of files", "why_tests_cant": "history dependent", "anchors": [{"file": "src/eval.c", "symbols": ["eval_file_unique"]}]}
{"id": "C35", "title": "-mindepth/-maxdepth select by depth", "statement": "The expression is evaluated exactly for the files whose depth lies between -mindepth and -maxdepth, and directories at -maxdepth are not descended into.", "quantifier": "all trees, all depth limits", "why_tests_cant": "all trees", "anchors": [{"file": "src/eval.c", "symbols": ["eval_callback"]}]}
{"id": "C36", "title": "Signal hook registration", "statement": "After any sequence of registrations and removals, dispatching a signal runs exactly the hooks registered for it and not removed, in registration order.", "quantifier": "all histories of registrations and removals", "why_tests_cant": "history dependent", "anchors": [{"file": "src/sighook.c", "symbols": ["rcu_list_append", "rcu_list_remove", "sighook", "sigunhook"]}]}
{"id": "C37", "title": "Bit operations", "statement": "Population count, leading/trailing zero counts, bit width, floor/ceiling to a power of two and rotations compute their mathematical definitions for every word of every width.", "quantifier": "all words of widths 8, 16, 32, 64", "why_tests_cant": "2^64 inputs", "anchors": [{"file": "src/bit.h", "symbols": ["count_ones", "leading_zeros", "bit_width", "bit_floor", "bit_ceil", "rotate_left"]}]}
{"id": "C38", "title": "Account lookups are cached transparently", "statement": "Looking up users and groups through the cache, by id or name, in any order, returns exactly what the system database would return, including for missing entries, provided the database does not change.", "quantifier": "all sequences of lookups", "why_tests_cant": "history dependent (negative caching)", "anchors": [{"file": "src/pwcache.c", "symbols": ["bfs_getpwuid", "bfs_getpwnam", "bfs_getgrgid", "bfs_getgrnam", "bfs_getent"]}]}
{"id": "C39", "title": "Full reads and writes", "statement": "Reading or writing a buffer through the retrying wrappers transfers the bytes in order without loss or duplication despite short transfers and interruptions, and reports a short count only at end of file or error.", "quantifier": "all sequences of system call outcomes", "why_tests_cant": "unbounded sequences of partial transfers", "anchors": [{"file": "src/bfstd.c", "symbols": ["xread", "xwrite"]}]}
{"id": "C40", "title": "ls-style mode strings", "statement": "The ten-character mode string encodes file type and permission bits injectively, as ls(1) does.", "quantifier": "all modes", "why_tests_cant": "all combinations", "anchors": [{"file": "src/bfstd.c", "symbols": ["xstrmode", "type_char"]}]}
{"id": "C41", "title": "Tests on timestamps", "statement": "-newer and its variants compare instants to the nanosecond; -atime, -mmin, -since and so on compare the number of whole days, minutes or seconds since the timestamp; -used compares days from change to access. Their arguments are read exactly: N, +N and -N, with unit suffixes that add up.", "quantifier": "all timestamps, all arguments", "why_tests_cant": "truncation at every boundary and in both directions, all strings", "anchors": [{"file": "src/eval.c", "symbols": ["eval_newer", "eval_time", "eval_used", "timespec_diff"]}, {"file": "src/parse.c", "symbols": ["parse_min", "parse_time"]}]}
{"id": "C42", "title": "Dates on the command line", "statement": "A date argument is accepted exactly when it has one of the documented ISO 8601-like forms or is @ and a number of seconds, and denotes the instant it spells, with the given difference from UTC.", "quantifier": "all strings", "why_tests_cant": "all strings and combinations of optional parts", "anchors": [{"file": "src/xtime.c", "symbols": ["xgetdate", "xgetpart", "xgetdigit"]}]}
{"id": "C43", "title": "Following symbolic links", "statement": "With -P no link is followed, with -H those on the command line, with -L all, a link to a missing file being seen as the link itself. Every test, format and action that looks at a file then sees the data and the type that this calls for; -xtype sees the opposite. This does not depend on what was looked at before, on results obtained in the background, on types given by readdir(), or on whether the system has statx().", "quantifier": "all files and links, all orders of requests, all answers of the system calls", "why_tests_cant": "caching: the order of requests and background results make many combinations", "anchors": [{"file": "src/bftw.c", "symbols": ["bftw_stat", "bftw_cached_stat", "bftw_type", "bftw_stat_cache", "bftw_stat_fill", "bftw_must_stat", "bftw_stat_flags", "bftw_init_ftwbuf"]}, {"file": "src/stat.c", "symbols": ["bfs_stat", "bfs_stat_tryfollow", "bfs_stat_explicit"]}, {"file": "src/eval.c", "symbols": ["eval_xtype"]}]}
{"id": "C44", "title": "File system loops", "statement": "With -L, links that lead back up do not make the walk infinite: a directory that is the same as one above it is reported as a loop, with the path that it leads back to, and is not entered; everything else is visited.", "quantifier": "all file systems with finitely many directories, all search strategies, all schedules of background work", "why_tests_cant": "infinitely many paths; termination", "anchors": [{"file": "src/bftw.c", "symbols": ["bftw_init_ftwbuf", "bftw_save_ftwbuf", "bftw_child_nameoff"]}, {"file": "src/eval.c", "symbols": ["eval_callback"]}]}
{"id": "C45", "title": "Colors by file extension", "statement": "With colors, a file name gets the color of the last setting of $LS_COLORS or $BFS_COLORS for an extension that it ends with, in any case unless the extension is set in several cases and colors; extensions of any number and length never make the lookup fail.", "quantifier": "all lists of settings and all file names", "why_tests_cant": "which settings hide or restrict each other depends on the whole list", "anchors": [{"file": "src/color.c", "symbols": ["set_ext", "insert_ext", "ext_case_sensitive", "build_iext_trie", "get_ext"]}, {"file": "src/trie.c", "symbols": ["trie_find_prefix", "trie_find_postfix", "trie_remove"]}]}
{"id": "C46", "title": "Colored paths", "statement": "With colors, a path is shown as its directories, its name in the color of the file (by type, permissions, capabilities, link count and extension, in the documented order) and, if the file does not exist, the longest part of the path that does followed by the rest in the color for errors; colors are always reset, and no control character gets from a file name to the terminal.", "quantifier": "all paths, link targets, kinds of files, sets of colors and locales", "why_tests_cant": "the combinations of settings, modes and missing parts; arbitrary bytes in names", "anchors": [{"file": "src/color.c", "symbols": ["print_path_colored", "print_name_colored", "print_link_target", "cpath_init", "cpath_retreat", "file_color", "print_colored"]}, {"file": "src/bfstd.c", "symbols": ["wordnesc", "printable_len", "dollar_quote"]}]}
{"id": "C47", "title": "Output files and the exit status", "statement": "When bfs exits with status 0 (without -noerror, and unless -exit said so), standard output and every file named by -fprint and the like have been given everything printed to them, in order, however writes failed in between; paths naming the same file share one stream, also with standard output and standard error; a command sees what was printed before it; and if nothing fails the status is 0.", "quantifier": "all lists of output files, sequences of actions, messages, commands and exits, and all patterns of partial and failed writes, flushes and closes", "why_tests_cant": "write errors at every possible point, hidden by buffering and reported later or never", "anchors": [{"file": "src/ctx.c", "symbols": ["bfs_ctx_dedup", "bfs_ctx_flush", "bfs_ctx_fflush", "bfs_ctx_fclose", "bfs_ctx_free"]}, {"file": "src/eval.c", "symbols": ["eval_io_error", "eval_error", "eval_fprint", "bfs_eval"]}, {"file": "src/parse.c", "symbols": ["expr_open"]}, {"file": "src/main.c", "symbols": ["main"]}]}
{"id": "C48", "title": "Listing directories", "statement": "Reading a directory delivers each of its entries except . and .. exactly once, in order, with its type, whatever pieces the kernel returns them in and whether or not the directory was polled before; the end is reported only when everything was delivered, errors only if the kernel fails; and -empty is true of a directory only if it contains nothing.", "quantifier": "all directories, all ways in which the kernel splits the entries or fails, all interleavings of polling and reading", "why_tests_cant": "the sizes of the pieces depend on the file system and the names; boundaries at the end of the buffer", "anchors": [{"file": "src/dir.c", "symbols": ["bfs_opendir", "bfs_polldir", "bfs_readdir"]}, {"file": "src/eval.c", "symbols": ["eval_empty"]}]}
{"id": "C49", "title": "Patterns for names, paths and link targets", "statement": "-name is true exactly if the last component of the path (without trailing slashes) matches the pattern, -path if the whole path does, -lname if the file is a symbolic link whose whole target does, also with the fast path for patterns without special characters and for patterns ending in a backslash; -iname etc. likewise without regard to case; -hidden is true exactly for names other than . and .. that begin with a dot.", "quantifier": "all patterns, paths, link targets, reported link lengths and locales", "why_tests_cant": "arbitrary bytes, escapes and encodings; the special cases for literal patterns and roots", "anchors": [{"file": "src/parse.c", "symbols": ["parse_fnmatch"]}, {"file": "src/eval.c", "symbols": ["eval_fnmatch", "eval_name", "eval_path", "eval_lname", "eval_hidden"]}, {"file": "src/bfstd.c", "symbols": ["xreadlinkat", "xbasename"]}]}
{"id": "C50", "title": "Mount points and file system types", "statement": "A name is treated as a possible mount point exactly if it is the last component of a path in the mount table, so the types of mounted files are never taken from directory entries. -fstype and %F see the type of the mount a file is on, whatever other mounts were covered by later ones or removed since the table was read.", "quantifier": "every mount table, state of the mounts and sequence of files", "why_tests_cant": "mount tables with stacked, covered and stale entries need privileges to set up, and their combinations are unbounded", "anchors": [{"file": "src/mtab.c", "symbols": ["bfs_mtab_parse", "bfs_mtab_fill_types", "bfs_fstype", "bfs_might_be_mount"]}, {"file": "src/bftw.c", "symbols": ["bftw_must_stat"]}, {"file": "src/eval.c", "symbols": ["eval_fstype"]}]}
{"id": "C51", "title": "-delete removes what it should", "statement": "-delete removes exactly the files that are found and selected by the limits and the tests, that the system allows to remove, and, for directories, whose entries were all removed. Directories are tried after everything below them. The result is the same for every search strategy, number of threads and order of events. Without limits, a file is removed if and only if the tests hold for it and everything below it; -empty -delete removes the trees that hold only directories and empty files.", "quantifier": "every tree of files, command line with -delete, strategy, thread count and schedule of I/O", "why_tests_cant": "which directories are empty when they are tried depends on the order of events in the whole walk; tests see a few trees and schedules only", "anchors": [{"file": "src/eval.c", "symbols": ["eval_delete", "eval_callback"]}, {"file": "src/parse.c", "symbols": ["parse_delete"]}, {"file": "src/bftw.c", "symbols": ["bftw"]}]}
{"id": "C52", "title": "Commands are started as asked for", "statement": "-exec, -execdir and -ok start exactly the program that POSIX's search of $PATH finds, in the directory that was asked for, with the descriptors, limits and signals that were asked for and nothing else of bfs's left open, whether by posix_spawn() or by fork(); if that is possible, it happens, and if it does not happen an error is reported. Nothing changes in bfs itself.", "quantifier": "every command, $PATH, file system, list of file actions and set of open descriptors of the parent", "why_tests_cant": "which descriptors a process has open, and so which numbers the pipe between parent and child gets, depends on the schedule; combinations of $PATH, file system and actions are unbounded", "anchors": [{"file": "src/xspawn.c", "symbols": ["bfs_spawn", "bfs_spawn_exec", "bfs_fork_spawn", "bfs_resolve_early", "bfs_resolve_late", "bfs_spawn_adddup2", "bfs_spawn_addfchdir", "bfs_spawn_setrlimit"]}, {"file": "src/exec.c", "symbols": ["bfs_exec_spawn"]}]}
{"id": "C53", "title": "Regular expressions match whole paths", "statement": "-regex is true of exactly the paths that match the expression as a whole, in the characters of the locale, or else an error is reported. A question is answered with yes exactly if the answer means yes in the locale.", "quantifier": "every regular expression, path, locale and answer", "why_tests_cant": "regular expressions, paths and locales are unbounded, and there are two implementations with different ideas of which match to find first", "anchors": [{"file": "src/xregex.c", "symbols": ["bfs_regexec"]}, {"file": "src/eval.c", "symbols": ["eval_regex"]}, {"file": "src/bfstd.c", "symbols": ["xrpregex", "xrpmatch", "ynprompt"]}]}
{"id": "C54", "title": "Every request to the background threads is answered once", "statement": "A background thread carries out each request that it takes once, by io_uring or by a system call, and answers it once, with the result. It refuses requests only after the queue was cancelled, and never refuses to close anything; a descriptor that io_uring opened is either part of the answer or closed. It never overflows the rings, never waits for completions that cannot come, and waits for new requests only when all others are answered. When it ends, everything is answered, provided that the stop request was the last of its batch.", "quantifier": "every sequence of batches, completions in any order, short submissions, failures, interruptions and cancellations, every size of the rings and batches, and every set of supported operations", "why_tests_cant": "tests see only the completion orders that the kernel happens to produce, and errors of io_uring_submit() or full rings are hard to provoke", "anchors": [{"file": "src/ioq.c", "symbols": ["ioq_ring_work", "ioq_ring_submit", "ioq_ring_drain", "ioq_ring_prep", "ioq_reap_cqe", "ioq_prep_sqe", "ioq_sync_work", "ioq_batch_pop"]}]}
{"id": "C55", "title": "The status bar takes exactly one line", "statement": "With -status, the text of the bar is as wide as the terminal, whatever the path is: it is cut between characters, wide characters count as two columns, and control characters and invalid bytes are escaped. The part of the path that fits is shown, followed by dots, and the counters are shown at the end of the line if there is room. All lines but the last scroll.", "quantifier": "every path, locale without shift states, set of character widths, and terminal size", "why_tests_cant": "paths, locales and sizes are unbounded, and tests have no terminal to look at", "anchors": [{"file": "src/eval.c", "symbols": ["eval_status"]}, {"file": "src/bar.c", "symbols": ["bfs_bar_resize", "ass_itoa"]}, {"file": "src/bfstd.c", "symbols": ["xstrwidth", "wordnesc", "wesc_isprint"]}]}
{"id": "C56", "title": "Messages about the command line point at the right arguments", "statement": "An error or warning about an expression shows the command line such that a shell would read it as the same arguments, and marks exactly the arguments that the expression was written with: there is a tilde under each of their columns, and between two marked arguments next to each other, and nowhere else, also with wide characters, with arguments that need quotes and with colors.", "quantifier": "every command line, expression, locale without shift states, and set of character widths", "why_tests_cant": "command lines, expressions and locales are unbounded, and tests compare few messages, without wide characters", "anchors": [{"file": "src/diag.c", "symbols": ["highlight_expr_recursive", "highlight_expr", "bfs_argv_diag"]}, {"file": "src/bfstd.c", "symbols": ["xstrwidth", "wordnesc"]}]}
{"id": "C57", "title": "No expression makes the evaluator abort", "statement": "In a build with assertions enabled, evaluating the optimized expression on a file never fails an assertion: no expression is evaluated after the search has been told to quit, an expression that the optimizer has marked as always true or always false has that result, and one that is marked as never returning quits.", "quantifier": "every expression, optimization level, file and behaviour of the actions", "why_tests_cant": "expressions are unbounded trees, and the marks depend on the order in which three rounds of passes rewrite them", "anchors": [{"file": "src/eval.c", "symbols": ["eval_expr", "eval_not", "eval_and", "eval_or", "eval_comma", "eval_callback"]}, {"file": "src/opt.c", "symbols": ["data_flow_leave", "opt_ignore", "simplify_comma", "optimize"]}, {"file": "src/expr.c", "symbols": ["bfs_expr_never_returns"]}]}
{"id": "C58", "title": "A search does exactly what the command line says", "statement": "Running bfs on a tree that does not change performs, for every file that the given command line selects (by -mindepth, -maxdepth, -exclude, -X, and -prune without -depth), the actions of the given expression on that file, with its path, exactly once and in the order of the expression, and does nothing else. With -quit or -exit, the search ends at the first file that quits, and with -limit n at the nth file that gets there. The optimization level, the search strategy, the number of threads, their timing and sorting have no influence on what is done, only on its order. Directories come before what is in them, or after it with -depth; with -S ids files come in order of depth; with -s the order is the documented one.", "quantifier": "every tree, expression that the optimizer treats correctly, depth limit, optimization level, strategy, number of threads and schedule", "why_tests_cant": "the result depends on the composition of the walk, the callback and the optimizer for unbounded trees and expressions and all schedules", "anchors": [{"file": "src/eval.c", "symbols": ["eval_callback", "eval_expr", "bfs_eval"]}, {"file": "src/bftw.c", "symbols": ["bftw", "bftw_call_back"]}, {"file": "src/opt.c", "symbols": ["bfs_optimize"]}]}
{"id": "C59", "title": "A search stays within the limit on open files", "statement": "At every moment of a search, the number of open file descriptors (those that were open from the start, those of directories and of the background threads, those that -execdir ... + keeps, and those that the primary being evaluated opens) is at most the process's limit, as long as that is large enough for the expression and two directories; all descriptors that are not put aside are available for directories. However low the limit is, the search can run. The limit is raised as far as is useful and allowed and is never lowered, the hard limit is kept, and commands are run with the original limits.", "quantifier": "every limit, expression, number of inherited descriptors and threads, and every history of the cache of directories", "why_tests_cant": "running out of descriptors depends on the limits of the system, on trees with tens of thousands of directories, and on what else is open at that moment", "anchors": [{"file": "src/eval.c", "symbols": ["raise_fdlimit", "infer_fdlimit", "bfs_eval"]}, {"file": "src/expr.c", "symbols": ["bfs_expr_append"]}, {"file": "src/parse.c", "symbols": ["parse_empty", "parse_exec", "parse_nouser", "parse_nogroup"]}, {"file": "src/bftw.c", "symbols": ["bftw_state_init"]}, {"file": "src/exec.c", "symbols": ["bfs_exec_spawn"]}, {"file": "src/bfstd.c", "symbols": ["rlim_cmp"]}]}
{"id": "C60", "title": "Tests on a file's metadata say what the system says", "statement": "-type accepts exactly the comma-separated lists of type letters, and is true exactly of files of those types. -user, -group, -uid and -gid take a name or a number, -uid and -gid a number only; they, -inum and -links compare the file's own number as asked (equal, less, greater). -samefile is true exactly of the same inode on the same device, -sparse of files that take less room than their size, -nouser and -nogroup of files whose owner does not exist, -flags of files with the flags (all, any, exactly), and -empty of files of size zero and directories with no entries. When something cannot be found out, the test is false and an error is reported.", "quantifier": "every argument, every file and every answer or error of the system", "why_tests_cant": "extreme inode numbers and sizes, users named by numbers and failing user databases are not found on test systems", "anchors": [{"file": "src/parse.c", "symbols": ["parse_type", "parse_user", "parse_group"]}, {"file": "src/eval.c", "symbols": ["eval_type", "eval_uid", "eval_gid", "eval_nouser", "eval_nogroup", "eval_inum", "eval_links", "eval_samefile", "eval_sparse", "eval_flags", "eval_empty"]}]}
{"id": "C61", "title": "-files0-from searches exactly the names in the file", "statement": "With -files0-from FILE, the roots of the search are the NUL-separated names in FILE, all of them, in order and whatever bytes they contain, also if the last one has no NUL after it. If the list cannot be read completely, the command line is rejected with a message and nothing is searched. Without it, the roots are the paths on the command line, or the current directory if there are none; with both, or if standard input is needed twice, the command line is rejected.", "quantifier": "every content of the file, every point where reading or allocation may fail, and C libraries which differ in what they do then", "why_tests_cant": "read errors in the middle of a list and running out of memory are hard to provoke, and depend on the C library", "anchors": [{"file": "src/bfstd.c", "symbols": ["xgetdelim"]}, {"file": "src/parse.c", "symbols": ["parse_files0_from", "parse_files0_roots", "parse_root", "consume_stdin", "parse_whole_expr"]}]}
{"id": "C62", "title": "Signal hooks can be added and removed while signals arrive", "statement": "Hooks for a signal may be added and removed while handlers of that signal run in any number of threads, also in the thread that adds or removes one. No handler ever uses a hook after it was freed. sigunhook() returns only when no handler is running the hook, and the hook never runs after that. Every hook that was there when a signal arrived and is still there when the handler returns was run by it, once, in the order of adding; a one-shot hook runs at most once. A handler never waits for another thread, and adding and removing only waits for handlers.", "quantifier": "every interleaving of the steps of any number of handlers and of one thread at a time that adds or removes hooks, and every history of adding and removing", "why_tests_cant": "the interleavings that matter are a few instructions wide and tests do not hit them; most signals arrive when no hook is being changed", "anchors": [{"file": "src/sighook.c", "symbols": ["arc_set", "arc_get", "arc_put", "arc_wait", "arc_destroy", "rcu_read", "rcu_update", "rcu_peek", "rcu_destroy", "rcu_list_append", "rcu_list_remove", "for_rcu_", "should_run", "run_hooks", "sighook_impl", "sigunhook"]}]}
{"id": "C63", "title": "-acl, -capable, -xattr, -xattrname and -context say what the system says", "statement": "-acl, -capable, -xattr, -xattrname and -context are true for exactly the files with such an ACL, capability, attribute or context, whether the file is looked up by its path or relative to an open directory, and whether memory runs out on the way. If the system cannot tell, the error is reported and the test is false; no error is reported without a reason. The memory used for a file is freed.", "quantifier": "every file, every set of answers of the system, every point at which memory runs out, and every state left by earlier tests", "why_tests_cant": "errors of these calls and missing /proc are hard to provoke, and most test systems have no such file systems", "anchors": [{"file": "src/fsade.c", "symbols": ["fake_at", "free_fake_at", "is_absence_error", "bfs_check_posix1e_acl", "bfs_check_acl_type", "bfs_check_acl", "bfs_check_capabilities", "bfs_check_xattrs", "bfs_check_xattr_named", "bfs_getfilecon"]}, {"file": "src/eval.c", "symbols": ["eval_acl", "eval_capable", "eval_context", "eval_xattr", "eval_xattrname"]}]}
{"id": "C64", "title": "Time tests are compared to the time that the command line names", "statement": "-newer, -anewer, -newerXY, -since and their variants compare the time of a file that the word names to the time of the file, or the date, that the argument names, and accept nothing else. A date without a zone is in local time. -amin, -mtime and so on measure from now; after -daystart, from the end of today in local time, so that -daystart -mtime 0 finds the files from today, -mtime 1 those from yesterday, and so on. Giving -daystart twice is the same as once. For an invalid date, the dates that the message suggests are valid.", "quantifier": "every word and argument, every time zone and every change of clocks in it, every current time, every file", "why_tests_cant": "tests run at one time, in one time zone, and hardly ever on the day the clocks change", "anchors": [{"file": "src/parse.c", "symbols": ["parse_daystart", "parse_newer", "parse_newerxy", "parse_newerxy_field", "parse_reftime", "parse_since", "parse_min", "parse_time", "stat_arg"]}, {"file": "src/xtime.c", "symbols": ["xmktime", "xgetdate"]}, {"file": "src/eval.c", "symbols": ["eval_newer", "eval_time"]}, {"file": "src/stat.c", "symbols": ["bfs_stat_time"]}]}
{"id": "C65", "title": "Closed standard streams are not taken over by other files", "statement": "If bfs is started with standard input, output or error closed, they are opened such that reading standard input and writing to standard output or error fail as if they were closed, descriptors that were open are left alone whatever fails, and no file that is opened later gets their numbers, so that nothing is ever written to a file by mistake.", "quantifier": "every set of descriptors that are open at the start, every system call that may fail, with and without O_PATH", "why_tests_cant": "tests close one or two descriptors, and system calls do not fail in them", "anchors": [{"file": "src/main.c", "symbols": ["isopen", "redirect", "open_std_streams", "main"]}]}
{"id": "C66", "title": "Colors are read from LS_COLORS and BFS_COLORS as the manual describes", "statement": "Settings in LS_COLORS and then BFS_COLORS are separated by colons, and empty ones are skipped. Each sets the color for a kind of file, for an extension, or a code for the terminal; later settings override earlier ones, all zeros mean no color, ln=target colors links like their targets, and unknown names are ignored. Escapes with backslashes and carets stand for the characters that the manual says. Whatever the variables contain, nothing behind their end is read: there is a complete table, or an error.", "quantifier": "every value of both variables", "why_tests_cant": "tests try a few dozen values; escapes, the ends of strings and settings combine in more ways", "anchors": [{"file": "src/color.c", "symbols": ["unescape", "parse_gnu_ls_colors", "parse_colors", "set_esc", "set_ext"]}]}
{"id": "C67", "title": "-ls prints a line for each file from which everything can be read back", "statement": "-ls and -fls print a line for each file, from which its inode, number of blocks (rounded up), type and permissions, whether it has an ACL, number of links, user, group, size or device numbers, time and path can be read back word by word. The time has hours and minutes if it is within the last six months or the next day, and the year otherwise. Users and groups are padded to the widest so far. If there is no information about a file, there is an error and no line. Lines do not run into each other.", "quantifier": "every sequence of files with any metadata, names and times; every locale", "why_tests_cant": "tests cannot compare the output, as it depends on inodes, users and the time, and only check that there is some", "anchors": [{"file": "src/eval.c", "symbols": ["eval_fls", "print_owner", "print_time"]}, {"file": "src/color.c", "symbols": ["print_link_target"]}, {"file": "src/bfstd.c", "symbols": ["xstrmode"]}]}
{"id": "C68", "title": "The settings of a search are the ones that its flags and options ask for", "statement": "The settings of a search (links followed, order, depth limits, strategy, threads, optimization level, debugging, mounts, sorting, warnings, races, errors, colors, uniqueness) are the ones that the flags and options on the command line ask for: defaults come from the terminal and the environment, the last of those about the same thing prevails, and those about different things can be given in any order. A command line is refused only for a value that is not understood, or if a person who is asked about it says no. Files, patterns and reference files use the settings given before them; warnings are given for what deserves them, if they are on.", "quantifier": "every sequence of flags, options, tests and actions with any arguments, in every environment", "why_tests_cant": "there are dozens of flags and options, and tests only try a few combinations and orders of them", "anchors": [{"file": "src/parse.c", "symbols": ["bfs_parse_cmdline", "parse_debug", "parse_optlevel", "parse_follow", "parse_color", "parse_depth", "parse_depth_limit", "parse_jobs", "parse_mount", "parse_xdev", "parse_regextype", "parse_search_strategy"]}, {"file": "src/ctx.c", "symbols": ["bfs_ctx_new"]}]}
{"id": "C69", "title": "Messages say what their formats and values say, with or without colors", "statement": "A formatted message (warnings, errors, debugging output, the trees of -D) is accepted exactly when its format is made of text, doubled percent and dollar signs, known colors and conversions that fit the values; what is printed is then the text with each value in its place: numbers in decimal, quoted words, the arguments of expressions, and expression trees with at most two children and two levels. Colors only add escape sequences, those that are reset do not stay on, control characters in quoted values never reach the terminal, and a shell reads the printed arguments of an expression as they were.", "quantifier": "every format, every list of values, every set of colors and every locale", "why_tests_cant": "there are too many formats, values, expressions and colors to try", "anchors": [{"file": "src/color.c", "symbols": ["cvfprintf", "cvbuff", "cbuff", "print_expr", "print_expr_args", "print_expr_name", "print_esc", "print_reset", "print_wordesc"]}]}
{"id": "C70", "title": "The command line that -D dumps is one that asks for the same", "statement": "With -D tree, opt or rates, bfs prints its settings as a command line, followed by the excluded files and the expression. A shell reads the printed line as a command with the same name and, given to bfs again, its arguments stand for exactly the same paths, and ask for the same way to search (strategy, depths, links, mounts, order, threads, optimization level, debugging flags, -X, -unique, -status, races, colored output); only -noerror, -warn, -nowarn and whether messages are colored are left out. The expressions are printed one operator or test to a line, indented by their depth, and the lines put together are the expression with all its parentheses. Without the flag, nothing is printed.", "quantifier": "all settings that a command line can lead to, all paths, and all expressions", "why_tests_cant": "there are too many combinations of settings, paths to quote and shapes of expressions to try", "anchors": [{"file": "src/parse.c", "symbols": ["bfs_ctx_dump", "dump_expr_multiline", "bftw_strategy_name"]}, {"file": "src/diag.c", "symbols": ["bfs_debug_prefix", "debug_flag_name", "bfs_cmd"]}]}
{"id": "C71", "title": "Commands of -exec {} + fit into what the system allows", "statement": "On Linux, whatever the environment, the command line of the action and the limit on the stack are, -exec ... {} + gives every path to a command that is run, exactly once and in order, as long as each path is short compared to the space that the environment and the command leave. With a stack limit of at most 24 MiB, the system never refuses one of these commands as too large.", "quantifier": "all environments, commands, stack limits, page sizes and lists of paths", "why_tests_cant": "the limit depends on the environment and the stack of the process; tests run with one of each", "anchors": [{"file": "src/exec.c", "symbols": ["bfs_exec_arg_max", "bfs_exec_arg_size", "bfs_exec_parse", "bfs_exec_flush"]}]}
{"id": "C72", "title": "What is said about files is what the system knows", "statement": "Every result of a stat request is about the file that is meant by the path and the flags, including links that lead nowhere. Its fields are those of the file, whether they come from statx() or from fstatat(), its mask says exactly which values there are, and an unknown time is never read. On a system with statx(), nothing that is known is missing, as long as no file gives EPERM or ENOSYS.", "quantifier": "all sequences of requests, files, flags and systems with and without statx()", "why_tests_cant": "what is known depends on the system, the file system and on earlier requests; tests run on one system", "anchors": [{"file": "src/stat.c", "symbols": ["bfs_stat", "bfs_stat_explicit", "bfs_stat_tryfollow", "bfs_statx_convert", "bfs_stat_convert", "bfs_stat_time"]}, {"file": "src/bfstd.c", "symbols": ["xmakedev", "error_is_like"]}]}
{"id": "C73", "title": "-ok asks about each command and runs it only after a yes", "statement": "For each file that -ok is evaluated on, in order, everything printed before is shown, then the whole command is shown with a question mark, then exactly one line of standard input is read, and the command is run if and only if that line means yes in the locale. The end of input, a question that cannot be written or a lack of memory never run a command. Different files never have the same question, if the command has a {}.", "quantifier": "all commands, paths, answers, sizes of reads, locales and failures", "why_tests_cant": "answers come from a terminal or a pipe in pieces of any size, and commands may read the same input; tests use a few answers", "anchors": [{"file": "src/exec.c", "symbols": ["bfs_exec_spawn", "bfs_exec_single"]}, {"file": "src/bfstd.c", "symbols": ["ynprompt", "xgetdelim"]}, {"file": "src/eval.c", "symbols": ["eval_exec"]}]}
{"id": "C74", "title": "The status bar does not disturb what is printed", "statement": "While the status bar is shown, text printed to the terminal never reaches its line, and updating it changes nothing but its line: lines, cursor and colors stay as they were. After bfs has ended, or has been killed by a signal, the terminal has the same lines as without the bar, including those that have been scrolled off, its cursor is in the same column of the last one, the bar is gone and the whole screen scrolls again, if the text does not end in the last column. Setting up the bar for a new size changes nothing before the cursor.", "quantifier": "all sizes of terminals, texts with wide characters, colors, updates and signals in between", "why_tests_cant": "needs a terminal, and depends on where the cursor is, on the height, and on when updates come", "anchors": [{"file": "src/bar.c", "symbols": ["bfs_bar_show", "bfs_bar_update", "bfs_bar_resize", "bfs_bar_reset", "bfs_bar_sigwinch", "bfs_bar_sigexit", "bfs_bar_hide"]}, {"file": "src/eval.c", "symbols": ["eval_show_bar", "eval_hide_bar"]}]}
{"id": "C75", "title": "The optimizer's warnings are true", "statement": "When bfs warns that a test is always true or always false, it has that result whenever it is evaluated. When it says that a part of the expression is unreachable, that part is never evaluated. When it says that a result is ignored, the same happens whatever that result is. When it says that the command won't do anything, no file is acted on. At the default level, nothing is said twice.", "quantifier": "all expressions, -exclude expressions, depth limits, files and optimization levels", "why_tests_cant": "a warning speaks about all files at once", "anchors": [{"file": "src/opt.c", "symbols": ["opt_warning", "data_flow_visit", "data_flow_leave", "opt_ignore", "optimize", "bfs_optimize"]}]}
{"id": "C76", "title": "Signals do what they would have done", "statement": "Whatever hooks there are, a signal has the effect that it would have had without any: bfs dies of it (and is seen to have died of that signal), stops, or ignores it, as it was told to when it was started. Only hooks that ask for it keep bfs going. The hooks for a signal, and those for exits, are run before bfs dies of it, except for faults, which end it right away. If bfs goes on, errno and everything else is as before. Commands treat signals as bfs was told to.", "quantifier": "all signals and their origins, all dispositions bfs can be started with, all histories of hooks and signals, and all failures of allocations", "why_tests_cant": "tests start with default dispositions, and few signals can be raised in them", "anchors": [{"file": "src/sighook.c", "symbols": ["is_fault", "is_fatal", "reraise", "sigdispatch", "siginit", "sighook", "atsigexit", "sigunhook", "sigreset"]}, {"file": "src/xspawn.c", "symbols": ["bfs_spawn_exec", "bfs_posix_spawn"]}]}
{"id": "C77", "title": "With -unique, every file is dealt with once", "statement": "A search with -unique evaluates the expression at most once for each file (device and inode number), however many hard links, mount points or followed symbolic links lead to it, with every search strategy and with -depth. It is evaluated under one name for every file that the search meets, if there are no limits and the search does not end early.", "quantifier": "all directory trees, all assignments of files to names, all strategies and flags of searches, all expressions and all ways in which a search may end early", "why_tests_cant": "trees, aliases, strategies and orders of visits cannot be enumerated", "anchors": [{"file": "src/eval.c", "symbols": ["eval_callback", "eval_file_unique"]}, {"file": "src/bftw.c", "symbols": ["bftw", "bftw_ids", "bftw_eds", "bftw_ids_callback", "bftw_impl"]}]}
