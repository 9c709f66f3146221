{
 "claims": [
  {
   "property": "C01",
   "status": "proved",
   "theorems": [
    "C01_trie_is_finite_map",
    "C01_trie_last_value"
   ],
   "note": "All histories, keys, allocation failures and OFFSET_MAX >= 1."
  },
  {
   "property": "C02",
   "status": "proved",
   "theorems": [
    "C02_find_prefix_longest"
   ],
   "note": "All histories of string operations."
  },
  {
   "property": "C03",
   "status": "proved",
   "theorems": [
    "C03_find_postfix"
   ],
   "note": "All histories of string operations."
  },
  {
   "property": "C04",
   "status": "proved",
   "theorems": [
    "C04_eval_rules",
    "C04_quit_is_last",
    "C04_truth_value"
   ],
   "note": "All trees, behaviours of the primaries and histories."
  },
  {
   "property": "C05",
   "status": "proved",
   "theorems": [
    "C05_canonicalize",
    "C05_reorder",
    "C05_simplify",
    "C05_optimize_O1"
   ],
   "note": "All trees, behaviours, float operations and histories."
  },
  {
   "property": "C06",
   "status": "partial",
   "theorems": [
    "C06_data_flow_partial",
    "C06_optimize_partial",
    "C07_size_units_refuted",
    "C07_samefile_refuted",
    "C07_uid_refuted",
    "C07_comma_refuted",
    "C07_comma_not_refuted",
    "C07_changing_refuted",
    "C07_failing_refuted"
   ],
   "note": "Proved for expressions without commas whose primaries avoid the known faults (tame). The full statement is false of the code; the refutations are proved."
  },
  {
   "property": "C07",
   "status": "partial",
   "theorems": [
    "C07_optimized_visit_partial",
    "C07_optimized_visit_all_levels_partial",
    "C07_size_units_refuted",
    "C07_samefile_refuted",
    "C07_uid_refuted",
    "C07_comma_refuted",
    "C07_comma_not_refuted",
    "C07_changing_refuted",
    "C07_failing_refuted"
   ],
   "note": "Proved for -O0 and -O1, and at every level for expressions without commas whose primaries are tame; false in general at -O2 and above."
  },
  {
   "property": "C08",
   "status": "proved",
   "theorems": [
    "C08_walk_ends",
    "C08_every_file_once",
    "C08_everything"
   ],
   "note": "bftw_walk with its queues, reference counts and path buffer, for every file tree, callback, strategy, flags and number of threads, and all decisions of the oracles: the order of responses, the directory cache, the balance of queues. Allocations succeed; what is on another file system does not change during the walk."
  },
  {
   "property": "C09",
   "status": "proved",
   "theorems": [
    "C09_parents_first",
    "C09_post_last",
    "C09_post_once",
    "C09_mount_points_refuted"
   ],
   "note": "As for C08; also for walks that are stopped or fail. The post-order visits are those of directories that are entered; mount points are not, with -xdev (finding F17)."
  },
  {
   "property": "C10",
   "status": "proved",
   "theorems": [
    "C10_sorted",
    "C10_unsorted_depth_first_refuted"
   ],
   "note": "Both sorted strategies. Without sorting, depth-first search with no background threads is breadth-first (finding F16)."
  },
  {
   "property": "C11",
   "status": "proved",
   "theorems": [
    "C11_prune",
    "C11_last",
    "C11_stop",
    "C08_every_file_once"
   ],
   "note": "As for C08."
  },
  {
   "property": "C12",
   "status": "proved",
   "theorems": [
    "C12_ids",
    "C12_eds",
    "C12_eds_rounds",
    "C12_same_files",
    "C12_overlapping_roots_refuted",
    "C12_errors_once_refuted",
    "C12_errors_post_refuted"
   ],
   "note": "Files keep their types while the search is on, all can be examined (finding F19) and have different paths (finding F18). With -depth, last visits are made of the right files, once each, and after those of what is in them."
  },
  {
   "property": "C13",
   "status": "proved",
   "theorems": [
    "C13_exactly_once",
    "C13_no_lost_wakeup",
    "C13_no_deadlock",
    "C13_safe",
    "C13_cancel_refuted"
   ],
   "note": "For any number of workers, entries, batch size and map of slots to monitors, and every schedule of fewer than 2^61 steps, with spurious failures and wakeups. Completion is stated as: when no thread can go on, every accepted request was completed, and returned if the owner waits; fairness of the scheduler is not modelled. Memory is sequentially consistent; workers that use io_uring are not modelled. Cancelled queues: finding F21."
  },
  {
   "property": "C14",
   "status": "partial",
   "theorems": [
    "C14_order",
    "C14_exact_partial",
    "C14_size_partial",
    "C14_exact_refuted"
   ],
   "note": "Order, no duplicates, and failure reported if anything is lost: for every system. Exactness is false in general (finding F10); proved if paths take at most half of the limits. Sizes: proved if the system does not refuse commands within the limit."
  },
  {
   "property": "C15",
   "status": "partial",
   "theorems": [
    "C15_single",
    "C15_name",
    "C15_multi_partial",
    "C15_multi_total_partial",
    "C15_slash_refuted",
    "C15_root_refuted",
    "C15_open_refuted"
   ],
   "note": "The ; form is proved. The + form is false in general (findings F11-F13); proved for all sequences of files in which none follows a file it can be confused with."
  },
  {
   "property": "C16",
   "status": "proved",
   "theorems": [
    "C16_substitution",
    "C16_command"
   ],
   "note": "All templates and paths, with failures of the allocator; and which argument lists are commands."
  },
  {
   "property": "C17",
   "status": "proved",
   "theorems": [
    "C17_quote_roundtrip",
    "C17_quote_length",
    "C17_quote_printable"
   ],
   "note": "All byte strings and all locales that satisfy the stated contract; the shell reads bytes."
  },
  {
   "property": "C18",
   "status": "proved",
   "theorems": [
    "C18_dirname_basename",
    "C18_spec_unique",
    "C18_reassemble"
   ],
   "note": "All byte strings."
  },
  {
   "property": "C19",
   "status": "partial",
   "theorems": [
    "C19_timegm",
    "C19_timegm_total_partial",
    "C19_timegm_limits_partial",
    "C19_timegm_ends",
    "C19_timegm_defined_refuted",
    "C19_timegm_year_defined_refuted"
   ],
   "note": "Every successful conversion is right, for all field values and any width of time_t; for 64 bits it always succeeds when the fields are at most 2^30 in absolute value, and closer to the limits of int it reports an overflow exactly when the minutes, hours or days no longer fit after carrying (C19_timegm_limits_partial). Near the limits of int the code has undefined behaviour (refuted theorems). Used only where the C library has no timegm."
  },
  {
   "property": "C20",
   "status": "proved",
   "theorems": [
    "C20_add",
    "C20_sub",
    "C20_cmp",
    "C20_min",
    "C20_max"
   ],
   "note": "All normalised timestamps; signed overflow of the seconds is a separate outcome."
  },
  {
   "property": "C21",
   "status": "partial",
   "theorems": [
    "C21_suggestion",
    "C21_typo_distance",
    "C21_typo_symmetric",
    "C21_typo_zero_partial",
    "C21_typo_zero_refuted"
   ],
   "note": "Least cost over all edit sequences and symmetry are proved. Zero only for equal strings is false for characters that are not on the keyboard table, and proved for those that are."
  },
  {
   "property": "C22",
   "status": "proved",
   "theorems": [
    "C22_objects",
    "C22_alloc",
    "C22_free",
    "C22_realloc",
    "C22_grow",
    "C22_arena",
    "C22_arena_contents",
    "C22_size_add",
    "C22_size_mul",
    "C22_flex_size",
    "C22_array",
    "C22_align_ceil"
   ],
   "note": "All histories of allocation, release, resizing, growth and writes with any fair system; types aligned to at least 8 bytes. Sanitizer annotations and arena_clear/arena_destroy are not modelled."
  },
  {
   "property": "C23",
   "status": "proved",
   "theorems": [
    "C23_grammar",
    "C23_decides",
    "C23_unambiguous"
   ],
   "note": "parse_cmdline models the whole recursive descent parser with its parse table, path skipping, flag groups, -exclude and the final -print. Whether the arguments of an individual primary are themselves valid (a number, a format, a file that can be opened) and what -files0-from reads are oracles. The grammar and the word lists are stated separately in GramSpec.v."
  },
  {
   "property": "C24",
   "status": "proved",
   "theorems": [
    "C24_parse_int",
    "C24_numeral_unique",
    "C24_parse_icmp",
    "C24_comparison",
    "C24_xstrtoll",
    "C24_xstrto_narrow",
    "C24_xstrtoull",
    "C24_looks_like_icmp"
   ],
   "note": "All strings; strtoll and strtoull are modelled for bases up to 10."
  },
  {
   "property": "C25",
   "status": "partial",
   "theorems": [
    "C25_octal",
    "C25_accepts",
    "C25_total",
    "C25_modes_partial",
    "C25_perm",
    "C25_umask_refuted",
    "C25_equals_refuted"
   ],
   "note": "Octal modes, the accepted syntax and the comparison are proved in full. The meaning of symbolic modes is false in general (findings F14, F15); proved for every mode that avoids the two cases."
  },
  {
   "property": "C26",
   "status": "proved",
   "theorems": [
    "C26_parse_size",
    "C26_size",
    "C26_size_overflow"
   ],
   "note": "All sizes whose sum with the unit fits off_t; overflow otherwise."
  },
  {
   "property": "C27",
   "status": "proved",
   "theorems": [
    "C27_accepts",
    "C27_total",
    "C27_output"
   ],
   "note": "All format strings and files. vfprintf(), strftime() and the databases are oracles; allocations succeed and colors are off. Files have fewer than 2^54 blocks."
  },
  {
   "property": "C28",
   "status": "proved",
   "theorems": [
    "C28_terminated",
    "C28_contents",
    "C28_concatenation",
    "C28_repeat",
    "C28_printf"
   ],
   "note": "All histories of the operations of dstring.c with any answers of the allocator and of vsnprintf, for strings below 2^60 bytes and sources that are not the destination itself."
  },
  {
   "property": "C29",
   "status": "proved",
   "theorems": [
    "C29_stable_sort",
    "C29_permutation"
   ],
   "note": "All lists and comparison functions."
  },
  {
   "property": "C30",
   "status": "proved",
   "theorems": [
    "C30_printx_roundtrip",
    "C30_printx_protected",
    "C30_print0_roundtrip"
   ],
   "note": "All lists of nonempty paths."
  },
  {
   "property": "C31",
   "status": "proved",
   "theorems": [
    "C31_safe",
    "C31_budget",
    "C31_pinned",
    "C31_eviction_order",
    "C31_all_closed",
    "C31_room_used_refuted"
   ],
   "note": "Over any list of operations of a walk and any answers of the system and the I/O queue. Finding F20 is about the room that is left unused."
  },
  {
   "property": "C32",
   "status": "proved",
   "theorems": [
    "C32_step",
    "C32_history",
    "C32_observe",
    "C32_doubly_step",
    "C32_doubly_history",
    "C32_doubly_attached"
   ],
   "note": "Singly- and doubly-linked lists with insert, append, prepend, splice, extend, remove, pop and iteration. SLIST_SPLICE needs two different lists, insertion a detached item."
  },
  {
   "property": "C33",
   "status": "proved",
   "theorems": [
    "C33_paths"
   ],
   "note": "As for C08. The name offset of roots is specified by dirname and basename (C18)."
  },
  {
   "property": "C34",
   "status": "proved",
   "theorems": [
    "C34_unique",
    "C34_refused"
   ],
   "note": "All sequences of callbacks, with the trie of C01 underneath; identities are pairs of 64-bit numbers."
  },
  {
   "property": "C35",
   "status": "proved",
   "theorems": [
    "C35_selected",
    "C35_order",
    "C35_not_descended"
   ],
   "note": "eval_callback over the visits of a walk of any tree (the walk contract is CbSpec.walk; that bftw.c meets such a contract is C08-C12). -quit, which ends the walk, and -unique (C34) are left out."
  },
  {
   "property": "C36",
   "status": "partial",
   "theorems": [
    "C36_hooks_partial",
    "C36_removal_refuted",
    "C36_signal_64_refuted"
   ],
   "note": "False in general (finding F8: registering a hook after removing the most recent of several drops the others; F9: signal 64 shares the list of the hooks for exits). Proved for all histories that avoid these."
  },
  {
   "property": "C37",
   "status": "proved",
   "theorems": [
    "C37_count_ones",
    "C37_count_zeros",
    "C37_leading_zeros",
    "C37_trailing_zeros",
    "C37_leading_ones",
    "C37_trailing_ones",
    "C37_first_leading_one",
    "C37_first_trailing_one",
    "C37_first_leading_zero",
    "C37_first_trailing_zero",
    "C37_bit_width",
    "C37_bit_width_0",
    "C37_bit_floor",
    "C37_bit_ceil",
    "C37_has_single_bit",
    "C37_rotate_left",
    "C37_rotate_right",
    "C37_rotate_word"
   ],
   "note": "All words and widths, for the portable definitions."
  },
  {
   "property": "C38",
   "status": "proved",
   "theorems": [
    "C38_lookups",
    "C38_cached"
   ],
   "note": "All histories of lookups and flushes with any answers of the system consistent with a fixed database, and any refused allocations. The arena that holds the entries is the store of the model; C22 is about arenas."
  },
  {
   "property": "C39",
   "status": "proved",
   "theorems": [
    "C39_xread",
    "C39_xread_ends",
    "C39_xwrite",
    "C39_xwrite_ends"
   ],
   "note": "All files, buffers and sequences of kernel answers."
  },
  {
   "property": "C40",
   "status": "proved",
   "theorems": [
    "C40_read_back",
    "C40_injective",
    "C40_unknown_type"
   ],
   "note": "All modes."
  },
  {
   "property": "C41",
   "status": "proved",
   "theorems": [
    "C41_newer",
    "C41_age",
    "C41_age_future",
    "C41_age_future_whole_refuted",
    "C41_used",
    "C41_parse_days",
    "C41_parse_duration",
    "C41_parse_duration_exact",
    "C41_parse_duration_range_refuted",
    "C41_parse_time_minutes",
    "C41_parse_time_ends",
    "C41_parse_min"
   ],
   "note": "For timestamps whose difference fits in time_t. Durations over 2^63 seconds wrap around (finding F22); timestamps in the future are rounded in two steps (finding F23)."
  },
  {
   "property": "C42",
   "status": "proved",
   "theorems": [
    "C42_date",
    "C42_getdate"
   ],
   "note": "Local times are converted by mktime(), which is an oracle."
  },
  {
   "property": "C43",
   "status": "proved",
   "theorems": [
    "C43_options",
    "C43_stat",
    "C43_cached",
    "C43_types"
   ],
   "note": "Up to the error number for missing files, which bfs does not distinguish either (ENOENT and ENOTDIR). Files do not change during a visit."
  },
  {
   "property": "C44",
   "status": "proved",
   "theorems": [
    "C44_loops_not_followed",
    "C44_everything_else",
    "C44_loops_reported",
    "C44_loop_path",
    "C44_bounded",
    "C08_walk_ends"
   ],
   "note": "A theorem about the walk of C08 over the unfolded graph of directories."
  },
  {
   "property": "C45",
   "status": "partial",
   "theorems": [
    "C45_extension_colors",
    "C45_smart_case_partial",
    "C45_order_refuted",
    "C45_hidden_refuted",
    "C45_forgotten_refuted"
   ],
   "note": "What happens is proved for all settings; that it is the intended color is proved for those in which case-sensitive extensions have two cases and neither hide nor are hidden, and refuted in general (F24)."
  },
  {
   "property": "C46",
   "status": "proved",
   "theorems": [
    "C46_path",
    "C46_link_target",
    "C46_name",
    "C46_path_safe",
    "C46_link_target_safe",
    "C46_text_printable",
    "C46_text_plain",
    "C46_cursor_refuted"
   ],
   "note": "White space is not counted as control characters, as in the code (F25)."
  },
  {
   "property": "C47",
   "status": "proved",
   "theorems": [
    "C47_complete",
    "C47_clean",
    "C47_shared",
    "C47_commands",
    "C47_nothing_else",
    "C47_noerror_refuted",
    "C47_exit_refuted",
    "C47_exit_256_refuted"
   ],
   "note": "-noerror and -exit are excluded in C47_complete and refuted separately (F26). Given to the file means accepted by write(2)."
  },
  {
   "property": "C48",
   "status": "proved",
   "theorems": [
    "C48_listing",
    "C48_exact",
    "C48_empty"
   ],
   "note": "The buffer is modelled byte by byte, with the 16-bit positions; a failing getdents() is assumed to lose no entries."
  },
  {
   "property": "C49",
   "status": "partial",
   "theorems": [
    "C49_name",
    "C49_path",
    "C49_lname",
    "C49_iname_partial",
    "C49_ipath_partial",
    "C49_ilname_partial",
    "C49_iname_refuted",
    "C49_big5_refuted",
    "C49_hidden_partial",
    "C49_hidden_refuted"
   ],
   "note": "The case-sensitive tests are proved for all locales in which ASCII bytes are always characters; false for Big5 (F29), for -iname with literal non-ASCII letters (F28) and for -hidden on ./ and ../ (F27)."
  },
  {
   "property": "C50",
   "status": "partial",
   "theorems": [
    "C50_names",
    "C50_fstype_partial",
    "C50_bind_mount_refuted"
   ],
   "note": "The full statement is false: bind mounts within one file system have the type unknown when statx() returns mount ids (F30). C50_fstype_partial says that the type is right or unknown, and unknown only for mounts on the device of their parent directory."
  },
  {
   "property": "C51",
   "status": "proved",
   "theorems": [
    "C51_deletes",
    "C51_same_result",
    "C51_plain",
    "C51_empty"
   ],
   "note": "For -S bfs and -S dfs, without -unique, -X and mount options. Files are told apart by their place in the tree: a file reached on two paths counts as two."
  },
  {
   "property": "C52",
   "status": "partial",
   "theorems": [
    "C52_started",
    "C52_exec_started",
    "C52_no_pipe",
    "C52_possible_partial",
    "C52_execdir_refuted",
    "C52_hidden_refuted",
    "C52_open_refuted",
    "C52_dup2_refuted"
   ],
   "note": "That what is started is right is proved in full for the actions that bfs uses (closing, duplicating to another descriptor, changing directory, limits). That everything possible is started is false: see F31 and F32; C52_possible_partial excludes these two cases. Opening a file or duplicating a descriptor to itself goes wrong with fork() (F33); bfs itself does neither."
  },
  {
   "property": "C53",
   "status": "partial",
   "theorems": [
    "C53_posix",
    "C53_onig_partial",
    "C53_onig_invalid",
    "C53_onig_refuted",
    "C53_prompt_yes",
    "C53_prompt_all"
   ],
   "note": "Proved in full for the C library's regexec(). With Oniguruma the statement is false, as it stops at the first match and not at the longest (F34): C53_onig_partial shows that nothing else matches, and that everything does if the expression ends with $."
  },
  {
   "property": "C54",
   "status": "proved",
   "theorems": [
    "C54_worker",
    "C54_stop_refuted"
   ],
   "note": "With the hypothesis that the stop request is the last of its batch. Without it the statement is false, as for C13 (F21)."
  },
  {
   "property": "C55",
   "status": "partial",
   "theorems": [
    "C55_fits_partial",
    "C55_shows",
    "C55_region",
    "C55_newline_refuted"
   ],
   "note": "False for paths with tabs, newlines and other white space that is not printable, which are written to the terminal as they are (F35). C55_fits_partial is the statement for all other paths."
  },
  {
   "property": "C56",
   "status": "proved",
   "theorems": [
    "C56_highlight",
    "C56_underline"
   ],
   "note": ""
  },
  {
   "property": "C57",
   "status": "partial",
   "theorems": [
    "C57_never_aborts_partial",
    "C57_never_aborts_O0",
    "C57_comma_refuted"
   ],
   "note": "False for expressions with commas (F36). C57_never_aborts_partial is the statement for expressions without commas whose primaries the data flow analysis treats correctly, at every level; C57_never_aborts_O0 is for all expressions at -O0."
  },
  {
   "property": "C58",
   "status": "proved",
   "theorems": [
    "C58_search",
    "C58_quit",
    "C58_limit",
    "C58_count",
    "C58_same"
   ],
   "note": "End to end: the models of the walk, of eval_callback and of the optimizer put together. Hypotheses, bundled in the record searches: the expression is one that C05-C07 are proved for (any at -O0 and -O1), no -unique, no -xdev together with -depth (F17) but for -S ids, with -S ids and -S eds all files can be examined and have different paths (F18, F19), and tests and actions on a file depend on that file only."
  },
  {
   "property": "C59",
   "status": "partial",
   "theorems": [
    "C59_within_limit_partial",
    "C59_nothing_wasted",
    "C59_always_walks",
    "C59_limits",
    "C59_exclude_refuted",
    "C59_names_refuted"
   ],
   "note": "Together with C31 for the cache. The full statement is false for -exclude, whose needs are not counted, and for -ls and -printf %u or %g, for which nothing is put aside (finding F37): C59_within_limit_partial excludes those (accounted). Not counted either: a status bar that is first shown after a signal."
  },
  {
   "property": "C60",
   "status": "partial",
   "theorems": [
    "C60_type",
    "C60_user",
    "C60_user_error",
    "C60_uid_refuted",
    "C60_numbers_partial",
    "C60_inum_refuted",
    "C60_samefile",
    "C60_sparse_partial",
    "C60_sparse_refuted",
    "C60_nouser_partial",
    "C60_nouser_refuted",
    "C60_flags",
    "C60_no_flags",
    "C60_empty",
    "C60_unknown"
   ],
   "note": "The full statement is false for -uid and -gid with users named by numbers, -nouser and -nogroup when the lookup fails, -inum with inode numbers of 2^63 or more, and -sparse with sizes close to 2^63 (finding F38); the _partial theorems exclude these."
  },
  {
   "property": "C61",
   "status": "partial",
   "theorems": [
    "C61_names",
    "C61_one_list",
    "C61_all_or_none_partial",
    "C61_memory_refuted",
    "C61_roots",
    "C61_terminates",
    "C61_message_partial",
    "C61_message_refuted",
    "C61_delimiter_refuted"
   ],
   "note": "The full statement is false: there is no message if reading fails, and with a C library whose getdelim() does not set the error indicator when memory runs out, the list is cut short silently (finding F39)."
  },
  {
   "property": "C62",
   "status": "partial",
   "theorems": [
    "C62_safe",
    "C62_spin_refuted",
    "C62_not_while_running",
    "C62_not_after",
    "C62_one_shot",
    "C62_order",
    "C62_no_wait",
    "C62_returns",
    "C62_delivery_partial",
    "C62_delivery_refuted"
   ],
   "note": "The full statement is false: where sem_init() fails, a handler may read a hook that was freed (finding F40), and hooks may get lost after the newest one of several was removed (finding F8). The rest holds for every interleaving; memory is sequentially consistent."
  },
  {
   "property": "C63",
   "status": "partial",
   "theorems": [
    "C63_acl_partial",
    "C63_access_error_refuted",
    "C63_default_error_refuted",
    "C63_capable",
    "C63_xattr",
    "C63_xattrname",
    "C63_context_partial",
    "C63_context_leak_refuted"
   ],
   "note": "The full statement is false: the error for one of the two ACLs of a directory is lost if there is none for the other, and -context never frees the path (finding F41). The rest is proved."
  },
  {
   "property": "C64",
   "status": "partial",
   "theorems": [
    "C64_reference",
    "C64_age",
    "C64_newer",
    "C64_local_date",
    "C64_mktime",
    "C64_daystart",
    "C64_daystart_midnight",
    "C64_daystart_again",
    "C64_days_partial",
    "C64_daystart_midnight_refuted",
    "C64_days_refuted",
    "C64_calendar_refuted",
    "C64_suggestions_partial",
    "C64_suggestions_refuted"
   ],
   "note": "The full statement is false where the clocks change between the file's time and the end of today, for files from exactly midnight, and for suggestions in zones less than an hour behind UTC (finding F42). Proved: everything else, and -daystart for all times with the same offset from UTC."
  },
  {
   "property": "C65",
   "status": "proved",
   "theorems": [
    "C65_safe",
    "C65_later"
   ],
   "note": ""
  },
  {
   "property": "C66",
   "status": "partial",
   "theorems": [
    "C66_escapes",
    "C66_escapes_invalid",
    "C66_colors_partial",
    "C66_setting_unique",
    "C66_safe",
    "C66_empty_refuted"
   ],
   "note": "The full statement is false for empty settings: the one after it has no effect (finding F43). Proved: everything else, for every string."
  },
  {
   "property": "C67",
   "status": "partial",
   "theorems": [
    "C67_line_partial",
    "C67_error",
    "C67_lines_partial",
    "C67_columns",
    "C67_unreadable_refuted"
   ],
   "note": "The full statement is false for links that cannot be read: the next line is glued to theirs (finding F44). Proved: everything else. Lines are one per file if there are no newlines in paths, link targets and dates."
  },
  {
   "property": "C68",
   "status": "proved",
   "theorems": [
    "C68_settings",
    "C68_accepted",
    "C68_order",
    "C68_position_refuted"
   ],
   "note": "The refuted statement is a stronger one, that the position does not matter at all: -nocolor, -L and -E have no effect on files and patterns that come before them (finding F47)."
  },
  {
   "property": "C69",
   "status": "proved",
   "theorems": [
    "C69_format",
    "C69_same",
    "C69_reset",
    "C69_safe",
    "C69_args",
    "C69_numbers"
   ],
   "note": ""
  },
  {
   "property": "C70",
   "status": "proved",
   "theorems": [
    "C70_dump",
    "C70_possible",
    "C70_silent",
    "C70_all_refuted",
    "C70_roots_refuted",
    "C70_name_refuted",
    "C70_depth_refuted"
   ],
   "note": "For messages without colors; C69 says what colors add.  The name of the command must not need quotes, and there has to be a path: otherwise it is false of the code (C70_name_refuted, C70_roots_refuted).  So it is for a negative maxdepth, which only the optimizer sets (C70_depth_refuted)."
  },
  {
   "property": "C71",
   "status": "proved",
   "theorems": [
    "C71_linux",
    "C71_within",
    "C71_limit",
    "C71_large_refuted"
   ],
   "note": "For commands other than {} itself.  How Linux counts the size of a command is part of the specification.  With larger stacks, commands are refused at first and made smaller (C71_large_refuted, finding F49), but no path is lost."
  },
  {
   "property": "C72",
   "status": "proved",
   "theorems": [
    "C72_calls",
    "C72_full",
    "C72_time",
    "C72_eperm_refuted"
   ],
   "note": "For Linux; what fstatat() and statx() do is part of the specification.  Without the condition on EPERM, C72_full is false (C72_eperm_refuted, finding F50)."
  },
  {
   "property": "C73",
   "status": "proved",
   "theorems": [
    "C73_dialogue",
    "C73_asked",
    "C73_question",
    "C73_newline_refuted",
    "C73_stdin_refuted"
   ],
   "note": "That one line is read for each question needs commands that do not read standard input (C73_stdin_refuted, finding F51); that commands are run only after a yes does not.  Names are shown as they are (C73_newline_refuted, finding F52)."
  },
  {
   "property": "C74",
   "status": "proved",
   "theorems": [
    "C74_session",
    "C74_update",
    "C74_text",
    "C74_resize",
    "C74_absent",
    "C74_full_refuted"
   ],
   "note": "Each sequence arrives as a whole, and the terminal behaves as in TtySpec.  If text ends in the last column, its last character is erased (C74_full_refuted, finding F53)."
  },
  {
   "property": "C75",
   "status": "partial",
   "theorems": [
    "C75_exclude_partial",
    "C75_expr_partial",
    "C75_nothing_partial",
    "C75_once",
    "C75_once_refuted",
    "C75_size_refuted"
   ],
   "note": "For expressions without commas whose primaries are tame (see C06), for files that do not change while they are being evaluated, and for the warnings of the data flow pass at -O3 and -O4 (C75_nothing at every level).  With two units of -size the warnings can be wrong (C75_size_refuted, because of finding F1), and -O2 repeats warnings (finding F54)."
  },
  {
   "property": "C76",
   "status": "partial",
   "theorems": [
    "C76_signals_partial",
    "C76_memory_partial",
    "C76_unnoticed",
    "C76_added",
    "C76_forked",
    "C76_spawned_partial",
    "C76_ignored_refuted",
    "C76_spawned_refuted"
   ],
   "note": "Signals that bfs was told to ignore kill it once there are hooks for exits, and are no longer ignored by commands that posix_spawn() starts (finding F55); proved for all others, and for those as long as no hook concerns them.  Signal 64 is not included (finding F9)."
  },
  {
   "property": "C77",
   "status": "partial",
   "theorems": [
    "C77_once_partial",
    "C77_directories",
    "C77_some",
    "C77_ids_depth_refuted"
   ],
   "note": "False for -S ids with -depth: duplicates are evaluated on their last visits (finding F56); proved for all other searches, and for directories."
  }
 ]
}