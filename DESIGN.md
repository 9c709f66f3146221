# Formal model of bfs in Rocq

This directory holds a machine-checked model of `tavianator/bfs` (sources in `/repo/src`), with
theorems for the properties listed in `properties.jsonl`.

## Layout

Each area `X` of the code has four files in `rocq/theories/`:

* `XModel.v`: the model. Only definitions, each citing the lines of `/repo` it models.
* `XSpec.v`: a small specification that does not mention the model's helpers (sometimes merged with the
  properties file when it is only a line or two).
* `XProofs.v`: lemmas.
* `XProperties.v`: the property theorems only, each closed by `exact lemma.`, followed by
  `Print Assumptions`, with `Example`s showing that concrete non-trivial cases meet the hypotheses.

A theorem whose name ends in `_partial` proves less than the property says; the comment above it says what
is missing. A theorem whose name ends in `_refuted` gives a concrete counterexample to the property
as stated: it is a finding about the code (see "Findings").

## Areas

| prefix | code modelled |
|--------|---------------|
| Bit, Alloc, Dstr, List, Trie | bit.h fallbacks; alloc.c/alloc.h arenas; dstring.c; list.h; trie.c |
| Path, Io, Quote, Num, Mode | bfstd.c: paths, read/write loops, quoting, number parsing, xstrmode; parse.c: numbers and sizes |
| Tm, Ts, Age | xtime.c; timestamps; eval.c's and parse.c's time tests and their arguments |
| Sort, Printx | bftw.c's list sort; eval.c's -printx/-print0 encoders |
| Typo, Suggest, Sig, Pw | typo.c, and table_lookup_fuzzy() with the decision about unknown words in parse.c 3283-3329 on the table of the Gram model; sighook.c; pwcache.c |
| Expr, Opt | eval.c's operators; opt.c |
| Cb | eval.c 1230-1252 and 1457-1551: the callback and its filters, over an abstract walk (`CbSpec.walk`) |
| Exec | exec.c |
| Perm, Format, Gram | parse.c: -perm modes; printf.c; parse.c's command line grammar |
| Bftw | bftw.c: queues, files, paths, callback, garbage collection and the main loop, with the I/O queue as a set of requests that are answered in any order; without the cache of open directories, which is an oracle there |
| Deepen | bftw.c 2154-2328: the callback of iterative and exponential deepening and their rounds, over the walks of Bftw; the set of pruned paths is a list instead of a trie |
| Cache | bftw.c 546-861 and 981-1676: the cache of open directories with its list, target, pins, background opens, unwrapping and dup(); which descriptors the system gives, which calls fail and when the I/O queue answers are oracles, and the walk is any list of operations |
| Ioq | ioq.c 231-532, 600-612, 939-968 and 1175-1306: slots as 64-bit words, tickets, skips, monitors with their mutexes and condition variables, batches, the loop of synchronous workers and the owner's calls; one step is one atomic access, in any interleaving, with spurious failures and wakeups. Memory is sequentially consistent. Workers that use io_uring are modelled in Ring; not modelled is the time that threads spin |
| Stat | stat.c 287-332, bftw.c 43-191, 1412-1452, 1732-1752, 1978-1986, eval.c 986-1037: system calls with and without links, the two cached buffers with their aliasing, types, and the check for cycles. Whiteouts and other systems are left out; what the system says of a file does not change during a visit. Cycles: the graph of directories is unfolded to any sufficient depth and walked by the Bftw model |
| Ext | color.c 187-393 on the Trie model: settings for extensions, smart case, the two tries and the lookup. Allocations succeed; pointers are numbers in the order of allocation, which is also the priority; the parser of $LS_COLORS is left out. |
| Col | color.c 770-1240 on the Path and Quote models: the parts of a path, the color of a file, the escape sequences. What the file system answers is a record of functions; allocations succeed; doors and whiteouts, which Linux does not have, are left out. |
| Out | ctx.c 94-290, parse.c 335-370 and 3865-3880, eval.c 56-122, 440, 800-880, 1698-1796, main.c 144-151: the table of open files, stdio streams with a buffer and an error flag, messages on standard error, the exit status. Every write, flush and close may accept all, or some and fail. |
| Dir | dir.c 64-345 with getdents64() on x86-64 Linux, and eval_empty(): the 64 KiB buffer as bytes with 16-bit positions, the layout of struct dirent64. The kernel is any function meeting the contract `lists` of DirSpec.v. |
| Name | parse.c 1080-1120, eval.c 160-171, 553-566, 590-651, bfstd.c 807-841 on the Path model: the pattern tests. fnmatch() is any function that agrees with the specification of patterns; the locale is a decoding of bytes to characters. |
| Mtab | mtab.c as built with getmntent(), on the Trie and Path models. open(), statx() and getmntent() are functions; allocations succeed; mounts do not change while the types are filled in. |
| Del | src/eval.c eval_delete and eval_callback as the callback of the walk of C08; unlinkat() and lstat() are modelled on the places of files |
| Spawn | src/xspawn.c, and exec.c 362-382. SpawnModel.v, SpawnSpec.v, SpawnProofs.v, SpawnProperties.v. posix_spawn() is a function assumed to do what POSIX says (`posix_right`); open(), faccessat() and execve() are functions of a directory and a path; allocations succeed, fork() succeeds and $PATH is set; signals are a mask, whether there are handlers, and whether one ran in the child; bfs_spawn_resolve() is left out |
| Regex | xregex.c 253-314, eval.c 913-931, bfstd.c 372-424. Expressions are compiled already: a tree without back-references, over the characters of a locale that splits strings. regexec() is any function that finds the leftmost longest match; Oniguruma is the list of the matches that a backtracking matcher tries, in order |
| Ring | ioq.c 474-532 and 599-984: one background thread, with io_uring or without. What the queue, the kernel and the clock do is given by an arbitrary sequence of moments. The rings are lists; the kernel accepts any number of the entries, completes them in any order and with any result, and waits only if all were accepted. Setting up the ring is not modelled |
| Bar | eval.c 1145-1227, bar.c 56-112, bfstd.c 1006-1035, with the quoting of bfstd.c 959-1278. Text is decoded by an arbitrary locale without shift states, with arbitrary widths. What dstrprintf() makes of the counters is a parameter; signal handlers and the sequences of bfs_bar_update() are not modelled |
| Diag | diag.c 126-262, with bfstd.c 1006-1035 and the quoting of bfstd.c 959-1278. Expressions are trees with the index of their first argument on the command line; what is written is a sequence of texts and changes of color |
| Assert | eval.c 1060-1142 and 1508-1536 with the assertions, on the trees and annotations that the model of the optimizer (Opt) produces |
| Search | eval.c 1457-1551 as the callback of the walk (Bftw), with the expressions that the model of the optimizer (Opt) produces |
| Fd | eval.c 1554-1637 and 1725-1741 (limits on descriptors), expr.c 55-68 and parse.c's persistent_fds and ephemeral_fds, bftw.c 909-926 (shares of the walk and its threads), exec.c 375-380 (limits of commands) |
| Meta | parse.c 1512-1579 and 2483-2548, eval.c 317-371, 457-525, 571-590, 936-943 and 973-988 (tests on metadata) |
| Files | bfstd.c 174-189 (xgetdelim), parse.c 272-282, 420-437, 3523-3587 and 3614-3622 (-files0-from and roots) |
| Rcu | sighook.c 39-313 (arc, rcu, rcu_list), 455-483, 610-627 and 662-675, as steps of threads |
| Attr | fsade.c 46-513 on Linux, with eval_acl(), eval_capable(), eval_context(), eval_xattr() and eval_xattrname() in eval.c |
| Day | -daystart, -newer*, -since, -min, -time and stat_arg() in parse.c, xmktime() in xtime.c, and the messages about invalid dates |
| Std | open_std_streams(), redirect() and isopen() in main.c |
| Ls | unescape(), parse_gnu_ls_colors(), set_esc() and parse_colors() in color.c: the format of $LS_COLORS |
| Fls | eval_fls(), print_owner() and print_time() in eval.c, with print_link_target() in color.c |
| Setup | the parts of bfs_parse_cmdline() and of the parse_*() functions in parse.c that change settings, and bfs_ctx_new() in ctx.c |
| Fmt | cvfprintf(), cvbuff(), cbuff(), print_expr(), print_expr_args() and print_expr_name() in color.c |
| Dump | bfs_ctx_dump(), dump_expr_multiline() and bftw_strategy_name() in parse.c; bfs_debug_prefix(), debug_flag_name() and bfs_cmd() in diag.c |
| Argmax | exec.c 52-107: the limit on the size of commands, in 64-bit arithmetic, on the Exec model. How execve() of Linux counts sizes, and what sysconf() of the GNU C library reports, are specified in ArgmaxSpec.v |
| Statx | stat.c 62-371 and xmakedev(): the conversion of both system calls' results, flags, the fallback from statx() to fstatat(), and broken links, over sequences of calls. The two system calls of Linux are specified in StatxSpec.v |
| Ask | exec.c 331-351 with -ok, ynprompt() and the buffers of stdin and stdout, on the Exec, Regex and Files models. Flushing succeeds (failures: C47) |
| Tty | bar.c 24-220 as used by eval.c 1409-1470, and a terminal: cursor, wrapping, scrolling region, scrolled off lines, colors, and the escape sequences that are used. Text and updates may come in any order, but each arrives as a whole |
| Warn | opt.c 616-641, 1761-1857 and 2140-2297 where they warn. Not modelled: warnings of simplify (2019, 2066, 2106), the question that follows a warning on a terminal, -nowarn |
| Disp | sighook.c 343-530 and 545-693, xspawn.c 600-612: dispositions, the kernel's default actions (Linux numbers), blocked signals, errno. Hooks in plain lists (C36 and C62 are about the lists), no SH_ONESHOT, one thread. Not modelled: macOS, SA_RESTART |
| Uniq | eval.c 1230-1252 and 1457-1551 as the callback of all searches of bftw.c (Bftw, Deepen, Cb): the trie of seen files, for systems where stat() and allocations succeed. Files keep their types and identities |

Files that do not follow the four-file scheme exactly (`ExecRuns.v`, `GramPrims.v`, ...) hold lemmas.

`seeded/LOG.jsonl` lists edits of the models that were tried. The theorems under `failed` are those whose proofs, or the proofs of lemmas they rest on, no longer go through; that
does not mean that each of them was shown to be false of the edited model. `(file not compiled)` marks theorems in files that could not be checked because a file they need did not compile. Entries with no failed theorem have a note that says why.

## Plan per property

| id | model | proof |
|----|-------|-------|
| C01-C03 | trie nodes as bitmap (N) + children list, relative offsets, leaves with identity, insertion-ordered leaf list; OFFSET_MAX and allocation outcomes are parameters | invariant (all leaves of a subtree agree on every nibble before the node's offset; child i's leaves carry that nibble; bitmap matches children) by induction over histories; refinement to a finite map |
| C04 | the four operator evaluators plus `quit` over history-dependent leaf oracles | refinement to a big-step specification of the find grammar |
| C05-C07 | opt.c's passes on annotated trees; costs are an oracle | simulation: equal event history, equal result unless ignored, equal quit; data flow: an abstract domain describing the file, sound transfer functions, facts true on every path (OptDomain, OptFlow); refutations for the unsound corners |
| C08-C11, C33 | bftw queue/file/refcount step machine over an inductive file tree, with an oracle for completion order | invariant over pending work (multiset), refcount invariant, queue refinement |
| C12 | bftw_ids/bftw_eds drivers over a walk specification | induction on rounds; for last visits, what the rounds before have found says which files a walk is told of and which it goes into |
| C13 | the slot protocol as an interleaving transition system, down to single loads, compare-and-swaps and lock operations | simulation by a coarser system whose steps are whole slot accesses; there, invariants about words, tickets, entries and the stop request; on the concrete system one about mutexes and sleepers; a counting argument about states in which nobody can go on |
| C14-C16 | exec.c state machine over path sequences with a kernel E2BIG oracle | invariant by induction over the sequence |
| C17 | wordnesc over an abstract multibyte decoder; separate shell-word reader as the specification | induction on the string |
| C18 | path functions on byte lists | direct, against a POSIX-style specification |
| C19-C20 | xtimegm fallback over Z with explicit C-overflow outcomes | arithmetic, against a day-counting calendar specification |
| C21 | the two-row dynamic program | equality with the minimum over inductively defined edit scripts |
| C22 | arena and varena over address arithmetic modulo 2^64 | invariant over histories |
| C23-C27 | recursive-descent parsers over token/byte lists with explicit fuel | equivalence with inductive grammars / denotations |
| C28 | dstring header (cap, len, bytes) | refinement to byte strings |
| C29 | the in-place merge sort on lists | sorted, permutation, stable |
| C30 | output encoders and independent decoders | round trip |
| C31 | heap of files with reference and pin counts, LRU list and target pointer; a log of descriptor events with an independent specification | invariant over operations |
| C32 | heap model of the list macros with tail pointers as addresses | refinement to sequences |
| C34-C35 | eval_callback's filters | direct/induction |
| C36 | the RCU hook list with `self` and `tail` pointers | refinement; refutation if the code is wrong |
| C37 | bit.h's fallback formulas over N modulo 2^w | arithmetic for every width |
| C38 | pwcache over the trie's map interface and a database oracle | induction over lookups |
| C39 | xread/xwrite against a stream of system call outcomes | induction |
| C40 | xstrmode | injectivity |
| C41 | eval.c's time tests over timespecs with explicit overflow; parse_time's loop with fuel, in arithmetic modulo 2^64 | arithmetic on instants in nanoseconds; induction against an inductive grammar of durations |
| C42 | xgetdate on byte lists, over xtimegm (C19) and an oracle for mktime | equivalence with an inductive grammar of dates |
| C43 | the two buffers of a visit, as pointers into memory, filled by any series of calls; system calls as oracles that agree with a record of facts | invariant on the buffers: each known answer is the right one, unknown ones own their buffer; types by cases |
| C44 | directories as a finite graph, unfolded for the Bftw model; the loop over ancestors | the pigeonhole principle bounds paths without loops; induction along paths with the theorems of C08 and C09 |
| C45 | the two tries of TrieModel, as lists of strings with pointers | refinement of each trie operation; the longest match is the last one by induction over insertions; an invariant for the flags of smart case; refuted in general |
| C46 | print_path() etc. with an output buffer, over what stat() etc. answer; uninitialised and null pointers are a separate outcome | invariants of the position in the path; the longest existing part by induction; masks as bits; quoting by reduction to C17 |
| C47 | the table of files, the streams, one event per action, message, command or exit, and the end of the program, over arbitrary outcomes of writes | invariant: each stream has what was printed to it, or its error is still recorded somewhere; induction over the events |
| C48 | the buffer, polling, reading, over any kernel that gives the entries in pieces or fails | invariant: the buffer holds the encoding of some entries, the kernel has the others; induction over the operations |
| C49 | parse_fnmatch(), eval_fnmatch() and the tests over fnmatch() and a locale; patterns specified by tokens and a matching relation | parity of trailing backslashes against the tokens; literal patterns have only literal tokens; doubling of the buffer for links |
| C50 | the table as a list; the kernel's view of paths as a function, with a predicate for roots of mounts | the tries are related to finite maps (C01); the last entry that contributes a mount id is the last one for its path |
| C51 | the set of removed places as the user state of the walk model | when a file is tried, nothing below it is visited later (C08's order), so the final set satisfies a recursive equation; the equation has one solution by induction from the bottom of the tree |
| C52 | a process is a table of descriptors, a directory, limits and signals; fork() copies it; the pipe is two entries of the table | an invariant relates the child's table to the specified one everywhere except at the pipe, which always has FD_CLOEXEC and is never where an action writes |
| C53 | the two implementations of bfs_regexec() | the backtracking matcher tries exactly the matches of the relation, by induction on expressions; byte offsets and character positions are compared by lengths |
| C54 | a thread of the I/O queue, as the trace of what happens to each request | an invariant about where each request is (batch, submission queue, kernel, completion queue, ready batch), what has happened to it there, and the counters |
| C55 | the text for a path and a width, and the sequence for a height | the escaped text is a sequence of printable characters, whose columns add up over the loop; the digits are read back |
| C56 | the marked arguments of an expression, and the two lines | induction on the tree; the second line is a concatenation of cells, whose columns are compared with where words start |
| C57 | evaluation that stops at a failed assertion | after each round, the marks of every operator follow from those of its operands, and those of the primaries that are evaluated are right |
| C58 | the walk, or iterative or exponential deepening, calls the model of eval_callback with the optimized command line; the user data is the list of actions | the visits of the walk (C08, C09, C10) or the first and last visits of deepening (C12) and the equality of one visit before and after optimizing (C07) determine for each file where and how often it is evaluated; for -limit, the calls of a search are those of one without -limit that quits at the file where the limit is reached |
| C59 | arithmetic on limits as in C, with the conversion to int; sums and maxima over expressions; the cache of C31 | case analysis on the limits, induction on the expression, and C31's budget for what the walk has open |
| C60 | parsers and tests as functions of the argument and of what the system says | induction on the argument for -type, C24's theorems on numbers, bitwise reasoning for -type and -flags |
| C61 | a stream of bytes which ends or fails; getdelim() with what differs between C libraries as parameters | induction on the bytes that are left |
| C62 | the steps of handlers and of the thread that changes the list, interleaved in any way; freed memory is a distinct outcome | an invariant on who holds which reference; a measure for termination; for delivery, that no pointer which may be followed passes over a hook |
| C63 | the calls of the C library as functions of a path; the state that is shared by tests is whether /proc works and how many strings are allocated | by cases; induction over the entries of an ACL |
| C64 | the C library's localtime(), gmtime() and mktime() are functions of which only what ISO C and POSIX say is assumed, with a time zone that has two offsets from UTC; the words are looked up in the parse table | arithmetic; inversion of the table lookup; the grammar of dates of C42 |
| C65 | the table of descriptors as a list, open(), dup2() and close() as POSIX describes them; any call may fail | cases on the three descriptors |
| C66 | pointers into strings, with an outcome for those past the end; the table of names as a list of pairs; memory does not run out | an inductive grammar of escapes and settings; induction on the string and on the list of settings |
| C67 | printf() conversions with widths as padding; passwd and group names, strwidth, localtime() and strftime() are functions; no colors | a reader of words; arithmetic on decimal digits; induction on the files |
| C68 | calls with their arguments (those of C23) applied in order to a record of settings; terminals, the environment, the number of processors and the answer to a question are inputs | the state after any calls as a function of them; one lemma for each name; a canonical form for orders |
| C69 | formats as bytes, values as a list, what is printed and whether a color is on as the state; printf() of doubles is an input | formats as sequences of pieces, by induction; that the loop accepts nothing else by cases on bytes; quoting from C17 and files from C46 |
| C70 | what is printed by cfprintf() as the state, settings from C68, expressions as trees with the leaves of C69 | the words that are printed are quoted words (C17) of a list of flags and options, that the grammar of C23 reads and C68 gives a meaning to; the tree by induction |
| C71 | bfs_exec_arg_max() over environments; the machine of C14 with a system that follows the rule of Linux | a run depends on the answers to the commands that are tried only, so the system can be replaced by the ones of C14's theorems; arithmetic |
| C72 | bfs_stat() over sequences of calls with the flag that says whether statx() works | bits of flags and masks; case analysis; induction over the calls |
| C73 | -ok over a list of files, with an input that comes in pieces of any size and is shared with commands | reading a line from a buffer and a file is reading it from their concatenation; induction over files; lengths of questions |
| C74 | a terminal as a state machine over bytes, and sessions: the bar is shown, text and updates are written, and it is hidden | text acts on an abstract transcript, wherever the lines are on the screen; each sequence of the bar leaves the transcript alone; simulation of the terminal with a bar by one without |
| C75 | the warnings of the data flow pass by the number of the primary, and an account of which primaries are evaluated with which results | canonicalization keeps the account; induction with the soundness of the data flow analysis; a bottom domain describes no file |
| C76 | a process with dispositions, blocked signals and hooks; the kernel delivers signals; histories with failing allocations | an invariant: the handler is installed exactly for the saved signals, which have their original dispositions; hooks have handlers |
| C77 | eval_callback() of Cb as the callback of the walks of Bftw and Deepen | an invariant of the calls (the trie holds the files of one name each, and only those names are evaluated), with the facts about visits of C11 and C12: one first and one last visit of each name, the last one only of directories that were entered |

## Trusted base

* Coq 8.16.1's kernel (and `vm_compute` for the concrete examples).
* `Print Assumptions` appears below every property theorem. Expected result: "Closed under the global
  context". Any standard library axiom is listed here by name: none so far.
  `coqchk` also reports seven fields of `Coq.ssr.ssrunder.Under_rel`, which the standard library's
  `ZifyBool` loads; no theorem depends on them.
* The reading of the C code: the model was written by hand from the text of `/repo`. Each definition cites
  the lines it models; simplifications are stated in the comment on the definition.
* Not modelled anywhere: the memory of the C program below the level described in each model file,
  the compiler, the operating system and the C library (oracles, as in the table below), Windows-like and macOS-only branches,
  `-help` and its pager (parse.c 2599-2689), the debug output of `-D` except for the dump of the command line (C70), and the
  parsing of the regular expression's syntax (bfs_regcomp(), regcomp() and Oniguruma). Of smaller functions, these have no
  model: xstrerror(), launch_pager(), parse_samefile() and parse_context() beyond their arguments, parse_unique(), the odds and
  costs printed by `-D cost` and `-D rates`, ioq_ring_init() and ioq_thread_create() (set-up of rings and threads). Data races are modelled as interleavings of the
  atomic operations that the model files name (Rcu, Ioq, Sig), with sequentially consistent memory.
* Oracles. All are section variables or fields of an environment record, so each theorem quantifies over them; what a theorem
  needs of them is a hypothesis in its statement. The last column is a summary: the theorems and the named records in the Spec
  files are what counts. Areas that are not in the table have no oracles.

  | Area | Oracle | What is assumed of it |
  |---|---|---|
  | Bftw, Deepen, Search, Uniq | the directory tree, `look` (types told by the system at each call), `choose` (which request is answered first), `callback`, `collate` | names are not empty and have no `/` (`named`); C12, C58, C77: types do not change, different files have different paths; C10: `collate` is a total preorder |
  | Cache, Fd, Ioq, Ring | schedules, failures of open(), close() and of io_uring operations | none beyond what each state machine allows |
  | Expr, Opt, Assert, Warn | results of tests (`behaviour`), float operations, user and group databases | C06, C07, C75: the results agree with one file (`about`), and the primaries are `tame` |
  | Exec, Argmax, Spawn, Ask | execve() and its limits, posix_spawn(), access(), chdir(), what is typed and how it is decoded | Spawn: a file that can be run can be accessed, absolute paths mean the same in all directories (`sane`), and posix_spawn() does what POSIX says (`posix_right`) |
  | Day, Age, Tm, Fls | localtime(), gmtime(), mktime(), strftime() | Day: they agree with one time zone that has a standard and a summer time, and mktime() does not fail in the year of the second before the epoch (`library`) |
  | Stat, Statx, Meta, Attr, Mtab, Pw | stat(), statx(), getxattr() and the like, the mount table, account databases | Statx: statx() and fstatat() tell of the same files; Mtab: the table is `right` and system calls agree with it (`tells`); Pw: all answers come from one `database` |
  | Dir, Io, Out, Files | getdents(), read(), write(), flushes and closes, in any pieces and with any failures | Dir: getdents() gives the remaining entries in order, as well-formed records, and loses none (`lists`) |
  | Name, Regex, Col, Quote, Diag, Bar, Fmt, Dump, Dstr | the locale: decoding of characters, widths, character classes; fnmatch(), regexec() | Name: ASCII bytes are always characters and others never give ASCII characters (`transparent`), as in UTF-8 but not in Big5; Bar, Tty: no shift states, no negative widths, printable ASCII has width 1 (`sane`) |
  | Tty | a terminal that follows the control sequences it is sent | the sequences of src/bar.c have their VT100 meanings (TtySpec) |
  | Sig, Rcu, Disp | delivery of signals, sigaction(), failures of allocations | Disp: signals 9, 19, 32 and 33 cannot be changed, and those that cannot be changed start at their default (`system`) |
  | Trie, Pw, Alloc, Cb, Ext | failures of allocations; `omax`, the largest offset of a trie node | `omax` is at least 1 |
  | Del | a disk on which unlinkat() removes files and empty directories | nothing keeps files from being removed (`plain`), where stated |
  | Gram, Setup, Num, Perm, Std, Suggest, Typo | the environment of the command line: isatty(), variables, isspace() | none, or stated in the theorem |
* For C47, bytes are counted as written when write(2) has accepted them, and errors from closing standard output
  or standard error after a successful flush are not looked at by the code (ctx.c 209-240, color.c 755) and not modelled.

## Findings

Each is a theorem about the model named `..._refuted`, with a concrete witness.

* **F1, `-size` units (C06, C07).** Data flow analysis (opt.c 1707) compares `-size` arguments without
  their units: `-size +10k -size -5M -print` becomes `-false` at -O2 and above. `C07_size_units_refuted`; the warnings about it are wrong, too (`C75_size_refuted`).
* **F2, `-samefile` (C06, C07).** When `-samefile` is false, its inode number is removed from the possible ones
  although another device may have a file with that number (opt.c 1696). `C07_samefile_refuted`.
* **F3, `-uid`/`-gid` (C06, C07).** `-uid N` for an existing user N makes the analysis assume, in the branch
  where the test is false, that the file's owner does *not* exist (opt.c 1726 calls data_flow_pred, which
  constrains both branches). `-uid 1000 -o -uid 1001` then folds its second test to `-false`. `C07_uid_refuted`.
* **F4, ignored operands of a comma (C06, C07).** A pure operand before a comma is ignored even if it
  short-circuits an action: `( -true -o -print ) , -print` should print each file once, and prints it twice. `C07_comma_refuted`.
  A negated operand is worse: `! -name x , -print` becomes `-false` and prints nothing. `C07_comma_not_refuted`.
* **F5, typo distance (C21).** Characters without an entry in the keyboard table all have coordinates (0, 0, 0), so
  different strings of such characters (for example non-ASCII ones) have distance 0. `C21_typo_zero_refuted`.
* **F6, `-size` near the largest size (C26).** `eval_size` adds the unit to the size in `off_t` (eval.c 966), which overflows for
  sizes above 2^63 - 1 - unit. `C26_size_overflow`; `C26_size` excludes these sizes.
* **F7, portable `xtimegm` near the limits of int (C19).** `wrap` multiplies the rounded-down quotient by the divisor
  (xtime.c 91), which overflows for values within one unit of INT_MIN; `tm_year - 70` (168) overflows for the smallest years.
  `C19_timegm_defined_refuted`, `C19_timegm_year_defined_refuted`. The other theorems exclude these runs. It also reports an
  overflow when only the minutes, hours or days that it has carried to do not fit an int, although the time itself may be representable (`C19_timegm_limits_partial`).
* **F8, removing a signal hook (C36).** `rcu_list_remove` of the last node makes the list's tail its head even if other
  nodes remain (sighook.c 293); the next registration then replaces them all. With hooks A and B, removing B and adding C drops
  A. The list of saved handlers has the same defect when installing a handler fails (600). `C36_removal_refuted`, and for handlers that run meanwhile `C62_delivery_refuted`.
* **F9, signal 64 (C36).** Lists are shared by signals equal modulo 64 (335), and hooks for exits are in list 0, where
  `should_run` (457) runs them for every signal. Signal 64 (SIGRTMAX on Linux) runs them even if it does not kill the
  process, and runs everything twice if it does. `C36_signal_64_refuted`.
* **F10, `-exec {} +` after E2BIG (C14).** When the system refuses a command, arguments are dropped from the end until their
  size is at most the new estimate (exec.c 544), which can be below the size of the first one; then no argument is left, the loop ends
  with the error and all pending files are dropped, though each of them fits alone. The failure is reported. `C14_exact_refuted`.
* **F11, `-execdir {} +` and trailing slashes (C15).** `bfs_exec_changed_dirs` (575) takes a path for a file in the open directory
  if its name offset is *at most* the length of the directory's path. A root that ends in a slash and is visited after its contents is such a path:
  `bfs foo/ -depth -execdir echo {} +` runs `echo ./x ./foo/` in foo. `C15_slash_refuted`.
* **F12, `-execdir {} +` and the root (C15).** No directory is opened for a file in the working directory, and then `/` is not seen as a
  change of directories, but is opened (636): `bfs foo / -execdir echo {} +` runs `echo ./foo /` in `/`. `C15_root_refuted`.
* **F13, `-execdir {} +` and directories that cannot be opened (C15).** `bfs_exec_openwd` stores the path of the directory before it opens it (293); if
  that fails, the next file in the same directory fails the assertion that no path is stored (271). `C15_open_refuted`.
* **F14, `-perm` and the umask (C25).** A clause without letters applies the umask to its first action only, because `who` is then set to all
  classes (parse.c 1992): with umask 022, `-perm =r+w` means 0666, where chmod gives 0644. `C25_umask_refuted`.
* **F15, `-perm` and special bits (C25).** `=` only clears permissions, not the set-ID and sticky bits of the chosen classes (parse.c 1975):
  `-perm u+s,u=r` means 04400, where chmod gives 0400. `C25_equals_refuted`.
* **F16, depth-first search without threads (C10).** `bfs -S dfs -j1` without `-s` searches breadth-first. bftw_must_buffer (bftw.c 866) buffers all files to get a
  depth-first order, but bftw_stat_files (1504) at once moves each of them to the ready list, which is not a stack; no directory is read while that list has a
  file (1400); and the directory queue is not a stack, either, since files are buffered (951). `C10_unsorted_depth_first_refuted`.
* **F17, `-xdev -depth` (C09).** A directory on another file system is visited but not entered with `-xdev` (bftw.c 1806). Files that are not entered get no post-order visit, on which
  `eval_callback` (eval.c 1524) evaluates directories with `-depth`: mount points are not printed, or otherwise acted on, at all. find prints them. `C09_mount_points_refuted`.
* **F18, pruned roots (C12).** Iterative and exponential deepening remember pruned directories by their paths (bftw.c 2222), but a root may have the same path as a file below another one.
  With `-S ids . ./b -depth 1 -name b -prune`, the root `./b` is taken for the pruned directory and nothing deeper than one level below it is found (`C12_overlapping_roots_refuted`).
* **F19, errors reported twice (C12).** A file at depth d that can not be examined is reported in two rounds of iterative deepening, because errors of directories at depth d are only seen in the next round and
  both are reported down to one level above the current one (`C12_errors_once_refuted`). With `-depth`, the post-order phase reports all unreadable directories again (`C12_errors_post_refuted`).
* **F20, capacity after EMFILE (C31).** When openat() fails with EMFILE once, `cache->capacity` is set to 1 for the rest of the walk (bftw.c 1126-1131).
  If that was for a directory of one root, then subdirectories of later roots fail to open with one descriptor of the budget in use and without openat() being tried again (`C31_room_used_refuted`).
  On the other hand the failure path of cache_add, which would close a descriptor that is not in the list, is shown to be unreachable: callers reserve room first.
* **F21, cancelling the I/O queue (C13).** ioq_cancel() pushes a stop request last (ioq.c 1301), and ioq_sync_work() assumes that it is also the last of its batch (955-966). If a worker is
  interrupted in the middle of a batch while the tickets of the others go around the ring, another worker may get a batch with the stop request before older ones. Then the assertion at 966 fails, or without
  assertions these requests are never completed, and bftw_state_destroy() (bftw.c 2086), which pops until nothing is left, sleeps forever (`C13_cancel_refuted`; for workers that use io_uring, `C54_stop_refuted`). bfs's queue has 4096 entries, so that this takes a
  worker that is interrupted for that long. `C13_safe` says that nothing else can go wrong, and that neither can this with one worker, or when the queue is cancelled after all requests were completed.
* **F22, durations (C41).** parse_time() multiplies and adds in unsigned arithmetic without checks (parse.c 994-1012), so a duration over 2^63 seconds is accepted with a wrong value:
  `-mtime +9223372036854775807w` means "more than -604800 seconds ago". `C41_parse_duration_range_refuted`.
* **F23, timestamps in the future (C41).** eval_time() first takes the difference rounded down to seconds, then divides by the unit rounding towards zero (eval.c 276-288). A file one nanosecond less than
  a day in the future therefore counts as a whole day in the future. `C41_age_future` states the rule, `C41_age_future_whole_refuted` is the example.
* **F24, smart case (C45).** build_iext_trie() compares each setting only with the previous one that is still there, and insert_ext() drops settings that a later, shorter one hides (color.c 213-222, 314-357). So with `*.gz=1:*.GZ=1:*.Gz=2` the file `a.gZ` gets color 1 although the extension has two colors; with `*.a.xz=1:*.xz=2:*.XZ=3` the file `b.a.Xz` gets none although only `*.a.xz` should match; and with `*.a.xz=1:*.xz=2:*.A.xz=3` the file `f.a.xz` gets 3, not 2 (`C45_order_refuted`, `C45_hidden_refuted`, `C45_forgotten_refuted`).
* **F25, white space on terminals (C46).** With WESC_TTY alone, which is "safe to print to a TTY" (bfstd.h 579-582), wordnesc() leaves everything for which isspace() holds as it is (bfstd.c 1069, 1082), which includes
  carriage returns, vertical tabs and form feeds. So a file named `a<CR>b` can overwrite what was printed before it on the line. `C46_cursor_refuted`.
* **F26, output errors hidden by -noerror and -exit (C47).** The man page says that -noerror ignores "any errors that occur
  during traversal", but eval_io_error() goes through eval_error() (eval.c 72-122), so with -noerror a failed
  write to an output file is dropped too: all that is printed is the number of suppressed errors, clearerr() has
  removed the evidence and the status is 0 (`C47_noerror_refuted`). -exit sets the status whatever happened before, and the status from the end of the program is
  reduced modulo 256, so `-exit 0` hides a failed action (`C47_exit_refuted`) and `-exit 256` even the
  failure of the last flush (`C47_exit_256_refuted`), because only EXIT_SUCCESS is replaced then.
* **F27, -nohidden on ./ (C49).** eval_hidden() looks at the name of a root with its trailing slashes (eval.c 556-566): for the
  root `./` or `../` the name is `./`, which begins with a dot and is not equal to `.`, so the root counts as hidden, and
  `bfs ./ -nohidden` finds nothing. `C49_hidden_refuted`. -name has the right code for this (eval.c 624-631).
* **F28, -iname on literal letters (C49).** For patterns without special characters, strcasecmp() is used in place of
  fnmatch() (eval.c 161-166), which in UTF-8 knows only ASCII letters: `-iname é` does not match `É`, while
  `-iname 'é*'` does. `C49_iname_refuted`.
* **F29, backslashes in Big5 and GBK (C49).** The check for a trailing backslash (parse.c 1105-1114) looks at bytes. In encodings
  where a backslash can be the second byte of a character, a pattern ending in such a character matches nothing. `C49_big5_refuted`.
* **F30, bind mounts have no type (C50).** `bfs_mtab_fill_types` (mtab.c 246-249) skips a mount point on the same device as its
  parent directory, as stale "or a bind mount, but with the same fstype". But the map's keys are mount ids (259), not devices: where statx()
  returns those (Linux 5.8 and later), a bind mount of a directory of the same file system has its own id, which is never entered.
  After `mount --bind /x /b`, `bfs /b -fstype ext4` finds nothing and `-printf %F` prints `unknown`. `C50_bind_mount_refuted`.
* **F31, `-execdir` with a relative command (C52).** `bfs_resolve_early` (xspawn.c 444-457) checks that a command with a slash in its name can be
  run before it is started, in the directory that bfs itself is in, although the child would first change to the file's directory. So
  `bfs -execdir ./build.sh \;` and `bfs -execdir {} \;` fail with ENOENT for each file that is not in the starting directory, although execv() would
  succeed there. `C52_execdir_refuted`.
* **F32, a directory in `$PATH` hides a command (C52).** `bfs_resolve_late` takes the first candidate for which faccessat(X_OK) succeeds. This
  holds for directories, too: if `/a/c` is a directory and `$PATH` is `/a:/b`, `-exec c` fails with EACCES although `/b/c` exists; execvp() and posix_spawnp()
  would go on to it. `C52_hidden_refuted`.
* **F33, actions of the fork() implementation (C52).** The descriptor that open() returns is not closed after it was duplicated (xspawn.c 562-571), so the
  new program has the file open twice. dup2() of a descriptor to itself leaves FD_CLOEXEC set, where posix_spawn_file_actions_adddup2() clears it. bfs does
  neither. `C52_open_refuted`, `C52_dup2_refuted`.
* **F34, `-regex` with Oniguruma (C53).** `bfs_regexec` (xregex.c 268-277) calls onig_match() without `ONIG_OPTION_FIND_LONGEST` and then compares the length of
  the match with that of the path. Oniguruma takes the first match that backtracking finds: with `-E -regex '(a|ab)'`, the path `ab` is not found, though it matches and is
  found by a build with the C library's regexec(). The same happens without alternatives, for example with `a*(ab)?` and `aab`. `C53_onig_refuted`; adding `$` to the expression helps
  (`C53_onig_partial`). Also, not modelled: xregex.c 107 maps the character set GB18030 to `ONIG_ENCODING_BIG5`, so that paths with four-byte characters, which are not valid in Big5, never match there.
* **F35, white space in the status bar (C55).** `eval_status` (eval.c 1177) escapes the path with `WESC_TTY` only, and without `WESC_SHELL`, `wesc_isprint` and `wesc_iswprint`
  (bfstd.c 1060-1087) take all of isspace() as printable. The name of a directory with a newline, a tab or a carriage return is written to the terminal as it is: the bar is then
  spread over several lines and scrolls the terminal, or overwrites its own start, and the columns are wrong (xwcwidth() is -1 for them, which counts as 0). `C55_newline_refuted`.
* **F36, an assertion fails after a comma (C57).** `data_flow_visit` replaces an expression without side effects by `-false` if its result is ignored, and `data_flow_leave` (opt.c 1761-1804)
  then marks a comma operator that ends with it as always false, in addition to the earlier mark as always true. An expression with both marks is taken never to return. In most cases the
  next round computes the marks again, but not in the last one: `bfs \( -print , -true \) -name x -o -name y` needs two rounds until the comma is at the top, and in the third
  it gets both marks. In a build without `NDEBUG`, bfs then aborts on the first file, at eval.c 1086 (`state->quit`). `C57_comma_refuted`.
* **F37, descriptors that are not reserved (C59).** `infer_fdlimit()` (eval.c 1601) subtracts what `ctx->expr` needs from the limit, but not what `ctx->exclude` does. The cache of directories
  may use up all the rest; then `-exclude -empty` can not open the directory that it should test, although closing a cached one would be enough (`C59_exclude_refuted`). This takes a
  low limit, or more than 65536 directories waiting to be searched. Likewise, `-nouser` and `-nogroup` put three descriptors aside for looking up users and groups (parse.c 1836), and
  `-ls` and `-printf '%u %g'`, which do the same, put none aside: they may print numbers instead of names (`C59_names_refuted`). The status bar opens a descriptor, too, which is not
  counted if it is first shown after SIGINFO.
* **F38, tests on metadata (C60).** `parse_user()` (parse.c 1555) also parses `-uid`: `bfs -uid 5` selects the files of the user *named* `5`, if there is one, whatever their
  ID (`C60_uid_refuted`; `-gid` likewise). `eval_nouser()` (eval.c 361) reports an error if the user database can not be asked, and then returns true, so that `-nouser -delete`
  deletes files of users which exist (`C60_nouser_refuted`); all other tests are false if they fail. `eval_inum()` (571) passes a 64-bit inode number as `long long`, and takes numbers of
  2^63 and above for negative (`C60_inum_refuted`). `eval_sparse()` (973) computes `size + 512`, which overflows for sizes of more than 2^63 - 513 (`C60_sparse_refuted`).
* **F39, errors while reading -files0-from (C61).** If reading fails, `parse_files0_roots()` (parse.c 3561) returns -1 without a message: `bfs -files0-from /tmp` exits with a status of 1
  and says nothing, since opening a directory works and reading it does not (`C61_message_refuted`). `xgetdelim()` (bfstd.c 184) takes every failure without an error indicator
  for the end of the file. The GNU C library did not set it before version 2.40 if memory ran out; then the rest of the list is silently ignored (`C61_memory_refuted`). `xgetdelim()`
  also checks `chunk[len]` for the delimiter, not `chunk[len - 1]`, so that it removes nothing but NULs, contrary to its documentation; the answers to `-ok`
  end in a newline, which no pattern for yes and no minds (`C61_delimiter_refuted`).
* **F40, a handler reads a hook that was freed (C62).** `arc_put()` (sighook.c 110-120) first gives up its reference and then reads `arc->sem_status`. If semaphores are compiled in but
  `sem_init()` fails, which the code expects (comment at 148: macOS), or the semaphores option of the system is not positive, then `arc_wait()` (137-161) spins until the count is 0. It may see that before the
  handler reads `sem_status`, and `sigunhook()` then frees the hook, of which the arc is a part. The handler reads freed memory, and posts to a semaphore in it if the memory was
  used again and reads as 0 there (`C62_spin_refuted`). With semaphores that work, or without any, this cannot happen (`C62_safe`).
* **F41, errors of -acl and the memory of -context (C63).** `bfs_check_acl()` (fsade.c 244) looks for two ACLs of a directory, and keeps the result of one loop iteration for the next: if the first
  lookup fails with, say, EIO and the second one finds nothing, or the other way round, it returns 0, and `-acl` is silently false (`C63_access_error_refuted`, `C63_default_error_refuted`). `bfs_getfilecon()` (492) does not
  call `free_fake_at()`, unlike all other callers of `fake_at()`, so that `-context` leaks a string for every file that is looked up relative to an open directory, that is, for nearly all of them (`C63_context_leak_refuted`).
* **F42, -daystart (C64).** `parse_daystart()` (parse.c 1148) computes the end of today with the tm_isdst of now instead of -1. On a day on which the clocks are still to change, the result is an hour
  off (`C64_daystart_midnight_refuted`). Days are then counted as 24 hours, so that on the day of the change `-daystart -mtime 0` also finds files from the last hour of yesterday, or misses the first hour of today
  (`C64_days_refuted`). A file from exactly midnight (`touch -d today`) counts as one from yesterday, always, and at exactly midnight today is the day before (`C64_calendar_refuted`). The last is the same in GNU find. The
  message about invalid dates (1724) prints the zone with `%+03d` of the hours, which loses the sign if it is less than an hour behind UTC: the suggested date is then an hour off (`C64_suggestions_refuted`).
* **F43, empty settings in $LS_COLORS (C66).** `parse_gnu_ls_colors()` (color.c 557) takes what is before the next `=` for the name. After an empty setting, as in `$LS_COLORS:di=01;35` when `$LS_COLORS` ends with
  a colon like the output of dircolors does, the name is `:di`, which is unknown: the setting is silently ignored (`C66_empty_refuted`). Likewise, one without `=` takes the name of the next one with it, and the last one is
  ignored. GNU ls skips empty settings and rejects the others.
* **F44, -ls and links that cannot be read (C67).** If readlink() fails, as for other users' `/proc/PID/exe`, `eval_fls()` (eval.c 781-785) goes to the error exit without printing the newline, so that the next line
  follows on the same line (`C67_unreadable_refuted`). The message says `(standard output): Permission denied.` instead of naming the link.
* **F45, files that an action changes (C06, C07).** What the data flow analysis knows about a file is not forgotten after an action: `-empty -exec touch {}/x ; ! -empty -print` prints the directories that were empty
  at -O1, but `! -empty` becomes `-false` at -O2 and above, although `-empty`, `-readable`, `-acl` and the like look at the file again whenever they are evaluated. `C07_changing_refuted`.
* **F46, files that cannot be examined (C06, C07).** When stat() fails, as in a directory that can be listed but not searched, the tests that need it are false, but the analysis takes it that one of a test and its opposite is
  true: in `( -links +1 -o -links -2 ) -print` the second test becomes `-true`, and the file is printed at -O2 and above only. `C07_failing_refuted`.
* **F47, flags that come late (C68).** The settings themselves do not depend on where flags and options are (`C68_order`), but files are opened, patterns compiled and reference files examined while the command line is read.
  So in `bfs -fprint /dev/tty -nocolor` the file keeps its colors, in `bfs -samefile link -L` the link itself is compared, and in `bfs -regex 'a+' -E` the pattern is a basic one (`C68_position_refuted`), while
  `-L`, `-E` and `-nocolor` are described without regard to their place. `bfs -noleaf -nowarn` warns, too.
* **F48, what the dumped command line leaves out (C70).** The line that -D prints does not mention `-noerror`, `-warn` and `-nowarn`, and has `-color` if the output is colored, even if messages are not (`C70_all_refuted`). The
  name of the command is printed without quotes (`C70_name_refuted`). With `-files0-from` and an empty list there are no paths in it, which stands for the current directory (`C70_roots_refuted`). At -O4, the optimizer sets
  the largest depth for an expression that does nothing to the smallest int, as in `bfs -O4 -D tree -false`; the line then has `-maxdepth -2147483648`, which is not accepted (`C70_depth_refuted`).
* **F49, large stacks (C71).** `bfs_exec_arg_max()` (exec.c 60) takes sysconf(_SC_ARG_MAX), which is a quarter of the stack's limit, up to 16 MiB. Linux has not accepted more than 6 MiB since version 4.13, so
  with `ulimit -s unlimited` large commands are refused with E2BIG first, and built again with fewer paths (`C71_large_refuted`). No path is lost this way (`C71_linux`).
* **F50, one EPERM turns statx() off (C72).** `bfs_stat_explicit()` (stat.c 287) takes EPERM for a sign that a container forbids statx(). A single file whose file system answers EPERM has the same
  effect: from then on, creation times and attributes are missing for all files, and the number of a mount becomes that of a device (`C72_eperm_refuted`). It can coincide with the number of another mount
  in the table of `bfs_fstype()` (mtab.c 274), which was filled before; then -fstype and %F give the type of the other one.
* **F51, commands of -ok read the answers (C73).** `bfs_exec_spawn()` (exec.c 331) runs commands with bfs's own standard input, from which the answers are read. A command that reads it takes the answer
  to the next question (`C73_stdin_refuted`), and if input is not a terminal, the command misses what has already been read into the buffer. GNU find gives commands of -ok an empty standard input.
* **F52, names in questions (C73).** -ok writes the words of the command as they are, separated by spaces. A name with a newline can make the question about one file end with that about another
  (`C73_newline_refuted`), and one with escape sequences reaches the terminal, unlike in messages (C17) and in colored output (C46).
* **F53, hiding the status bar can erase a character (C74).** `bfs_bar_reset()` and `bfs_bar_resize()` (bar.c 75-112) end with ED, which erases from the cursor on. When the last column of a line has just been written, the
  cursor is still on that column, so that the character in it is erased (`C74_full_refuted`). This needs output that does not end in a newline, from -printf or -print0 say.
* **F54, -O2 repeats warnings (C75).** Warnings are switched off in the second and third round of the passes, so that each is given once, but this is done where the reorder pass would run (opt.c 2178-2184), after the check of
  the level (2170). At -O2 that pass is skipped, and `bfs -O2 -print -empty` says three times that the result of -empty is ignored, and would ask as often whether to go on if -delete or -exec were used on a terminal (`C75_once_refuted`).
* **F55, ignored signals are no longer ignored (C76).** siginit() (sighook.c 545-607) installs the handler without looking whether the signal was ignored, and for signals that end a process by default the handler resets it to SIG_DFL and
  raises it again (517-521). atsigexit() does this for all such signals, and is called whenever standard output or standard error is in color (ctx.c 143) or the status bar is shown. So bfs is killed by SIGHUP after `trap '' HUP`, and
  by Ctrl-C when it was started in the background by a shell without job control, although it was told to ignore these signals (`C76_ignored_refuted`). Commands started by posix_spawn() have such signals at their default, too,
  since handled signals are reset by it, while those started by fork() still ignore them, due to sigreset() (`C76_spawned_refuted`).
* **F56, -S ids -depth -unique evaluates files more than once (C77).** eval_callback() looks at -unique on first visits only (eval.c 1502-1506), and with -S ids and -depth, files are evaluated on their last visits, whatever
  their type (1523-1529). bftw_ids_callback() remembers to skip the last visits of pruned directories, but not those of other files (bftw.c 2221-2228). So all hard links to a file are evaluated (`C77_ids_depth_refuted`), unlike
  with the other strategies.
