# Formal model of managarm/mlibc in Rocq (Coq 8.16.1)

The model reads `/repo` as text. Nothing ties it to the binary: every definition cites the file and lines it models,
and simplifications are stated in the comment above the definition.

## Layout

For each area `X` of the code there are up to four files in `rocq/theories/`:

| file | content |
|---|---|
| `X_Model.v` | total, computable Gallina functions, one per C/C++ function (or loop), with source citations; no proofs |
| `X_Spec.v`  | small independent specification (when the statement needs more than stdlib vocabulary) |
| `X_Proof.v` | lemmas and proofs |
| `X_Props.v` | only property theorems (`Theorem ... Proof. exact lemma. Qed.` + `Print Assumptions`) and non-vacuity `Example`s |

`Base.v` holds the shared outcome type and byte memory.

## Modelling conventions

* **Outcomes.** `Ok a | UB | Abort | Fuel`. `UB` is undefined behaviour (access to an unmapped address, division by
  zero, signed overflow where the property is about it). `Abort` is `__ensure`/panic. `Fuel` is recursion fuel
  exhausted; every theorem proves a concrete outcome `Ok ...` for all sufficiently large fuel, so `Fuel` is excluded.
* **Memory.** `mem := Z -> option Z`, a partial map from addresses to byte values 0..255 (`None` = not part of any
  object). A read or write of an unmapped address is `UB`. So `f m ... = Ok (m', r)` says in particular that no byte
  outside mapped memory is accessed, and hypotheses only map the bytes the C standard guarantees.
  Addresses are unbounded integers: an object never wraps round the address space (guaranteed by C).
* **Integers.** Unbounded `Z` where the code cannot overflow; explicit `mod 2^w` where the property concerns
  wrap-around (noted per definition).
* **Concurrency.** One shared state plus one program counter per thread; each transition is one atomic operation
  (load, CAS, exchange, fetch_add) or one futex system call; threads are indexed by an arbitrary natural number;
  sequentially consistent interleaving. `futex_wait` sleeps only if the word equals the expected value (atomically);
  `futex_wake` may wake sleeping threads; spurious wake-ups are allowed. Weak-memory effects are not modelled.
* **External code** (kernel calls, the frigg library which is not in the repository, user callbacks) is a parameter of
  the function or a relation; what is assumed about it is part of each theorem's hypotheses.

## Properties and approach

* **C01** memcpy copies exactly n bytes: byte-memory model of memcpy with the block steps; loop invariant over remaining size; frame condition pointwise.
* **C02** memmove is correct for every overlap: same model for memmove's three cases; forward case for dest<src by 'load whole block before store' invariant, backward by descending induction.
* **C03** memset fills exactly n bytes: memset's alignment prologue and pattern stores; induction on remaining size.
* **C04** strlen and strnlen: fuelled loops over byte memory; induction on the string.
* **C05** string copy and concatenation write exactly the specified bytes: each function modelled on byte memory; result memory described pointwise, frame outside the destination range.
* **C06** memcmp, strcmp and strncmp order bytes lexicographically as unsigned: result sign related to an independent lexicographic comparison on lists of bytes; total order laws derived.
* **C07** character searches return the first or last occurrence: index of first/last occurrence as specification.
* **C08** strspn, strcspn and strpbrk: longest prefix specification (all in set, next byte not).
* **C09** substring searches return the leftmost occurrence: leftmost occurrence specification by list prefix.
* **C10** strtok_r enumerates exactly the maximal delimiter-free tokens: model of one call on byte memory; iterate; specification splits a list into maximal non-delimiter runs.
* **C11** strsep splits at every delimiter: as C10 with single-delimiter split.
* **C12** strtol family: value, saturation and end pointer: list-of-bytes model of stringToInteger with explicit 2^w arithmetic; digit-value specification by Horner sum.
* **C13** basename and dirname decompose a path: buffer model; specification on component lists.
* **C14** UTF-8 decoding accepts exactly the well-formed sequences: byte-at-a-time decoder model vs. a table-style predicate of well-formed sequences.
* **C15** UTF-8 encode then decode is the identity: encoder model; arithmetic on 6-bit groups.
* **C16** multibyte decoding does not depend on how the input is split: decoder state machine: decode (a++b) = decode b from the state after a.
* **C17** qsort sorts any array under any consistent comparison: array model of the Lomuto partition recursion; permutation by induction, sortedness by partition invariant.
* **C18** bsearch finds a match iff one exists: index-interval loop invariant.
* **C19** hsearch behaves as a bounded map keyed by string: linear-probing array refined to an association map over arbitrary op histories.
* **C20** tsearch/tfind/tdelete behave as an ordered set: tree model of insert/delete with rotations; ordered-set refinement through in-order key list.
* **C21** the search tree stays balanced: AVL invariant for insertion; deletion refuted by a concrete history if the code does not rebalance.
* **C22** twalk and tdestroy visit every node in order: explicit-stack walker vs. recursive traversal specification.
* **C23** environment behaves as a map: vector-of-strings model; refinement to a map over histories; defects recorded as _refuted.
* **C24** exit handlers run exactly once in reverse order: handler-list state machine over histories.
* **C25** allocation size computations do not overflow: explicit mod 2^64 arithmetic.
* **C26** gmtime_r yields the proleptic Gregorian calendar date: days-to-civil algorithm proved against an independent calendar (iterate 'next day'); negative times and yday checked.
* **C27** timegm inverts gmtime_r: algebraic inverse of the two day-count algorithms.
* **C28** absolute/relative timeout conversion is exact: Z arithmetic with explicit int64 bounds.
* **C29** IPv4 text conversion round-trips: decimal print/parse lemmas; parser modelled on byte memory so that reads past the NUL are visible.
* **C30** IPv6 text conversion round-trips: group printer/parser modelled as in the code; buffer bound tracked.
* **C31** internal locks are mutually exclusive: transition system of FutexLock, invariant: lock word owner <-> thread in critical section.
* **C32** internal locks lose no wake-up: same transition system; invariant on sleeping threads and waiters bit.
* **C33** pthread mutexes: mutual exclusion, ownership and recursion: transition system of thread_mutex_*; invariant; EPERM path.
* **C34** pthread_once runs the initialiser exactly once: transition system of thread_once; ghost call counter.
* **C35** semaphores conserve their count: transition system of sem_*; ghost counters.
* **C36** barriers release exactly full generations: transition system of pthread_barrier_wait with explicit 32-bit words.
* **C37** read-write locks exclude writers: transition system of rwlock.
* **C38** thread-specific data keys isolate generations: sequential history model of global and per-thread tables.
* **C39** buffered output loses, duplicates and reorders nothing: abstract_file state machine with an oracle for short writes; ghost output.
* **C40** buffered input delivers the file's bytes in order: abstract_file read path with an oracle for short reads.
* **C41** snprintf never overruns and reports the full length: LimitedPrinter sink state machine over arbitrary append histories.
* **C42** byte-order conversions are involutions: bit arithmetic on Z.
* **C43** random() state switching is transparent: state-array model with explicit 32-bit arithmetic over histories.
* **C44** the 48-bit generators follow the POSIX recurrence: explicit 16/48/64-bit arithmetic.
* **C45** getsubopt tokenises suboption lists: buffer model of one call; iteration; specification splits on commas.
* **C46** wide to multibyte string conversion: encoder loop on wide and byte memory; induction on the wide string; the limit-inside-a-character case refuted.
* **C47** lsearch and lfind: scan loop on byte memory; induction on the array; memcpy theorem for the append.
* **C48** insque and remque: heap of link pairs; list-segment predicate, rotation lemma for circular queues.
* **C49** quick_exit: list model of the queue; induction.
* **C50** aligned_alloc argument check: `x & (x-1)` and `s & (x-1)` on 64-bit values; powers of two by the top bit.
* **C51** asprintf stores the whole output: the growing sink modelled with its reallocation policy; induction over the emitted characters.
* **C52** inet_aton on one to four parts: induction over the parts, each read by the proved strtoul.
* **C53** pthread mutexes lose no wake-up: the transition system of C33; invariant on sleeping threads and the waiters bit.
* **C54** pthread_barrier_destroy waits for the threads inside: the transition system of C36; invariant: the inside word is the number of threads in the call.
* **C55** Same model as C37 (Rwlock_Model.v). Invariant: a sleeper on either word implies the waiters bit with an owner (or a reader), or a pending wake-up. The claims that try and timed calls fail only for cause are false of the code in two corner cases, shown by `_refuted` runs.
* **C56** Transition system of the sequence word, the mutex (as its holder), sleepers and the waker's pending FutexWake; any schedule, any choice of the woken sleeper or the longest sleeper. Invariant: a sleeper with a sequence number older than the last broadcast implies a broadcaster about to wake everybody; sleepers with older numbers fell asleep earlier. Refuted in general: a signal can be consumed by a later waiter if the futex is not first-in-first-out, and the sequence word overflows. Cond_*.v.
* **C57** — `Stdio_*.v`: abstract_file with its 4096+8 byte buffer and the stdio functions over a device (file or pipe) whose transfers may be short; forward simulation of an unbuffered file for every history; defects (lost push-back, ungetc results, SEEK_CUR after ungetc, fflush of a pipe being read, getline after a failed fseek) are refuted by concrete runs.
* **C58** Symtab_*.v: hash tables as words with explicit bounds; well-formedness as in the ELF gABI and the GNU hash format, stated with their own hash functions; induction on chains. Names with bytes above 127 refuted where char is signed.
* **C59** Init_*.v: the recursive scheduler over an arbitrary finite graph with its flags; depth-first post-order invariant (every object finished when its call returns, white-path argument for cycles); histories of loads.
* **C60** Relr_*.v: the breadth-first list with its visited set and the RELR decoder over memory words; exactly-once proved for roots outside of a cycle, refuted for a root that one of its dependencies needs.
* **C61** Tls_*.v: the offset arithmetic for both TLS variants as integers; induction over the objects; alignment by divisibility. Alignment of late objects stricter than the start-up maximum refuted.
* **C62** Dtv_*.v: transition system of the publisher (under its lock), thread creation and lock-free readers; invariant on the two published words.
* **C63** Scope_*.v: scopes as lists with the rts counters; invariant: counters are monotone along the global scope; histories of dlopen.
* **C64** Ieee.v, Fmod_*.v, Remquo_Proof.v: numbers as bit patterns, values as integers in units of the least positive number; word arithmetic as in the code, for a format given by its widths; invariants of the normalisation and shift-subtract loops; the final subtraction of remquo shown exact.
* **C65** Ieee_Round.v, Rint_*.v: the additions of 2^mb are those of Ieee.v, whose rounding is proved to be to the nearest number; the intermediate differences are shown exact; the bit masks of floorf, ceilf, trunc and modf are shown to remove exactly the fraction, also across a power of two.
* **C66** Next_*.v: bit patterns that are not NaN are ordered like signed integers; nextafter steps by one in that order; the other functions by cases on sign and class.
* **C67** Ieee_Mul*.v, Scalbn_*.v: multiplication rounds the exact product to nearest (proved against a separate definition of rounding); scalbn's early multiplications are exact or leave a number so small that the last one yields zero.
* **C68** Sqrt_*.v: the digit-by-digit loops, on one word and on two, compute the integer square root with remainder; rounding it is compared with midpoints of neighbouring numbers. The code shifts by 32 bits for some subnormal arguments: refuted for these, proved for all others.
* **C69** Texit_*.v, Tcancel_Proof.v, Treach_Proof.v: a transition system of the dying thread, its signal handler and any number of other threads, which also keeps a record of events. Ten inductive invariants relate the record to the cancellation bits, the signal mask, the handler stacks and the futex word. Refuted: a cancellation point inside a handler makes joiners hang; the signal is lost between the load of the bits and the first label of a system call; a completed system call can be cancelled; a mask inherited from a creator with cancellation disabled blocks asynchronous cancellation; thread_local destructors registered by handlers are not run.
* **C70** Fnm_*.v, Fnmb_Proof.v, Fnmm_Proof.v, Fnmp_Proof.v: patterns are lists of elements with a relation saying what they match; their text is in memory. The lexical layer is shown to read elements back; then the head, the tail and the leftmost search between are related to the relation by induction over elements and strings. Refuted: ranges ending outside ASCII or with '-', escaped leading periods, collating symbols, termination on patterns that are not UTF-8.
* **C71** Getopt_*.v: command lines are lists of arguments in the forms above; the state of getopt is a record. One call is shown to consume one argument and move it before the operands skipped so far; the theorem follows by induction over the command line. Refuted: a word with several letters before another option, a missing argument, an argument that begins with '-', undeclared letters inside a word, POSIXLY_CORRECT.
* **C72** Scanf_*.v: a format is a list of directives with their text; a relation says what each directive does with an input (numbers by the value of their digits, texts by being the longest). The scanner is shown to follow the relation, by induction over the directives, and the relation to be total. Refuted: the width of %d, a width after '*', bytes above 127, '-' for %[a-z], a truncated multibyte character, white space in front of %%.
* **C73** Memfile_*.v: the buffer is a list; simulation between the stream and an abstract file (contents, position), one operation at a time, lifted to histories by induction; safety of fmemopen as an invariant for all histories. Refuted: negative seeks, seeks that change the contents, the size stored by fflush before the end, the null byte of '+' modes, appending after a seek.
* **C74** Realpath_*.v: the file system is an oracle for lstat and readlink; path resolution is an inductive relation; realpath is shown to follow it by induction on the height of the resolution, with an invariant for the two buffers. Refuted: relative links inside link texts (glued to the rest, or read past the end), absolute links to links, to nothing and to the root, loops, link texts over 512 bytes, files used as directories, the empty path.
* **C75** Wcs_*.v: memory with one cell per wchar_t, each function by induction on the string, wcstok by a client that calls it until NULL, with the token specification of C10. Refuted: wcscmp overflows for characters far apart, wcsncat reads behind an unterminated source, wcsstr of two empty strings is NULL. wmemcpy and wmemmove are C01 and C02; wcscoll and wcsxfrm are not modelled.
* **C76** Vstrcmp_*.v: the loops over chunks, byte masks as lists of booleans, pcmpistri after the Intel manual, memory that is mapped page by page with arbitrary bytes outside of the strings; induction on the string with the invariant that the pointers are still inside of the strings. The resolver over all results of cpuid and xgetbv; its cache of detected features is not modelled.
* **C77** Strtod_*.v on the floating-point operations of Ieee_*.v (Ieee_Div.v adds division): the grammar of numbers with longest match as specification, the loops by induction over the digits; exactness by the invariant that every intermediate result is representable. Refuted: nearest value (0.12), endptr for 0x without digits and for strings without a number, inf in mixed case or with text behind it, int overflow of the exponent. errno, nan(...), long double, other locales and wcstod are not modelled.
* **C78** Ctype_*.v: the class and case tables of the C locale as data, the lookups as functions; byte ranges are decided completely by computation inside the kernel, wide characters behind the table by a case split on the range. Refuted: isascii, which cuts its argument to char.
* **C79** Casestr_*.v, Vers_Proof.v: byte-memory models of the loops, list specifications (lower-case map, lexicographic order, first occurrence, decimal value); loops by induction over the strings, the version order by a mathematical description of the state machine. Refuted: strcasestr of two empty strings, strncasecmp in a UTF-8 locale with non-ASCII bytes.
* **C80** Tz_*.v: the parser of TZ, the DST rules, the zone file lookup and localtime_r on top of gmtime_r and timegm of C26. The POSIX grammar as an inductive relation; the parser is shown to accept it (Tz_Proof.v) and nothing much else (Tz_Sound.v). Zone files as bytes; the environment and the files are parameters. Refuted: rules in months that do not begin with a Sunday, week 5, Julian days, the hour of the change, years from 2038, times before the first and after the last transition of a file, the type table read from one entry too far, a buffer overrun by a long name. Version 2 data of a file is not read by the code.
* **C81** Ftime_*.v: the loop over the format on byte memory, with vsnprintf of C41 for the output and the ISO C text of int conversions (the formatter is not in the repository); the conversions are specified by an inductive relation (two digits, number of Sundays for %U, ...) for every locale. Refuted: %c, %x, %X inside a longer format, unknown conversions, the unchecked copy of a bad %O or %E, negative years, asctime_r for years beyond 9999. The wchar_t version (wcsftime) is not modelled.
* **C82** Ptime_*.v: strptime on the remaining input, with sscanf of C72 for the numbers; an inductive relation says what a format reads and stores. The doomsday rule is proved for all years against the day-by-day calendar of C27 (a check of 400 years by 12 months and periodicity); the round trip composes with the strftime relation of C81. Refuted: adjacent numbers, three-digit %j, %u, %w, %p, negative tm_wday, tm_yday in multiples of 4, aborting conversions. C locale; on failure the partial stores are not modelled.
* **C83** Dns_*.v: datagrams as byte lists; RFC 1035 names, records and replies as inductive predicates. Induction over the name and record predicates gives the result for every well-formed reply. Refuted: a self-pointing name makes the client recurse forever, an address record of more than 16 bytes overruns the buffer, counts are not checked against the datagram; trailing dots, long labels, unreversed reverse queries, replies without answers, the byte-swapped loop-back address. Sockets, resolv.conf and the clock are not modelled.
* **C84** Hosts_*.v: files as byte lists, the 128-byte line buffer with its stale contents, the string searches as recursive scans. Well-formed lines are a record (words, blanks, comment) with its text; induction over the lines. Refuted: a comment behind a blank on a matching line makes the alias loop endless, trailing blanks read behind the line, an unterminated last line is missed, an address matches a longer one, long lines are split, service names with digits. fopen failures are not modelled.
* **C85** Bitset_*.v: sets as lists of words or bytes, operations on bits; refinement to mathematical sets by induction over the history. Refuted: negative processor numbers. Signal number INT_MIN (overflow of sig - 1) is outside the model.
* **C86** Users_*.v: files as lists of bytes, the buffer as byte memory, the number parser (frigg) as a parameter that reads decimal texts; induction over the lines. Refuted for groups: the password is written behind the end of the buffer for some sizes, a buffer that is not aligned stays so, a fifth field aborts, a line without a member field dereferences null, members behind byte 511 are lost, a member with a comma is read back as two.
* **C87** Mbc_*.v: the three functions over the transcoder of Utf8_Model.v with their static states; invariant (no pending bytes) over histories. Refuted: input cut within a character (mbtowc returns a count, and both functions then refuse the next character; mbtowc(NULL) resets the state of mblen), mblen with length 0.
* **C88** Ftw_*.v: the walk over a file system given by stat, lstat, open and the entries of each path, any callback; the calls are compared with the pre- and postorder of an inductive tree, by induction on the descriptor limit. Refuted: trees deeper than fd_limit (silently cut off), descriptors left open (callback that stops at a directory, directory met again), directories met again not reported with FTW_DEPTH.
* **C89/C90** Dirent_*.v: byte-level model of the buffer and of struct dirent over a kernel that returns records in pieces; refinement to a cursor for all histories; scandir by induction on the entries left. qsort is a parameter (C17). Refuted: an error of the kernel aborts; scandir leaves its descriptor open, and fails if the selection function changes errno.
* **C91** Spawn_*.v: descriptor tables with a kernel that picks any unused number; simulation of the child's table by the user's table with the pipe hidden at an unused number, for all lists of actions. Not modelled: argument vectors, PATH search of posix_spawnp, failing dup/fcntl on open descriptors, signals that arrive between the mask change and exec. Refuted: a failing fork leaks the pipe; O_CLOEXEC in an open action is kept or lost depending on the descriptor's number.
* **C92** Shadow_*.v: parser, printer and search on byte lists; the parser is characterised by the grammar of the line (both directions), the search by induction on the lines with long lines skipped piece by piece. Refuted: numbers above LONG_MAX overflow; a last line without newline gives ERANGE with every buffer; negative numbers are printed but not read; a colon in the name finds another user's entry.
* **C93** Syslog_*.v: the static variables, the 1024-byte buffer with bounds checks, and the kernel as an oracle on the list of events; induction on the history of calls. Refuted: the second mask test compares the number itself with the mask and loses messages; log_opt is never set, so LOG_PID, LOG_CONS and LOG_PERROR do nothing; one failing connect turns the daemon off for good; setlogmask(0) turns logging off.
* **C94** Execp_*.v: the loop over PATH with the kernel's answer as a function of the path, the variable arguments as a list whose end is undefined; induction on the elements and on the arguments. Refuted: an empty element of PATH is the root directory, not the current one, at the end it is ignored; execl stops the program from 15 arguments on.
* **C95** Wordexp_*.v: the check as the loop over the characters with the three flags, undefined behind the terminator, against an inductive grammar with modes (both directions); the vector with unwritten cells and the bytes the shell writes; induction on the calls. Refuted: a dollar at the end is read past; WRDE_NOCMD is circumvented in three ways; quoted backquotes are refused; an error with WRDE_APPEND drops the earlier words. That realloc of zero bytes gives a pointer is assumed.
* **C96** Proto_*.v: the file as bytes, the offset kept between calls, the reader with its 256-byte buffer as a loop with fuel; the parser against an inductive grammar of fields; induction on the lines and the calls. Refuted: an entry without alias is skipped; a last line without newline, or a line of more than 255 bytes, makes the call run for ever; nothing rewinds getprotoent.
* **C97** Addrinfo_*.v: the array of results with its links, the double loop, the choice of databases (parameters: inet_pton, inet_ntop, /etc/hosts, /etc/services, DNS, InetConfigured); an invariant of the partly linked array by induction on addresses and services. Refuted: AI_ADDRCONFIG overrides the family asked for; an unknown service gives success and an empty allocation; loopback in the wrong byte order; ports beyond 65535 and other protocols; NI_NUMERICHOST and NI_NUMERICSERV are the same bit; a search error of getnameinfo hides the numeric form.
* **C98** Mnt_*.v: the stream as bytes and an end-of-file flag, the line scanned by the model of sscanf with the format of the code; the relation of C72 gives what sscanf stores, induction on the lines and calls. Refuted: numbers of a commented-out line reach the next entry; escapes are not decoded or written; a last line without newline is lost; hasmntopt finds parts of options; bytes above 127 abort.
* **C99** Glob_*.v: do_glob with its literal prefix scan, PATH_MAX limits, types and recursion over a file system and an fnmatch that are parameters; the specification is a relation from pattern to paths by components. The scan is proved once for any relation that follows the components, by induction on the pattern; the recursion by induction on its length. Refuted: an unreadable directory is reported as no match if nothing was found; GLOB_NOCHECK with an unknown ~user gives the pattern and an error.
* **C100** Fork_*.v: the list of handlers in each thread's control block as nodes with next and prev pointers; a history of registrations, creations and forks with the kernel's answers. Invariant: each thread's nodes form a doubly linked chain, disjoint from the others. Refuted: handlers are per thread, a fork in another thread does not run them; a fork that fails runs prepare handlers only.
* **C101** Locale_*.v: parsing, normalisation and variants of names, lookup in an archive (a parameter: name to record) and in files (a parameter: path and category to contents), composite names, setlocale and newlocale. Invariant over all histories: the name of each category stands for its data. Refuted: a failed LC_ALL call (and newlocale with a base) leaves some categories changed; setlocale(category, "") sets all categories and ignores LC_ALL; a composite name cut short is read past its end; 8859-1 and 88591 normalise differently. Not modelled: the hash table of the archive, the layout of category files, locks.
* **C102** Spin_*.v: every access of the lock word is a step; any interleaving, with the trace of calls and returns. Invariant: the word is the id of the thread that owns the lock, defined from the trace and the place of the thread. Memory ordering of other variables is not modelled.
* **C103** Archive_*.v: files as lists of bytes, reads outside are UB; the hash, double hashing with fuel, the record, the items. The archive format and well-built tables (prime size, an empty slot, every name on its probe path) are specified separately; a Bezout argument shows that the probes visit all slots. Refuted: a full table makes the lookup loop for ever; an archive smaller than a record (108 bytes) is read beyond its end; a string item without zero byte is used without one. Alignment, mapping and parsers of other items are not modelled.
* **C104** `mkostemps`, `mkdtemp` and `tmpfile` over a byte array, with the kernel as an oracle that answers attempt i with a path; the calls are recorded. The specification says what a template is, which paths were tried in which order with which answers, and what is left. Proved by induction on the attempts; refuted: mkdtemp with a template of fewer than six characters stops the program, tmpfile leaves errno unset where no file can be created, and the last number is never tried.
* **C105** `parse_modestring`, `fopen` and `fdopen` over byte arrays with the kernel as a parameter. The specification says for each bit of the flags when it is wanted; proved by induction on the mode. Refuted: a mode beginning with another letter opens the file for reading instead of EINVAL; an empty mode reads what is after its end.
* **C106** `popen` and `pclose` over a process with descriptors, two signal actions and a mask; pipe's numbers and the answers of fork and waitpid are parameters, the child is the process at its exec. The theorems compare program and command with the process before the call. Refuted: if the child's end already is number 0 or 1 it is closed again; streams of earlier calls stay open in the command; pclose reports ECHILD if its wait is interrupted.
* **C107** `strfmon` with its sink, the parser of the format and the layout; the digits of a number are a parameter because they are printed by another library. Proved: no write outside the buffer and independence of its size (induction over the format and the pieces), the width of fields (sum of the lengths of the pieces), the sign. Refuted: two bytes too many are asked for; a decimal point of several bytes can be dropped silently because print_float's appends are not checked; in the C locale widths are ignored; with the sign at the symbol and `!` no sign is shown; the layout for negative amounts is never used; an empty positive sign of a locale file counts as one character.
* **C108** `lockf` over a model of the record locks of Linux (a table of byte ranges per process; deadlock detection and interrupted waits are left out). Proved by arithmetic on ranges and, for exclusion, by induction over histories. Refuted: `F_TEST` asks with a read lock, so a section that another process has locked for reading is called free although `F_TLOCK` on it fails.
* **C109** the fallback of `writev` (the sum of the lengths, the buffer, the copies into it); `write` is what its answer is about. Proved by induction over the pieces. Refuted: a negative count does an empty write, a count of 0 stops the process.
* **C110** `swab` on byte memory, by an invariant of its loop.
* **C111** the setters and getters of thread attributes (without the scheduling ones) on the fields of the object, with a count of its live blocks; histories by induction. Refuted: `pthread_attr_getaffinity_np` with a larger size zeroes the front of the result and not its end; `pthread_attr_setaffinity_np` with no set loses the memory of the old one.
* **C112** `get_nameserver` with `fgets`, the skipping of long lines and the words of a line, against a specification by lines; by induction over the lines of the file. Refuted: a line with "nameserver" and no name hides the servers after it.
* **C113** `timeradd` and `timersub` with their loops and overflow as undefined behaviour; induction over the loops.
* **C114** `__FD_SET`, `__FD_CLR`, `__FD_ISSET` and `__FD_ZERO` on the words of a set (the Linux layout), against sets of numbers; bitwise reasoning and induction over the calls.
* **C115** the state of `utmpx.cpp` (the path with its block, the open file) and its calls; the records are left out. An invariant over histories. Refuted: `utmpxname` while a file is open has no effect until `endutxent`.
* **C116** `parseList` by indices, with `sub_string` refusing what is outside; compared with the list of pieces between separators.
* **C117** `wcslcat` over arrays of cells, any access outside being undefined; the exact contents afterwards.
* **C118** `sig2str` and `str2sig` with the Linux numbers and strtol of C12 as a function of the string. Refuted: `RTMIN+9223372036854775807` overflows, and plain decimal numbers are refused.

<!-- the part below is regenerated from the sources -->

## Trusted base

* Coq 8.16.1: its kernel, and `coqchk`, which checks the compiled files again. No plugin, no native code; `vm_compute`
  is used in a few examples only and is checked by the kernel (`coqchk` does it without the virtual machine).
* The standard library of Coq (lists, `Z`, `lia` and the like). No other library is imported.
* **Axioms: none.** `Print Assumptions` was run on every theorem listed in MANIFEST.json; each one of the 717 answers
  "Closed under the global context". (`coqchk` lists some axioms of the installed ssreflect library because the
  library is on the path; no theorem here depends on them.)
* The reading of the C and C++ sources that the definitions in `*_Model.v` record. Nothing checks that a definition says
  what the cited lines say, except comparison by eye and the experiments in `seeded/LOG.jsonl`, which show that
  realistic mistakes in a definition make its theorems fail.
* The specifications in `*_Spec.v` and in the statements in `*_Props.v`.
* Facts about the platform that the models assume: two's complement integers of the widths of a 64-bit Linux target,
  8-bit bytes, IEEE 754 binary32 and binary64 with round to nearest (the additions, multiplications and divisions used by the
  math functions are defined in `Ieee*.v` on bit patterns; `fadd_nearest` and `ratio_rounded` show that they
  return the nearest number), sequential consistency, and a kernel whose futex and signal calls do what the
  models of Conc.v and Texit_Model.v say.

## What is modelled

Each line: the model file and the sources of /repo its comments cite.

* `Addrinfo_Model.v`: options/posix/generic/netdb.cpp, services.cpp, lookup.cpp, posix/include/netdb.h
* `Alloc_Model.v`: options/ansi/generic/stdlib.cpp, options/posix/generic/posix_stdlib.cpp
* `Archive_Model.v`: options/internal/generic/locale.cpp, options/internal/include/mlibc/locale-archive-parsing.hpp
* `Barrier_Model.v`: options/posix/generic/pthread.cpp, options/internal/include/mlibc/thread-types.hpp, pthread.h
* `Bitset_Model.v`: options/internal/generic/sigset.cpp, posix_signal.cpp, options/linux/generic/cpuset.cpp
* `ByteOrder_Model.v`: options/internal/include/mlibc/bitutil.hpp, options/posix/generic/arpa-inet.cpp, options/bsd/generic/arpa-nameser.cpp
* `Casestr_Model.v`: options/posix/generic/strings.cpp, options/posix/generic/posix_string.cpp, options/glibc/generic/string.cpp
* `Cond_Model.v`: options/internal/generic/threads.cpp
* `Ctype_Model.v`: options/ansi/generic/ctype.cpp, charset.cpp, charcode.hpp, c-locale-defaults.cpp, locale-defaults.cpp, locale.hpp, charcode.cpp, nl_item.h
* `Deps_Model.v`: options/rtld/generic/linker.cpp, options/rtld/generic/main.cpp
* `Dirent_Model.v`: options/posix/generic/dirent.cpp, dirent.h
* `Dns_Model.v`: options/posix/generic/lookup.cpp
* `Dtv_Model.v`: options/rtld/generic/linker.cpp, main.cpp
* `Env_Model.v`: options/ansi/generic/environment.cpp
* `Execp_Model.v`: options/posix/generic/unistd.cpp
* `Exit_Model.v`: options/lsb/generic/dso_exit.cpp, options/ansi/generic/stdlib.cpp, rtld/generic/main.cpp
* `Fdset_Model.v`: options/posix/generic/sys-time.cpp, options/posix/generic/sys-select.cpp, abis/linux/fd_set.h
* `Fmod_Model.v`: options/ansi/musl-generic-math/fmod.c, remquo.c, remainder.c, fmodf.c, remquof.c, remainderf.c, math.h, __fpclassify.c
* `Fnm_Model.v`: options/posix/musl-generic-regex/fnmatch.c, options/ansi/generic/stdlib.cpp, posix/include/fnmatch.h, internal/generic/strings.cpp
* `Fork_Model.v`: options/posix/generic/pthread.cpp, options/posix/generic/unistd.cpp, options/bsd-procdesc/generic/sys-procdesc.cpp, options/internal/include/mlibc/tcb.hpp, options/rtld/generic/linker.cpp
* `Ftime_Model.v`: options/internal/include/mlibc/time.hpp, options/ansi/generic/time.cpp, options/internal/generic/locale-defaults.cpp
* `Ftw_Model.v`: options/posix/generic/ftw.cpp, limits.h, ftw.h
* `Gather_Model.v`: options/posix/generic/sys-uio.cpp, options/posix/generic/unistd.cpp
* `Getopt_Model.v`: options/internal/generic/getopt.cpp, glibc/include/getopt.h
* `Glob_Model.v`: options/posix/musl-generic-regex/glob.c, options/posix/include/glob.h, options/ansi/include/limits.h, options/posix/include/dirent.h
* `Hash_Model.v`: options/internal/generic/search.cpp
* `Hosts_Model.v`: options/posix/generic/lookup.cpp, services.cpp
* `Inet_Model.v`: options/posix/generic/arpa-inet.cpp
* `Init_Model.v`: options/rtld/generic/linker.cpp, options/rtld/generic/main.cpp
* `Keys_Model.v`: options/internal/generic/threads.cpp, options/posix/generic/pthread.cpp, limits.h, bits/threads.h, tcb.hpp, linker.cpp
* `Libgen_Model.v`: options/posix/generic/libgen.cpp
* `Linear_Model.v`: options/posix/generic/search.cpp
* `Locale_Model.v`: options/ansi/generic/locale.cpp, options/posix/generic/posix_locale.cpp, options/internal/include/bits/locale.h, options/internal/include/mlibc/locale.hpp
* `Lock_Model.v`: options/internal/include/mlibc/lock.hpp
* `Lockf_Model.v`: options/posix/generic/unistd.cpp, options/posix/include/unistd.h, abis/linux/fcntl.h, options/posix/generic/fcntl.cpp
* `Mbc_Model.v`: options/ansi/generic/stdlib.cpp
* `Mem_Model.v`: options/internal/generic/essential.cpp, options/glibc/generic/string.cpp
* `Memfile_Model.v`: options/posix/generic/posix-file-io.cpp, options/posix/generic/posix_stdio.cpp, options/ansi/generic/file-io.cpp, options/ansi/generic/stdio.cpp
* `Mnt_Model.v`: options/linux/generic/mntent.cpp
* `Mode_Model.v`: options/ansi/generic/file-io.cpp, options/posix/generic/posix-file-io.cpp, abis/linux/fcntl.h
* `Money_Model.v`: options/posix/generic/monetary.cpp
* `Mutex_Model.v`: options/internal/generic/threads.cpp, abis/linux/errno.h, thread-types.hpp
* `Next_Model.v`: __fpclassify.c, __fpclassifyf.c, __signbit.c, nextafter.c, nextafterf.c, fmax.c, fmaxf.c, fmin.c, fminf.c, fdim.c, fdimf.c, fabs.c, fabsf.c, copysign.c, copysignf.c
* `Once_Model.v`: options/internal/generic/threads.cpp, thread-types.hpp
* `Plist_Model.v`: options/rtld/generic/main.cpp
* `Popen_Model.v`: options/posix/generic/posix_stdio.cpp
* `Proto_Model.v`: options/posix/generic/netdb.cpp
* `Ptime_Model.v`: options/posix/generic/time.cpp
* `Rand48_Model.v`: options/posix/generic/posix_stdlib.cpp
* `Random_Model.v`: options/posix/generic/posix_stdlib.cpp
* `Realpath_Model.v`: options/posix/generic/posix_stdlib.cpp, options/ansi/include/limits.h, abis/linux/errno.h
* `Relr_Model.v`: linker.cpp, main.cpp
* `Resolv_Model.v`: options/posix/generic/resolv_conf.cpp
* `Rint_Model.v`: math.h, floor.c, ceil.c, floorf.c, ceilf.c, rint.c, rintf.c, nearbyint.c, round.c, roundf.c, trunc.c, truncf.c, modf.c, modff.c, lround.c, llround.c, lrint.c, llrint.c
* `Rwlock_Model.v`: options/posix/generic/pthread.cpp, options/internal/include/mlibc/thread-types.hpp, abis/linux/errno.h
* `Scalbn_Model.v`: scalbn.c, scalbnf.c, ldexp.c, frexp.c, frexpf.c, ilogb.c, ilogbf.c, math.h
* `Scanf_Model.v`: options/ansi/generic/stdio.cpp, ansi/generic/ctype.cpp
* `Scope_Model.v`: linker.cpp, options/rtld/generic/main.cpp
* `Sem_Model.v`: options/posix/generic/semaphore.cpp, semaphore.h, abis/linux/errno.h
* `Shadow_Model.v`: options/glibc/generic/shadow.cpp, shadow.h
* `Sigstr_Model.v`: options/posix/generic/posix_signal.cpp, abis/linux/signal.h, internal/include/mlibc/strtol.hpp
* `Snprintf_Model.v`: options/ansi/generic/stdio.cpp
* `Sort_Model.v`: options/ansi/generic/stdlib.cpp
* `Spawn_Model.v`: options/posix/generic/spawn.cpp, spawn-types.hpp
* `Spin_Model.v`: options/posix/generic/pthread.cpp
* `Sqrt_Model.v`: options/ansi/musl-generic-math/sqrt.c, sqrtf.c
* `Stdio_Model.v`: options/ansi/generic/file-io.cpp, options/ansi/generic/stdio.cpp, options/ansi/include/stdio.h
* `Str_Model.v`: options/ansi/generic/string.cpp, options/posix/generic/posix_string.cpp, internal/generic/essential.cpp, internal/generic/strings.cpp
* `Strtod_Model.v`: options/internal/include/mlibc/strtofp.hpp, ansi/generic/stdlib.cpp
* `Strtol_Model.v`: options/internal/include/mlibc/strtol.hpp, ansi/generic/stdlib.cpp, ansi/generic/inttypes.cpp
* `Subopt_Model.v`: options/posix/generic/posix_stdlib.cpp
* `Symtab_Model.v`: options/rtld/generic/linker.cpp, linker.hpp
* `Syslog_Model.v`: options/posix/generic/syslog.cpp
* `Tattr_Model.v`: options/posix/generic/pthread.cpp, options/internal/include/mlibc/thread-types.hpp, options/internal/generic/threads.cpp
* `Temp_Model.v`: options/internal/generic/stdlib.cpp, options/posix/generic/posix_stdlib.cpp, options/ansi/generic/stdio.cpp, abis/linux/fcntl.h, errno.h
* `Texit_Model.v`: options/internal/generic/threads.cpp, options/posix/generic/pthread.cpp, sysdeps/linux/generic/thread.cpp, sysdeps/linux/x86_64/cp_syscall.S, sysdeps/linux/generic/cxx-syscall.hpp, sysdeps.cpp, tcb.hpp
* `Time_Model.v`: options/ansi/generic/time.cpp, options/internal/include/mlibc/time-helpers.hpp, frg/safe_int.hpp
* `Tls_Model.v`: options/rtld/generic/linker.cpp
* `Tree_Model.v`: options/posix/generic/search.cpp
* `Tz_Model.v`: options/ansi/generic/time.cpp
* `Users_Model.v`: options/posix/generic/pwd.cpp, grp.cpp
* `Utf8_Model.v`: options/internal/generic/charcode.cpp, options/ansi/generic/wchar.cpp, stdlib.cpp, charcode.hpp, ansi/include/bits/mbstate.h, ansi/include/limits.h
* `Utmpx_Model.v`: options/posix/generic/utmpx.cpp, abis/linux/utmpx.h
* `Vstrcmp_Model.v`: options/ansi/x86_64/strcmp.cpp, mlibc/features.hpp
* `Wcs_Model.v`: options/ansi/generic/string.cpp
* `Wlcat_Model.v`: options/posix/generic/wchar.cpp
* `Wordexp_Model.v`: options/posix/generic/wordexp.cpp

## What is not modelled

* The allocator (frigg's slab pool is not in the repository; the debug allocator and the thin wrappers are not modelled).
* System calls and sysdeps, except where a property needs their effect; then they are parameters or transitions.
* printf of floating-point numbers beyond what the properties say, the conversions of scanf named in C72 as left out, wide-character stdio, locales other than C (C78 models its tables), regular expressions,
  glob and wordexp, name resolution and resolver parsing, the transcendental functions of libm.
* In the dynamic linker: file parsing errors, symbol versions other than what C55-C63 cover, lazy binding (switched off in the code).
* Weak memory, and compiler optimisations: each atomic operation of the code is one step.
* Time: timeouts expire at an arbitrary point.

## Where the code does not satisfy a property

Each theorem below shows an input, a history or a schedule for which the modelled code violates the English claim. The property then has status
"partial" in MANIFEST.json, or the claim was worded so that the exception is explicit, and the strongest version that
holds is proved beside it.

* C05 `C05_strncpy_refuted`: strncpy reads behind a source array of n bytes without a NUL
* C05 `C05_strncat_refuted`: strncat reads behind a source array of n bytes without a NUL
* C05 `C05_stpncpy_refuted`: stpncpy reads behind a source array of n bytes without a NUL
* C09 `C09_memmem_refuted`: memmem of an empty needle in an empty haystack returns NULL
* C100 `C100_threads_refuted`: A handler registered by one thread does not run when another thread forks: for every set of handlers, a fork in a thread that was created after the registration runs none.
* C100 `C100_failure_refuted`: If fork fails, the prepare handlers have run but no parent handler runs, so that what the former acquired is not released.
* C101 `C101_failure_refuted`: Refuted: a failed setlocale(LC_ALL, name) leaves the locale as it was. A locale with some of its categories is half set; the name for LC_ALL is the old one. newlocale modifies its base in the same way.
* C101 `C101_environment_refuted`: Refuted: setlocale(category, "") sets this category only, and LC_ALL comes first. It sets every category, and LC_ALL is ignored.
* C101 `C101_bounds_refuted`: Refuted: a composite name that ends after the name of its last category is read beyond its end; so it is with a category that does not exist.
* C101 `C101_codeset_refuted`: Refuted: 8859-1 and 88591 are the same codeset.
* C103 `C103_string_refuted`: Refuted: every string from a locale file ends with a zero byte. If an item has none, it is used without one.
* C103 `C103_end_refuted`: Refuted: the lookup of a name always ends. With a full table it never does for a name that is not in it.
* C103 `C103_bounds_refuted`: Refuted: nothing outside an archive is read. The size of a record is subtracted from a smaller size.
* C104 `C104_mkdtemp_refuted`: a template of fewer than six characters stops the program instead of giving EINVAL
* C104 `C104_tmpfile_refuted`: but where no file can be created, no error number is set: here every open fails with EACCES
* C104 `C104_last_refuted`: the name with 999999 is not tried: EEXIST although it is free
* C105 `C105_letter_refuted`: a mode that does not begin with r, w or a is not refused: the path is opened for reading
* C105 `C105_empty_refuted`: and with an empty mode, the bytes after it are read: the end of the array is passed, or what is there is taken for flags
* C106 `C106_closed_refuted`: in a program without standard input or output the command loses the pipe
* C106 `C106_earlier_refuted`: the streams of earlier calls stay open in the command
* C106 `C106_pclose_refuted`: but where the wait is interrupted (EINTR), it says that there is no such process
* C107 `C107_point_refuted`: otherwise a point of several bytes can be left out without an error: 12.5 becomes 125 in a buffer of six bytes
* C107 `C107_room_refuted`
* C107 `C107_width_refuted`: in the C locale widths up to 255 have no effect
* C107 `C107_empty_sign_refuted`: an empty positive sign of a locale file is counted as one character: with + the field is one character short
* C107 `C107_sign_refuted`: but not where the sign is at the currency symbol (positions 3 and 4) and this is suppressed: only the digits are left of a negative amount
* C107 `C107_layout_refuted`: and the layout that a locale has for negative amounts is never used
* C108 `C108_test_refuted`: but not whether another process holds any lock: a section locked for reading by another process is called free, and taking it fails
* C109 `C109_count_refuted`: a negative count is not refused: an empty write is done; a count of 0 ends the process
* C111 `C111_affinity_refuted`: asking for more bytes: the zero bytes go to the front, over the processors, so that the first eight processors are never reported
* C111 `C111_memory_refuted`
* C112 `C112_unnamed_refuted`: a line "nameserver" without a name hides all servers after it
* C115 `C115_switch_refuted`: but if a file is open, a new name has no effect: the old file goes on being read
* C118 `C118_defined_refuted`: ... but an offset next to the largest long makes the addition of SIGRTMIN overflow
* C118 `C118_decimal_refuted`: a plain decimal number, which POSIX wants accepted, is refused, whatever the number
* C12 `C12_strtol_refuted`: strtol("0b", &end, 0) leaves end at the start of the string; the subject sequence "0" should be consumed
* C14 `C14_mbstowcs_zero_refuted`: mbstowcs with limit 0 should return 0; the code aborts on its internal check
* C21 `C21_delete_refuted`: C21, refuted with deletion: this history leaves seven keys in a tree of height seven, a linked list
* C23 `C23_clearenv_refuted`: clearenv does not clear the environment: every variable survives
* C23 `C23_duplicate_refuted`: an environment inherited with the same name twice: unsetenv leaves the second value visible
* C23 `C23_empty_name_refuted`: POSIX requires EINVAL for an empty name; setenv accepts it
* C24 `C24_order_refuted`: The full claim fails in three ways. (1) Overall reverse order: a C++ object constructed after atexit is destroyed after the atexit handler has run.
* C24 `C24_nested_refuted`: (2) a handler registered by a handler during exit never runs
* C24 `C24_dangling_refuted`: (3) if the nested registration reallocates the queue, the loop writes to freed memory
* C26 `C26_yday_refuted`: in every non-leap year the day of the year is one too large from 1 March on
* C26 `C26_negative_refuted`: one second before the epoch is not 31 December 1969 23:59:59
* C29 `C29_trailing_refuted`: "1.2.3.4.x" is accepted
* C29 `C29_short_refuted`: for "1.2" the parser goes on behind the terminating NUL
* C30 `C30_mapped_refuted`: the text of ::ffff:10.0.0.1 is not accepted
* C30 `C30_overrun_refuted`: inet_ntop(AF_INET6, all zeros, dst, 2) stores a byte behind the buffer
* C31 `C31_recursive_try_refuted`: The second exception is real: try_lock() on a recursive lock by its holder should succeed (the code's own comment says so), but it ends the process.
* C33 `C33_eperm_refuted`: C33 (error checking) is false of the code: unlocking an error-checking mutex that another thread holds does return EPERM, but it releases the mutex nevertheless.
* C33 `C33_eperm_exclusion_refuted`: The consequence: after the failed unlock a second thread locks the mutex as well.
* C35 `C35_trywait_refuted`: ... and the part that does not: once a thread has had to wait, sem_trywait fails with EAGAIN although the value is positive, no thread is waiting and nobody else touches the semaphore.
* C36 `C36_overtaken_refuted`: Refutation of part 3 for more threads than [count]: the release of generation 0 is stored after that of generation 1; thread 3 then sleeps although its generation is complete, and everybody else has left.
* C36 `C36_wrap_refuted`: Three threads meet 2^30 times at a barrier for three; the next one that arrives passes it alone.
* C38 `C38_own_key_refuted`: Defect: POSIX sets the value to null before the destructor is called; this code does so after it has returned. So getspecific in a destructor still returns the value being destroyed, and a value that a destructor sets for its own key is lost: the destructor is not called again for it, and a later destructor reads null.
* C38 `C38_deleted_key_refuted`: Defect: the exit loop reads a key's value and its destructor in two critical sections; if another thread deletes the key and a new key gets the same number in between, the destructor of the new key is called with the value of the old one.
* C39 `C39_retry_refuted`: ... but it may take more than it reports: a line that could not be written is kept in the buffer and reported as not written; a program that tries again writes it twice.
* C41 `C41_wide_refuted`: snprintf(buf, 3, "%ls", L"€"): the three-byte character does not fit the two bytes available; the byte counter still advances by three, so the terminator is stored at buf[2] and buf[0], buf[1] keep their old contents
* C46 `C46_wcsrtombs_refuted`: wcsrtombs instead aborts the process whenever the limit falls inside a character
* C55 `C55_timed_read_refuted`: Defect: a timed read lock fails with EAGAIN, long before its deadline, merely because another reader is inside rdlock at the moment; nobody has or wants the lock for writing.
* C55 `C55_try_read_refuted`: Defect: tryrdlock fails with EBUSY although the lock is held for reading only and nobody waits for it, because a trywrlock that is about to fail has the mutex for a moment.
* C56 `C56_signal_lost_refuted`: pthread_cond_signal may wake nobody: a thread that starts waiting after the signal takes the place of the one that waited before it
* C56 `C56_wrap_refuted`: the 32-bit counter of signals wraps and a waiter aborts the process
* C57 `C57_pushback_lost_refuted`: a character that was pushed back at the end of the file is lost
* C57 `C57_ungetc_eof_refuted`: ungetc does not clear the end-of-file indicator
* C57 `C57_ungetc_255_refuted`: ungetc returns EOF for character 255 although it pushes it back
* C57 `C57_seek_cur_refuted`: fseek(f, 0, SEEK_CUR) after ungetc moves the position forward
* C57 `C57_fflush_pipe_refuted`: fflush of a pipe that is being read (fflush(NULL) does this too) discards its input
* C57 `C57_getline_refuted`: after a failed fseek, getline fails although there is a line, and loses a character
* C57 `C57_fputc_refuted`: fputc does not return the character
* C58 `C58_non_ascii_refuted`: with signed characters, symbols with names outside ASCII are not found
* C59 `C59_nested_order_refuted`: if a constructor calls dlopen, a constructor may run before that of an object it needs
* C60 `C60_cycle_refuted`: in a dependency cycle through the root, the root is relocated twice
* C61 `C61_late_alignment_refuted`: Objects that are loaded later are not aligned if they ask for more than any object did at start-up: alignment 32, with both variants, for some allocation.
* C61 `C61_alignment_zero_refuted`: ELF allows an alignment of 0 for "none"; an object with it gets its block at the thread pointer, where the TCB is.
* C62 `C62_overlapping_dlopen_refuted`: Two calls of dlopen that overlap: the one that finishes last writes the TLS image over the variables of the other, which has returned.
* C62 `C62_local_static_refuted`: an object with static TLS loaded with RTLD_LOCAL: threads created later see zeros instead of the initialisers
* C63 `C63_promotion_refuted`: RTLD_GLOBAL after RTLD_LOCAL makes the object global but not its dependencies
* C63 `C63_late_local_refuted`: ... but they lose a definition in a local scope whose object is made global later.
* C68 `C68_sqrt_defined_refuted`: sqrt shifts a 32-bit word by 32 bits, which is undefined, for exactly the subnormal numbers from 2^31 to 2^32 and from 2^10 to 2^11 times the least one
* C69 `C69_late_destructor_refuted`: A thread_local destructor registered by a cleanup handler is never run.
* C69 `C69_dead_refuted`: Without that rule this fails: a thread cancelled in pthread_testcancel whose cleanup handler reaches a cancellation point disappears without publishing its end, and no pthread_join on it ever returns.
* C69 `C69_async_refuted`: A thread created while its creator had cancellation disabled inherits a mask that blocks the signal: asynchronous cancellation does not reach it.
* C69 `C69_blocked_refuted`: If it did, the cancellation is lost: the thread is in the system call, enabled and cancelled, and whatever anybody does, including further calls of pthread_cancel, it stays there until the system call returns by itself.
* C69 `C69_effect_refuted`: Cancelling a system call must not lose its effect; but a call that has been carried out is still cancelled when the signal arrives at the label after the system call instruction.
* C70 `C70_wide_range_refuted`: the end of a range outside ASCII: [!α-ω] does not match "x"
* C70 `C70_dash_range_refuted`: a range that ends with '-' is continued by the next character: [%--x] matches "5"
* C70 `C70_escaped_period_refuted`: an escaped period does not match a leading period
* C70 `C70_collating_refuted`: collating symbols and equivalence classes never match: [[.a.]] and [[=a=]] do not match "a"
* C70 `C70_termination_refuted`: with FNM_PATHNAME, a byte of the pattern that is not UTF-8 makes fnmatch loop forever
* C71 `C71_cluster_refuted`: -ab -c: after a word with two letters the next word is read behind its end
* C71 `C71_missing_refuted`: -o without its argument: the loop over the options never ends
* C71 `C71_dash_argument_refuted`: -o -5: an argument that begins with '-' is refused
* C71 `C71_unknown_refuted`: -axb: the unknown letter is x, but optopt is a, and b is not reported
* C71 `C71_posixly_refuted`: f -a with POSIXLY_CORRECT in the environment: the operand should end the options
* C72 `C72_width_refuted`: "%2d" reads at most two characters: of "123" it has to store 12. The code stores 123
* C72 `C72_suppressed_width_refuted`: "%*2s%s" has to skip "ab" of "abc" and to store "c". The code takes "2s" as ordinary characters behind a conversion "%*2": nothing is stored
* C72 `C72_bytes_refuted`: "%s" and "%c" have to take every byte; the code aborts the process on any byte above 127
* C72 `C72_dash_refuted`: "%[a-z]" must not take '-'; the code does
* C72 `C72_truncated_refuted`: an input that ends within a multibyte character: "%[^x]" reads behind its terminator
* C72 `C72_percent_refuted`: "%%" has to skip white space: "%d%%%n" of "5 %" has to store 5 and 3. The code stops at the blank
* C73 `C73_negative_seek_refuted`: a seek to a negative position has to fail; that of open_memstream succeeds, and the next write is outside of the buffer
* C73 `C73_seek_changes_refuted`: a seek must not change the contents: one to before the end by SEEK_END cuts them off ("abc" becomes "ab", without a terminator), one behind the end extends them
* C73 `C73_flush_size_refuted`: fflush has to store the position if it is before the end; the code stores the length
* C73 `C73_update_refuted`: a write through a stream for update ("r+") destroys the last byte of the buffer
* C73 `C73_terminator_refuted`: nor are the contents written through "w+" followed by a null byte
* C73 `C73_append_refuted`: a write through a stream for appending has to go to the end; after a seek the code overwrites
* C74 `C74_nested_link_refuted`
* C74 `C74_overrun_refuted`
* C74 `C74_absolute_link_refuted`
* C74 `C74_dangling_refuted`
* C74 `C74_root_link_refuted`
* C74 `C74_loop_refuted`: A link to itself is not ELOOP: realpath never returns.
* C74 `C74_long_link_refuted`
* C74 `C74_notdir_refuted`: A file that is not a directory passes for one: "/b/.." is no error (ENOTDIR) if /b is a regular file.
* C74 `C74_empty_refuted`: The empty path is no error (ENOENT), but the working directory.
* C75 `C75_wcsncat_refuted`
* C75 `C75_wcscmp_refuted`: characters far apart: the difference overflows an int. WCHAR_MIN and WCHAR_MAX themselves are wide characters
* C75 `C75_wcsstr_refuted`
* C77 `C77_safe_refuted`: strtod("1e2147483648")
* C77 `C77_nearest_refuted`
* C77 `C77_hex_prefix_refuted`
* C77 `C77_no_conversion_refuted`: without a number nothing should be converted and endptr be the start: strtof("+") and strtof(".")
* C77 `C77_infinity_refuted`: strtof("Inf") and strtof("inf,1") are 0
* C78 `C78_isascii_refuted`: isascii(0x141) is true: the argument is cut to a char
* C79 `C79_strncasecmp_utf8_refuted`: In every UTF-8 locale strncasecmp takes any two strings starting with non-ASCII characters for equal.
* C79 `C79_strcasestr_refuted`: an empty pattern is not found in an empty string
* C80 `C80_weekday_refuted`: the code takes every month to begin with a Sunday (mktime does not compute tm_wday): in 2024 the second Sunday of March is the 10th; summer time is in force already on Saturday, the 9th, at noon UTC
* C80 `C80_hour_refuted`: the change takes place at midnight UTC: on Sunday, 8 March 2026, 00:00 UTC (19:00 of 7 March in New York) instead of 02:00 local time, which is 07:00 UTC
* C80 `C80_2038_refuted`: transitions are kept in an int: in July 2040 there is no summer time
* C80 `C80_week5_refuted`: if the last transition day is given as week 5, summer time may begin or end in the next month: with the end at M10.5.6 (the last Saturday of October; the 26th in 2024) it is still in force on 3 November
* C80 `C80_julian_refuted`: with Julian days or days of the year, there is never summer time: the day is ignored
* C80 `C80_safe_refuted`: EST5ABCDEFG overruns the buffer for the second name
* C80 `C80_tzfile_last_refuted`: After the last transition, the code does not use its type but the first type of the file (often local mean time).
* C80 `C80_tzfile_first_refuted`: Before the first of several transitions, the code does not use the first type of the file but that of the first transition.
* C80 `C80_tzfile_types_refuted`: tzset reads the type table from the entry behind the last one: with a file for UTC, the "offset" is made of the letters UTC; the epoch becomes 14 May 2015
* C81 `C81_composite_refuted`: %c, %x and %X drop what comes before and behind them: "at %X." gives "14:05:09"
* C81 `C81_unknown_refuted`: %g, %G, %s, %u, %V, %w and %W abort the process
* C81 `C81_modifier_refuted`: "%O+" is copied as it is, without looking at the size: with max = 1, bytes 1 and 2 behind the buffer are overwritten (and the process is stopped only then); "%E" at the end returns with the bytes behind the buffer overwritten
* C81 `C81_negative_refuted`: years before 0: %y and %C are negative numbers
* C81 `C81_asctime_refuted`: a year of five digits makes asctime_r write 27 bytes into the buffer of 26 that POSIX (and asctime) provide
* C82 `C82_adjacent_refuted`: The digits after the number a conversion wants are not left for the next conversion: a number of three or more digits is refused, so "%H%M" does not read "1230" and "%j" never reads 100 to 366
* C82 `C82_unimplemented_refuted`: %c %U %W %x %X %g %G %V %z %Z %s %E %O abort the process
* C82 `C82_weekday_refuted`: 1 February 2001 was a Thursday (4): tm_wday is -3
* C82 `C82_yearday_refuted`: 1 March 2024 is day 60 of the year (counted from 0): tm_yday is 59, that of 29 February is 60 and that of 1 January is 1
* C82 `C82_small_refuted`: %u on "1" (Monday) stores 0 (Sunday); %w takes "9"; %p takes any text and reads nothing; with %p first, "PM 03" is 3 o'clock; an empty input is refused even by an empty format
* C83 `C83_hostile_refuted`
* C83 `C83_client_refuted`: What the client does differently from the specification. A trailing dot gives a query with a byte too many. A label of 64 bytes gives a length byte that RFC 1035 reserves. The address in a reverse query is not reversed (1.2.3.4.in-addr.arpa). A reply without answers is ignored until the time-out; so is a reverse reply whose first record is no name. A pointer to the root gives a dot at the end. The loop-back address has its bytes reversed.
* C84 `C84_comment_refuted`
* C84 `C84_lookup_refuted`
* C85 `C85_negative_refuted`: A negative processor number is not refused: undefined behaviour.
* C86 `C86_group_overrun_refuted`: What fails. The room for the password is not counted: with a buffer between the two sizes the password is written behind its end.
* C86 `C86_group_misaligned_refuted`: A buffer that is not aligned is moved on by 8 bytes, so that it is not aligned either.
* C86 `C86_group_fields_refuted`: A line with a fifth field, even in a comment, terminates the process, whatever group is looked up.
* C86 `C86_group_no_members_refuted`: A line that ends behind the number, or a last line without a newline and without members, dereferences a null pointer.
* C86 `C86_group_long_refuted`
* C86 `C86_group_comma_refuted`: putgrent does not refuse a member with a comma: it is read back as two.
* C87 `C87_mbtowc_cut_refuted`: mbtowc on a cut character does not fail but returns the number of bytes, stores nothing, and after that refuses any ASCII character, even if it was reset with mbtowc(NULL, NULL, 0).
* C87 `C87_mblen_cut_refuted`: mblen on a cut character fails, as it should, but so does the next call on an ASCII character; mblen(NULL, 0) does reset it.
* C87 `C87_mblen_zero_refuted`: mblen with no bytes at all returns 0, as for a null character.
* C88 `C88_fd_limit_refuted`: with one descriptor the walk of this tree succeeds without a word about the file x
* C88 `C88_stop_refuted`: a callback that stops the walk at a directory leaves its descriptor open
* C88 `C88_loop_refuted`: following a symbolic link to a directory above leaves its descriptor open although the walk succeeds; and with FTW_DEPTH the link is not reported
* C89 `C89_error_refuted`: full property: an error of the kernel is reported by a null pointer and errno. The process is aborted instead.
* C90 `C90_errno_refuted`: full property: what the function does to errno is of no concern. If it sets errno, to say of an entry that is no directory, scandir fails.
* C90 `C90_descriptor_refuted`: full property: scandir closes the directory. It never does.
* C91 `C91_fork_refuted`: Refuted: a failing fork leaves the caller with two more open descriptors.
* C91 `C91_cloexec_refuted`
* C92 `C92_overflow_refuted`: Refuted: a long number makes the parser overflow, which is undefined.
* C92 `C92_last_refuted`: Refuted: the last entry of a file without a newline behind it cannot be found with any buffer.
* C92 `C92_negative_refuted`: Refuted: a negative number other than -1 is written but not read back; a colon in the name finds the entry of another user.
* C92 `C92_colon_refuted`
* C93 `C93_lost_refuted`: Refuted: an enabled message is lost if its number has no bit in common with the mask. So LOG_EMERG without a facility is never logged, and with setlogmask(LOG_MASK(LOG_ERR)) no LOG_ERR is.
* C93 `C93_emerg_refuted`
* C93 `C93_options_refuted`: Refuted: the options LOG_PERROR, LOG_CONS and LOG_PID have no effect: nothing is ever written to standard error or the console, and no line has the process number (C93_send_partial).
* C93 `C93_fallback_refuted`: Refuted: after one failing connect nothing is sent to the daemon any more, even after closelog and openlog.
* C93 `C93_mask_zero_refuted`: Refuted: setlogmask(0), which should only ask for the mask, turns logging off.
* C94 `C94_empty_refuted`: Refuted: an empty element does not stand for the current directory: the program is looked for in the root directory instead, and an empty element at the end is ignored.
* C94 `C94_execl_refuted`: Refuted: execl stops the program if there are 15 arguments or more.
* C95 `C95_dollar_refuted`: Refuted: a dollar at the end makes it read behind the string.
* C95 `C95_nocmd_refuted`: Refuted: with WRDE_NOCMD a command still comes to the shell, in '`'`id`'`', in ${x-$(id)} and in $(($(id))).
* C95 `C95_backquote_refuted`: Refuted: a quoted or escaped backquote, '`' or \`, is refused.
* C95 `C95_append_refuted`: Refuted: after an error with WRDE_APPEND the words before are gone.
* C96 `C96_alias_refuted`: Refuted: an entry without aliases is never found.
* C96 `C96_hang_refuted`: Refuted: at a last line without newline, or one of more than 255 bytes, the call never returns.
* C96 `C96_rewind_refuted`: Refuted: setprotoent and endprotoent do not go back to the first entry: wherever they are called, getprotoent goes on.
* C97 `C97_addrconfig_refuted`: Refuted: with AI_ADDRCONFIG (also when there are no hints) on a machine that has IPv4 only, asking for IPv6 gives IPv4 addresses.
* C97 `C97_service_refuted`: Refuted: for a service that /etc/services does not list, getaddrinfo reports success, but the result is not even one element: reading it is undefined.
* C97 `C97_loopback_refuted`: Refuted: without a node the loopback address of IPv4 comes out as 1.0.0.127.
* C97 `C97_port_refuted`: Refuted: the service "65616" is accepted and becomes port 80; the protocol SCTP gives TCP and UDP.
* C97 `C97_protocol_refuted`
* C97 `C97_numericserv_refuted`: Refuted: NI_NUMERICHOST and NI_NUMERICSERV are the same bit, so asking for a numeric service alone gives a numeric host too, and an error of the search, such as no answer from the DNS server, becomes the result although NI_NAMEREQD was not given.
* C97 `C97_offline_refuted`
* C98 `C98_stale_refuted`: Refuted: a commented-out line gives its numbers to the next entry, here "#a b c d 0 2" to "x y z w".
* C98 `C98_escape_refuted`: Refuted: "a\040b" stays as it is, and a directory with a blank is not read back.
* C98 `C98_last_refuted`: Refuted: a last line without newline is lost.
* C98 `C98_option_refuted`: Refuted: "ro" is found in "rw,errors=remount-ro".
* C98 `C98_bytes_refuted`: Refuted: a byte above 127 in the file, such as in a UTF-8 name, aborts the process (C72).
* C99 `C99_abort_refuted`: Refuted: with GLOB_ERR a directory that cannot be read is "no match" instead of GLOB_ABORTED.
* C99 `C99_nocheck_refuted`: Refuted: GLOB_NOCHECK with an unknown user gives the pattern, but the call is said to have failed.

## Theorems

All are closed under the global context.

| property | status | theorems |
|---|---|---|
| C01 memcpy copies exactly n bytes | proved | `C01_memcpy`, `C01_mempcpy` |
| C02 memmove is correct for every overlap | proved | `C02_memmove` |
| C03 memset fills exactly n bytes | proved | `C03_memset` |
| C04 strlen and strnlen | proved | `C04_strlen`, `C04_strnlen`, `C04_strnlen_min` |
| C05 string copy and concatenation write exactly the specified bytes | partial | `C05_strcpy`, `C05_stpcpy`, `C05_strcat`, `C05_strlcpy`, `C05_strlcat`, `C05_strncpy_partial`, `C05_stpncpy_partial`, `C05_strncat_partial`, `C05_strncpy_refuted`, `C05_strncat_refuted`, `C05_stpncpy_refuted` |
| C06 memcmp, strcmp and strncmp order bytes lexicographically as unsigned | proved | `C06_memcmp`, `C06_strcmp`, `C06_strncmp`, `C06_order` |
| C07 character searches return the first or last occurrence | proved | `C07_memchr`, `C07_memrchr`, `C07_strchr`, `C07_strrchr`, `C07_strchrnul` |
| C08 strspn, strcspn and strpbrk | proved | `C08_strspn`, `C08_strcspn`, `C08_strpbrk` |
| C09 substring searches return the leftmost occurrence | partial | `C09_strstr`, `C09_memmem_partial`, `C09_memmem_refuted` |
| C10 strtok_r enumerates exactly the maximal delimiter-free tokens | proved | `C10_strtok_call`, `C10_strtok`, `C10_strtok_after` |
| C100 fork runs the handlers of pthread_atfork in order | partial | `C100_order_partial`, `C100_single_thread`, `C100_plain`, `C100_tid`, `C100_threads_refuted`, `C100_failure_refuted` |
| C101 setlocale's result restores the locale | partial | `C101_names`, `C101_lookup`, `C101_path`, `C101_restore`, `C101_restore_one`, `C101_sets`, `C101_environment`, `C101_failure_partial`, `C101_newlocale`, `C101_mask`, `C101_failure_refuted`, `C101_environment_refuted`, `C101_bounds_refuted`, `C101_codeset_refuted` |
| C102 spin locks exclude each other and report misuse | proved | `C102_exclusion`, `C102_results`, `C102_free`, `C102_wait_free` |
| C103 locale archives and locale files are read within their bounds | partial | `C103_finds`, `C103_bounds_partial`, `C103_category`, `C103_items`, `C103_magic`, `C103_magic_values`, `C103_string_partial`, `C103_string_refuted`, `C103_end_refuted`, `C103_bounds_refuted` |
| C104 Temporary files are created exclusively, under the name left in the template | partial | `C104_template`, `C104_flags`, `C104_invalid`, `C104_fresh`, `C104_mkdtemp_partial`, `C104_tmpfile_partial`, `C104_mkdtemp_refuted`, `C104_tmpfile_refuted`, `C104_last_refuted` |
| C105 fopen and fdopen ask for exactly what the mode says | partial | `C105_fopen_partial`, `C105_fdopen`, `C105_letter_refuted`, `C105_empty_refuted` |
| C106 popen connects the command with a pipe and leaves everything else as it was; pclose gives its status | partial | `C106_popen_partial`, `C106_command_partial`, `C106_errors`, `C106_pclose_partial`, `C106_closed_refuted`, `C106_earlier_refuted`, `C106_pclose_refuted` |
| C107 strfmon fills the field, shows the sign and never overruns the buffer | partial | `C107_buffer`, `C107_size_partial`, `C107_plain_partial`, `C107_width_partial`, `C107_field_partial`, `C107_left_partial`, `C107_sequence_partial`, `C107_sign_partial`, `C107_point_refuted`, `C107_room_refuted`, `C107_width_refuted`, `C107_empty_sign_refuted`, `C107_sign_refuted`, `C107_layout_refuted` |
| C108 lockf locks, tests and releases exactly the section | partial | `C108_unlock`, `C108_try`, `C108_lock`, `C108_test_partial`, `C108_test_refuted`, `C108_error`, `C108_operation`, `C108_exclusive` |
| C109 writev writes the bytes of its pieces in order | partial | `C109_bytes`, `C109_too_long`, `C109_count_refuted` |
| C11 strsep splits at every delimiter | proved | `C11_strsep` |
| C110 swab exchanges the bytes of whole pairs | proved | `C110_swab` |
| C111 Thread attributes give back what was set | partial | `C111_affinity_partial`, `C111_affinity_refuted`, `C111_larger_partial`, `C111_all`, `C111_mask`, `C111_no_mask`, `C111_stack`, `C111_stacksize`, `C111_stackaddr`, `C111_detach`, `C111_guard`, `C111_fails`, `C111_memory_partial`, `C111_memory_refuted` |
| C112 Host names are looked up with the first server of /etc/resolv.conf | partial | `C112_first_partial`, `C112_entry`, `C112_skip`, `C112_no_file`, `C112_unnamed_refuted` |
| C113 timeradd and timersub are exact | proved | `C113_add`, `C113_sub`, `C113_inverse` |
| C114 Sets of descriptors for select are sets | proved | `C114_members`, `C114_range` |
| C115 The user database follows utmpxname and loses nothing | partial | `C115_history`, `C115_name`, `C115_open`, `C115_open_fails`, `C115_switch_refuted`, `C115_switch_partial` |
| C116 Lists of library paths are taken apart exactly | proved | `C116_parse_list`, `C116_pieces`, `C116_stripped_unique` |
| C117 wcslcat appends what fits and says how much was wanted | proved | `C117_append`, `C117_unterminated`, `C117_truncated` |
| C118 Signal names are read back as the same signal | partial | `C118_round_trip`, `C118_no_signal`, `C118_range`, `C118_rtmin_partial`, `C118_rtmax`, `C118_numbered`, `C118_defined_partial`, `C118_defined_refuted`, `C118_decimal_refuted` |
| C12 strtol family: value, saturation and end pointer | partial | `C12_strtol_partial`, `C12_strtol_refuted` |
| C13 basename and dirname decompose a path | proved | `C13_cases`, `C13_basename_empty`, `C13_basename_null`, `C13_basename_root`, `C13_basename`, `C13_dirname_empty`, `C13_dirname_slashes`, `C13_dirname_single`, `C13_dirname_root`, `C13_dirname` |
| C14 UTF-8 decoding accepts exactly the well-formed sequences | proved | `C14_table`, `C14_classified`, `C14_classified_unique`, `C14_mbrtowc_char`, `C14_mbrtowc_unfinished`, `C14_mbrtowc_illegal`, `C14_mbrtowc_null`, `C14_mbstowcs`, `C14_mbstowcs_illegal`, `C14_mbstowcs_limit`, `C14_mbstowcs_count`, `C14_mbstowcs_zero_refuted` |
| C15 UTF-8 encode then decode is the identity | proved | `C15_roundtrip`, `C15_rejected` |
| C16 multibyte decoding does not depend on how the input is split | proved | `C16_feed`, `C16_split` |
| C17 qsort sorts any array under any consistent comparison | proved | `C17_qsort` |
| C18 bsearch finds a match iff one exists | proved | `C18_bsearch_any`, `C18_bsearch` |
| C19 hsearch behaves as a bounded map keyed by string | proved | `C19_hsearch`, `C19_stable` |
| C20 tsearch/tfind/tdelete behave as an ordered set | proved | `C20_ordered_set`, `C20_unchanged` |
| C21 the search tree stays balanced | partial | `C21_balanced_partial`, `C21_delete_refuted` |
| C22 twalk and tdestroy visit every node in order | proved | `C22_twalk`, `C22_tdestroy` |
| C23 environment behaves as a map | partial | `C23_map`, `C23_setenv_invalid`, `C23_setenv_valid`, `C23_clearenv_refuted`, `C23_duplicate_refuted`, `C23_empty_name_refuted` |
| C24 exit handlers run exactly once in reverse order | partial | `C24_history_partial`, `C24_exit_partial`, `C24_order_refuted`, `C24_nested_refuted`, `C24_dangling_refuted` |
| C25 allocation size computations do not overflow | proved | `C25_calloc_overflow`, `C25_calloc`, `C25_calloc_exhausted`, `C25_reallocarray_overflow`, `C25_reallocarray` |
| C26 gmtime_r yields the proleptic Gregorian calendar date | partial | `C26_gmtime_partial`, `C26_yday_refuted`, `C26_negative_refuted` |
| C27 timegm inverts gmtime_r | proved | `C27_timegm_gmtime`, `C27_gmtime_timegm`, `C27_dates` |
| C28 absolute/relative timeout conversion is exact | proved | `C28_absolute_to_relative`, `C28_absolute_overflow`, `C28_relative_to_absolute`, `C28_relative_overflow` |
| C29 IPv4 text conversion round-trips | partial | `C29_ntop`, `C29_roundtrip`, `C29_ntoa_aton`, `C29_pton_partial`, `C29_trailing_refuted`, `C29_short_refuted` |
| C30 IPv6 text conversion round-trips | partial | `C30_ntop_partial`, `C30_ntop_mapped`, `C30_pton`, `C30_roundtrip_partial`, `C30_mapped_refuted`, `C30_overrun_refuted` |
| C31 internal locks are mutually exclusive | proved | `C31_mutual_exclusion`, `C31_exclusion_inside`, `C31_no_abort`, `C31_word`, `C31_recursive_try_refuted` |
| C32 internal locks lose no wake-up | proved | `C32_no_lost_wakeup`, `C32_release_wakes`, `C32_wake_wakes_all`, `C32_release_possible` |
| C33 pthread mutexes: mutual exclusion, ownership and recursion | partial | `C33_mutual_exclusion`, `C33_exclusion_inside`, `C33_no_abort`, `C33_recursion`, `C33_lock_result`, `C33_relock`, `C33_free_lock`, `C33_eperm_refuted`, `C33_eperm_exclusion_refuted` |
| C34 pthread_once runs the initialiser exactly once | proved | `C34_once`, `C34_no_lost_wakeup`, `C34_wake_wakes_all`, `C34_no_abort`, `C34_completes` |
| C35 semaphores conserve their count | partial | `C35_conserved`, `C35_wait_result`, `C35_post_result`, `C35_no_lost_wakeup`, `C35_wake_wakes_all`, `C35_wait_progress`, `C35_trywait_partial`, `C35_trywait_refuted`, `C35_mark_stays` |
| C36 barriers release exactly full generations | partial | `C36_not_early_partial`, `C36_serial`, `C36_one_serial`, `C36_defined`, `C36_no_lost_wakeup_partial`, `C36_can_leave_partial`, `C36_release_possible`, `C36_overtaken_refuted`, `C36_wrap_refuted` |
| C37 read-write locks exclude writers | proved | `C37_writer_alone`, `C37_writer_alone_inside`, `C37_no_abort`, `C37_free`, `C37_readers_share`, `C37_writer_gets_free_lock`, `C37_books_balance` |
| C38 thread-specific data keys isolate generations | partial | `C38_history_partial`, `C38_get_partial`, `C38_no_stale_value`, `C38_destructors_run_partial`, `C38_exit_ends`, `C38_own_key_refuted`, `C38_deleted_key_refuted` |
| C39 buffered output loses, duplicates and reorders nothing | proved | `C39_output`, `C39_output_file`, `C39_flushed`, `C39_errors`, `C39_errors_flushed`, `C39_retry_refuted` |
| C40 buffered input delivers the file's bytes in order | proved | `C40_input` |
| C41 snprintf never overruns and reports the full length | partial | `C41_snprintf_partial`, `C41_wide_refuted` |
| C42 byte-order conversions are involutions | proved | `C42_htonl_network_order`, `C42_htons_network_order`, `C42_ntohl_network_order`, `C42_ntohs_network_order`, `C42_inverse`, `C42_swap_reverses`, `C42_swap_involution`, `C42_be_to_host`, `C42_ns_put16`, `C42_ns_put32`, `C42_ns_get` |
| C43 random() state switching is transparent | proved | `C43_independent_generators`, `C43_range`, `C43_resume`, `C43_default_seed` |
| C44 the 48-bit generators follow the POSIX recurrence | proved | `C44_history`, `C44_iterate` |
| C45 getsubopt tokenises suboption lists | proved | `C45_parse`, `C45_no_suboption`, `C45_one_call`, `C45_null` |
| C46 wide to multibyte string conversion stops at whole characters | partial | `C46_wcsrtombs_all`, `C46_wcsrtombs_cut_partial`, `C46_wcsrtombs_illegal`, `C46_wcsrtombs_count`, `C46_wcsnrtombs_cut`, `C46_wcsrtombs_refuted` |
| C47 lsearch and lfind find the first match or append | proved | `C47_found`, `C47_absent` |
| C48 insque and remque maintain doubly linked queues | proved | `C48_insque_linear`, `C48_insque_circular`, `C48_insque_first`, `C48_remque_linear`, `C48_remque_circular` |
| C49 quick_exit runs its handlers in reverse order | proved | `C49_quick_exit` |
| C50 aligned_alloc validates its arguments | proved | `C50_aligned_alloc_ok`, `C50_aligned_alloc_einval` |
| C51 asprintf stores the whole output | proved | `C51_asprintf` |
| C52 inet_aton reads one to four parts | proved | `C52_aton` |
| C53 pthread mutexes lose no wake-up | proved | `C53_no_lost_wakeup`, `C53_release_wakes`, `C53_wake_wakes_all` |
| C54 pthread_barrier_destroy waits for the threads inside | proved | `C54_destroy_safe`, `C54_no_lost_wakeup`, `C54_wake_wakes`, `C54_returns` |
| C55 read-write locks lose no wake-up and refuse only for cause | partial | `C55_no_lost_wakeup`, `C55_writer_no_lost_wakeup`, `C55_wake_wakes`, `C55_writer_wake_wakes`, `C55_never_stuck`, `C55_writer_proceeds`, `C55_try_refused`, `C55_trywr_refused`, `C55_timed_read_refuted`, `C55_try_read_refuted` |
| C56 Condition variables lose no signal and return with the mutex held | partial | `C56_returns_with_mutex_partial`, `C56_mutex_partial`, `C56_no_abort_partial`, `C56_release_and_block_partial`, `C56_late_sleeper`, `C56_broadcast_partial`, `C56_broadcast_wakes_all`, `C56_signal_partial`, `C56_woken_returns`, `C56_zero_only_if_signalled`, `C56_signal_lost_refuted`, `C56_wrap_refuted` |
| C57 stdio streams behave like the unbuffered file | partial | `C57_like_unbuffered_partial`, `C57_flush_partial`, `C57_pushback_lost_refuted`, `C57_ungetc_eof_refuted`, `C57_ungetc_255_refuted`, `C57_seek_cur_refuted`, `C57_fflush_pipe_refuted`, `C57_getline_refuted`, `C57_fputc_refuted` |
| C58 symbol lookup in a shared object finds a symbol iff it is defined | partial | `C58_sysv`, `C58_gnu`, `C58_non_ascii_refuted` |
| C59 constructors run once, dependencies first; destructors in reverse | partial | `C59_once`, `C59_order`, `C59_order_acyclic`, `C59_nested_order_refuted` |
| C60 every loaded object is relocated exactly once | partial | `C60_relr`, `C60_loads`, `C60_breadth_first`, `C60_cycle_refuted` |
| C61 static TLS blocks are disjoint, aligned and inside the allocation | partial | `C61_layout`, `C61_space`, `C61_late_alignment_refuted`, `C61_alignment_zero_refuted` |
| C62 thread-local variables of loaded objects are private, stable and initialised | partial | `C62_blocks`, `C62_private`, `C62_overlapping_dlopen_refuted`, `C62_local_static_refuted` |
| C63 symbols resolve to the first definition in scope order | partial | `C63_load`, `C63_program`, `C63_dlsym`, `C63_global`, `C63_late_global`, `C63_promotion_refuted`, `C63_late_local_refuted` |
| C64 fmod, remainder and remquo are exact | proved | `C64_fmod`, `C64_fmod_special`, `C64_remquo`, `C64_remquo_special` |
| C65 Rounding to an integer is exact | proved | `C65_floor`, `C65_ceil`, `C65_trunc`, `C65_rint`, `C65_round`, `C65_modf`, `C65_addition_nearest` |
| C66 Neighbours, order, classes and signs of floating-point numbers | proved | `C66_nextafter`, `C66_nextafter_nan`, `C66_fmax_fmin`, `C66_fdim`, `C66_signs`, `C66_fpclassify` |
| C67 Scaling by powers of two and taking numbers apart | proved | `C67_scalbn`, `C67_frexp`, `C67_ilogb`, `C67_multiplication` |
| C68 Square roots are correctly rounded | partial | `C68_sqrtf`, `C68_sqrt_partial`, `C68_sqrt_defined_refuted`, `C68_nearest_root_unique` |
| C69 The end of a thread: handlers, joining, detaching and cancellation | partial | `C69_lifo`, `C69_handlers`, `C69_exit_once`, `C69_late_destructor_refuted`, `C69_join`, `C69_after`, `C69_joiners_return`, `C69_dead_partial`, `C69_dead_refuted`, `C69_detach`, `C69_only_when`, `C69_point`, `C69_async_partial`, `C69_async_refuted`, `C69_blocked_partial`, `C69_blocked_refuted`, `C69_effect_refuted` |
| C70 fnmatch implements the shell pattern language | partial | `C70_fnmatch_partial`, `C70_wide_range_refuted`, `C70_dash_range_refuted`, `C70_escaped_period_refuted`, `C70_collating_refuted`, `C70_termination_refuted` |
| C71 getopt and getopt_long report the options of a command line | partial | `C71_getopt_partial`, `C71_plus_partial`, `C71_cluster_refuted`, `C71_missing_refuted`, `C71_dash_argument_refuted`, `C71_unknown_refuted`, `C71_posixly_refuted` |
| C72 sscanf matches an input by the directives of its format | partial | `C72_sscanf_partial`, `C72_sscanf_total`, `C72_width_refuted`, `C72_suppressed_width_refuted`, `C72_bytes_refuted`, `C72_dash_refuted`, `C72_truncated_refuted`, `C72_percent_refuted` |
| C73 streams in memory behave like files | partial | `C73_memstream_partial`, `C73_fmemopen_partial`, `C73_fmemopen_safe`, `C73_negative_seek_refuted`, `C73_seek_changes_refuted`, `C73_flush_size_refuted`, `C73_update_refuted`, `C73_terminator_refuted`, `C73_append_refuted` |
| C74 realpath returns the real path | partial | `C74_realpath_partial`, `C74_canonical_partial`, `C74_total_partial`, `C74_nested_link_refuted`, `C74_overrun_refuted`, `C74_absolute_link_refuted`, `C74_dangling_refuted`, `C74_root_link_refuted`, `C74_loop_refuted`, `C74_long_link_refuted`, `C74_notdir_refuted`, `C74_empty_refuted` |
| C75 wide string functions | partial | `C75_wcslen`, `C75_wmemset`, `C75_wcscpy`, `C75_wcsncpy`, `C75_wcscat`, `C75_wcsncat_partial`, `C75_wcsncat_refuted`, `C75_wcscmp_partial`, `C75_wcscmp_refuted`, `C75_wcsncmp`, `C75_wmemcmp`, `C75_wmemchr`, `C75_wcschr`, `C75_wcsrchr`, `C75_wcsspn`, `C75_wcscspn`, `C75_wcspbrk`, `C75_wcsstr_partial`, `C75_wcsstr_refuted`, `C75_wcstok`, `C75_wcstok_after` |
| C76 vector strcmp | proved | `C76_sse2`, `C76_sse4_2`, `C76_avx2`, `C76_resolve` |
| C77 strtod and strtof | partial | `C77_safe_partial`, `C77_safe_refuted`, `C77_endptr_partial`, `C77_decimal`, `C77_hexadecimal`, `C77_nearest_refuted`, `C77_hex_prefix_refuted`, `C77_no_conversion_refuted`, `C77_infinity_partial`, `C77_infinity_refuted` |
| C78 Character classes and case mapping | partial | `C78_narrow`, `C78_wide`, `C78_wctype`, `C78_case`, `C78_case_other`, `C78_utf8`, `C78_isascii_partial`, `C78_isascii_refuted` |
| C79 Case-insensitive and version comparison, memccpy, strdup, basename, ffs | partial | `C79_strcasecmp`, `C79_strncasecmp`, `C79_strncasecmp_utf8_partial`, `C79_strncasecmp_utf8_refuted`, `C79_strcasestr_partial`, `C79_strcasestr_refuted`, `C79_strverscmp`, `C79_version_order`, `C79_version_numbers`, `C79_version_text`, `C79_memccpy`, `C79_strdup`, `C79_strndup`, `C79_basename`, `C79_ffs` |
| C80 Local time and time zones | partial | `C80_standard`, `C80_empty`, `C80_summer_consistent`, `C80_summer_partial`, `C80_weekday_refuted`, `C80_hour_refuted`, `C80_2038_refuted`, `C80_week5_refuted`, `C80_julian_refuted`, `C80_safe_partial`, `C80_safe_refuted`, `C80_accepted`, `C80_fallback`, `C80_tzfile_partial`, `C80_tzfile_last_refuted`, `C80_tzfile_first_refuted`, `C80_tzfile_types_refuted` |
| C81 strftime and asctime_r | partial | `C81_strftime_partial`, `C81_composite_partial`, `C81_safe_partial`, `C81_composite_refuted`, `C81_unknown_refuted`, `C81_modifier_refuted`, `C81_negative_refuted`, `C81_asctime_partial`, `C81_asctime_refuted` |
| C82 strptime | partial | `C82_strptime_partial`, `C82_weekday_partial`, `C82_yearday_partial`, `C82_round_trip`, `C82_range`, `C82_literal`, `C82_adjacent_refuted`, `C82_unimplemented_refuted`, `C82_weekday_refuted`, `C82_yearday_refuted`, `C82_small_refuted` |
| C83 DNS queries and replies | partial | `C83_query`, `C83_name`, `C83_reply_partial`, `C83_no_name`, `C83_foreign`, `C83_silence`, `C83_reverse_partial`, `C83_hostile_refuted`, `C83_client_refuted` |
| C84 Lookups in /etc/hosts and /etc/services | partial | `C84_host_name_partial`, `C84_host_addr_partial`, `C84_host_addr_none`, `C84_service_name`, `C84_service_number`, `C84_service_port_partial`, `C84_comment_refuted`, `C84_lookup_refuted` |
| C85 Signal sets and processor sets | partial | `C85_signals`, `C85_signal_range`, `C85_signal_empty`, `C85_processors`, `C85_alloc`, `C85_negative_refuted` |
| C86 The user and group files | partial | `C86_user`, `C86_user_r`, `C86_user_number_r`, `C86_user_trip`, `C86_group_partial`, `C86_group_list`, `C86_group_r_partial`, `C86_group_number_r_partial`, `C86_group_trip_partial`, `C86_group_overrun_refuted`, `C86_group_misaligned_refuted`, `C86_group_fields_refuted`, `C86_group_no_members_refuted`, `C86_group_long_refuted`, `C86_group_comma_refuted` |
| C87 mblen, mbtowc and wctomb keep no hidden state | partial | `C87_independent_partial`, `C87_mbtowc_cut_refuted`, `C87_mblen_cut_refuted`, `C87_mblen_zero_refuted` |
| C88 nftw reports every object of a file tree once, in order | partial | `C88_walk_partial`, `C88_walk_levels`, `C88_descriptors_partial`, `C88_refused`, `C88_failure`, `C88_fd_limit_refuted`, `C88_stop_refuted`, `C88_loop_refuted` |
| C89 A directory stream is a cursor over the entries of the directory | partial | `C89_stream_partial`, `C89_read_all`, `C89_error_refuted` |
| C90 scandir returns exactly the chosen entries | partial | `C90_scandir_partial`, `C90_open_error`, `C90_errno_refuted`, `C90_descriptor_refuted` |
| C91 posix_spawn starts the program with exactly the descriptors asked for | partial | `C91_spawn_partial`, `C91_actions_added`, `C91_pipe_error`, `C91_fork_refuted`, `C91_cloexec_refuted` |
| C92 Looking up a user in the shadow file gives the user's own entry | partial | `C92_parse_partial`, `C92_trip_partial`, `C92_lookup_partial`, `C92_lines`, `C92_name`, `C92_overflow_refuted`, `C92_last_refuted`, `C92_negative_refuted`, `C92_colon_refuted` |
| C93 syslog sends every enabled message as one line | partial | `C93_send_partial`, `C93_one_line`, `C93_masked`, `C93_setlogmask`, `C93_socket`, `C93_lost_refuted`, `C93_emerg_refuted`, `C93_options_refuted`, `C93_fallback_refuted`, `C93_mask_zero_refuted` |
| C94 execvp finds the program along PATH | partial | `C94_execvp_partial`, `C94_lists_partial`, `C94_empty_refuted`, `C94_execl_refuted` |
| C95 wordexp accepts the shell's words and nothing else, and stores every word | partial | `C95_check_partial`, `C95_safe_partial`, `C95_words`, `C95_refused`, `C95_dollar_refuted`, `C95_nocmd_refuted`, `C95_backquote_refuted`, `C95_append_refuted` |
| C96 the protocol database gives every entry of the file | partial | `C96_lookup_partial`, `C96_all_partial`, `C96_line`, `C96_line_unique`, `C96_alias_refuted`, `C96_hang_refuted`, `C96_rewind_refuted` |
| C97 getaddrinfo gives one element for each address and service; getnameinfo gives name or number | partial | `C97_result_partial`, `C97_family_partial`, `C97_errors`, `C97_refused`, `C97_numeric`, `C97_hostent`, `C97_nameinfo_partial`, `C97_addrconfig_refuted`, `C97_service_refuted`, `C97_loopback_refuted`, `C97_port_refuted`, `C97_protocol_refuted`, `C97_numericserv_refuted`, `C97_offline_refuted` |
| C98 getmntent reads the entries of fstab and mtab | partial | `C98_read_partial`, `C98_round_partial`, `C98_option_partial`, `C98_long`, `C98_stale_refuted`, `C98_escape_refuted`, `C98_last_refuted`, `C98_option_refuted`, `C98_bytes_refuted` |
| C99 glob finds exactly the paths that match | partial | `C99_paths`, `C99_errors_partial`, `C99_tilde`, `C99_tilde_none`, `C99_quoted`, `C99_append`, `C99_free`, `C99_abort_refuted`, `C99_nocheck_refuted` |
