{"id": "C01", "title": "memcpy copies exactly n bytes", "statement": "For non-overlapping source and destination, memcpy(d,s,n) (and mempcpy) makes the n destination bytes equal to the n source bytes, changes no other byte of memory, accesses no byte outside the two ranges, and returns d (mempcpy: d+n).", "quantifier": "every n, every memory content, every pair of disjoint addresses", "why_tests_cant": "the implementation switches between 64/32/16/8/4/2/1-byte steps, so every residue of n times every length must be right; tests sample a few lengths", "anchors": ["options/internal/generic/essential.cpp:memcpy", "options/internal/generic/essential.cpp:forward_copy", "options/glibc/generic/string.cpp:mempcpy"]}
{"id": "C02", "title": "memmove is correct for every overlap", "statement": "memmove(d,s,n) leaves in [d,d+n) the bytes that [s,s+n) held before the call, for every overlap of the two ranges, and changes nothing else.", "quantifier": "every n, every relative position of source and destination, every memory content", "why_tests_cant": "overlap distance times length is an unbounded two-dimensional space", "anchors": ["options/internal/generic/essential.cpp:memmove"]}
{"id": "C03", "title": "memset fills exactly n bytes", "statement": "memset(d,c,n) sets exactly the n bytes at d to (unsigned char)c, whatever the alignment of d, and touches nothing else.", "quantifier": "every address (so every alignment), every n, every int c", "why_tests_cant": "alignment prologue and the 8/4/2/1 tail give unboundedly many (address,length) combinations", "anchors": ["options/internal/generic/essential.cpp:memset"]}
{"id": "C04", "title": "strlen and strnlen", "statement": "strlen(s) is the number of bytes before the first NUL, and strnlen(s,n) is min(strlen(s),n); neither reads past the NUL, and strnlen never reads at or past s+n, even if no NUL is there.", "quantifier": "every string, every n, every memory", "why_tests_cant": "unbounded string lengths; the no-read-past-the-bound half is invisible to value-checking tests", "anchors": ["options/internal/generic/essential.cpp:strlen", "options/posix/generic/posix_string.cpp:strnlen", "options/internal/generic/strings.cpp:strnlen"]}
{"id": "C05", "title": "string copy and concatenation write exactly the specified bytes", "statement": "strcpy, strncpy, strcat, strncat, stpcpy, stpncpy, strlcpy and strlcat produce exactly the bytes C, POSIX and BSD specify (including zero padding, truncation and the terminator), return the specified value, and modify no byte outside the destination range that the specification names.", "quantifier": "every source, destination and bound, including 0 and bounds larger than the string", "why_tests_cant": "truncation and padding boundaries depend on the relation of three unbounded lengths", "anchors": ["options/ansi/generic/string.cpp:strcpy", "options/ansi/generic/string.cpp:strncpy", "options/ansi/generic/string.cpp:strcat", "options/ansi/generic/string.cpp:strncat", "options/internal/generic/strings.cpp:strlcpy", "options/internal/generic/strings.cpp:stpncpy", "options/posix/generic/posix_string.cpp:strlcat", "options/posix/generic/posix_string.cpp:stpcpy"]}
{"id": "C06", "title": "memcmp, strcmp and strncmp order bytes lexicographically as unsigned", "statement": "The sign of memcmp/strcmp/strncmp equals the lexicographic comparison of the (bounded) byte sequences read as unsigned char; hence strcmp is a total order with equality exactly on equal strings, and the bounded forms never read past the bound or past the first difference/terminator.", "quantifier": "every pair of strings/regions and every bound", "why_tests_cant": "order laws (antisymmetry, transitivity) quantify over all pairs and triples of strings", "anchors": ["options/ansi/generic/string.cpp:memcmp", "options/ansi/generic/string.cpp:__mlibc_strcmp_default", "options/ansi/generic/string.cpp:strncmp"]}
{"id": "C07", "title": "character searches return the first or last occurrence", "statement": "memchr, memrchr, strchr, strrchr and strchrnul return a pointer to the first (last) position holding (unsigned char)c within the region or string including its terminator, and NULL (the terminator for strchrnul) exactly when there is none.", "quantifier": "every string/region, every int c, including c=0 and c outside 0..255", "why_tests_cant": "first/last occurrence over unbounded strings", "anchors": ["options/ansi/generic/string.cpp:memchr", "options/ansi/generic/string.cpp:strchr", "options/ansi/generic/string.cpp:strrchr", "options/ansi/generic/string.cpp:strchrnul", "options/posix/generic/posix_string.cpp:memrchr"]}
{"id": "C08", "title": "strspn, strcspn and strpbrk", "statement": "strspn(s,a) is the length of the longest prefix of s made of bytes of a; strcspn(s,r) of bytes not in r; strpbrk returns the first byte of s in a or NULL.", "quantifier": "every pair of strings", "why_tests_cant": "maximality of the prefix is a universally quantified claim over unbounded strings", "anchors": ["options/ansi/generic/string.cpp:strspn", "options/ansi/generic/string.cpp:strcspn", "options/ansi/generic/string.cpp:strpbrk"]}
{"id": "C09", "title": "substring searches return the leftmost occurrence", "statement": "strstr(h,n) (and memmem for explicit lengths) returns the leftmost position where n occurs in h, and NULL exactly when n does not occur; an empty needle matches at the start. No byte past the end of either operand is read.", "quantifier": "every haystack and needle", "why_tests_cant": "leftmost-occurrence and not-found claims quantify over all positions of all strings", "anchors": ["options/ansi/generic/string.cpp:strstr", "options/posix/generic/posix_string.cpp:memmem"]}
{"id": "C10", "title": "strtok_r enumerates exactly the maximal delimiter-free tokens", "statement": "Repeated strtok_r calls on one string return, in order, exactly the maximal runs of non-delimiter bytes, each NUL-terminated in place, then NULL for ever; only delimiter bytes of the string are overwritten.", "quantifier": "every string, every delimiter set, any number of calls", "why_tests_cant": "history-dependent: the state carried between calls must be right after any number of calls", "anchors": ["options/ansi/generic/string.cpp:strtok_r"]}
{"id": "C11", "title": "strsep splits at every delimiter", "statement": "Repeated strsep calls return the fields between successive single delimiters (empty fields included) in order, then NULL, with *stringp NULL after the last field.", "quantifier": "every string and delimiter set, any number of calls", "why_tests_cant": "history-dependent over unbounded inputs", "anchors": ["options/posix/generic/posix_string.cpp:strsep"]}
{"id": "C12", "title": "strtol family: value, saturation and end pointer", "statement": "For base 2..36 (and 0) strtol/strtoul/strtoll/strtoull parse optional whitespace, sign, prefix and the longest digit run; the result is the exact mathematical value if representable, else the saturated limit with errno ERANGE (the unsigned forms negate modulo 2^w); *endptr points just after the last digit used, or to nptr if no digits were found.", "quantifier": "every input string, every base in 2..36 and 0, every integer width", "why_tests_cant": "overflow boundaries for every base and arbitrarily long digit strings", "anchors": ["options/internal/include/mlibc/strtol.hpp:stringToInteger"]}
{"id": "C13", "title": "basename and dirname decompose a path", "statement": "basename returns the last component without trailing slashes and dirname the path up to it, with the POSIX results for empty, all-slash and single-component paths; only the argument buffer is modified, within its bounds.", "quantifier": "every path string", "why_tests_cant": "the slash-run structure is unbounded; underflow of the index is a boundary hazard for particular shapes", "anchors": ["options/posix/generic/libgen.cpp:basename", "options/posix/generic/libgen.cpp:dirname"]}
{"id": "C14", "title": "UTF-8 decoding accepts exactly the well-formed sequences", "statement": "mbrtowc/mbstowcs decode a byte sequence to code points exactly when it is well-formed UTF-8 (Unicode table 3-7: no overlong form, no surrogate, at most U+10FFFF), reporting EILSEQ on every ill-formed sequence at the offending byte.", "quantifier": "every byte sequence", "why_tests_cant": "2^32 four-byte sequences times arbitrary continuation; ill-formed classes are easily missed", "anchors": ["options/internal/generic/charcode.cpp:utf8_charcode", "options/internal/generic/charcode.cpp:polymorphic_charcode_adapter"]}
{"id": "C15", "title": "UTF-8 encode then decode is the identity", "statement": "For every Unicode scalar value c, wcrtomb writes a well-formed sequence of at most 4 bytes which mbrtowc decodes back to c; values above U+10FFFF are rejected with EILSEQ.", "quantifier": "every code point", "why_tests_cant": "1.1 million values; usually sampled", "anchors": ["options/internal/generic/charcode.cpp:utf8_charcode", "options/internal/generic/charcode.cpp:wcrtomb"]}
{"id": "C16", "title": "multibyte decoding does not depend on how the input is split", "statement": "Feeding a byte sequence to mbrtowc in any chunks with the same mbstate_t gives the same code points and the same errors as feeding it in one piece; -2 is returned exactly while a proper prefix of a character has been seen.", "quantifier": "every byte sequence and every split of it into non-empty chunks", "why_tests_cant": "exponentially many splits; carried state must be exact", "anchors": ["options/internal/generic/charcode.cpp:mbrtowc", "options/internal/generic/charcode.cpp:polymorphic_charcode_adapter"]}
{"id": "C17", "title": "qsort sorts any array under any consistent comparison", "statement": "qsort terminates and leaves a permutation of the input for every comparison function; if the comparison is a total preorder the result is sorted. No element outside the array is touched.", "quantifier": "every array, element count and comparison function", "why_tests_cant": "all permutations, duplicates patterns and adversarial comparators", "anchors": ["options/ansi/generic/stdlib.cpp:qsort_r", "options/ansi/generic/stdlib.cpp:qsort_callback"]}
{"id": "C18", "title": "bsearch finds a match iff one exists", "statement": "On an array partitioned with respect to the key, bsearch returns an element comparing equal if there is one and NULL otherwise, examining only elements of the array and terminating in all cases.", "quantifier": "every array length, key and comparison consistent with the ordering precondition", "why_tests_cant": "midpoint arithmetic boundaries for every length and match position", "anchors": ["options/ansi/generic/stdlib.cpp:bsearch"]}
{"id": "C19", "title": "hsearch behaves as a bounded map keyed by string", "statement": "After hcreate(n), any sequence of hsearch(ENTER/FIND) behaves like a map from keys to the first entered datum: FIND returns the entry entered for that key or fails with ESRCH, ENTER returns the existing entry or adds a new one, failing with ENOMEM only when the table is full.", "quantifier": "every table size, key set, hash function and operation history", "why_tests_cant": "collision chains and wraparound depend on the whole history", "anchors": ["options/internal/generic/search.cpp:hsearch_r", "options/internal/generic/search.cpp:hcreate_r"]}
{"id": "C20", "title": "tsearch/tfind/tdelete behave as an ordered set", "statement": "For a total-order comparison, after any sequence of tsearch and tdelete the tree holds exactly the keys inserted and not deleted, each once; tfind returns the stored key iff present; tsearch returns the existing node or inserts one; tdelete of an absent key returns NULL and changes nothing.", "quantifier": "every history of insertions, lookups and deletions, every total order", "why_tests_cant": "rotations and predecessor replacement depend on arbitrary tree shapes reached by histories", "anchors": ["options/posix/generic/search.cpp:tsearch", "options/posix/generic/search.cpp:tfind", "options/posix/generic/search.cpp:tdelete", "options/posix/generic/search.cpp:balance_tree", "options/posix/generic/search.cpp:rotate"]}
{"id": "C21", "title": "the search tree stays balanced", "statement": "The tree built by tsearch is height-balanced (AVL), so that lookup cost is logarithmic; tdelete preserves the balance.", "quantifier": "every history", "why_tests_cant": "worst-case histories are exactly what tests do not contain", "anchors": ["options/posix/generic/search.cpp:balance_tree", "options/posix/generic/search.cpp:rotate", "options/posix/generic/search.cpp:tdelete"]}
{"id": "C22", "title": "twalk and tdestroy visit every node in order", "statement": "twalk calls the action in depth-first left-to-right order: leaf once, inner nodes three times (preorder, postorder, endorder), with the node's depth; tdestroy calls the free function exactly once per stored key.", "quantifier": "every tree", "why_tests_cant": "arbitrary tree shapes; explicit-stack traversal", "anchors": ["options/posix/generic/search.cpp:twalk", "options/posix/generic/search.cpp:tdestroy"]}
{"id": "C23", "title": "environment behaves as a map", "statement": "After any sequence of setenv/putenv/unsetenv/clearenv, getenv(name) returns the value most recently assigned, or NULL if the name was never assigned or was removed since; setenv with overwrite=0 keeps an existing value; environ lists each variable as name=value.", "quantifier": "every initial environment and operation history", "why_tests_cant": "unbounded histories; prefix-related names such as A and AB", "anchors": ["options/ansi/generic/environment.cpp:getenv", "options/ansi/generic/environment.cpp:setenv", "options/ansi/generic/environment.cpp:unsetenv", "options/ansi/generic/environment.cpp:clearenv"]}
{"id": "C24", "title": "exit handlers run exactly once in reverse order", "statement": "On exit, every handler registered by atexit/__cxa_atexit before exit began runs exactly once, in reverse order of registration; __cxa_finalize(dso) runs exactly the handlers of that object once, in reverse order, and leaves the others to run at exit.", "quantifier": "every registration history and every interleaving of finalizations", "why_tests_cant": "ordering over arbitrary histories", "anchors": ["options/lsb/generic/dso_exit.cpp:__cxa_atexit", "options/lsb/generic/dso_exit.cpp:__cxa_finalize", "options/lsb/generic/dso_exit.cpp:__mlibc_do_finalize"]}
{"id": "C25", "title": "allocation size computations do not overflow", "statement": "calloc(n,s) and reallocarray(p,n,s) never hand a wrapped product to the allocator: if n*s exceeds SIZE_MAX they fail with ENOMEM, otherwise exactly n*s bytes are requested.", "quantifier": "every pair of size_t values", "why_tests_cant": "2^128 argument pairs", "anchors": ["options/ansi/generic/stdlib.cpp:calloc", "options/posix/generic/posix_stdlib.cpp:reallocarray"]}
{"id": "C26", "title": "gmtime_r yields the proleptic Gregorian calendar date", "statement": "gmtime_r(t) yields the year, month, day, hour, minute, second, weekday and day of year of the instant t seconds from the epoch.", "quantifier": "every t whose day number fits an int", "why_tests_cant": "a calendar has exceptional cases (centuries, 400 years, leap days) spread over unbounded ranges", "anchors": ["options/ansi/generic/time.cpp:gmtime_r", "options/ansi/generic/time.cpp:civil_from_days", "options/ansi/generic/time.cpp:weekday_from_days", "options/ansi/generic/time.cpp:yearday_from_date"]}
{"id": "C27", "title": "timegm inverts gmtime_r", "statement": "timegm(gmtime_r(t)) = t, and gmtime_r(timegm(d)) = d for every valid calendar date and time d at or after the epoch.", "quantifier": "every representable t, every valid date", "why_tests_cant": "round trip over all days and seconds", "anchors": ["options/ansi/generic/time.cpp:timegm", "options/ansi/generic/time.cpp:days_from_civil", "options/ansi/generic/time.cpp:gmtime_r"]}
{"id": "C28", "title": "absolute/relative timeout conversion is exact", "statement": "Converting an absolute deadline to a relative timeout yields exactly max(0, deadline-now), normalised; converting a relative timeout to a deadline yields exactly now+timeout, normalised; a result whose seconds do not fit time_t is reported as failure and never wraps.", "quantifier": "every normalised timespec and clock reading", "why_tests_cant": "borrow/carry and overflow corner cases over 64-bit seconds", "anchors": ["options/internal/include/mlibc/time-helpers.hpp:time_absolute_to_relative", "options/internal/include/mlibc/time-helpers.hpp:time_relative_to_absolute"]}
{"id": "C29", "title": "IPv4 text conversion round-trips", "statement": "inet_pton(AF_INET, inet_ntop(AF_INET, a)) = a and inet_aton(inet_ntoa(a)) = a for every address; inet_pton accepts exactly dotted quads of decimal octets.", "quantifier": "every 32-bit address; every input string for the acceptance half", "why_tests_cant": "2^32 addresses, unbounded strings", "anchors": ["options/posix/generic/arpa-inet.cpp:inet_pton", "options/posix/generic/arpa-inet.cpp:inet_ntop", "options/posix/generic/arpa-inet.cpp:inet_aton"]}
{"id": "C30", "title": "IPv6 text conversion round-trips", "statement": "inet_pton(AF_INET6, inet_ntop(AF_INET6, a)) = a for every address, and inet_ntop never writes outside the buffer of the given size.", "quantifier": "every 128-bit address; every buffer size", "why_tests_cant": "2^128 addresses; zero-run compression has many shapes", "anchors": ["options/posix/generic/arpa-inet.cpp:inet_pton", "options/posix/generic/arpa-inet.cpp:inet_ntop"]}
{"id": "C31", "title": "internal locks are mutually exclusive", "statement": "At most one thread is between lock() and unlock() of an internal lock (used by stdio, environment, exit, time), under every interleaving of lock, try_lock and unlock by any number of threads.", "quantifier": "every number of threads and every schedule", "why_tests_cant": "interleavings at the level of single atomic operations and futex calls", "anchors": ["options/internal/include/mlibc/lock.hpp:FutexLockImpl"]}
{"id": "C32", "title": "internal locks lose no wake-up", "statement": "A thread sleeping in lock() is always eventually woken: in every reachable state in which a thread sleeps on the lock word, the lock is held with the waiters bit set or a wake-up is still pending.", "quantifier": "every schedule", "why_tests_cant": "lost wake-ups appear only in rare interleavings", "anchors": ["options/internal/include/mlibc/lock.hpp:FutexLockImpl"]}
{"id": "C33", "title": "pthread mutexes: mutual exclusion, ownership and recursion", "statement": "At most one thread holds a mutex; a recursive mutex is released exactly when unlocked as often as locked; locking an owned non-recursive mutex returns EDEADLK; unlocking an error-checking mutex from a non-owner returns EPERM and leaves it locked.", "quantifier": "every number of threads, every schedule, every mutex type", "why_tests_cant": "state space of interleavings; error paths raced against owners", "anchors": ["options/internal/generic/threads.cpp:thread_mutex_lock", "options/internal/generic/threads.cpp:thread_mutex_trylock", "options/internal/generic/threads.cpp:thread_mutex_unlock"]}
{"id": "C34", "title": "pthread_once runs the initialiser exactly once", "statement": "For any number of concurrent pthread_once callers on one control, the function is called exactly once, and no caller returns before that call has completed.", "quantifier": "every number of threads and schedule", "why_tests_cant": "races between first caller, waiters and wake-up", "anchors": ["options/internal/generic/threads.cpp:thread_once"]}
{"id": "C35", "title": "semaphores conserve their count", "statement": "In every reachable state the semaphore value equals initial value plus completed posts minus completed waits and is never negative; sem_trywait succeeds whenever the value is positive and no other thread changes it.", "quantifier": "every number of threads, every schedule", "why_tests_cant": "CAS loops interleaved by arbitrary many threads", "anchors": ["options/posix/generic/semaphore.cpp:sem_post", "options/posix/generic/semaphore.cpp:sem_wait", "options/posix/generic/semaphore.cpp:sem_trywait"]}
{"id": "C36", "title": "barriers release exactly full generations", "statement": "No thread leaves the k-th pthread_barrier_wait generation before count threads have entered it, exactly one of them gets PTHREAD_BARRIER_SERIAL_THREAD, and all of them can leave.", "quantifier": "every count, number of rounds and schedule", "why_tests_cant": "generation reuse races and counter wraparound", "anchors": ["options/posix/generic/pthread.cpp:pthread_barrier_wait"]}
{"id": "C37", "title": "read-write locks exclude writers", "statement": "Under every schedule, a writer holds the lock alone and readers hold it only together with readers.", "quantifier": "every number of threads and schedule", "why_tests_cant": "interleavings of internal mutex and reader count words", "anchors": ["options/posix/generic/pthread.cpp:pthread_rwlock_rdlock", "options/posix/generic/pthread.cpp:pthread_rwlock_wrlock", "options/posix/generic/pthread.cpp:pthread_rwlock_unlock"]}
{"id": "C38", "title": "thread-specific data keys isolate generations", "statement": "pthread_getspecific returns the value last set by this thread for the live key, NULL if none; a value stored under a deleted key is never visible through a new key that reuses the slot; destructors run at thread exit only for live keys with non-NULL values.", "quantifier": "every history of create/delete/set/get over any number of threads", "why_tests_cant": "slot reuse depends on the history", "anchors": ["options/internal/generic/threads.cpp:thread_key_create", "options/internal/generic/threads.cpp:thread_key_delete", "options/internal/generic/threads.cpp:thread_key_get", "options/internal/generic/threads.cpp:thread_key_set"]}
{"id": "C39", "title": "buffered output loses, duplicates and reorders nothing", "statement": "For every sequence of fwrite/fputc/fflush calls in any buffering mode and every pattern of short writes by the kernel, the bytes delivered to the descriptor followed by those still buffered are exactly the bytes written, in order; after a successful fflush all are delivered.", "quantifier": "every call sequence, buffer mode and short-write schedule", "why_tests_cant": "buffer boundary conditions times short writes times call sequences", "anchors": ["options/ansi/generic/file-io.cpp:abstract_file::write", "options/ansi/generic/file-io.cpp:abstract_file::flush", "options/ansi/generic/file-io.cpp:abstract_file::_write_back"]}
{"id": "C40", "title": "buffered input delivers the file's bytes in order", "statement": "For every sequence of reads of arbitrary sizes and every pattern of short reads by the kernel, the concatenation of the bytes returned is a prefix of the file contents, with end-of-file reported only at the end.", "quantifier": "every read-size sequence and short-read schedule", "why_tests_cant": "refill boundaries for every size sequence", "anchors": ["options/ansi/generic/file-io.cpp:abstract_file::read"]}
{"id": "C41", "title": "snprintf never overruns and reports the full length", "statement": "Whatever pieces the formatter emits, vsnprintf writes at most size bytes, always NUL-terminates when size>0, stores exactly the first size-1 bytes of the full output, and returns the length of the full output.", "quantifier": "every emission sequence and buffer size", "why_tests_cant": "truncation point can fall anywhere in any piece", "anchors": ["options/ansi/generic/stdio.cpp:LimitedPrinter", "options/ansi/generic/stdio.cpp:vsnprintf"]}
{"id": "C42", "title": "byte-order conversions are involutions", "statement": "htonl/ntohl and htons/ntohs reverse the bytes of their argument and are mutually inverse; ns_put16/32 and ns_get16/32 round-trip in network order.", "quantifier": "every 16- and 32-bit value", "why_tests_cant": "2^32 values", "anchors": ["options/internal/include/mlibc/bitutil.hpp:bit_util", "options/posix/generic/arpa-inet.cpp:htonl", "options/bsd/generic/arpa-nameser.cpp:ns_get32"]}
{"id": "C43", "title": "random() state switching is transparent", "statement": "random() always returns a value in 0..2^31-1 and only indexes inside its state array; switching state arrays with initstate/setstate and back resumes exactly the sequence that was interrupted.", "quantifier": "every seed, state size and history of random/srandom/initstate/setstate calls", "why_tests_cant": "history-dependent table indices", "anchors": ["options/posix/generic/posix_stdlib.cpp:random", "options/posix/generic/posix_stdlib.cpp:initstate", "options/posix/generic/posix_stdlib.cpp:setstate"]}
{"id": "C44", "title": "the 48-bit generators follow the POSIX recurrence", "statement": "jrand48/mrand48/erand48 advance the state by X' = (0x5DEECE66D*X + 0xB) mod 2^48 and return the value POSIX derives from X'; srand48/seed48 set X as specified.", "quantifier": "every state and any number of calls", "why_tests_cant": "2^48 states; the short-integer packing is overflow-prone", "anchors": ["options/posix/generic/posix_stdlib.cpp:eand48_step", "options/posix/generic/posix_stdlib.cpp:jrand48", "options/posix/generic/posix_stdlib.cpp:srand48"]}
{"id": "C45", "title": "getsubopt tokenises suboption lists", "statement": "Repeated getsubopt calls return the index of each comma-separated suboption in the key list (or -1), with its value if it has one, and consume the list exactly once.", "quantifier": "every option string and key list", "why_tests_cant": "unbounded token lists with separators in any arrangement", "anchors": ["options/posix/generic/posix_stdlib.cpp:getsubopt"]}
{"id": "C46", "title": "wide to multibyte string conversion stops at whole characters", "statement": "wcstombs/wcsrtombs/wcsnrtombs write the UTF-8 encoding of the longest run of whole characters that fits the given size, with a terminator if there is room, report how far they got, and fail with EILSEQ on a value above U+10FFFF; with a null destination they return the length needed.", "quantifier": "every wide string, every buffer size", "why_tests_cant": "the size limit can fall at any byte of any string", "anchors": ["options/ansi/generic/wchar.cpp:wcsrtombs", "options/ansi/generic/wchar.cpp:wcsnrtombs", "options/internal/generic/charcode.cpp:encode_wtranscode"]}
{"id": "C47", "title": "lsearch and lfind find the first match or append", "statement": "lfind returns the address of the first element the comparison accepts, NULL if none; lsearch does the same but, if none matches, copies the key behind the last element, increments the count and returns the copy's address, writing nowhere else.", "quantifier": "every array, element width, comparison function and key", "why_tests_cant": "the first match and the append position depend on every array length and every pattern of comparison results", "anchors": ["options/posix/generic/search.cpp: lsearch", "options/posix/generic/search.cpp: lfind"]}
{"id": "C48", "title": "insque and remque maintain doubly linked queues", "statement": "insque(e,p) turns a linear or circular queue ..p,q.. into ..p,e,q..; remque(e) turns ..p,e,q.. into ..p,q..; insque(e,NULL) starts a linear queue; no element outside the queue is modified.", "quantifier": "every linear or circular queue and every position in it", "why_tests_cant": "position at either end, single-element rings and arbitrary lengths form an unbounded case space", "anchors": ["options/posix/generic/search.cpp: insque", "options/posix/generic/search.cpp: remque"]}
{"id": "C49", "title": "quick_exit runs its handlers in reverse order", "statement": "quick_exit calls exactly the functions registered with at_quick_exit, each as often as registered, in reverse order of registration, and then terminates.", "quantifier": "every registration sequence", "why_tests_cant": "unbounded sequences; duplicates", "anchors": ["options/ansi/generic/stdlib.cpp:quick_exit", "options/ansi/generic/stdlib.cpp:at_quick_exit"]}
{"id": "C50", "title": "aligned_alloc validates its arguments", "statement": "aligned_alloc fails with EINVAL exactly if the alignment is not a power of two or the size not a multiple of it, and otherwise requests exactly the given size and alignment.", "quantifier": "every pair of size_t values", "why_tests_cant": "bit tricks over 2^128 pairs", "anchors": ["options/ansi/generic/stdlib.cpp:aligned_alloc"]}
{"id": "C51", "title": "asprintf stores the whole output", "statement": "Whatever pieces the formatter emits, asprintf/vasprintf on success store a pointer to a freshly allocated block holding the complete output followed by a NUL, and return the number of characters; the block is at least that large.", "quantifier": "all sequences of output pieces, of any length, that the formatting engine can emit", "why_tests_cant": "The growth policy of the buffer interacts with piece sizes of every length; a test sees a handful of totals.", "anchors": ["options/ansi/generic/stdio.cpp: ResizePrinter, vasprintf"]}
{"id": "C52", "title": "inet_aton reads one to four parts", "statement": "inet_aton on one to four decimal parts separated by dots yields the address in which each part but the last is one octet and the last fills the remaining octets, and rejects it if a part is out of range.", "quantifier": "every sequence of one to four decimal numbers below 2^64", "why_tests_cant": "The space of part values is 2^256; only boundaries of the four shapes are sampled by tests.", "anchors": ["options/posix/generic/arpa-inet.cpp:inet_aton"]}
{"id": "C53", "title": "pthread mutexes lose no wake-up", "statement": "A thread sleeping in pthread_mutex_lock is always woken: in every reachable state in which a thread sleeps on a mutex, the mutex is held and its unlock will wake the sleepers, or a wake-up of all sleepers is still due.", "quantifier": "every number of threads, every schedule, every mutex type", "why_tests_cant": "lost wake-ups appear only in rare interleavings", "anchors": ["options/internal/generic/threads.cpp:thread_mutex_lock", "options/internal/generic/threads.cpp:thread_mutex_unlock"]}
{"id": "C54", "title": "pthread_barrier_destroy waits for the threads inside", "statement": "When pthread_barrier_destroy returns, no thread is still inside pthread_barrier_wait with accesses to the barrier to come; while it waits for them it loses no wake-up.", "quantifier": "every number of threads and schedule", "why_tests_cant": "a waiter that is slow to leave races with the thread that destroys the barrier", "anchors": ["options/posix/generic/pthread.cpp:pthread_barrier_destroy", "options/posix/generic/pthread.cpp:pthread_barrier_wait"]}
{"id": "C55", "title": "read-write locks lose no wake-up and refuse only for cause", "statement": "A thread that sleeps in a read-write lock call is woken once it can go on: while it sleeps somebody has the lock or is about to wake it, and the wake-ups leave nobody asleep. A try call is refused only while the lock is held or being taken in a conflicting mode; a timed call fails only by its deadline.", "quantifier": "every number of threads, calls and schedule", "why_tests_cant": "the lost wake-up and the spurious refusal need particular interleavings of two words and two futexes", "anchors": ["options/posix/generic/pthread.cpp:rwlock_m_lock", "options/posix/generic/pthread.cpp:rwlock_m_trylock", "options/posix/generic/pthread.cpp:pthread_rwlock_unlock", "options/posix/generic/pthread.cpp:pthread_rwlock_clockrdlock"]}
{"id": "C56", "title": "Condition variables lose no signal and return with the mutex held", "statement": "pthread_cond_wait and pthread_cond_timedwait (cnd_wait, cnd_timedwait) release the mutex and block in one step as far as signals are concerned: a thread that has released the mutex in a wait when pthread_cond_broadcast is called is unblocked by it, and when pthread_cond_signal is called at least one of the threads blocked at that moment is. The wait returns 0 only if a signal or broadcast was sent since it began, always with the mutex locked by the caller, and the process is never ended by a wait.", "quantifier": "all numbers of threads, all interleavings of waits, timed waits, signals, broadcasts, mutex operations, spurious wake-ups, interruptions by signals and time-outs", "why_tests_cant": "the window between the release of the mutex and the futex call is a few instructions wide; lost wake-ups and the overflow of the 32-bit sequence word need particular schedules or billions of signals", "anchors": ["options/internal/generic/threads.cpp: thread_cond_signal, thread_cond_broadcast, thread_cond_timedwait", "options/posix/generic/pthread.cpp: pthread_cond_wait, pthread_cond_timedwait, pthread_cond_signal, pthread_cond_broadcast"]}
{"id": "C57", "title": "stdio streams behave like the unbuffered file", "statement": "For every permitted history of fread, fgetc, fgets, getline, ungetc, fwrite, putc, fflush, fseek, ftell, rewind, feof and clearerr on a stream, in every buffering mode and for every pattern of short reads and writes, the results are those of the same calls on the file without a buffer, no call aborts, and after fflush the file has the contents and the offset that the calls require.", "quantifier": "every history of stream calls, file contents, buffering mode and pattern of short transfers", "why_tests_cant": "interleavings of reads, writes, seeks, push-backs and flushes at every buffer boundary", "anchors": ["options/ansi/generic/file-io.cpp:abstract_file::read", "options/ansi/generic/file-io.cpp:abstract_file::write", "options/ansi/generic/file-io.cpp:abstract_file::unget", "options/ansi/generic/file-io.cpp:abstract_file::seek", "options/ansi/generic/stdio.cpp:fgets", "options/ansi/generic/stdio.cpp:getdelim"]}
{"id": "C58", "title": "symbol lookup in a shared object finds a symbol iff it is defined", "statement": "Looking a name up in a shared object (dlsym, relocation) through a well-formed SysV or GNU hash table returns a defined, visible symbol of that name and version, and reports that there is none only if the object defines none.", "quantifier": "every name, version, symbol table and well-formed hash table", "why_tests_cant": "hash tables of any shape; collisions and chain ends cannot be enumerated", "anchors": ["options/rtld/generic/linker.cpp:resolveInObject", "options/rtld/generic/linker.cpp:gnuHash", "options/rtld/generic/linker.cpp:elf64Hash"]}
{"id": "C59", "title": "constructors run once, dependencies first; destructors in reverse", "statement": "Over any sequence of dlopen calls every object reachable from a root is initialised exactly once, after all its dependencies that do not depend on it in turn, before dlopen returns; at exit destructors run once each in exactly the reverse order.", "quantifier": "every finite dependency graph, cyclic or not, and every sequence of loads", "why_tests_cant": "graphs of any shape and histories of loads", "anchors": ["options/rtld/generic/linker.cpp:Loader::_scheduleInit", "options/rtld/generic/linker.cpp:Loader::initObjects", "options/rtld/generic/linker.cpp:ObjectRepository::destructObjects"]}
{"id": "C60", "title": "every loaded object is relocated exactly once", "statement": "Each newly loaded object has its base address added exactly once to exactly the words named by its RELR table, whatever its dependency graph, and dependencies are collected in breadth-first order.", "quantifier": "every dependency graph and RELR table", "why_tests_cant": "graphs of any shape; bitmaps of any content", "anchors": ["options/rtld/generic/linker.cpp:Loader::_buildLinkBfs", "options/rtld/generic/linker.cpp:Loader::linkObjects", "options/rtld/generic/linker.cpp:Loader::_processStaticRelocations"]}
{"id": "C61", "title": "static TLS blocks are disjoint, aligned and inside the allocation", "statement": "The static TLS blocks of all objects in a thread do not overlap each other or the TCB, lie inside the thread's allocation and are aligned as each object asks.", "quantifier": "every sequence of objects loaded at start-up and later, any sizes and alignments, both TLS variants, any allocation address", "why_tests_cant": "unbounded sequences of sizes and power-of-two alignments", "anchors": ["options/rtld/generic/linker.cpp:Loader::_buildTlsMaps", "options/rtld/generic/linker.cpp:allocateTcb"]}
{"id": "C62", "title": "thread-local variables of loaded objects are private, stable and initialised", "statement": "After dlopen has returned, every thread, old or new, that accesses a thread-local variable of a loaded object through __tls_get_addr gets its own block for that object, no other thread's, always the same one, even while other dlopen calls are running; it holds the initialiser until the thread stores to it and what the thread stored last afterwards.", "quantifier": "every history of thread creations, exits and loads and every interleaving of accesses with publishing dlopens", "why_tests_cant": "races between lock-free readers and publication", "anchors": ["options/rtld/generic/linker.cpp:accessDtvIndex", "options/rtld/generic/linker.cpp:Loader::_publishTlsMaps", "options/rtld/generic/linker.cpp:allocateTcb", "options/rtld/generic/main.cpp:__rtld_allocateTcb"]}
{"id": "C63", "title": "symbols resolve to the first definition in scope order", "statement": "The relocations of every object that a dlopen loads bind to the first definition in the objects that were global before, in the order in which they became global, and then in the opened object and its dependencies, breadth-first. dlsym finds the first definition in the global objects (RTLD_DEFAULT), after the caller (RTLD_NEXT), or in the object and its dependencies, breadth-first (handle). RTLD_GLOBAL makes the object and its dependencies global.", "quantifier": "every dependency graph, every history of dlopen calls with any flags, every symbol", "why_tests_cant": "unbounded load histories and graphs", "anchors": ["options/rtld/generic/linker.cpp:Scope::resolveSymbol", "options/rtld/generic/linker.cpp:Scope::resolveGlobalOrLocal", "options/rtld/generic/linker.cpp:Scope::_resolveNext", "options/rtld/generic/main.cpp:__dlapi_open", "options/rtld/generic/main.cpp:__dlapi_resolve"]}
{"id": "C64", "title": "fmod, remainder and remquo are exact", "statement": "For all finite double or float arguments x and y with y not zero, fmod(x,y) is exactly x minus y times the truncated quotient, with the sign of x; remainder(x,y) and remquo(x,y,&q) are exactly x minus y times the nearest integer quotient, ties to even, a zero result having the sign of x, and q has the sign of x/y and the last 31 bits of that quotient's magnitude. fmod(x, infinity) is x; an infinite x, a zero y or a NaN gives a NaN.", "quantifier": "all pairs of double and all pairs of float bit patterns, including subnormal numbers and zeros", "why_tests_cant": "there are 2^128 pairs of doubles, with up to 2000 reduction steps and alignment of subnormal operands; a test samples a few", "anchors": ["options/ansi/musl-generic-math/fmod.c:fmod", "options/ansi/musl-generic-math/fmodf.c:fmodf", "options/ansi/musl-generic-math/remquo.c:remquo", "options/ansi/musl-generic-math/remquof.c:remquof", "options/ansi/musl-generic-math/remainder.c:remainder"]}
{"id": "C65", "title": "Rounding to an integer is exact", "statement": "For every finite double or float x, floor(x), ceil(x) and trunc(x) are exactly the largest integer not above x, the smallest not below it and the one next to it towards zero; rint(x) and nearbyint(x) are the nearest integer, ties to even; round(x) is the nearest integer, ties away from zero; a result has the sign of x also if it is zero. modf(x,&i) stores the truncated integer in i and returns exactly x minus i, both with the sign of x. Infinities and NaNs are returned unchanged (modf(infinity) returns a zero). lrint, llrint, lround and llround give the same integer whenever it fits into the result type.", "quantifier": "all double and all float bit patterns", "why_tests_cant": "there are 2^64 doubles; the code rounds by adding and subtracting 2^52, so errors hide in ties, next to powers of two and in the last representable fraction", "anchors": ["options/ansi/musl-generic-math/floor.c:floor", "options/ansi/musl-generic-math/floorf.c:floorf", "options/ansi/musl-generic-math/ceil.c:ceil", "options/ansi/musl-generic-math/ceilf.c:ceilf", "options/ansi/musl-generic-math/rint.c:rint", "options/ansi/musl-generic-math/round.c:round", "options/ansi/musl-generic-math/trunc.c:trunc", "options/ansi/musl-generic-math/modf.c:modf", "options/ansi/musl-generic-math/lrint.c:lrint", "options/ansi/musl-generic-math/lround.c:lround"]}
{"id": "C66", "title": "Neighbours, order, classes and signs of floating-point numbers", "statement": "For all double or float x and y that are not NaN, nextafter(x,y) is y if they are equal, and otherwise the nearest representable number to x in the direction of y, infinities included, a zero result having the sign of x. fmax and fmin return the larger and the smaller argument, with -0 before +0, and the other argument if one is a NaN. fdim is +0 or the correctly rounded difference. fabs and copysign change the sign bit only. fpclassify gives the class the value has.", "quantifier": "all pairs of double and all pairs of float bit patterns, including zeros, subnormal numbers, infinities and NaNs", "why_tests_cant": "the next number is defined against all 2^64 others; errors hide at powers of two, at zero, at the largest number and for signed zeros", "anchors": ["options/ansi/musl-generic-math/nextafter.c:nextafter", "options/ansi/musl-generic-math/nextafterf.c:nextafterf", "options/ansi/musl-generic-math/fmax.c:fmax", "options/ansi/musl-generic-math/fmin.c:fmin", "options/ansi/musl-generic-math/fdim.c:fdim", "options/ansi/musl-generic-math/copysign.c:copysign", "options/ansi/musl-generic-math/fabs.c:fabs", "options/ansi/musl-generic-math/__fpclassify.c:__fpclassify"]}
{"id": "C67", "title": "Scaling by powers of two and taking numbers apart", "statement": "For every double or float x and every int n, scalbn(x,n) and ldexp(x,n) are x*2^n rounded once to the nearest representable number, ties to even, also when the result is subnormal or overflows. For every finite x that is not zero frexp(x,&e) returns r with 1/2 <= |r| < 1 and x = r*2^e exactly, and ilogb(x) is the e with 2^e <= |x| < 2^(e+1), subnormal numbers included; zeros, infinities and NaNs give the results the C standard prescribes.", "quantifier": "all double and float bit patterns and all integers n", "why_tests_cant": "scalbn multiplies up to three times, and double rounding errors occur only for particular fractions and exponents in the subnormal range", "anchors": ["options/ansi/musl-generic-math/scalbn.c:scalbn", "options/ansi/musl-generic-math/scalbnf.c:scalbnf", "options/ansi/musl-generic-math/ldexp.c:ldexp", "options/ansi/musl-generic-math/ldexpf.c:ldexpf", "options/ansi/musl-generic-math/frexp.c:frexp", "options/ansi/musl-generic-math/frexpf.c:frexpf", "options/ansi/musl-generic-math/ilogb.c:ilogb", "options/ansi/musl-generic-math/ilogbf.c:ilogbf"]}
{"id": "C68", "title": "Square roots are correctly rounded", "statement": "For every double or float x that is positive and finite, sqrt(x) and sqrtf(x) return the representable number nearest to the real square root, subnormal arguments included, and the computation is defined. sqrt(+-0) is the argument, sqrt of infinity is infinity, and the root of a negative number or a NaN is a NaN.", "quantifier": "all double and float bit patterns", "why_tests_cant": "a wrong last bit shows up for a vanishing fraction of the 2^64 arguments, and an undefined shift for two small ranges of subnormal ones", "anchors": ["options/ansi/musl-generic-math/sqrt.c:sqrt", "options/ansi/musl-generic-math/sqrtf.c:sqrtf"]}
{"id": "C69", "title": "The end of a thread: handlers, joining, detaching and cancellation", "statement": "When a thread ends by returning, by pthread_exit or by cancellation, each thread_local destructor and each cleanup handler registered and not removed is run exactly once, most recent first, before its end is published. pthread_join returns only after that, with the value the thread ended with (PTHREAD_CANCELED if it was cancelled), and everybody joining a thread that ended returns. A thread is detached at most once and cannot be joined afterwards. A thread is cancelled only after pthread_cancel was called on it and never while it has cancellation disabled; once pthread_cancel has returned, a thread with cancellation enabled ends at its next cancellation point, at once if the type is asynchronous, and out of a blocking system call; a system call that took effect is not cancelled.", "quantifier": "all interleavings of one thread, the signal delivered to it at any point, and any number of threads that cancel, join and detach it at any time; all nestings of handlers, destructors and calls inside them", "why_tests_cant": "the outcome depends on the instruction at which the cancellation signal arrives and on the interleaving of compare-exchange loops, joins and the publication of the end", "anchors": ["options/internal/generic/threads.cpp:thread_exit", "options/internal/generic/threads.cpp:thread_join", "options/internal/generic/threads.cpp:thread_detach", "options/internal/generic/threads.cpp:thread_testcancel", "options/posix/generic/pthread.cpp:pthread_cancel", "options/posix/generic/pthread.cpp:pthread_setcancelstate", "options/posix/generic/pthread.cpp:pthread_setcanceltype", "options/posix/generic/pthread.cpp:pthread_exit", "sysdeps/linux/x86_64/cp_syscall.S", "sysdeps/linux/generic/thread.cpp"]}
{"id": "C70", "title": "fnmatch implements the shell pattern language", "statement": "fnmatch returns 0 exactly if the pattern matches the string, and FNM_NOMATCH otherwise: ordinary and escaped characters, ?, *, bracket expressions with ranges, classes and negation; with FNM_PATHNAME component by component, so that no wildcard matches a slash; with FNM_LEADING_DIR also if only a part of the string before a slash is matched; with FNM_PERIOD a leading period is matched only by a period; with FNM_CASEFOLD in either case. It always returns.", "quantifier": "all patterns of any structure and length, all strings of any length, all combinations of the flags and all locale tables", "why_tests_cant": "the number of ways in which asterisks can divide a string grows without bound; the implementation matches the head, the tail and the parts between in different ways, and one wrong choice shows only for particular pairs of pattern and string", "anchors": ["options/posix/musl-generic-regex/fnmatch.c:fnmatch", "options/posix/musl-generic-regex/fnmatch.c:fnmatch_internal", "options/posix/musl-generic-regex/fnmatch.c:pat_next", "options/posix/musl-generic-regex/fnmatch.c:match_bracket", "options/posix/musl-generic-regex/fnmatch.c:str_next", "options/ansi/generic/stdlib.cpp:mbtowc"]}
{"id": "C71", "title": "getopt and getopt_long report the options of a command line", "statement": "Calling getopt or getopt_long until it returns -1 reports every option of the command line exactly once, in order and with its argument (-c, -cVALUE, -c VALUE, several letters in one word, --name, --name=VALUE, --name VALUE, names abbreviated as long as they are unambiguous); undeclared options are reported with '?' and the letter in optopt; '--' ends the options. Afterwards the operands are behind the options, both in their original order, and optind is the index of the first operand. With '+' the first operand ends the options and nothing is moved.", "quantifier": "all option declarations, all command lines of any length built from these forms in any order, with operands anywhere", "why_tests_cant": "state is carried between calls in hidden variables and the argument vector is permuted on the fly, so the result of a call depends on everything before it; combinations of forms cannot be enumerated", "anchors": ["options/internal/generic/getopt.cpp:getopt_common", "options/internal/generic/getopt.cpp:getopt_common_internal", "options/internal/generic/getopt.cpp:permute", "options/internal/generic/getopt.cpp:longopt_find", "options/internal/generic/getopt.cpp:longopt_consume"]}
{"id": "C72", "title": "sscanf matches an input by the directives of its format", "statement": "sscanf applies the directives of the format one after the other: white space skips white space, ordinary characters match themselves, %d %i %o %x read the longest number in their notation and store its value reduced to the size of the destination, %s %c %[...] store the longest matching text up to their width, %n stores the number of characters read, '*' suppresses the assignment. It stops at the first directive that fails and returns the number of assignments, or EOF if the input ended before the first; it never reads behind the terminator of the input.", "quantifier": "all formats built from these directives in any number and order, all inputs", "why_tests_cant": "formats and inputs are unbounded strings and each directive starts where the one before it stopped; only an induction over the directives covers their combinations", "anchors": ["options/ansi/generic/stdio.cpp:do_scanf", "options/ansi/generic/stdio.cpp:store_int", "options/ansi/generic/stdio.cpp:vsscanf"]}
{"id": "C73", "title": "streams in memory behave like files", "statement": "A stream opened by open_memstream or fmemopen behaves like a file: fwrite at a position overwrites or extends the contents (gaps are zeros), fread returns the contents from the position, fseek and ftell move and report the position and fail for positions that do not exist, fflush makes the contents visible with a terminator. fmemopen never touches anything outside of the buffer it was given, whatever is done with the stream.", "quantifier": "all histories of fwrite, fread, fseek, ftell and fflush of any length; all buffers and modes", "why_tests_cant": "contents, position and size depend on the whole history; the interplay of seeks and writes is unbounded", "anchors": ["options/posix/generic/posix-file-io.cpp:memstream_mem_file", "options/posix/generic/posix-file-io.cpp:fmemopen_mem_file", "options/posix/generic/posix_stdio.cpp:fmemopen", "options/posix/generic/posix_stdio.cpp:open_memstream", "options/ansi/generic/file-io.cpp:abstract_file::read"]}
{"id": "C74", "title": "realpath returns the real path", "statement": "realpath(path) returns the absolute name of the file that path resolves to, with no '.', '..', repeated slash or symbolic link in it; it fails with the error of the resolution if a component is missing, and with ENAMETOOLONG if the result does not fit in PATH_MAX. Its result is its own real path. It always returns.", "quantifier": "all file systems, with symbolic links of any number and text; all paths and working directories", "why_tests_cant": "paths, link texts and chains of links are unbounded; the result depends on how links nest", "anchors": ["options/posix/generic/posix_stdlib.cpp:realpath"]}
{"id": "C75", "title": "wide string functions", "statement": "The wide string functions do what their narrow counterparts do: wcslen, wcscpy, wcsncpy, wcscat, wcsncat and wmemset write exactly the specified wide characters, wcscmp, wcsncmp and wmemcmp order lexicographically, wcschr, wcsrchr, wcsspn, wcscspn, wcspbrk, wmemchr and wcsstr find the first (last) occurrence, wcstok enumerates the maximal delimiter-free runs; none of them reads or writes outside of its arguments.", "quantifier": "all wide strings of any length, all wide characters, all sizes and memory contents", "why_tests_cant": "lengths, positions of matches and character values are unbounded; over-reads are invisible in tests", "anchors": ["options/ansi/generic/string.cpp:wcs*", "options/ansi/generic/string.cpp:wmemset", "options/ansi/generic/string.cpp:wmemcmp", "options/ansi/generic/string.cpp:wmemchr"]}
{"id": "C76", "title": "vector strcmp", "statement": "Whichever variant of strcmp the processor detection selects (plain, SSE2, SSE4.2, AVX2), it can be executed on that processor, its result has the sign of the lexicographic comparison of the two strings as unsigned bytes, and although it loads 16 or 32 bytes at a time it never touches a page that holds no byte of the strings.", "quantifier": "all pairs of strings of any length and content, all addresses and alignments relative to page boundaries, all contents of memory behind the strings, all processor feature sets", "why_tests_cant": "the combinations of two lengths and two alignments cannot be enumerated; a load across a page boundary faults only if the next page happens to be unmapped", "anchors": ["options/ansi/x86_64/strcmp.cpp:__mlibc_strcmp_sse2", "options/ansi/x86_64/strcmp.cpp:__mlibc_strcmp_sse4_2", "options/ansi/x86_64/strcmp.cpp:__mlibc_strcmp_avx2", "options/ansi/x86_64/strcmp.cpp:__mlibc_resolve_strcmp", "options/internal/x86_64-include/mlibc/features.hpp:cpu_supports"]}
{"id": "C77", "title": "strtod and strtof", "statement": "strtod and strtof skip leading space, convert the longest initial part that is a decimal or hexadecimal floating-point number (or an infinity or NaN, in any case) to the nearest representable number, exactly if it is representable, and set endptr right behind that part, or to the start of the string if there is none; they never read behind the end of the string.", "quantifier": "all strings of any length, both formats, all digit sequences, fractions and exponents", "why_tests_cant": "there are unboundedly many strings, and wrong roundings or a wrong end pointer show only for some of them", "anchors": ["options/internal/include/mlibc/strtofp.hpp:strtofp", "options/ansi/generic/stdlib.cpp:strtod", "options/ansi/generic/stdlib.cpp:strtof"]}
{"id": "C78", "title": "Character classes and case mapping", "statement": "In the C locale, isalpha, isdigit and the other ten classes give for EOF and every byte exactly the classes of ISO C, and isw* the same for every wint_t; iswctype with the value of wctype for a class name is the class function of that name, and wctype of an unknown name is 0; tolower, toupper and the wide versions exchange exactly the 26 letter pairs and leave everything else unchanged. In a UTF-8 locale the narrow functions are false for the bytes from 128 on. isascii holds for exactly 0 to 127.", "quantifier": "all bytes and EOF, all wide characters, all class names", "why_tests_cant": "a wrong entry of a table shows only for that character, and wide characters range over 2^32 values", "anchors": ["options/ansi/generic/ctype.cpp:isalpha", "options/ansi/generic/ctype.cpp:iswctype", "options/internal/generic/c-locale-defaults.cpp"]}
{"id": "C79", "title": "Case-insensitive and version comparison, memccpy, strdup, basename, ffs", "statement": "strcasecmp, strncasecmp and strcasestr compare strings as if their letters were lower case; strverscmp orders strings totally, by the number where they differ inside a number without leading zero and by the characters elsewhere; memccpy copies up to and including the first given byte; strdup and strndup return a fresh copy of the string or its first n bytes, or NULL with ENOMEM; basename returns the last component of the path; ffs the position of the lowest bit. None reads or writes outside the strings and arrays given.", "quantifier": "all strings of any length, all limits, all allocator results, all ints", "why_tests_cant": "strings are unbounded and the order laws range over all pairs and triples of strings", "anchors": ["options/posix/generic/strings.cpp:strcasecmp", "options/internal/generic/strings.cpp:strncasecmp", "options/glibc/generic/string.cpp:strverscmp", "options/posix/generic/posix_string.cpp:strdup", "options/glibc/generic/string.cpp:basename"]}
{"id": "C80", "title": "Local time and time zones", "statement": "localtime_r shows the time of the zone TZ names: with the POSIX form std offset [dst [offset] [,rule,rule]], standard time or, between the days and times the rules give, summer time; with the name of a zone file, the type of the last transition before the time. Date, time, weekday, name of the zone, offset and summer flag belong together. An empty or wrong TZ means UTC. The parser never reads or writes outside its buffers.", "quantifier": "all TZ strings, all zone files and all times", "why_tests_cant": "there are unboundedly many TZ strings, files and times; the changes differ from year to year", "anchors": ["options/ansi/generic/time.cpp:tzset", "options/ansi/generic/time.cpp:parse_tz", "options/ansi/generic/time.cpp:parse_tzfile", "options/ansi/generic/time.cpp:is_in_dst", "options/ansi/generic/time.cpp:localtime_r"]}
{"id": "C81", "title": "strftime and asctime_r", "statement": "strftime stores the text of the format, with each conversion replaced by what ISO C and POSIX prescribe for the given time and locale, followed by a null byte, and returns its length, if that fits into max bytes; otherwise it returns 0. It never writes outside the max bytes. asctime_r writes the 26 bytes of the traditional format.", "quantifier": "all formats, buffer sizes, locales and times", "why_tests_cant": "there are unboundedly many formats and every conversion can meet the end of the buffer", "anchors": ["options/internal/include/mlibc/time.hpp:strftime", "options/ansi/generic/time.cpp:asctime_r"]}
{"id": "C82", "title": "strptime", "statement": "strptime reads the input by the format, stores the members of struct tm that the conversions name and returns a pointer behind what it read, or a null pointer if the input does not match. Text written by strftime is read back to the same members. The day of the week and of the year are filled in if the date is known.", "quantifier": "all inputs, formats and times", "why_tests_cant": "the input and the format are unbounded texts, and the calendar computation must be right for every date", "anchors": ["options/posix/generic/time.cpp:strptime", "options/posix/generic/time.cpp:day_determination"]}
{"id": "C83", "title": "DNS queries and replies", "statement": "getaddrinfo and gethostbyname send the query that RFC 1035 prescribes for the host name and return exactly the addresses of the wanted families in the reply, in order, with the aliases and the canonical name; compressed names are expanded. A reply that the name does not exist, a reply to another query and silence are reported as errors. getnameinfo returns the name in the reply to a reverse query if it fits. No reply, however malformed, makes the client access memory outside its buffers or run forever.", "quantifier": "all host names, all replies and sequences of datagrams", "why_tests_cant": "names, replies and pointers inside them are unbounded, and a reply may come from an attacker", "anchors": ["options/posix/generic/lookup.cpp:read_dns_name", "options/posix/generic/lookup.cpp:lookup_name_dns", "options/posix/generic/lookup.cpp:lookup_addr_dns", "options/posix/generic/lookup.cpp:lookup_name_null"]}
{"id": "C84", "title": "Lookups in /etc/hosts and /etc/services", "statement": "A host name is resolved to the addresses on all lines of /etc/hosts that list it, in order, with the first name as the canonical name and the others as aliases; an address to the first name on the first line with that address. A service name or alias gives the port and protocol of every matching line of /etc/services, a number gives itself, a port gives the name of the service. Comments and blank lines are ignored. Every lookup ends and stays within the line buffer.", "quantifier": "all files, names, addresses, ports and protocols", "why_tests_cant": "the files are unbounded texts, written by hand, and the line buffer keeps bytes of earlier lines", "anchors": ["options/posix/generic/lookup.cpp:lookup_name_hosts", "options/posix/generic/lookup.cpp:lookup_addr_hosts", "options/posix/generic/services.cpp:lookup_serv_by_name", "options/posix/generic/services.cpp:lookup_serv_by_port"]}
{"id": "C85", "title": "Signal sets and processor sets", "statement": "After any history of sigemptyset, sigfillset, sigaddset and sigdelset a signal set has exactly the members that the history implies; numbers outside the range are refused. The same holds for CPU_ZERO, CPU_SET and CPU_CLR on processor sets of any size; CPU_COUNT is the number of members; CPU_ALLOC has room for the processors asked for.", "quantifier": "all histories of calls, all numbers, all set sizes", "why_tests_cant": "the history is unbounded and every pair of numbers must be checked for interference", "anchors": ["options/internal/generic/sigset.cpp:sigaddset", "options/internal/generic/sigset.cpp:sigdelset", "options/internal/generic/sigset.cpp:sigismember", "options/posix/generic/posix_signal.cpp:sigisemptyset", "options/linux/generic/cpuset.cpp"]}
{"id": "C86", "title": "The user and group files", "statement": "getpwnam, getpwuid, getgrnam, getgrgid and their reentrant forms find the first entry with that name or number, with exactly the fields of its line; the reentrant forms put the strings into the caller's buffer, write nothing outside of it, and report ERANGE if it is too small. getgrouplist finds exactly the groups that list the user. An entry written with putpwent or putgrent is read back as it was.", "quantifier": "all files of lines of users or groups mixed with other lines, all names and numbers, all buffers and sizes", "why_tests_cant": "files, names, member lists and buffer sizes are unbounded; an overrun shows only for particular sizes", "anchors": ["options/posix/generic/pwd.cpp:getpwnam_r", "options/posix/generic/pwd.cpp:putpwent", "options/posix/generic/grp.cpp:getgrnam_r", "options/posix/generic/grp.cpp:getgrouplist", "options/posix/generic/grp.cpp:putgrent"]}
{"id": "C87", "title": "mblen, mbtowc and wctomb keep no hidden state", "statement": "In a UTF-8 locale every call of mblen, mbtowc and wctomb depends on its arguments alone: after any history of calls, a complete character gives its length (0 for the null character) and its code point, input that no character can begin with and input cut within a character give -1 with EILSEQ, and a wide character is stored as its UTF-8 bytes.", "quantifier": "all histories of calls, all inputs, lengths and characters", "why_tests_cant": "the functions have static conversion states; the effect of earlier calls on later ones shows only in particular histories", "anchors": ["options/ansi/generic/stdlib.cpp:mblen", "options/ansi/generic/stdlib.cpp:mbtowc", "options/ansi/generic/stdlib.cpp:wctomb"]}
{"id": "C88", "title": "nftw reports every object of a file tree once, in order", "statement": "nftw calls the function for every object of the file tree exactly once, a directory before its contents or, with FTW_DEPTH, after them, with its path, status, type, level and the position of the last component; FTW_MOUNT leaves out other file systems; a directory that is one of those above it is not entered; the first call that does not return 0 ends the walk with its value; fd_limit bounds the descriptors in use, not the tree, and all descriptors are closed at the end.", "quantifier": "all file trees of any depth, paths, flags and callbacks", "why_tests_cant": "the walk depends on the shape of the whole tree and on what the callback returns at any point; leaks show only in long-running programs", "anchors": ["options/posix/generic/ftw.cpp:do_nftw", "options/posix/generic/ftw.cpp:nftw", "options/posix/generic/ftw.cpp:ftw"]}
{"id": "C89", "title": "A directory stream is a cursor over the entries of the directory", "statement": "However the kernel cuts the entries of a directory into pieces, readdir returns each entry exactly once, in order and with its inode number, type and name, and a null pointer at the end; telldir gives a position to which seekdir returns after any history of calls, and rewinddir starts again; an error is reported by a null pointer and errno.", "quantifier": "all directories, all ways of the kernel to return the entries, all histories of readdir, telldir, seekdir and rewinddir", "why_tests_cant": "where an entry lies in the buffer depends on all names before it and on the kernel; positions depend on the history", "anchors": ["options/posix/generic/dirent.cpp:readdir", "options/posix/generic/dirent.cpp:seekdir", "options/posix/generic/dirent.cpp:telldir", "options/posix/generic/dirent.cpp:rewinddir"]}
{"id": "C90", "title": "scandir returns exactly the chosen entries", "statement": "scandir returns the number of the entries for which the function answers nonzero and an array of copies of them, in the order of the comparison, without writing outside its arrays, keeps errno, and closes the directory; it fails only if an operation of its own fails.", "quantifier": "all directories, selection functions and orders", "why_tests_cant": "the array grows with the directory; leaks and errno side effects show only in long-running programs", "anchors": ["options/posix/generic/dirent.cpp:scandir"]}
{"id": "C91", "title": "posix_spawn starts the program with exactly the descriptors asked for", "statement": "Whatever descriptors the caller has open and the file actions use, including the numbers the library picks for its own pipe, a program started by posix_spawn has exactly the caller's descriptors without close-on-exec, changed by the actions in their order, with the directory, signal mask, ignored signals and attributes asked for; if a step fails, its error is returned, no process number is stored and no zombie is left; the caller's own descriptors and signal mask do not change.", "quantifier": "all descriptor tables, lists of file actions, attributes, choices of descriptors by the kernel and errors of its calls", "why_tests_cant": "the collision of an action's descriptor with the hidden pipe depends on what the caller has open and on the kernel's choice", "anchors": ["options/posix/generic/spawn.cpp:child", "options/posix/generic/spawn.cpp:posix_spawn_impl", "options/posix/generic/spawn.cpp:posix_spawn_file_actions_adddup2", "options/posix/generic/spawn.cpp:posix_spawn_file_actions_addopen"]}
{"id": "C92", "title": "Looking up a user in the shadow file gives the user's own entry", "statement": "getspnam_r gives the first well-formed entry of the given name in the shadow file, whatever the other lines contain and however long they are, ERANGE if the line does not fit the buffer, and refuses names that would leave the directory; an entry written by putspent is read back unchanged by fgetspent; exactly the lines of nine fields with empty or decimal numbers are entries.", "quantifier": "all file contents, names, buffer sizes and entries", "why_tests_cant": "long lines are read in pieces and a piece in the middle of a line may look like an entry of the user; which bytes are accepted is a statement about all texts", "anchors": ["options/glibc/generic/shadow.cpp:__parsespent", "options/glibc/generic/shadow.cpp:xatol", "options/glibc/generic/shadow.cpp:getspnam_r", "options/glibc/generic/shadow.cpp:fgetspent", "options/glibc/generic/shadow.cpp:putspent"]}
{"id": "C93", "title": "syslog sends every enabled message as one line", "statement": "After any history of openlog, closelog, setlogmask and syslog calls, a message whose level is enabled in the mask is sent to the logging daemon as one line holding its level and facility, the time, the name and the options of the last openlog, cut at 1024 bytes, and again only if the daemon was lost and reached again; other messages are not sent; setlogmask returns the mask before and with 0 only asks.", "quantifier": "all histories of calls, messages of any length, masks, and answers of the kernel", "why_tests_cant": "length and mask combine with what earlier calls have set; the error paths depend on the daemon", "anchors": ["options/posix/generic/syslog.cpp:vsyslog", "options/posix/generic/syslog.cpp:_vsyslog", "options/posix/generic/syslog.cpp:openlog", "options/posix/generic/syslog.cpp:setlogmask"]}
{"id": "C94", "title": "execvp finds the program along PATH", "statement": "A name with a slash is executed as it is; another name is tried in each directory of PATH in order, an empty element being the current directory, and the first try that succeeds or fails for a reason other than a missing file, a missing directory or a refused permission decides; if none does, the error is EACCES if some try was refused and ENOENT otherwise. execl, execle and execlp start the program with exactly the arguments before the null pointer.", "quantifier": "all names, values of PATH, answers of the kernel and argument lists", "why_tests_cant": "the outcome depends on every combination of errors along a list of any length", "anchors": ["options/posix/generic/unistd.cpp:execvpe", "options/posix/generic/unistd.cpp:execl", "options/posix/generic/unistd.cpp:execle", "options/posix/generic/unistd.cpp:execlp"]}
{"id": "C95", "title": "wordexp accepts the shell's words and nothing else, and stores every word", "statement": "wordexp gives a text to the shell only if it is a list of words of the shell command language: quotes and brackets closed, no unquoted special character, and with WRDE_NOCMD no command substitution; otherwise it returns an error and never reads outside the text. Afterwards the structure holds the words the shell wrote in order, after the null entries asked for and, with WRDE_APPEND, after the words of the calls before, which an error leaves alone.", "quantifier": "all texts, flags, sequences of calls and lists of words", "why_tests_cant": "quoting, escapes and nested brackets combine without bound; the bypasses need particular combinations", "anchors": ["options/posix/generic/wordexp.cpp:we_check", "options/posix/generic/wordexp.cpp:we_askshell", "options/posix/generic/wordexp.cpp:wordexp"]}
{"id": "C96", "title": "the protocol database gives every entry of the file", "statement": "getprotobyname and getprotobynumber return the first entry of /etc/protocols with that name or number and null only if there is none, whatever was called before; getprotoent returns all entries in the order of the file and then null, and starts again after setprotoent or endprotoent. An entry is a line with a name, a decimal number and any number of aliases between blanks, without the comment.", "quantifier": "all contents of the file and all histories of calls", "why_tests_cant": "lines of every length, blanks and comments in every place, positions left by earlier calls", "anchors": ["options/posix/generic/netdb.cpp:findProto", "options/posix/generic/netdb.cpp:getprotobyname", "options/posix/generic/netdb.cpp:getprotobynumber", "options/posix/generic/netdb.cpp:getprotoent"]}
{"id": "C97", "title": "getaddrinfo gives one element for each address and service; getnameinfo gives name or number", "statement": "getaddrinfo returns a null-terminated list with one element for each address of the node and each service that agrees with the hints, addresses in the order found, with the right family, port, socket type and protocol, and the canonical name on the first if asked for; a numeric node is not searched for; bad flags, families and unknown nodes and services give the EAI code for it. getnameinfo stores the name of the address and of the port, or the numeric forms when there is none or NI_NUMERICHOST or NI_NUMERICSERV ask for it, and never more than fits. gethostbyname gives the addresses of one family.", "quantifier": "all nodes, services, hints, contents of the databases and DNS answers", "why_tests_cant": "the list is a product of what three databases give, under every combination of flags", "anchors": ["options/posix/generic/netdb.cpp:getaddrinfo", "options/posix/generic/netdb.cpp:getnameinfo", "options/posix/generic/netdb.cpp:gethostbyname", "options/posix/generic/services.cpp:lookup_serv_by_name", "options/posix/generic/lookup.cpp:lookup_name_ip", "options/posix/include/netdb.h"]}
{"id": "C98", "title": "getmntent reads the entries of fstab and mtab", "statement": "Successive calls of getmntent or getmntent_r return the entries of the file in order and then null: a line gives its first four words and the two numbers after them, 0 where they are missing; blank lines and lines that start with # are skipped; octal escapes stand for blanks. What addmntent writes is read back unchanged. hasmntopt finds an option exactly if it is one of those listed between commas.", "quantifier": "all files, buffer sizes, entries and histories of calls", "why_tests_cant": "every layout of blanks, comments and numbers; what one line leaves behind for the next", "anchors": ["options/linux/generic/mntent.cpp:getmntent_r", "options/linux/generic/mntent.cpp:addmntent", "options/linux/generic/mntent.cpp:hasmntopt"]}
{"id": "C99", "title": "glob finds exactly the paths that match", "statement": "glob returns every existing path that the pattern stands for and no other, each once and in order, after gl_offs null pointers with GLOB_DOOFFS and followed by a null pointer: components without special characters stand for their text, others for the names in the directory that fnmatch accepts, directories are marked with GLOB_MARK, a tilde stands for the home directory. If there is none it returns GLOB_NOMATCH, or the pattern and 0 with GLOB_NOCHECK. If a directory cannot be read and GLOB_ERR is set or errfunc says so, it returns GLOB_ABORTED. GLOB_APPEND leaves what is there in front. globfree frees every name once.", "quantifier": "all patterns, flags, file systems, error functions and histories of calls", "why_tests_cant": "every nesting of directories, special characters, quotes, brackets and path lengths around PATH_MAX", "anchors": ["options/posix/musl-generic-regex/glob.c:glob", "options/posix/musl-generic-regex/glob.c:do_glob", "options/posix/musl-generic-regex/glob.c:globfree"]}
{"id": "C100", "title": "fork runs the handlers of pthread_atfork in order", "statement": "fork runs every handler registered in the process with pthread_atfork: prepare handlers before the fork, the last registered first, and after it parent handlers in the parent and child handlers in the child, the first registered first; null pointers are skipped. The child keeps the handlers. _Fork and vfork run none. fork returns the child's process id in the parent and 0 in the child, whose cached thread id (the owner in mutexes) is the new one.", "quantifier": "all histories of registrations, thread creations and forks, in parent and child", "why_tests_cant": "the order must hold for any number of registrations, spread over threads and generations of processes", "anchors": ["options/posix/generic/pthread.cpp:pthread_atfork", "options/posix/generic/unistd.cpp:fork", "options/bsd-procdesc/generic/sys-procdesc.cpp:pdfork"]}
{"id": "C101", "title": "setlocale's result restores the locale", "statement": "The string returned by setlocale(LC_ALL, ...), composite or not, passed to setlocale(LC_ALL, ...) later restores every category, and likewise for one category, which leaves the others alone. A name language_territory.codeset@modifier is looked up under its less specific variants, most specific first, in the archive and then in each directory; the empty string takes LC_ALL, then the category's variable, then LANG. newlocale replaces the categories of its mask and keeps the others. A call that fails changes nothing.", "quantifier": "all locale databases, environments, names and histories of setlocale calls", "why_tests_cant": "saving and restoring must work for every combination of categories and names in any database", "anchors": ["options/ansi/generic/locale.cpp:setlocale", "options/internal/generic/locale.cpp:loadLocale", "options/internal/generic/locale.cpp:parseLocaleName", "options/internal/generic/locale.cpp:buildLocaleList", "options/internal/generic/locale.cpp:parseCompositeLocaleName", "options/internal/generic/locale.cpp:updateLocaleName", "options/posix/generic/posix_locale.cpp:newlocale"]}
{"id": "C102", "title": "spin locks exclude each other and report misuse", "statement": "At most one thread holds a spin lock, from the return of a successful lock or trylock to the call of unlock. lock returns 0 to a thread that does not hold it and EDEADLK to the holder; trylock returns 0 or EBUSY; unlock returns 0 to the holder and EPERM to others, without effect. With no holder and no other thread in a call, lock and trylock succeed at once. trylock and unlock return after a bounded number of their own steps.", "quantifier": "all schedules of any number of threads making any calls on the lock, with spurious failures of the weak compare-exchange", "why_tests_cant": "a test sees a few schedules; exclusion must hold in all of them", "anchors": ["options/posix/generic/pthread.cpp:pthread_spin_lock", "options/posix/generic/pthread.cpp:pthread_spin_trylock", "options/posix/generic/pthread.cpp:pthread_spin_unlock"]}
{"id": "C103", "title": "locale archives and locale files are read within their bounds", "statement": "Looking up a locale in the archive file gives the record of the first of its names that is in the archive, and always ends. Whatever the archive or a locale file contains, nothing outside it is read: a category is the bytes its record names, an item is the bytes between its offset and the next one and is missing if these are not in order or not inside, and every string ends with a zero byte.", "quantifier": "all contents of the archive and of locale files, all names", "why_tests_cant": "files come from outside; every malformed content must be handled, and every hash collision", "anchors": ["options/internal/generic/locale.cpp:findLocaleRecord", "options/internal/generic/locale.cpp:findLocaleArchiveRecord", "options/internal/generic/locale.cpp:parseCategoryInfo", "options/internal/include/mlibc/locale-archive-parsing.hpp:nameHashVal", "options/internal/include/mlibc/locale-archive-parsing.hpp:apply_parsers", "options/internal/include/mlibc/locale-archive-parsing.hpp:parse_string"]}
{"id": "C104", "title": "Temporary files are created exclusively, under the name left in the template", "statement": "mkstemp, mkostemp, mkstemps and mkostemps accept exactly the templates that are a prefix, six X and a suffix of the stated length; for anything else, including negative or too large suffix lengths, they give EINVAL, make no call and change nothing. Otherwise the six X are replaced by six digit decimal numbers in increasing order, each tried with open for reading and writing, creating, exclusive and mode 0600, until one does not exist already; the template then is the path created, nothing else of its array changed, and the descriptor is that of the kernel. Any other error ends the search and is reported. mkdtemp does the same with mkdir and mode 0700. tmpfile returns a stream for such a file after removing its name, and closes it if that fails.", "quantifier": "every template, array around it, suffix length, flags and sequence of answers of the kernel", "why_tests_cant": "the answers of the kernel form an unbounded tree of almost a million attempts, and the memory around the template and odd suffix lengths cannot be enumerated", "anchors": ["options/internal/generic/stdlib.cpp:mkostemps", "options/posix/generic/posix_stdlib.cpp:mkstemp", "options/posix/generic/posix_stdlib.cpp:mkdtemp", "options/ansi/generic/stdio.cpp:tmpfile"]}
{"id": "C105", "title": "fopen and fdopen ask for exactly what the mode says", "statement": "For every mode that is r, w or a followed by any of +, b, e and x in any order and number, fopen opens the path once with mode 0666 and flags that are exactly those of the mode: access by the letter and +, creation for w and a, truncation for w, appending for a, close on exec for e, exclusive creation for x, and nothing else. The result is the kernel's. fdopen never truncates; it sets the append flag for a unless it is set, keeping the other status flags, sets close on exec for e, calls nothing else, and succeeds exactly if these calls do. A mode that begins with anything else is refused with EINVAL, and nothing after its end is read.", "quantifier": "every mode string, memory after it, path and answer of the kernel", "why_tests_cant": "modes are strings of any length with the letters in any order; the kernel's answers and the memory behind a mode are arbitrary", "anchors": ["options/ansi/generic/file-io.cpp:parse_modestring", "options/ansi/generic/file-io.cpp:fopen", "options/posix/generic/posix-file-io.cpp:fdopen"]}
{"id": "C106", "title": "popen connects the command with a pipe and leaves everything else as it was; pclose gives its status", "statement": "After popen the program has exactly one descriptor more, its end of a new pipe, marked close on exec exactly if e was given. The command has the other end as its standard input or standard output, no other descriptor of this pipe and none of an earlier stream of popen, and otherwise the program's descriptors. The actions for SIGINT and SIGQUIT and the blocked signals are those from before the call in both. If the type has neither r nor w, or no pipe or process can be made, popen fails with that error and the program is as before. pclose closes the stream's descriptor and nothing else, waits for its process and gives its status.", "quantifier": "every set of open descriptors, signal actions and masks, type string, pair of descriptors of the pipe and answer of fork and waitpid", "why_tests_cant": "the descriptors a program has open and the numbers the kernel picks are arbitrary, and the failures are those of the kernel", "anchors": ["options/posix/generic/posix_stdio.cpp:popen", "options/posix/generic/posix_stdio.cpp:pclose"]}
{"id": "C107", "title": "strfmon fills the field, shows the sign and never overruns the buffer", "statement": "For every format, locale and amounts, strfmon writes nothing outside the buffer; its result is the characters and a zero byte, or E2BIG exactly if these do not fit, or EINVAL, and a larger buffer gives the same characters. A conversion with a width is the conversion without it, filled up on the left with the fill character or on the right with spaces to exactly that width. Negative amounts show the negative sign of the locale or parentheses, placed as the locale's layout for negative amounts says.", "quantifier": "every format string, buffer size, locale data, amount and text of its digits", "why_tests_cant": "formats, locales and sizes combine without bound, and whether the characters fit depends on all of them", "anchors": ["options/posix/generic/monetary.cpp:strfmon_internal", "options/posix/generic/monetary.cpp:BufferSink", "options/posix/generic/monetary.cpp:strfmon"]}
{"id": "C108", "title": "lockf locks, tests and releases exactly the section", "statement": "lockf with F_TLOCK or F_LOCK gives the caller a write lock on exactly the section from the file position on (or before it, for a negative size, or to the end of all offsets, for size 0) if no other process holds a lock on a byte of it; otherwise F_TLOCK fails with EAGAIN and F_LOCK waits. F_ULOCK releases what the caller holds of the section. F_TEST fails with EACCES if another process holds a lock on a byte of the section and succeeds otherwise. Other locks never change, a failed call changes nothing, and after any history of calls a byte locked for writing by one process is locked by no other.", "quantifier": "every table of locks, position, size and operation, and every history of calls by any number of processes", "why_tests_cant": "the tables of locks and the histories of several processes are unbounded, and the failing case of F_TEST needs a read lock of another process that lockf itself never makes", "anchors": ["options/posix/generic/unistd.cpp:lockf", "options/posix/generic/fcntl.cpp:fcntl", "options/posix/include/unistd.h:F_TEST"]}
{"id": "C109", "title": "writev writes the bytes of its pieces in order", "statement": "On systems without a call for it, writev gives exactly the bytes of its pieces, in order, to one write and returns what that returns, reading and writing no other memory; if the lengths add up to more than SSIZE_MAX, also beyond the range of size_t, it fails with EINVAL and reads nothing. A count that is not positive is refused without effect.", "quantifier": "every array of pieces with every length and content", "why_tests_cant": "the number and the lengths of pieces are unbounded, and the sums that do not fit a size_t cannot be reached by tests with real memory", "anchors": ["options/posix/generic/sys-uio.cpp:writev"]}
{"id": "C110", "title": "swab exchanges the bytes of whole pairs", "statement": "For every n, swab writes to the destination the bytes of the source with the bytes of each whole pair exchanged, writes nothing else, reads only the whole pairs, and does nothing if n is negative.", "quantifier": "every memory, every two blocks that do not overlap and every n", "why_tests_cant": "all lengths and contents, odd and negative lengths included", "anchors": ["options/posix/generic/unistd.cpp:swab"]}
{"id": "C111", "title": "Thread attributes give back what was set", "statement": "For every history of calls on a thread attributes object, each getter gives what was last set by a successful call: the processor set (with zero bytes after it if more bytes are asked for, and ERANGE if a processor would be left out), the signal mask without the signal used for cancellation, the stack, its guard and the detach state. A call that fails changes nothing, and destroying the object frees all its memory.", "quantifier": "every history of calls, processor set, size asked for, mask and failure of memory", "why_tests_cant": "histories and sizes are unbounded; tests use one size of processor set, where the wrong placement of the zero bytes and the lost memory do not show", "anchors": ["options/posix/generic/pthread.cpp:pthread_attr_getaffinity_np", "options/posix/generic/pthread.cpp:pthread_attr_setaffinity_np", "options/posix/generic/pthread.cpp:pthread_attr_getsigmask_np", "options/posix/generic/pthread.cpp:pthread_attr_setsigmask_np", "options/posix/generic/pthread.cpp:pthread_attr_setstack", "options/internal/generic/threads.cpp:~__mlibc_threadattr"]}
{"id": "C112", "title": "Host names are looked up with the first server of /etc/resolv.conf", "statement": "For every content of /etc/resolv.conf, the server used to look up names is the first word after \"nameserver\" and white space on the first line that has both; other lines, and lines of more than 126 bytes, are ignored as a whole and never read as two lines; without such a line, or without the file, there is no server.", "quantifier": "every content of the file without zero bytes", "why_tests_cant": "files are unbounded and the cases at the size of the line buffer depend on every length of line, with and without a final newline", "anchors": ["options/posix/generic/resolv_conf.cpp:get_nameserver"]}
{"id": "C113", "title": "timeradd and timersub are exact", "statement": "For all times with microseconds from 0 to 999999 whose seconds can be added or subtracted without overflow, timeradd and timersub give the exact sum or difference, also if it is negative, again with microseconds from 0 to 999999, and adding what was subtracted gives the first time back.", "quantifier": "all pairs of times", "why_tests_cant": "the pairs of 64 bit times are too many, and borrowing for negative results shows only for some", "anchors": ["options/posix/generic/sys-time.cpp:timeradd", "options/posix/generic/sys-time.cpp:timersub"]}
{"id": "C114", "title": "Sets of descriptors for select are sets", "statement": "After any sequence of FD_ZERO, FD_SET and FD_CLR, FD_ISSET gives 1 for the descriptors that were added and not removed since, and 0 for all others; a descriptor below 0 or from FD_SETSIZE on stops the process before any memory is touched.", "quantifier": "every sequence of calls and every descriptor", "why_tests_cant": "sequences are unbounded and an error in one bit of one word shows only for some pairs of descriptors", "anchors": ["options/posix/generic/sys-select.cpp:__FD_SET", "options/posix/generic/sys-select.cpp:__FD_CLR", "options/posix/generic/sys-select.cpp:__FD_ISSET", "options/posix/generic/sys-select.cpp:__FD_ZERO"]}
{"id": "C115", "title": "The user database follows utmpxname and loses nothing", "statement": "Over every history of utmpxname, setutxent, endutxent and getutxent: no memory is freed twice or lost, at most one descriptor is open, a failed utmpxname changes nothing, and records are read from the file whose name was set last, opened for reading only if writing is not allowed; if it cannot be opened the error is ENOENT.", "quantifier": "every history of calls, with every answer of open and of the allocator", "why_tests_cant": "histories are unbounded, and double frees and lost descriptors depend on the order of calls and on failures", "anchors": ["options/posix/generic/utmpx.cpp:utmpxname", "options/posix/generic/utmpx.cpp:setutxent", "options/posix/generic/utmpx.cpp:endutxent", "options/posix/generic/utmpx.cpp:getutxent"]}
{"id": "C116", "title": "Lists of library paths are taken apart exactly", "statement": "For every value of LD_LIBRARY_PATH or LD_PRELOAD and every set of separators, the dynamic linker gets one entry for each non-empty piece between separators, in order, without the slashes at its end (a piece of slashes only, the root, becomes the empty prefix); it never reads outside of the string and always ends.", "quantifier": "every string of paths and every set of separators", "why_tests_cant": "the strings are unbounded, and mistakes show only with empty pieces, trailing separators or runs of slashes", "anchors": ["options/rtld/generic/main.cpp:parseList"]}
{"id": "C117", "title": "wcslcat appends what fits and says how much was wanted", "statement": "For every destination, source and size: wcslcat appends as much of the source as fits before a terminating zero within the size, leaves everything after that zero as it was, leaves a destination without a zero in its size unchanged, accesses nothing outside, and returns the length of both strings, so that a truncation is seen exactly if the value is not less than the size.", "quantifier": "every pair of strings, every size and every content of the remaining cells", "why_tests_cant": "lengths are unbounded, and mistakes show only at the boundary or beyond the size", "anchors": ["options/posix/generic/wchar.cpp:wcslcat"]}
{"id": "C118", "title": "Signal names are read back as the same signal", "statement": "sig2str gives every signal a name of less than SIG2STR_MAX characters that str2sig reads back as that signal, and refuses every other number; str2sig has defined behaviour for every string, stores only numbers of signals, takes RTMIN+n and RTMAX-n exactly within the range of real time signals whatever the length of the number, and accepts plain decimal numbers.", "quantifier": "every signal number and every string", "why_tests_cant": "the strings and the numbers in them are unbounded; the overflow shows only next to the largest long", "anchors": ["options/posix/generic/posix_signal.cpp:sig2str", "options/posix/generic/posix_signal.cpp:str2sig"]}
