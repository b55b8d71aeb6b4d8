{
 "claims": [
  {
   "property": "C01",
   "status": "proved",
   "theorems": [
    "C01_memcpy",
    "C01_mempcpy"
   ],
   "note": "all sizes and alignments; word-sized copies modelled as byte vectors"
  },
  {
   "property": "C02",
   "status": "proved",
   "theorems": [
    "C02_memmove"
   ],
   "note": "all overlaps, both copy directions"
  },
  {
   "property": "C03",
   "status": "proved",
   "theorems": [
    "C03_memset"
   ],
   "note": "all sizes, alignments and fill values"
  },
  {
   "property": "C04",
   "status": "proved",
   "theorems": [
    "C04_strlen",
    "C04_strnlen",
    "C04_strnlen_min"
   ],
   "note": ""
  },
  {
   "property": "C05",
   "status": "partial",
   "theorems": [
    "C05_strcpy",
    "C05_stpcpy",
    "C05_strcat",
    "C05_strlcpy",
    "C05_strlcat",
    "C05_strncpy_partial",
    "C05_stpncpy_partial",
    "C05_strncat_partial",
    "C05_strncpy_refuted",
    "C05_strncat_refuted",
    "C05_stpncpy_refuted"
   ],
   "note": "strncpy, strncat and stpncpy are proved for NUL-terminated sources only: on a source of n bytes without NUL the code reads past the array (refuted)"
  },
  {
   "property": "C06",
   "status": "proved",
   "theorems": [
    "C06_memcmp",
    "C06_strcmp",
    "C06_strncmp",
    "C06_order"
   ],
   "note": ""
  },
  {
   "property": "C07",
   "status": "proved",
   "theorems": [
    "C07_memchr",
    "C07_memrchr",
    "C07_strchr",
    "C07_strrchr",
    "C07_strchrnul"
   ],
   "note": ""
  },
  {
   "property": "C08",
   "status": "proved",
   "theorems": [
    "C08_strspn",
    "C08_strcspn",
    "C08_strpbrk"
   ],
   "note": ""
  },
  {
   "property": "C09",
   "status": "partial",
   "theorems": [
    "C09_strstr",
    "C09_memmem_partial",
    "C09_memmem_refuted"
   ],
   "note": "strstr fully proved; memmem returns NULL instead of the haystack when both lengths are 0 (refuted), proved otherwise"
  },
  {
   "property": "C10",
   "status": "proved",
   "theorems": [
    "C10_strtok_call",
    "C10_strtok",
    "C10_strtok_after"
   ],
   "note": ""
  },
  {
   "property": "C100",
   "status": "partial",
   "theorems": [
    "C100_order_partial",
    "C100_single_thread",
    "C100_plain",
    "C100_tid",
    "C100_threads_refuted",
    "C100_failure_refuted"
   ],
   "note": "exact for the handlers registered by the calling thread; those of other threads do not run, and a failed fork runs no parent handler"
  },
  {
   "property": "C101",
   "status": "partial",
   "theorems": [
    "C101_names",
    "C101_lookup",
    "C101_path",
    "C101_restore",
    "C101_restore_one",
    "C101_sets",
    "C101_environment",
    "C101_failure_partial",
    "C101_newlocale",
    "C101_mask",
    "C101_failure_refuted",
    "C101_environment_refuted",
    "C101_bounds_refuted",
    "C101_codeset_refuted"
   ],
   "note": "restoring proved for every history; a failed LC_ALL call is not atomic, and an empty name for one category sets all"
  },
  {
   "property": "C102",
   "status": "proved",
   "theorems": [
    "C102_exclusion",
    "C102_results",
    "C102_free",
    "C102_wait_free"
   ],
   "note": "all schedules and any number of threads"
  },
  {
   "property": "C103",
   "status": "partial",
   "theorems": [
    "C103_finds",
    "C103_bounds_partial",
    "C103_category",
    "C103_items",
    "C103_magic",
    "C103_magic_values",
    "C103_string_partial",
    "C103_string_refuted",
    "C103_end_refuted",
    "C103_bounds_refuted"
   ],
   "note": "exact for well-built archives, safe for every archive of 108 bytes or more; full tables loop, tiny archives are overread, strings may lack a terminator"
  },
  {
   "property": "C104",
   "status": "partial",
   "theorems": [
    "C104_template",
    "C104_flags",
    "C104_invalid",
    "C104_fresh",
    "C104_mkdtemp_partial",
    "C104_tmpfile_partial",
    "C104_mkdtemp_refuted",
    "C104_tmpfile_refuted",
    "C104_last_refuted"
   ],
   "note": "mkostemps is proved fully; mkdtemp with fewer than six characters panics instead of EINVAL, tmpfile does not set errno when creation fails, and the name with 999999 is never tried"
  },
  {
   "property": "C105",
   "status": "partial",
   "theorems": [
    "C105_fopen_partial",
    "C105_fdopen",
    "C105_letter_refuted",
    "C105_empty_refuted"
   ],
   "note": "proved for every valid mode; modes that begin with another letter are accepted as read only instead of EINVAL, and an empty mode is read past its end"
  },
  {
   "property": "C106",
   "status": "partial",
   "theorems": [
    "C106_popen_partial",
    "C106_command_partial",
    "C106_errors",
    "C106_pclose_partial",
    "C106_closed_refuted",
    "C106_earlier_refuted",
    "C106_pclose_refuted"
   ],
   "note": "proved unless the pipe end for the command already has number 0 or 1, where the command loses it; streams of earlier popen calls stay open in the command, and pclose fails with ECHILD when its wait is interrupted"
  },
  {
   "property": "C107",
   "status": "partial",
   "theorems": [
    "C107_buffer",
    "C107_size_partial",
    "C107_plain_partial",
    "C107_width_partial",
    "C107_field_partial",
    "C107_left_partial",
    "C107_sequence_partial",
    "C107_sign_partial",
    "C107_point_refuted",
    "C107_room_refuted",
    "C107_width_refuted",
    "C107_empty_sign_refuted",
    "C107_sign_refuted",
    "C107_layout_refuted"
   ],
   "note": "the buffer is proved safe; the rest for regular locales and single byte separators, with the exceptions shown by the refuted theorems; the digits of numbers (print_float of another library) are a parameter"
  },
  {
   "property": "C108",
   "status": "partial",
   "theorems": [
    "C108_unlock",
    "C108_try",
    "C108_lock",
    "C108_test_partial",
    "C108_test_refuted",
    "C108_error",
    "C108_operation",
    "C108_exclusive"
   ],
   "note": "F_TEST does not see read locks of other processes (C108_test_refuted); the record locks of the kernel are modelled, without deadlock detection and signals"
  },
  {
   "property": "C109",
   "status": "partial",
   "theorems": [
    "C109_bytes",
    "C109_too_long",
    "C109_count_refuted"
   ],
   "note": "counts that are not positive are not refused (C109_count_refuted); the allocation of the buffer succeeds in the model"
  },
  {
   "property": "C11",
   "status": "proved",
   "theorems": [
    "C11_strsep"
   ],
   "note": ""
  },
  {
   "property": "C110",
   "status": "proved",
   "theorems": [
    "C110_swab"
   ],
   "note": "blocks that overlap are undefined behaviour"
  },
  {
   "property": "C111",
   "status": "partial",
   "theorems": [
    "C111_affinity_partial",
    "C111_affinity_refuted",
    "C111_larger_partial",
    "C111_all",
    "C111_mask",
    "C111_no_mask",
    "C111_stack",
    "C111_stacksize",
    "C111_stackaddr",
    "C111_detach",
    "C111_guard",
    "C111_fails",
    "C111_memory_partial",
    "C111_memory_refuted"
   ],
   "note": "a larger processor set is given back wrongly (C111_affinity_refuted, C111_larger_partial says how) and taking the set away loses memory (C111_memory_refuted); scheduling attributes are not modelled"
  },
  {
   "property": "C112",
   "status": "partial",
   "theorems": [
    "C112_first_partial",
    "C112_entry",
    "C112_skip",
    "C112_no_file",
    "C112_unnamed_refuted"
   ],
   "note": "a line without a name hides later servers (C112_unnamed_refuted); bytes outside ASCII are taken not to be white space"
  },
  {
   "property": "C113",
   "status": "proved",
   "theorems": [
    "C113_add",
    "C113_sub",
    "C113_inverse"
   ],
   "note": "overflow of the seconds is undefined behaviour and excluded by hypothesis"
  },
  {
   "property": "C114",
   "status": "proved",
   "theorems": [
    "C114_members",
    "C114_range"
   ],
   "note": "the layout of abis/linux, 16 words of 64 bits"
  },
  {
   "property": "C115",
   "status": "partial",
   "theorems": [
    "C115_history",
    "C115_name",
    "C115_open",
    "C115_open_fails",
    "C115_switch_refuted",
    "C115_switch_partial"
   ],
   "note": "a name set while a file is open is used only after endutxent (C115_switch_refuted); the records themselves are not modelled"
  },
  {
   "property": "C116",
   "status": "proved",
   "theorems": [
    "C116_parse_list",
    "C116_pieces",
    "C116_stripped_unique"
   ],
   "note": "the members of frg::string_view are modelled from their use; growing the list succeeds"
  },
  {
   "property": "C117",
   "status": "proved",
   "theorems": [
    "C117_append",
    "C117_unterminated",
    "C117_truncated"
   ],
   "note": "source and destination do not overlap; sizes are natural numbers"
  },
  {
   "property": "C118",
   "status": "partial",
   "theorems": [
    "C118_round_trip",
    "C118_no_signal",
    "C118_range",
    "C118_rtmin_partial",
    "C118_rtmax",
    "C118_numbered",
    "C118_defined_partial",
    "C118_defined_refuted",
    "C118_decimal_refuted"
   ],
   "note": "an offset within 35 of the largest long overflows (C118_defined_refuted), and plain decimal numbers are never accepted (C118_decimal_refuted)"
  },
  {
   "property": "C12",
   "status": "partial",
   "theorems": [
    "C12_strtol_partial",
    "C12_strtol_refuted"
   ],
   "note": "complete except texts beginning 0b/0B without a binary digit in base 0 or 2, where the code consumes nothing instead of the 0 (refuted)"
  },
  {
   "property": "C13",
   "status": "proved",
   "theorems": [
    "C13_cases",
    "C13_basename_empty",
    "C13_basename_null",
    "C13_basename_root",
    "C13_basename",
    "C13_dirname_empty",
    "C13_dirname_slashes",
    "C13_dirname_single",
    "C13_dirname_root",
    "C13_dirname"
   ],
   "note": ""
  },
  {
   "property": "C14",
   "status": "proved",
   "theorems": [
    "C14_table",
    "C14_classified",
    "C14_classified_unique",
    "C14_mbrtowc_char",
    "C14_mbrtowc_unfinished",
    "C14_mbrtowc_illegal",
    "C14_mbrtowc_null",
    "C14_mbstowcs",
    "C14_mbstowcs_illegal",
    "C14_mbstowcs_limit",
    "C14_mbstowcs_count",
    "C14_mbstowcs_zero_refuted"
   ],
   "note": "side finding: mbstowcs with limit 0 aborts instead of returning 0"
  },
  {
   "property": "C15",
   "status": "proved",
   "theorems": [
    "C15_roundtrip",
    "C15_rejected"
   ],
   "note": "side finding: surrogates are encoded although the decoder rejects them"
  },
  {
   "property": "C16",
   "status": "proved",
   "theorems": [
    "C16_feed",
    "C16_split"
   ],
   "note": ""
  },
  {
   "property": "C17",
   "status": "proved",
   "theorems": [
    "C17_qsort"
   ],
   "note": "comparison arbitrary (indexed by call number); sortedness for every total preorder on the elements"
  },
  {
   "property": "C18",
   "status": "proved",
   "theorems": [
    "C18_bsearch_any",
    "C18_bsearch"
   ],
   "note": ""
  },
  {
   "property": "C19",
   "status": "proved",
   "theorems": [
    "C19_hsearch",
    "C19_stable"
   ],
   "note": "table of positive capacity; hcreate(0) followed by hsearch divides by zero (UB in the model)"
  },
  {
   "property": "C20",
   "status": "proved",
   "theorems": [
    "C20_ordered_set",
    "C20_unchanged"
   ],
   "note": ""
  },
  {
   "property": "C21",
   "status": "partial",
   "theorems": [
    "C21_balanced_partial",
    "C21_delete_refuted"
   ],
   "note": "proved for insertions and deletions of childless nodes; tdelete of an inner node stops rebalancing too early and can leave a linked list (refuted)"
  },
  {
   "property": "C22",
   "status": "proved",
   "theorems": [
    "C22_twalk",
    "C22_tdestroy"
   ],
   "note": ""
  },
  {
   "property": "C23",
   "status": "partial",
   "theorems": [
    "C23_map",
    "C23_setenv_invalid",
    "C23_setenv_valid",
    "C23_clearenv_refuted",
    "C23_duplicate_refuted",
    "C23_empty_name_refuted"
   ],
   "note": "proved for setenv/putenv/unsetenv and environ assignments on environments without duplicate names; clearenv clears nothing, unsetenv leaves a second definition of an inherited duplicate, setenv accepts an empty name (refuted)"
  },
  {
   "property": "C24",
   "status": "partial",
   "theorems": [
    "C24_history_partial",
    "C24_exit_partial",
    "C24_order_refuted",
    "C24_nested_refuted",
    "C24_dangling_refuted"
   ],
   "note": "proved for handlers that register no handlers: each runs exactly once, reverse order among atexit handlers and within each object; refuted: overall reverse order, handlers registered during exit, stale reference after the queue grows"
  },
  {
   "property": "C25",
   "status": "proved",
   "theorems": [
    "C25_calloc_overflow",
    "C25_calloc",
    "C25_calloc_exhausted",
    "C25_reallocarray_overflow",
    "C25_reallocarray"
   ],
   "note": ""
  },
  {
   "property": "C26",
   "status": "partial",
   "theorems": [
    "C26_gmtime_partial",
    "C26_yday_refuted",
    "C26_negative_refuted"
   ],
   "note": "date, time and weekday proved for every t >= 0 with a representable day; tm_yday is one too large from March on in every non-leap year and times before the epoch are wrong (refuted)"
  },
  {
   "property": "C27",
   "status": "proved",
   "theorems": [
    "C27_timegm_gmtime",
    "C27_gmtime_timegm",
    "C27_dates"
   ],
   "note": ""
  },
  {
   "property": "C28",
   "status": "proved",
   "theorems": [
    "C28_absolute_to_relative",
    "C28_absolute_overflow",
    "C28_relative_to_absolute",
    "C28_relative_overflow"
   ],
   "note": ""
  },
  {
   "property": "C29",
   "status": "partial",
   "theorems": [
    "C29_ntop",
    "C29_roundtrip",
    "C29_ntoa_aton",
    "C29_pton_partial",
    "C29_trailing_refuted",
    "C29_short_refuted"
   ],
   "note": "Both round trips are proved for every address and acceptance for every text with at least four fields; refuted: text after the fourth field is ignored from a dot on, and texts with fewer fields make inet_pton read past the terminator."
  },
  {
   "property": "C30",
   "status": "partial",
   "theorems": [
    "C30_ntop_partial",
    "C30_ntop_mapped",
    "C30_pton",
    "C30_roundtrip_partial",
    "C30_mapped_refuted",
    "C30_overrun_refuted"
   ],
   "note": "Round trip proved for all addresses that are not IPv4-mapped, buffer bound for all texts not ending in ::; refuted: mapped addresses whose octets print with a leading 0 digit are not read back, and a text ending in :: overruns a buffer without room for its terminator."
  },
  {
   "property": "C31",
   "status": "proved",
   "theorems": [
    "C31_mutual_exclusion",
    "C31_exclusion_inside",
    "C31_no_abort",
    "C31_word",
    "C31_recursive_try_refuted"
   ],
   "note": "side finding: try_lock on a recursive lock by its holder aborts the process"
  },
  {
   "property": "C32",
   "status": "proved",
   "theorems": [
    "C32_no_lost_wakeup",
    "C32_release_wakes",
    "C32_wake_wakes_all",
    "C32_release_possible"
   ],
   "note": ""
  },
  {
   "property": "C33",
   "status": "partial",
   "theorems": [
    "C33_mutual_exclusion",
    "C33_exclusion_inside",
    "C33_no_abort",
    "C33_recursion",
    "C33_lock_result",
    "C33_relock",
    "C33_free_lock",
    "C33_eperm_refuted",
    "C33_eperm_exclusion_refuted"
   ],
   "note": "exclusion, ownership, recursion and EDEADLK proved for clients that unlock only what they hold; refuted: unlocking an error-checking mutex from a non-owner releases it before the check"
  },
  {
   "property": "C34",
   "status": "proved",
   "theorems": [
    "C34_once",
    "C34_no_lost_wakeup",
    "C34_wake_wakes_all",
    "C34_no_abort",
    "C34_completes"
   ],
   "note": ""
  },
  {
   "property": "C35",
   "status": "partial",
   "theorems": [
    "C35_conserved",
    "C35_wait_result",
    "C35_post_result",
    "C35_no_lost_wakeup",
    "C35_wake_wakes_all",
    "C35_wait_progress",
    "C35_trywait_partial",
    "C35_trywait_refuted",
    "C35_mark_stays"
   ],
   "note": "conservation proved; sem_trywait proved only while no thread has ever had to wait: afterwards it fails with EAGAIN for good although the value is positive (refuted)"
  },
  {
   "property": "C36",
   "status": "partial",
   "theorems": [
    "C36_not_early_partial",
    "C36_serial",
    "C36_one_serial",
    "C36_defined",
    "C36_no_lost_wakeup_partial",
    "C36_can_leave_partial",
    "C36_release_possible",
    "C36_overtaken_refuted",
    "C36_wrap_refuted"
   ],
   "note": "release only of full generations proved up to 2^32/2^ceil(log2 count) generations, leaving proved when at most count threads use the barrier; beyond these bounds refuted: for count 3 the generation counter wraps after 2^30 rounds and a thread passes alone; with four threads on a barrier for two a late release overwrites a newer one and a thread sleeps for good"
  },
  {
   "property": "C37",
   "status": "proved",
   "theorems": [
    "C37_writer_alone",
    "C37_writer_alone_inside",
    "C37_no_abort",
    "C37_free",
    "C37_readers_share",
    "C37_writer_gets_free_lock",
    "C37_books_balance"
   ],
   "note": "assumes fewer than 2^31-1 read locks at a time, which the code does not check"
  },
  {
   "property": "C38",
   "status": "partial",
   "theorems": [
    "C38_history_partial",
    "C38_get_partial",
    "C38_no_stale_value",
    "C38_destructors_run_partial",
    "C38_exit_ends",
    "C38_own_key_refuted",
    "C38_deleted_key_refuted"
   ],
   "note": "proved for all histories in which a destructor does not get or set its own key; refuted otherwise: the value is cleared after the destructor instead of before, and a key deleted and re-created during thread exit gets the old value passed to the new destructor"
  },
  {
   "property": "C39",
   "status": "proved",
   "theorems": [
    "C39_output",
    "C39_output_file",
    "C39_flushed",
    "C39_errors",
    "C39_errors_flushed",
    "C39_retry_refuted"
   ],
   "note": "Proved for every history of writes; C39_retry_refuted records that fwrite may report fewer objects than it has taken after a write error, so that a retry duplicates them."
  },
  {
   "property": "C40",
   "status": "proved",
   "theorems": [
    "C40_input"
   ],
   "note": ""
  },
  {
   "property": "C41",
   "status": "partial",
   "theorems": [
    "C41_snprintf_partial",
    "C41_wide_refuted"
   ],
   "note": "Proved for every sequence of narrow pieces and every size; refuted for a wide string cut inside a multibyte character."
  },
  {
   "property": "C42",
   "status": "proved",
   "theorems": [
    "C42_htonl_network_order",
    "C42_htons_network_order",
    "C42_ntohl_network_order",
    "C42_ntohs_network_order",
    "C42_inverse",
    "C42_swap_reverses",
    "C42_swap_involution",
    "C42_be_to_host",
    "C42_ns_put16",
    "C42_ns_put32",
    "C42_ns_get"
   ],
   "note": ""
  },
  {
   "property": "C43",
   "status": "proved",
   "theorems": [
    "C43_independent_generators",
    "C43_range",
    "C43_resume",
    "C43_default_seed"
   ],
   "note": ""
  },
  {
   "property": "C44",
   "status": "proved",
   "theorems": [
    "C44_history",
    "C44_iterate"
   ],
   "note": "erand48 is proved with the IEEE subtraction of Coq.Floats.SpecFloat. lrand48, nrand48 and lcong48 do not exist in the code."
  },
  {
   "property": "C45",
   "status": "proved",
   "theorems": [
    "C45_parse",
    "C45_no_suboption",
    "C45_one_call",
    "C45_null"
   ],
   "note": "A list that consists of separators only is reported as one -1 by the usual loop (C45_no_suboption)."
  },
  {
   "property": "C46",
   "status": "partial",
   "theorems": [
    "C46_wcsrtombs_all",
    "C46_wcsrtombs_cut_partial",
    "C46_wcsrtombs_illegal",
    "C46_wcsrtombs_count",
    "C46_wcsnrtombs_cut",
    "C46_wcsrtombs_refuted"
   ],
   "note": "wcsrtombs/wcstombs abort whenever the limit falls inside a character (refuted for all such inputs); every other case proved, wcsnrtombs handles that case"
  },
  {
   "property": "C47",
   "status": "proved",
   "theorems": [
    "C47_found",
    "C47_absent"
   ],
   "note": ""
  },
  {
   "property": "C48",
   "status": "proved",
   "theorems": [
    "C48_insque_linear",
    "C48_insque_circular",
    "C48_insque_first",
    "C48_remque_linear",
    "C48_remque_circular"
   ],
   "note": ""
  },
  {
   "property": "C49",
   "status": "proved",
   "theorems": [
    "C49_quick_exit"
   ],
   "note": "functions that themselves call at_quick_exit are excluded: they would lock a mutex already held"
  },
  {
   "property": "C50",
   "status": "proved",
   "theorems": [
    "C50_aligned_alloc_ok",
    "C50_aligned_alloc_einval"
   ],
   "note": ""
  },
  {
   "property": "C51",
   "status": "proved",
   "theorems": [
    "C51_asprintf"
   ],
   "note": ""
  },
  {
   "property": "C52",
   "status": "proved",
   "theorems": [
    "C52_aton"
   ],
   "note": ""
  },
  {
   "property": "C53",
   "status": "proved",
   "theorems": [
    "C53_no_lost_wakeup",
    "C53_release_wakes",
    "C53_wake_wakes_all"
   ],
   "note": ""
  },
  {
   "property": "C54",
   "status": "proved",
   "theorems": [
    "C54_destroy_safe",
    "C54_no_lost_wakeup",
    "C54_wake_wakes",
    "C54_returns"
   ],
   "note": ""
  },
  {
   "property": "C55",
   "status": "partial",
   "theorems": [
    "C55_no_lost_wakeup",
    "C55_writer_no_lost_wakeup",
    "C55_wake_wakes",
    "C55_writer_wake_wakes",
    "C55_never_stuck",
    "C55_writer_proceeds",
    "C55_try_refused",
    "C55_trywr_refused",
    "C55_timed_read_refuted",
    "C55_try_read_refuted"
   ],
   "note": "wake-ups proved in full; the refusal part is false of the code: timedrdlock fails with EAGAIN while another reader is inside rdlock, tryrdlock fails with EBUSY while a failing trywrlock has the mutex"
  },
  {
   "property": "C56",
   "status": "partial",
   "theorems": [
    "C56_returns_with_mutex_partial",
    "C56_mutex_partial",
    "C56_no_abort_partial",
    "C56_release_and_block_partial",
    "C56_late_sleeper",
    "C56_broadcast_partial",
    "C56_broadcast_wakes_all",
    "C56_signal_partial",
    "C56_woken_returns",
    "C56_zero_only_if_signalled",
    "C56_signal_lost_refuted",
    "C56_wrap_refuted"
   ],
   "note": "Proved for fewer than 2^32 - 1 signals and broadcasts in the life of a condition variable, and for signal only if FutexWake wakes the longest sleeper. Without these assumptions the code violates the property: C56_signal_lost_refuted (a signal is consumed by a thread that began to wait after it) and C56_wrap_refuted (a waiter aborts the process). Cancellation during the wait is not modelled."
  },
  {
   "property": "C57",
   "status": "partial",
   "theorems": [
    "C57_like_unbuffered_partial",
    "C57_flush_partial",
    "C57_pushback_lost_refuted",
    "C57_ungetc_eof_refuted",
    "C57_ungetc_255_refuted",
    "C57_seek_cur_refuted",
    "C57_fflush_pipe_refuted",
    "C57_getline_refuted",
    "C57_fputc_refuted"
   ],
   "note": "Proved for all histories that observe the restrictions listed at ideal_step in Stdio_Spec.v; each restriction that C does not make is shown necessary by a C57_*_refuted theorem. setvbuf, wide streams and read errors are not covered."
  },
  {
   "property": "C58",
   "status": "partial",
   "theorems": [
    "C58_sysv",
    "C58_gnu",
    "C58_non_ascii_refuted"
   ],
   "note": "Proved for all names where char is unsigned and for all ASCII names where it is signed; refuted for other names with signed char (x86): the hash functions sign-extend bytes above 127."
  },
  {
   "property": "C59",
   "status": "partial",
   "theorems": [
    "C59_once",
    "C59_order",
    "C59_order_acyclic",
    "C59_nested_order_refuted"
   ],
   "note": "Exactly-once and reverse destruction proved for all histories, including loads from constructors; the order proved for loads outside of constructors and refuted for a constructor that loads an object whose dependency is scheduled but not yet initialised. Destructors that load objects are not modelled."
  },
  {
   "property": "C60",
   "status": "partial",
   "theorems": [
    "C60_relr",
    "C60_loads",
    "C60_breadth_first",
    "C60_cycle_refuted"
   ],
   "note": "Exactly-once relocation proved for all histories in which no root needs itself; refuted for a root that is in a dependency cycle, which is relocated twice. Only RELR relocations are modelled."
  },
  {
   "property": "C61",
   "status": "partial",
   "theorems": [
    "C61_layout",
    "C61_space",
    "C61_late_alignment_refuted",
    "C61_alignment_zero_refuted"
   ],
   "note": "Disjointness, containment and the alignment of start-up objects proved for all layouts; refuted: the alignment of objects loaded later that ask for more than the start-up maximum, and objects with alignment 0."
  },
  {
   "property": "C62",
   "status": "partial",
   "theorems": [
    "C62_blocks",
    "C62_private",
    "C62_overlapping_dlopen_refuted",
    "C62_local_static_refuted"
   ],
   "note": "Own, stable block proved for every interleaving. Contents proved for loads that do not overlap and static TLS of global objects; refuted for overlapping dlopen calls (the later one resets variables of the earlier) and for RTLD_LOCAL objects with static TLS in threads created later (zeros)."
  },
  {
   "property": "C63",
   "status": "partial",
   "theorems": [
    "C63_load",
    "C63_program",
    "C63_dlsym",
    "C63_global",
    "C63_late_global",
    "C63_promotion_refuted",
    "C63_late_local_refuted"
   ],
   "note": "Binding order and dlsym proved for all graphs and histories. Refuted: RTLD_GLOBAL on an object that is loaded locally does not make its dependencies global; lookups after load time (lazy binding, which is compiled out) lose definitions that became global later."
  },
  {
   "property": "C64",
   "status": "proved",
   "theorems": [
    "C64_fmod",
    "C64_fmod_special",
    "C64_remquo",
    "C64_remquo_special"
   ],
   "note": "double and float; long double variants are not modelled"
  },
  {
   "property": "C65",
   "status": "proved",
   "theorems": [
    "C65_floor",
    "C65_ceil",
    "C65_trunc",
    "C65_rint",
    "C65_round",
    "C65_modf",
    "C65_addition_nearest"
   ],
   "note": "double and float with FLT_EVAL_METHOD 0 and rounding to nearest; exception flags and long double variants are not modelled"
  },
  {
   "property": "C66",
   "status": "proved",
   "theorems": [
    "C66_nextafter",
    "C66_nextafter_nan",
    "C66_fmax_fmin",
    "C66_fdim",
    "C66_signs",
    "C66_fpclassify"
   ],
   "note": "double and float; exception flags, nexttoward and long double variants are not modelled"
  },
  {
   "property": "C67",
   "status": "proved",
   "theorems": [
    "C67_scalbn",
    "C67_frexp",
    "C67_ilogb",
    "C67_multiplication"
   ],
   "note": "double and float, rounding to nearest; exception flags, other rounding modes and long double variants are not modelled"
  },
  {
   "property": "C68",
   "status": "partial",
   "theorems": [
    "C68_sqrtf",
    "C68_sqrt_partial",
    "C68_sqrt_defined_refuted",
    "C68_nearest_root_unique"
   ],
   "note": "sqrtf in full; sqrt of double for all arguments except the subnormal ones with 2^31 <= |x| < 2^32 or 2^10 <= |x| < 2^11 in units of the least number, where the code executes ix1>>32 (undefined); rounding to nearest; exception flags are not modelled"
  },
  {
   "property": "C69",
   "status": "partial",
   "theorems": [
    "C69_lifo",
    "C69_handlers",
    "C69_exit_once",
    "C69_late_destructor_refuted",
    "C69_join",
    "C69_after",
    "C69_joiners_return",
    "C69_dead_partial",
    "C69_dead_refuted",
    "C69_detach",
    "C69_only_when",
    "C69_point",
    "C69_async_partial",
    "C69_async_refuted",
    "C69_blocked_partial",
    "C69_blocked_refuted",
    "C69_effect_refuted"
   ],
   "note": "handlers, joining, detaching and cancellation points in full; a thread publishes its end if its handlers reach no cancellation point while cancellation is enabled (otherwise refuted); asynchronous cancellation for threads created with the signal unblocked (otherwise refuted); blocked calls if the signal does not arrive in a gap of a few instructions (otherwise refuted); completed calls may be cancelled (refuted); one target thread, sequentially consistent memory"
  },
  {
   "property": "C70",
   "status": "partial",
   "theorems": [
    "C70_fnmatch_partial",
    "C70_wide_range_refuted",
    "C70_dash_range_refuted",
    "C70_escaped_period_refuted",
    "C70_collating_refuted",
    "C70_termination_refuted"
   ],
   "note": "for all patterns in the grammar of the specification (ranges end with an ASCII character other than - and ], no backslash inside brackets without FNM_NOESCAPE, unterminated brackets excluded) and all UTF-8 strings; the excluded ranges, escaped leading periods, collating symbols and non-UTF-8 patterns are refuted; string texts that are not UTF-8 are not covered"
  },
  {
   "property": "C71",
   "status": "partial",
   "theorems": [
    "C71_getopt_partial",
    "C71_plus_partial",
    "C71_cluster_refuted",
    "C71_missing_refuted",
    "C71_dash_argument_refuted",
    "C71_unknown_refuted",
    "C71_posixly_refuted"
   ],
   "note": "for all command lines in which a word with several letters is the last option word and separate arguments do not begin with -; the excluded cases are refuted; getopt_long_only, W; and a leading - in the option string are not modelled"
  },
  {
   "property": "C72",
   "status": "partial",
   "theorems": [
    "C72_sscanf_partial",
    "C72_sscanf_total",
    "C72_width_refuted",
    "C72_suppressed_width_refuted",
    "C72_bytes_refuted",
    "C72_dash_refuted",
    "C72_truncated_refuted",
    "C72_percent_refuted"
   ],
   "note": "for ASCII inputs and all formats of the listed directives, widths on %s %c %[ only; the excluded cases are refuted; floating point, %p, %b, m, the wide forms and the other modifiers are not modelled"
  },
  {
   "property": "C73",
   "status": "partial",
   "theorems": [
    "C73_memstream_partial",
    "C73_fmemopen_partial",
    "C73_fmemopen_safe",
    "C73_negative_seek_refuted",
    "C73_seek_changes_refuted",
    "C73_flush_size_refuted",
    "C73_update_refuted",
    "C73_terminator_refuted",
    "C73_append_refuted"
   ],
   "note": "safety of fmemopen is proved for all histories; the results for the histories in which the refuted cases do not occur; pushed-back characters and the error and end-of-file indicators are not modelled"
  },
  {
   "property": "C74",
   "status": "partial",
   "theorems": [
    "C74_realpath_partial",
    "C74_canonical_partial",
    "C74_total_partial",
    "C74_nested_link_refuted",
    "C74_overrun_refuted",
    "C74_absolute_link_refuted",
    "C74_dangling_refuted",
    "C74_root_link_refuted",
    "C74_loop_refuted",
    "C74_long_link_refuted",
    "C74_notdir_refuted",
    "C74_empty_refuted"
   ],
   "note": "proved for file systems whose links are tame (absolute link texts are canonical, relative ones lead through no other relative link except at their end); the file system does not change during the call"
  },
  {
   "property": "C75",
   "status": "partial",
   "theorems": [
    "C75_wcslen",
    "C75_wmemset",
    "C75_wcscpy",
    "C75_wcsncpy",
    "C75_wcscat",
    "C75_wcsncat_partial",
    "C75_wcsncat_refuted",
    "C75_wcscmp_partial",
    "C75_wcscmp_refuted",
    "C75_wcsncmp",
    "C75_wmemcmp",
    "C75_wmemchr",
    "C75_wcschr",
    "C75_wcsrchr",
    "C75_wcsspn",
    "C75_wcscspn",
    "C75_wcspbrk",
    "C75_wcsstr_partial",
    "C75_wcsstr_refuted",
    "C75_wcstok",
    "C75_wcstok_after"
   ],
   "note": "wchar_t is int; wcsncat for terminated sources, wcscmp for positive characters, wcsstr unless both strings are empty"
  },
  {
   "property": "C76",
   "status": "proved",
   "theorems": [
    "C76_sse2",
    "C76_sse4_2",
    "C76_avx2",
    "C76_resolve"
   ],
   "note": "instruction semantics of the intrinsics are transcribed from the Intel manual; the feature cache is not modelled"
  },
  {
   "property": "C77",
   "status": "partial",
   "theorems": [
    "C77_safe_partial",
    "C77_safe_refuted",
    "C77_endptr_partial",
    "C77_decimal",
    "C77_hexadecimal",
    "C77_nearest_refuted",
    "C77_hex_prefix_refuted",
    "C77_no_conversion_refuted",
    "C77_infinity_partial",
    "C77_infinity_refuted"
   ],
   "note": "endptr unless 0x is followed by no digits or the exponent overflows; value only for exactly representable integers with exponent and hexadecimal numbers (others are not always nearest); C locale"
  },
  {
   "property": "C78",
   "status": "partial",
   "theorems": [
    "C78_narrow",
    "C78_wide",
    "C78_wctype",
    "C78_case",
    "C78_case_other",
    "C78_utf8",
    "C78_isascii_partial",
    "C78_isascii_refuted"
   ],
   "note": "all but isascii, which is right for -128..255 only"
  },
  {
   "property": "C79",
   "status": "partial",
   "theorems": [
    "C79_strcasecmp",
    "C79_strncasecmp",
    "C79_strncasecmp_utf8_partial",
    "C79_strncasecmp_utf8_refuted",
    "C79_strcasestr_partial",
    "C79_strcasestr_refuted",
    "C79_strverscmp",
    "C79_version_order",
    "C79_version_numbers",
    "C79_version_text",
    "C79_memccpy",
    "C79_strdup",
    "C79_strndup",
    "C79_basename",
    "C79_ffs"
   ],
   "note": "all but strcasestr with an empty haystack and strncasecmp of non-ASCII strings in a UTF-8 locale"
  },
  {
   "property": "C80",
   "status": "partial",
   "theorems": [
    "C80_standard",
    "C80_empty",
    "C80_summer_consistent",
    "C80_summer_partial",
    "C80_weekday_refuted",
    "C80_hour_refuted",
    "C80_2038_refuted",
    "C80_week5_refuted",
    "C80_julian_refuted",
    "C80_safe_partial",
    "C80_safe_refuted",
    "C80_accepted",
    "C80_fallback",
    "C80_tzfile_partial",
    "C80_tzfile_last_refuted",
    "C80_tzfile_first_refuted",
    "C80_tzfile_types_refuted"
   ],
   "note": "summer time only for months that begin with a Sunday, weeks 1-4 and up to 2037, at midnight UTC; zone files only between two transitions"
  },
  {
   "property": "C81",
   "status": "partial",
   "theorems": [
    "C81_strftime_partial",
    "C81_composite_partial",
    "C81_safe_partial",
    "C81_composite_refuted",
    "C81_unknown_refuted",
    "C81_modifier_refuted",
    "C81_negative_refuted",
    "C81_asctime_partial",
    "C81_asctime_refuted"
   ],
   "note": "all conversions the code implements, for years 0 to 9999; %c, %x, %X only alone; asctime_r for years 1000 to 9999"
  },
  {
   "property": "C82",
   "status": "partial",
   "theorems": [
    "C82_strptime_partial",
    "C82_weekday_partial",
    "C82_yearday_partial",
    "C82_round_trip",
    "C82_range",
    "C82_literal",
    "C82_adjacent_refuted",
    "C82_unimplemented_refuted",
    "C82_weekday_refuted",
    "C82_yearday_refuted",
    "C82_small_refuted"
   ],
   "note": "numbers of at most two digits (four for %Y) followed by no digit; tm_wday exact from day 15 on and modulo 7 before; tm_yday for years that are no multiple of 4; C locale"
  },
  {
   "property": "C83",
   "status": "partial",
   "theorems": [
    "C83_query",
    "C83_name",
    "C83_reply_partial",
    "C83_no_name",
    "C83_foreign",
    "C83_silence",
    "C83_reverse_partial",
    "C83_hostile_refuted",
    "C83_client_refuted"
   ],
   "note": "well-formed replies with at least one answer (a PTR record first for reverse queries); malformed replies are refuted; sockets and resolv.conf not modelled"
  },
  {
   "property": "C84",
   "status": "partial",
   "theorems": [
    "C84_host_name_partial",
    "C84_host_addr_partial",
    "C84_host_addr_none",
    "C84_service_name",
    "C84_service_number",
    "C84_service_port_partial",
    "C84_comment_refuted",
    "C84_lookup_refuted"
   ],
   "note": "well-formed lines of at most 127 bytes; no blanks at the end of a line that lists the host name; no earlier address with the same beginning; services found by port have alphabetic names"
  },
  {
   "property": "C85",
   "status": "partial",
   "theorems": [
    "C85_signals",
    "C85_signal_range",
    "C85_signal_empty",
    "C85_processors",
    "C85_alloc",
    "C85_negative_refuted"
   ],
   "note": "processor numbers that are not negative; negative ones are refuted"
  },
  {
   "property": "C86",
   "status": "partial",
   "theorems": [
    "C86_user",
    "C86_user_r",
    "C86_user_number_r",
    "C86_user_trip",
    "C86_group_partial",
    "C86_group_list",
    "C86_group_r_partial",
    "C86_group_number_r_partial",
    "C86_group_trip_partial",
    "C86_group_overrun_refuted",
    "C86_group_misaligned_refuted",
    "C86_group_fields_refuted",
    "C86_group_no_members_refuted",
    "C86_group_long_refuted",
    "C86_group_comma_refuted"
   ],
   "note": "lines of at most 511 bytes; group lines with a member field, buffers that are aligned and not between the two sizes; the other cases are refuted"
  },
  {
   "property": "C87",
   "status": "partial",
   "theorems": [
    "C87_independent_partial",
    "C87_mbtowc_cut_refuted",
    "C87_mblen_cut_refuted",
    "C87_mblen_zero_refuted"
   ],
   "note": "histories without input cut within a character; with it the property is refuted"
  },
  {
   "property": "C88",
   "status": "partial",
   "theorems": [
    "C88_walk_partial",
    "C88_walk_levels",
    "C88_descriptors_partial",
    "C88_refused",
    "C88_failure",
    "C88_fd_limit_refuted",
    "C88_stop_refuted",
    "C88_loop_refuted"
   ],
   "note": "trees at most fd_limit levels deep; exact description for deeper ones; descriptors closed unless the callback stops at a directory or a directory is met again"
  },
  {
   "property": "C89",
   "status": "partial",
   "theorems": [
    "C89_stream_partial",
    "C89_read_all",
    "C89_error_refuted"
   ],
   "note": "errors of the kernel abort the process"
  },
  {
   "property": "C90",
   "status": "partial",
   "theorems": [
    "C90_scandir_partial",
    "C90_open_error",
    "C90_errno_refuted",
    "C90_descriptor_refuted"
   ],
   "note": "entries and errno right if the function leaves errno alone; the descriptor is never closed"
  },
  {
   "property": "C91",
   "status": "partial",
   "theorems": [
    "C91_spawn_partial",
    "C91_actions_added",
    "C91_pipe_error",
    "C91_fork_refuted",
    "C91_cloexec_refuted"
   ],
   "note": "all actions without O_CLOEXEC and all errors but that of fork"
  },
  {
   "property": "C92",
   "status": "partial",
   "theorems": [
    "C92_parse_partial",
    "C92_trip_partial",
    "C92_lookup_partial",
    "C92_lines",
    "C92_name",
    "C92_overflow_refuted",
    "C92_last_refuted",
    "C92_negative_refuted",
    "C92_colon_refuted"
   ],
   "note": "all files without numbers above LONG_MAX; last line needs a newline"
  },
  {
   "property": "C93",
   "status": "partial",
   "theorems": [
    "C93_send_partial",
    "C93_one_line",
    "C93_masked",
    "C93_setlogmask",
    "C93_socket",
    "C93_lost_refuted",
    "C93_emerg_refuted",
    "C93_options_refuted",
    "C93_fallback_refuted",
    "C93_mask_zero_refuted"
   ],
   "note": "messages whose number has a bit in common with the mask; options have no effect"
  },
  {
   "property": "C94",
   "status": "partial",
   "theorems": [
    "C94_execvp_partial",
    "C94_lists_partial",
    "C94_empty_refuted",
    "C94_execl_refuted"
   ],
   "note": "PATH without empty elements; execl with at most 14 arguments"
  },
  {
   "property": "C95",
   "status": "partial",
   "theorems": [
    "C95_check_partial",
    "C95_safe_partial",
    "C95_words",
    "C95_refused",
    "C95_dollar_refuted",
    "C95_nocmd_refuted",
    "C95_backquote_refuted",
    "C95_append_refuted"
   ],
   "note": "texts not ending in a dollar, and without backquotes next to quotes or backslashes; contents of ${} and $(()) are not looked at"
  },
  {
   "property": "C96",
   "status": "partial",
   "theorems": [
    "C96_lookup_partial",
    "C96_all_partial",
    "C96_line",
    "C96_line_unique",
    "C96_alias_refuted",
    "C96_hang_refuted",
    "C96_rewind_refuted"
   ],
   "note": "entries with at least one alias, lines of at most 255 bytes, newline at the end; getprotoent from the start"
  },
  {
   "property": "C97",
   "status": "partial",
   "theorems": [
    "C97_result_partial",
    "C97_family_partial",
    "C97_errors",
    "C97_refused",
    "C97_numeric",
    "C97_hostent",
    "C97_nameinfo_partial",
    "C97_addrconfig_refuted",
    "C97_service_refuted",
    "C97_loopback_refuted",
    "C97_port_refuted",
    "C97_protocol_refuted",
    "C97_numericserv_refuted",
    "C97_offline_refuted"
   ],
   "note": "no family ruled out by AI_ADDRCONFIG, a service that is known, TCP or UDP, ports up to 65535, no IPv4 loopback; AI_V4MAPPED and AI_ALL are not implemented by the code"
  },
  {
   "property": "C98",
   "status": "partial",
   "theorems": [
    "C98_read_partial",
    "C98_round_partial",
    "C98_option_partial",
    "C98_long",
    "C98_stale_refuted",
    "C98_escape_refuted",
    "C98_last_refuted",
    "C98_option_refuted",
    "C98_bytes_refuted"
   ],
   "note": "ASCII lines that end with a newline and fit into the buffer, no escapes, no comment before an entry without numbers; hasmntopt finds every option that is set but also parts of others"
  },
  {
   "property": "C99",
   "status": "partial",
   "theorems": [
    "C99_paths",
    "C99_errors_partial",
    "C99_tilde",
    "C99_tilde_none",
    "C99_quoted",
    "C99_append",
    "C99_free",
    "C99_abort_refuted",
    "C99_nocheck_refuted"
   ],
   "note": "exact for a file system that does not change; an error is told only if something was found before it"
  }
 ]
}