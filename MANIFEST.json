{
 "claims": [
  {
   "property": "C01",
   "status": "partial",
   "theorems": [
    "C01_state_last_mark_partial",
    "C01_state_single_blocks",
    "C01_exact_condition",
    "C01_C02_C03_small_files_partial",
    "C01_C03_small_files_bug",
    "C01_refuted"
   ],
   "note": "Full statement C01_full is false of the code (C01_refuted: mark(2,2,READ),mark(4,4,READAHEAD),mark(2,4,ABSENT) leaves block 4 present). Proved for all histories of safe calls of any size, for all histories of single-block marks, and exactly (iff) for files of up to 65535 blocks."
  },
  {
   "property": "C02",
   "status": "partial",
   "theorems": [
    "C02_counters_partial",
    "C02_present_is_sum",
    "C01_C02_C03_small_files_partial",
    "C02_refuted",
    "C02_absent",
    "C02_absent_refuted"
   ],
   "note": "blocks(ABSENT) is a constant (C02_absent). False in general (C02_refuted); proved for safe histories and, on small files, for all histories without the exactly characterised bad call."
  },
  {
   "property": "C03",
   "status": "partial",
   "theorems": [
    "C03_fsck_partial",
    "C03_fsck_exact",
    "C01_C02_C03_small_files_partial",
    "C01_C03_small_files_bug",
    "C03_refuted"
   ],
   "note": "False in general (C03_refuted: mark(0,10,READ),mark(0,5,ABSENT) leaves an empty run that fsck rejects); proved for good histories, and exact characterisation."
  },
  {
   "property": "C04",
   "status": "proved",
   "theorems": [
    "C04_mark_no_crash"
   ],
   "note": "Crash in the model covers every assert, every slot access outside the file and counter index out of range."
  },
  {
   "property": "C05",
   "status": "proved",
   "theorems": [
    "C05_growth"
   ],
   "note": ""
  },
  {
   "property": "C06",
   "status": "partial",
   "theorems": [
    "C06_C07_access_partial",
    "C06_C07_exact",
    "C06_C07_iff",
    "C06_absent_start",
    "C06_refuted_stale",
    "C06_refuted_unaligned",
    "C06_refuted_out_of_bounds"
   ],
   "note": "False in general, three independent witnesses; proved for aligned offsets when some block at or behind the last requested one is present. C06_C07_exact gives the value for every start on good histories, C06_C07_iff the exact condition under which it is safe and maximal."
  },
  {
   "property": "C07",
   "status": "partial",
   "theorems": [
    "C06_C07_access_partial",
    "C06_C07_exact",
    "C06_C07_iff"
   ],
   "note": "Same hypotheses as C06; C06_C07_iff is the exact condition."
  },
  {
   "property": "C08",
   "status": "proved",
   "theorems": [
    "C08_fsck_reopen",
    "C08_sessions"
   ],
   "note": ""
  },
  {
   "property": "C09",
   "status": "partial",
   "theorems": [
    "C09_locality_partial",
    "C09_idempotent_partial",
    "C09_refuted_local",
    "C09_refuted_idempotent"
   ],
   "note": "False of the code in general (C09_refuted_local, C09_refuted_idempotent). Locality is proved for every call after safe calls (the call itself may be unsafe), idempotence for every safe call of any length."
  },
  {
   "property": "C10",
   "status": "proved",
   "theorems": [
    "C10_tree_consistent",
    "C10_tree_consistent_concurrent"
   ],
   "note": ""
  },
  {
   "property": "C11",
   "status": "proved",
   "theorems": [
    "C11_emplace",
    "C11_emplace_total"
   ],
   "note": "For an existing directory as parent and while inode numbers are left."
  },
  {
   "property": "C12",
   "status": "proved",
   "theorems": [
    "C12_same_type_keeps_number",
    "C12_new_type_new_number",
    "C13_no_reuse_committed",
    "C13_no_reuse_transaction"
   ],
   "note": ""
  },
  {
   "property": "C13",
   "status": "proved",
   "theorems": [
    "C13_no_reuse_committed",
    "C13_no_reuse_transaction"
   ],
   "note": ""
  },
  {
   "property": "C14",
   "status": "proved",
   "theorems": [
    "C14_unlink",
    "C14_unlink_missing",
    "C14_unlink_missing_inode",
    "C14_unlink_child_refuted"
   ],
   "note": "C14_unlink_child_refuted: the overload taking a parent and a child inode ignores the parent."
  },
  {
   "property": "C15",
   "status": "proved",
   "theorems": [
    "C15_locked_inode_survives",
    "C15_one_operation"
   ],
   "note": ""
  },
  {
   "property": "C16",
   "status": "proved",
   "theorems": [
    "C16_clean_orphans"
   ],
   "note": ""
  },
  {
   "property": "C17",
   "status": "proved",
   "theorems": [
    "C17_root",
    "C17_root_not_removable"
   ],
   "note": ""
  },
  {
   "property": "C18",
   "status": "proved",
   "theorems": [
    "C18_readdir_enumerates",
    "C18_listing_unique",
    "C18_orphan_refuted"
   ],
   "note": "The root has no '..' entry and the mode field is always 0 in the code; C18_orphan_refuted: an orphaned directory is listed forever."
  },
  {
   "property": "C19",
   "status": "proved",
   "theorems": [
    "C19_rewrite",
    "C19_session_starts",
    "C19_finish_result_refuted"
   ],
   "note": "C19_finish_result_refuted: finish reports EBADFD in a corner case although the contents are right."
  },
  {
   "property": "C20",
   "status": "proved",
   "theorems": [
    "C20_writelink",
    "C20_readlink_kinds",
    "C20_last_writelink_decides"
   ],
   "note": ""
  },
  {
   "property": "C21",
   "status": "proved",
   "theorems": [
    "C21_update_flags",
    "C21_emplace_resets"
   ],
   "note": ""
  },
  {
   "property": "C22",
   "status": "proved",
   "theorems": [
    "C22_path",
    "C22_components",
    "C22_unchecked_parent_refuted"
   ],
   "note": "C22_unchecked_parent_refuted: with an unchecked parent argument path() can diverge (excluded by 'legal' in reachable)."
  },
  {
   "property": "C23",
   "status": "proved",
   "theorems": [
    "C23_stored_names",
    "C23_bad_names"
   ],
   "note": ""
  },
  {
   "property": "C24",
   "status": "proved",
   "theorems": [
    "C24_counts",
    "C24_refusals",
    "C24_doomed_stays"
   ],
   "note": ""
  },
  {
   "property": "C25",
   "status": "partial",
   "theorems": [
    "C25_abort_partial",
    "C25_refuted_doomed",
    "C25_refuted_crash",
    "C25_refuted_fresh_unlockable",
    "C25_full_false",
    "C25_abort_fails_iff",
    "C25_iff"
   ],
   "note": "Full statement C25_full is false of the code (C25_full_false). C25_iff says exactly for which transactions it holds (those after which every inode lockable at the start is still lockable), C25_abort_fails_iff exactly when abort fails an assertion instead of returning. Proved: counts are restored whenever abort returns, and abort returns when no released inode was removed in the transaction."
  },
  {
   "property": "C26",
   "status": "proved",
   "theorems": [
    "C26_commit_succeeds",
    "C26_commit_fails",
    "C26_abort",
    "C26_no_other_calls",
    "C26_doc_refuted_failing_hook",
    "C26_doc_refuted_null_stage1"
   ],
   "note": "The guarantees documented in cache.hpp are stronger and false in two corner cases (C26_doc_refuted_*)."
  },
  {
   "property": "C27",
   "status": "proved",
   "theorems": [
    "C27_snapshot",
    "C27_commit_publishes",
    "C27_own_view"
   ],
   "note": "LMDB's snapshot isolation is a trusted primitive of the model; the theorems are about what dragonstash does with it."
  },
  {
   "property": "C28",
   "status": "proved",
   "theorems": [
    "C28_nested",
    "C28_reference_ledger",
    "C28_drop_leaks_refuted",
    "C28_drop_then_abort_refuted"
   ],
   "note": "Refuted variants: destroying a transaction without commit/abort does not roll its references back."
  },
  {
   "property": "C29",
   "status": "proved",
   "theorems": [
    "C29_crash_recovery"
   ],
   "note": ""
  },
  {
   "property": "C30",
   "status": "proved",
   "theorems": [
    "C30_inode_roundtrip",
    "C30_inode_parse_exact"
   ],
   "note": ""
  },
  {
   "property": "C31",
   "status": "proved",
   "theorems": [
    "C31_direntry_roundtrip",
    "C31_direntry_parse_exact"
   ],
   "note": ""
  },
  {
   "property": "C32",
   "status": "proved",
   "theorems": [
    "C32_keys_injective",
    "C32_scan_name_table",
    "C32_scan_inode_table"
   ],
   "note": ""
  },
  {
   "property": "C47",
   "status": "proved",
   "theorems": [
    "C47_changes_need_lock",
    "C47_held_to_the_end",
    "C47_no_hidden_reads",
    "C47_others_wait"
   ],
   "note": ""
  },
  {
   "property": "C48",
   "status": "proved",
   "theorems": [
    "C48_reader_lock_protects",
    "C48_committed_reference_protects"
   ],
   "note": ""
  },
  {
   "property": "C42",
   "status": "proved",
   "theorems": [
    "C42_at_most_one_reply",
    "C42_exactly_one_reply",
    "C42_default_reply",
    "C42_moved_from_is_silent",
    "C42_reply_none_unchecked"
   ],
   "note": "Operations on any number of Request objects; a caught exception of a second reply is a step of the run."
  },
  {
   "property": "C46",
   "status": "proved",
   "theorems": [
    "C46_dirbuffer",
    "C46_dirbuffer_plus",
    "C46_auto",
    "C46_auto_plus",
    "C46_rewind"
   ],
   "note": "fuse_add_direntry(_plus) of libfuse is trusted; the reader is an independent parser of the kernel's record layout."
  },
  {
   "property": "C33",
   "status": "partial",
   "theorems": [
    "C33_one_reply_partial",
    "C33_exact",
    "C33_second_reply_refuted",
    "C33_releasedir_refuted"
   ],
   "note": "Every legal request in every history is handled to its end and exactly one reply function gets through. Missing because false of the code: readdir of a directory removed while open calls a second reply function and throws (C33_second_reply_refuted; C33_exact says exactly for which calls); releasedir is never acknowledged (C33_releasedir_refuted)."
  },
  {
   "property": "C34",
   "status": "proved",
   "theorems": [
    "C34_connected",
    "C34_connected_error",
    "C34_other",
    "C34_frame"
   ],
   "note": ""
  },
  {
   "property": "C35",
   "status": "proved",
   "theorems": [
    "C35_offline",
    "C35_same_reply",
    "C35_no_invention"
   ],
   "note": ""
  },
  {
   "property": "C36",
   "status": "partial",
   "theorems": [
    "C36_enoent_partial",
    "C36_complete_listings",
    "C36_refuted"
   ],
   "note": "ENOENT offline is only given for a directory whose last opendir was answered by the backend; that this listing was complete needs hypotheses on the backend (C36_complete_listings), without them the claim is false (C36_refuted: a listing cut short by an error counts as complete). C71_missing gives the exact condition for ENOENT against EIO."
  },
  {
   "property": "C37",
   "status": "proved",
   "theorems": [
    "C37_held",
    "C37_held_type"
   ],
   "note": ""
  },
  {
   "property": "C38",
   "status": "partial",
   "theorems": [
    "C38_at_least",
    "C38_balanced_partial",
    "C38_plus_leak",
    "C38_leak_bound",
    "C38_refuted"
   ],
   "note": "At least the kernel's count always; equal in histories without readdirplus; the exact leak of each readdirplus (C38_plus_leak); never more than the kernel's count plus the number of readdirplus requests since the last start (C38_leak_bound; the sample meets the bound). Equality with readdirplus is false of the code (C38_refuted)."
  },
  {
   "property": "C41",
   "status": "proved",
   "theorems": [
    "C41_sync",
    "C41_exact",
    "C41_where",
    "C41_other"
   ],
   "note": ""
  },
  {
   "property": "C39",
   "status": "proved",
   "theorems": [
    "C39_stream",
    "C39_alone",
    "C39_room",
    "C39_size",
    "C39_exact_fit_refuted"
   ],
   "note": "'Larger than' is strict: a buffer of exactly the size of the next entry gives the empty reply (C39_exact_fit_refuted). readdirplus: C64."
  },
  {
   "property": "C40",
   "status": "partial",
   "theorems": [
    "C40_readdir_partial",
    "C40_stream_partial",
    "C40_eio_partial",
    "C40_plus_refuted",
    "C40_plus_ignores"
   ],
   "note": "All of it for readdir. readdirplus does not check the flag: the claim is false of the code there (C40_plus_refuted); C40_plus_ignores: no flag of any inode has an effect on what it sends or locks."
  },
  {
   "property": "C43",
   "status": "proved",
   "theorems": [
    "C43_pread",
    "C43_pwrite",
    "C43_read_back",
    "C43_size",
    "C43_safe",
    "C43_zero_write_refuted",
    "C43_removed_refuted",
    "C43_wrap_refuted",
    "C43_emplace_refuted"
   ],
   "note": "Handles of live files, counts and offsets below 2^63. The _refuted theorems show what happens outside: zero-length writes extend the file, removing an open file or counts above SSIZE_MAX are undefined behaviour."
  },
  {
   "property": "C44",
   "status": "proved",
   "theorems": [
    "C44_trichotomy",
    "C44_all_strings",
    "C44_found",
    "C44_missing",
    "C44_blocked",
    "C44_malformed",
    "C44_disconnected",
    "C44_lstat_exact",
    "C44_listing",
    "C44_attributes",
    "C44_fstat_attributes",
    "C44_described_fun"
   ],
   "note": ""
  },
  {
   "property": "C45",
   "status": "partial",
   "theorems": [
    "C45_rejected",
    "C45_mapped",
    "C45_under_root_partial",
    "C45_confined_partial",
    "C45_refuted",
    "C45_nul_refuted"
   ],
   "note": "Paths with '..' are not rejected and can leave the root (C45_refuted); also with a NUL byte (C45_nul_refuted). Lexical: symbolic links are the operating system's business."
  },
  {
   "property": "C49",
   "status": "proved",
   "theorems": [
    "C49_lookup",
    "C49_opendir",
    "C49_offline",
    "C49_backend_exists"
   ],
   "note": ""
  },
  {
   "property": "C50",
   "status": "partial",
   "theorems": [
    "C50_readlink_partial",
    "C50_prefix",
    "C50_errors",
    "C50_throws",
    "C50_refuted",
    "C50_refuted_cut"
   ],
   "note": "False of the code: cut off after st_size+1 bytes, and an exception instead of an error when the path is not a link. Proved: complete when st_size is at least the length minus one; always a prefix."
  },
  {
   "property": "C51",
   "status": "partial",
   "theorems": [
    "C51_file_partial",
    "C51_file_exact",
    "C51_dir",
    "C51_refuted"
   ],
   "note": "LocalDir: proved while closedir does not fail. LocalFile: only without close(); with it the destructor always closes descriptor 0 (or the same one again), C51_file_exact."
  },
  {
   "property": "C52",
   "status": "partial",
   "theorems": [
    "C52_dots_exact",
    "C52_in_memory",
    "C52_refuted",
    "C52_twice_refuted"
   ],
   "note": "False of the code for backends where lstat of these names succeeds (the local one); exact condition; true for the in-memory backend."
  },
  {
   "property": "C53",
   "status": "proved",
   "theorems": [
    "C53_linearizable",
    "C53_faults"
   ],
   "note": "LMDB's writer lock and snapshots and std::mutex are trusted primitives of the model; the backend's answers are arbitrary but fixed per request."
  },
  {
   "property": "C54",
   "status": "proved",
   "theorems": [
    "C54_no_deadlock",
    "C54_terminates",
    "C54_all_answered"
   ],
   "note": ""
  },
  {
   "property": "C55",
   "status": "proved",
   "theorems": [
    "C55_safe",
    "C55_history",
    "C55_held",
    "C55_references"
   ],
   "note": "The exception of readdir's second reply (C33_second_reply_refuted) is accounted for in 'answered'."
  },
  {
   "property": "C56",
   "status": "proved",
   "theorems": [
    "C56_same_behaviour",
    "C56_decoded_run",
    "C56_padding",
    "C56_layout",
    "C56_no_assert"
   ],
   "note": "The padding of a serialised inode is an arbitrary function of the inode. That LMDB hands out inode records at addresses that are multiples of 8 (Inode::parse asserts it) is taken as given; it follows from the fixed record size (C56_layout: 8-byte keys, 96-byte values) and LMDB's page layout."
  },
  {
   "property": "C57",
   "status": "proved",
   "theorems": [
    "C57_calls",
    "C57_open_tidy",
    "C57_emplace",
    "C57_lock",
    "C57_release",
    "C57_writelink",
    "C57_durable"
   ],
   "note": ""
  },
  {
   "property": "C58",
   "status": "proved",
   "theorems": [
    "C58_exclusion",
    "C58_throw_only_to_holder",
    "C58_holder_is_told",
    "C58_no_self_wait",
    "C58_holder_can_call",
    "C58_progress"
   ],
   "note": "std::mutex is a trusted primitive; unlock() by a thread that does not hold the mutex is undefined behaviour and not modelled."
  },
  {
   "property": "C59",
   "status": "partial",
   "theorems": [
    "C59_lookup",
    "C59_lookup_error",
    "C59_offline",
    "C59_opendir",
    "C59_readlink",
    "C59_readlink_dies",
    "C59_readlink_refuted",
    "C59_error_hidden"
   ],
   "note": "The last sentence is false of the code: readlink of a name that is no symbolic link any more ends the process (C59_readlink_dies, C59_readlink_refuted), and the error that ends a listing has no effect at all (C59_error_hidden). readlink needs st_size to be at least the target's length minus one, as in C50."
  },
  {
   "property": "C60",
   "status": "partial",
   "theorems": [
    "C60_confined_partial",
    "C60_confined_other",
    "C60_histories_partial",
    "C60_parent_refuted",
    "C60_refuted"
   ],
   "note": "Holds except for the attributes of the directory that contains the source directory, which opendir of the root reads through '..' (C60_parent_refuted: they appear in a readdirplus reply). Lexical, as C45."
  },
  {
   "property": "C61",
   "status": "proved",
   "theorems": [
    "C61_online",
    "C61_offline",
    "C61_no_invention",
    "C61_error",
    "C61_removed",
    "C61_nul_refuted"
   ],
   "note": "C61_nul_refuted shows the parenthesis: a target with a zero byte is cut off there. No POSIX target has one."
  },
  {
   "property": "C62",
   "status": "partial",
   "theorems": [
    "C62_reply",
    "C62_last_known",
    "C62_frame",
    "C62_frozen",
    "C62_root",
    "C62_root_refuted"
   ],
   "note": "The last sentence is false of the code: the root keeps the attributes of the first mount for ever, with no permission bits (C62_root, C62_root_refuted)."
  },
  {
   "property": "C63",
   "status": "partial",
   "theorems": [
    "C63_uninterrupted",
    "C63_interrupted_partial",
    "C63_before_range",
    "C63_never_invented",
    "C63_reopens",
    "C63_in_bounds",
    "C63_torn_entry_refuted",
    "C63_lost_blocks_refuted",
    "C63_lasting_damage_refuted",
    "C63_refuted",
    "C63_create_refuted"
   ],
   "note": "Blocks before the range keep their state at every kill point, torn entries included (C63_before_range). Proved for kills that do not fall between the two stores into one entry: old state, new state or absent (C63_interrupted_partial), nothing invented over any number of kills, no access out of bounds. False in general: blocks outside of the range are lost, a kill between the two stores into one entry invents blocks, fsck refuses the list and later marks are ineffective, a kill during creation makes the file unusable (_refuted)."
  },
  {
   "property": "C64",
   "status": "proved",
   "theorems": [
    "C64_stream",
    "C64_alone",
    "C64_room"
   ],
   "note": "A child that the backend calls '.' or '..' is listed without taking a reference, so the clause that it still exists leaves it out. The end of the listing does not mean that the directory is completely known (C40_plus_refuted)."
  },
  {
   "property": "C65",
   "status": "partial",
   "theorems": [
    "C65_undone",
    "C65_served",
    "C65_options",
    "C65_detach",
    "C65_status",
    "C65_nothing",
    "C65_inverted",
    "C65_sftp_refuted",
    "C65_status_refuted"
   ],
   "note": "False of the code in two clauses: -S is accepted but no backend is made for it (undefined behaviour in every such run, C65_sftp_refuted); the exit status is always 0 once the command line is accepted (C65_status, C65_status_refuted), and what execute() computes is inverted (C65_inverted). The rest is proved."
  },
  {
   "property": "C66",
   "status": "proved",
   "theorems": [
    "C66_unchanged",
    "C66_lookup",
    "C66_readlink",
    "C66_opendir"
   ],
   "note": "The backend is the in-memory model (InMem.v) in the state that main.cpp puts it in."
  },
  {
   "property": "C67",
   "status": "partial",
   "theorems": [
    "C67_no_close_partial",
    "C67_close_partial",
    "C67_read_bytes",
    "C67_write_bytes",
    "C67_read_back",
    "C67_no_leak_partial",
    "C67_refuted_late",
    "C67_refuted_mixed"
   ],
   "note": "False of the code once close() is used: m_fd becomes 0 instead of -1, so a later call reaches descriptor 0 (C67_refuted_late), and destroying closed objects closes other objects' descriptors until data written to one file ends up in another (C67_refuted_mixed). Proved for all histories without close(), and with close() as long as no object gets descriptor 0, close() does not fail and nothing is called on a closed object. The contents byte by byte: C67_read_bytes, C67_write_bytes, C67_read_back; without close() the open descriptors are exactly the earlier ones and one per living object (C67_no_leak_partial)."
  },
  {
   "property": "C68",
   "status": "partial",
   "theorems": [
    "C68_exact",
    "C68_listing",
    "C68_record",
    "C68_record_error",
    "C68_small_partial",
    "C68_refuted_first",
    "C68_refuted_rewind"
   ],
   "note": "False of the code: the first of several entries is never returned, the last one twice, and the end is final. C68_exact gives the answers of every sequence of calls (and shows that no assertion fails), C68_listing those of reading from start to end. C68_record: exactly which records are understood, and as what."
  },
  {
   "property": "C69",
   "status": "partial",
   "theorems": [
    "C69_exact",
    "C69_failure_partial",
    "C69_success",
    "C69_refuted",
    "C69_void",
    "C69_void_success"
   ],
   "note": "False of the converting constructors: they turn a failure into a success with a default value. C69_exact: exactly when that happens; the error code always survives. C69_void: with Result<void> among the results."
  },
  {
   "property": "C70",
   "status": "proved",
   "theorems": [
    "C70_path",
    "C70_lost",
    "C70_lookup",
    "C70_online",
    "C70_online_tree",
    "C70_offline",
    "C70_same"
   ],
   "note": "All histories incl. restarts; one lookup per component, the dcache of the kernel is not modelled. believed is total and functional (believed_total, believed_fun)."
  },
  {
   "property": "C71",
   "status": "proved",
   "theorems": [
    "C71_offline",
    "C71_offline_possible",
    "C71_online",
    "C71_kept",
    "C71_missing",
    "C71_refuted"
   ],
   "note": "All histories incl. restarts. C71_refuted shows that the condition 'nothing heard about it in between' cannot be dropped: a connected lookup of the directory, or a listing of its parent, forgets that it was listed. complete is total and functional (complete_total, complete_fun)."
  },
  {
   "property": "C72",
   "status": "proved",
   "theorems": [
    "C72_same",
    "C72_calls",
    "C72_closes",
    "C72_histories",
    "C72_read_only",
    "C72_possible",
    "C72_every_history",
    "C72_where",
    "C72_unserved",
    "C72_name",
    "C72_batch"
   ],
   "note": "Backends are arbitrary (nondeterministic) machines. Runs are finite: a directory whose listing never ends is not modelled. Calls of one request are not interleaved with outside changes explicitly, but the machine may change its answers from call to call."
  },
  {
   "property": "C73",
   "status": "partial",
   "theorems": [
    "C73_inode_reads",
    "C73_one_reading",
    "C73_name_reads",
    "C73_local",
    "C73_lookup_found",
    "C73_lookup_crash",
    "C73_lookup_total",
    "C73_readdir",
    "C73_readdir_dots",
    "C73_path",
    "C73_open",
    "C73_open_orphan_key",
    "C73_open_no_counter",
    "C73_emplace_new",
    "C73_emplace_existing",
    "C73_undetected_refuted",
    "C73_children",
    "C73_open_orphan_dir",
    "C73_unlink_dir",
    "C73_unlink_hangs",
    "C73_open_orphan_garbage",
    "C73_flags",
    "C73_writelink",
    "C73_unlink",
    "C73_unlink_name",
    "C73_start_rewrite",
    "C73_clean",
    "C73_clean_iff",
    "C73_open_iff",
    "C73_open_contained",
    "C73_unlink_contained"
   ],
   "note": "True of getattr, parent, name and flags. The last clause and 'opening ends with a result' are false of the code; the exact conditions are proved. All operations are covered. Cleaning, the whole recursion: if the orphans are in order, C73_clean_iff says exactly when it ends, and with which effects; in all other cases an assertion fails or it never ends."
  },
  {
   "property": "C74",
   "status": "proved",
   "theorems": [
    "C74_same",
    "C74_padding",
    "C74_history",
    "C74_next",
    "C74_damaged_getattr",
    "C74_damaged_lookup",
    "C74_damaged_loop"
   ],
   "note": "All requests incl. both halves of readdirplus and restarts, legal or not. LMDB is a map of byte strings ordered by memcmp; records are taken to be aligned."
  },
  {
   "property": "C75",
   "status": "proved",
   "theorems": [
    "C75_step",
    "C75_sized",
    "C75_history",
    "C75_any_memory",
    "C75_long_flags",
    "C75_long_writelink",
    "C75_long_emplace",
    "C75_long_lost",
    "C75_refuted_long"
   ],
   "note": "All write operations of the cache and all histories. C75_long_*, C75_refuted_long: the condition on the length of inode records cannot be dropped. The read operations return copies and write nothing, so they need no model of their own."
  },
  {
   "property": "C76",
   "status": "partial",
   "theorems": [
    "C76_partial",
    "C76_exact",
    "C76_listing",
    "C76_mode",
    "C76_mode_type",
    "C76_error_hidden",
    "C76_refuted",
    "C76_refuted_late",
    "C76_refuted_twice",
    "C76_refuted_mixed",
    "C76_refuted_error"
   ],
   "note": "False of the code: calls after closedir() use the null pointer, a closedir() that reports an error is repeated by the destructor (undefined behaviour, or another object's stream), errors while reading look like the end (C76_refuted_*). Proved: everything in all histories in which closedir() reports no error, nothing is called after closedir() and no error ends a listing (C76_error_hidden removes the last hypothesis: every error acts like error 0); C76_exact: exactly when something is undefined."
  },
  {
   "property": "C77",
   "status": "proved",
   "theorems": [
    "C77_request",
    "C77_history",
    "C77_listing",
    "C77_served"
   ],
   "note": "The handlers of C72 on the directory objects of C76. fresh: nothing is open at the null pointer and no object alive at the start. Paths, lstat and readlink answer anything of the right type. C77_served: requests of the theorems exist on every such system."
  },
  {
   "property": "C78",
   "status": "proved",
   "theorems": [
    "C78_schedule",
    "C78_linearizable",
    "C78_exclusive",
    "C78_where",
    "C78_late_close"
   ],
   "note": "C78_where: what a request asks, in terms of the path its inode has in the committed database (C22_path: which names that spells). Threads of C53 with every backend call as a step of its own (ConcCalls.v), backends as in C72. labels: the visible events, each request with the table of the answers it gets. C78_late_close: a directory is closed after the reply, between calls of another request. Runs may start with any state of the backend."
  },
  {
   "property": "C79",
   "status": "proved",
   "theorems": [
    "C79_streams",
    "C79_linearizable"
   ],
   "note": "C78 with the machine of C77. no_kill: until the process dies (then the system closes everything). The start may have any streams open that are not ours."
  },
  {
   "property": "C80",
   "status": "proved",
   "theorems": [
    "C80_no_deadlock",
    "C80_terminates",
    "C80_tables",
    "C80_safe",
    "C80_progress",
    "C80_history",
    "C80_held",
    "C80_references",
    "C80_names",
    "C80_one_reply",
    "C80_all_replied",
    "C80_all_done"
   ],
   "note": "C53-C55 for the threads of C78. legal_trace (ConcKernel.v) is about the labels of the run: each request with the table of the answers it gets; C80_tables: these tables are representable if the answers are. C80_terminates: only a directory that never ends keeps a request busy for ever."
  },
  {
   "property": "C81",
   "status": "proved",
   "theorems": [
    "C81_own_answer"
   ],
   "note": "replies: the answer in terms of the calls this request made, from any world. Offline (ENOTCONN) any answer is allowed here: what the cache then says is C78_linearizable/C80_history with C39-C41."
  },
  {
   "property": "C82",
   "status": "proved",
   "theorems": [
    "C82_again",
    "C82_repeated",
    "C82_reads",
    "C82_answer",
    "C82_once_needed",
    "C82_error_needed"
   ],
   "note": "Two requests in turn may undo each other (a lookup stores the size lstat gives, readlink the length of the target), so the repetition is of one request. C82_once_needed: a name listed twice with two types gets new inodes with each listing. C82_error_needed: a readlink that fails removes the inode, so the next one fails with ENOENT."
  },
  {
   "property": "C83",
   "status": "proved",
   "theorems": [
    "C83_opened",
    "C83_kept",
    "C83_cleaned",
    "C83_left"
   ],
   "note": "C83_left: opendir (a listing without the name) and forget (the last reference to something removed) do leave inodes behind. Together with C16 (what cleaning removes) and C15 (what is held stays)."
  },
  {
   "property": "C84",
   "status": "proved",
   "theorems": [
    "C84_same",
    "C84_distinct",
    "C84_gone"
   ],
   "note": "The number a program sees is the one in the reply to the lookup of the last component of the path; the directory is named by an inode the kernel knows by that path (C70). Restarts may lie in between."
  }
 ]
}