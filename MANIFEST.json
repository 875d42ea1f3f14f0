{
 "claims": [
  {
   "property": "C01",
   "status": "proved",
   "theorems": [
    "C01_record_length"
   ],
   "note": "every key and value; int overflow for strings near 2 GiB not modelled"
  },
  {
   "property": "C02",
   "status": "proved",
   "theorems": [
    "C02_header_length"
   ],
   "note": "length = hdr_size, positive multiple of 512, and the header exists whenever kind and names resolve"
  },
  {
   "property": "C03",
   "status": "partial",
   "theorems": [
    "C03_header_roundtrip_partial",
    "C03_names",
    "C03_mtime_refuted"
   ],
   "note": "full round trip for ids < 2^21, 0 <= mtime < 2^33, size <> 2^33-1; outside these the code loses the value (C03_mtime_refuted, C05_refuted, C06_refuted)"
  },
  {
   "property": "C04",
   "status": "proved",
   "theorems": [
    "C04_checksum"
   ],
   "note": "both header blocks"
  },
  {
   "property": "C05",
   "status": "partial",
   "theorems": [
    "C05_ids_partial",
    "C05_refuted"
   ],
   "note": "ids survive iff below 2^21; the property is false of the code"
  },
  {
   "property": "C06",
   "status": "partial",
   "theorems": [
    "C06_size_partial",
    "C06_refuted"
   ],
   "note": "size survives iff it is not exactly 2^33-1; false of the code at that size"
  },
  {
   "property": "C07",
   "status": "partial",
   "theorems": [
    "C07_planned_header_partial",
    "C07_planned_header_exact",
    "C07_refuted"
   ],
   "note": "equal for files, symlinks and directories whose path ends in / or is shorter than 100; a 100-byte directory path is planned 512 and written 1536"
  },
  {
   "property": "C08",
   "status": "partial",
   "theorems": [
    "C08_serialize_partial",
    "C08_refuted"
   ],
   "note": "holds for a receiving object without link name; a reused object keeps its stale link"
  },
  {
   "property": "C09",
   "status": "proved",
   "theorems": [
    "C09_layout",
    "scanned_entry_wf"
   ],
   "note": "every list of well-formed entries; unsigned long wrap beyond 2^64 not modelled"
  },
  {
   "property": "C10",
   "status": "proved",
   "theorems": [
    "C10_order_files",
    "C10_comparison"
   ],
   "note": "std::sort by its contract (any permutation without inversions, provided the comparison is a strict weak order, which is proved)"
  },
  {
   "property": "C11",
   "status": "proved",
   "theorems": [
    "C11_orders_cover",
    "scanned_entry_wf"
   ],
   "note": "every plannable collection (bucket a multiple of 512, >= 100000, headers not larger than the bucket)"
  },
  {
   "property": "C12",
   "status": "proved",
   "theorems": [
    "C12_bundles_tile",
    "C12_tiles_meaning"
   ],
   "note": ""
  },
  {
   "property": "C13",
   "status": "partial",
   "theorems": [
    "C13_bundle_fits_partial",
    "C13_two_buckets_partial",
    "C13_refuted"
   ],
   "note": "false of the code (C13_refuted: a sorted collection with a bundle of bucket+512 bytes); proved when files are in order of header+size; in general bounded by two buckets"
  },
  {
   "property": "C14",
   "status": "proved",
   "theorems": [
    "C14_max_orders"
   ],
   "note": ""
  },
  {
   "property": "C15",
   "status": "proved",
   "theorems": [
    "C15_no_empty_bundle",
    "C15_unaligned_refuted"
   ],
   "note": "for every bucket that is a multiple of 512 as the property quantifies; the second theorem shows the alignment is needed"
  },
  {
   "property": "C16",
   "status": "partial",
   "theorems": [
    "C16_orders_roundtrip_partial",
    "C16_planned_roundtrip_partial",
    "C16_two_gib_refuted",
    "C16_tab_refuted"
   ],
   "note": "round trip for names without tab, numbers < 2^31, text < 4 GiB; false of the code otherwise: any archive with an entry at or past 2 GiB, and any name with a tab, makes the worker throw"
  },
  {
   "property": "C17",
   "status": "partial",
   "theorems": [
    "C17_inside_buffer_partial",
    "C17_refuted"
   ],
   "note": "proved for bundles that fit their bucket; false of the code through C13"
  },
  {
   "property": "C18",
   "status": "partial",
   "theorems": [
    "C18_bucket_image_partial",
    "C18_refuted"
   ],
   "note": "headers, contents and tail exact; the padding between entries of a bundle is uninitialised heap memory, so the property is false of the code"
  },
  {
   "property": "C19",
   "status": "partial",
   "theorems": [
    "C19_end_to_end_partial",
    "C19_slash_safe",
    "C19_slash_safe_long",
    "C19_refuted"
   ],
   "note": "Every history of every rank, every tree: the finished file, with any content of the bytes never written, reads as a tar archive with exactly the scanned entries. Refuted for a directory path of exactly 100 bytes (the archive is unreadable); directory paths below 100 bytes or of 101 to 501 bytes are fine."
  },
  {
   "property": "C20",
   "status": "partial",
   "theorems": [
    "C20_schedule_independent_partial",
    "C20_refuted"
   ],
   "note": "Any two completed runs (any rank counts, any schedules) give the same archive size and cells, for names without tabs; refuted with a tab-laden file name whose parsed order overlaps another bundle."
  },
  {
   "property": "C21",
   "status": "proved",
   "theorems": [
    "C21_exactly_once"
   ],
   "note": "Invariant over every run of the protocol."
  },
  {
   "property": "C22",
   "status": "partial",
   "theorems": [
    "C22_terminates_partial",
    "C22_refuted"
   ],
   "note": "Every run is finite (12N+2R+5 steps) and no state before the end is stuck, with >=1 worker and no failing bundle; refuted: 1 rank, or any bundle whose worker dies, never ends."
  },
  {
   "property": "C23",
   "status": "proved",
   "theorems": [
    "C23_shutdown_after_data",
    "C23_reply_rank"
   ],
   "note": "Final state of every completed run."
  },
  {
   "property": "C24",
   "status": "partial",
   "theorems": [
    "C24_framing_partial",
    "C24_refuted"
   ],
   "note": "Exact for NUL-free text below 2 GiB; refuted otherwise."
  },
  {
   "property": "C25",
   "status": "partial",
   "theorems": [
    "C25_worker_safe_partial",
    "C25_boss_history",
    "C25_refuted"
   ],
   "note": "Every write is preceded by a bucket size and a successful open, returns only on X or the documented 7; refuted: null handle, exception, free of a new'd handle, done after a failed open."
  },
  {
   "property": "C26",
   "status": "proved",
   "theorems": [
    "C26_scan_complete",
    "C26_scan_ends",
    "C26_paths_distinct"
   ],
   "note": "For every tree, readdir order and nesting; the only other outcome of the scan is the undefined behaviour of C29. Directories that cannot be opened and entries lstat/readlink refuses are part of the tree model."
  },
  {
   "property": "C27",
   "status": "partial",
   "theorems": [
    "C27_root_partial",
    "C27_refuted"
   ],
   "note": "Refuted for every scan: the return value depends on the top directory only; the root case is returned but ignored by main."
  },
  {
   "property": "C28",
   "status": "proved",
   "theorems": [
    "C28_parents_first"
   ],
   "note": "Proved down to archive offsets for every result of the sort."
  },
  {
   "property": "C29",
   "status": "partial",
   "theorems": [
    "C29_link_target_partial",
    "C29_refuted"
   ],
   "note": "Right whenever the scan has defined behaviour; the buffer is never NUL-terminated, so any other byte there is an out-of-bounds read."
  },
  {
   "property": "C30",
   "status": "proved",
   "theorems": [
    "C30_command_line",
    "C30_default_aligned"
   ],
   "note": "For every argument list (each argument below 4 GiB, which the kernel guarantees)."
  },
  {
   "property": "C31",
   "status": "partial",
   "theorems": [
    "C31_any_limit_partial",
    "C31_refuted"
   ],
   "note": "false of the code: the limit is an uninitialised variable and changes the bundles; whatever it holds, the planner succeeds and describes the same archive."
  },
  {
   "property": "C32",
   "status": "partial",
   "theorems": [
    "C32_not_overwritten_partial",
    "C32_exit_undefined"
   ],
   "note": "The file is never opened nor written by any rank in any history; but the workers' exit on this path frees an object made with new (undefined behaviour)."
  },
  {
   "property": "C33",
   "status": "partial",
   "theorems": [
    "C33_refuted"
   ],
   "note": "false of the code: no run ever writes end-of-archive blocks."
  },
  {
   "property": "C34",
   "status": "partial",
   "theorems": [
    "C34_open_count_partial",
    "C34_refuted"
   ],
   "note": "false of the code: target files are never closed; exact count proved, and shown unbounded"
  },
  {
   "property": "C35",
   "status": "partial",
   "theorems": [
    "C35_accepted_partial",
    "C35_refuted"
   ],
   "note": "false of the code: every refused bucket size ends in a null dereference and no worker is released; every other size is planned and the program runs to its end."
  },
  {
   "property": "C36",
   "status": "partial",
   "theorems": [
    "C36_listing_partial",
    "C36_unopenable",
    "C36_refuted"
   ],
   "note": "Holds for every tree as far as reached by names that do not start with a dot; false of the code for hidden files (dropped). A directory that cannot be opened yields no list, never a silently short one."
  },
  {
   "property": "C37",
   "status": "proved",
   "theorems": [
    "C37_total_preorder",
    "C37_sorted_unique"
   ],
   "note": "For all entries."
  },
  {
   "property": "C38",
   "status": "partial",
   "theorems": [
    "C38_layout_partial",
    "C38_sorted_list",
    "C38_succeeds_partial",
    "C38_refuted",
    "C38_refuted_single"
   ],
   "note": "Proved when the entries that fit a bucket come first (always so for a sorted list whose headers have the same size); refuted for a sorted list with headers of different sizes, and for a list of one entry."
  },
  {
   "property": "C39",
   "status": "partial",
   "theorems": [
    "C39_round_robin",
    "C39_visits_exactly",
    "C39_check_accepts_partial",
    "C39_room",
    "C39_refuted"
   ],
   "note": "Round robin and per-bucket loop proved for every list the start-up check accepts; the check accepts every list as in C38 where files over a bucket leave room for a header (always with one-block headers); refuted otherwise: the program gives up."
  },
  {
   "property": "C40",
   "status": "partial",
   "theorems": [
    "C40_broadcast_partial",
    "C40_refuted"
   ],
   "note": "Round trip for every list of two or more entries without tabs or NULs in names; a null pad name comes back as text. Refuted: tab in a name, list of one entry (out-of-bounds write)."
  },
  {
   "property": "C41",
   "status": "partial",
   "theorems": [
    "C41_catalog_partial",
    "C41_refuted"
   ],
   "note": "false of the code: in every created archive the catalog says location -1 for every entry (it is written before the layout is computed); name, type, target and sizes are right."
  },
  {
   "property": "C42",
   "status": "partial",
   "theorems": [
    "C42_refuted"
   ],
   "note": "false of the code for every archive: both ways to call the reader fail."
  },
  {
   "property": "C43",
   "status": "partial",
   "theorems": [
    "C43_append",
    "C43_refuted"
   ],
   "note": "Proved for lists created for two or more entries (below 2^30 additions); creating a list for one entry writes out of bounds."
  },
  {
   "property": "C44",
   "status": "proved",
   "theorems": [
    "C44_bucket_bridged",
    "C44_archive_bridged"
   ],
   "note": "For every content of a bucket, at the level of one bucket's write and in the finished file."
  },
  {
   "property": "C45",
   "status": "partial",
   "theorems": [
    "C45_data_start_partial",
    "C45_refuted"
   ],
   "note": "Holds unless exactly one block is left between catalog and boundary; then (witness: 1000 files) a tar reader sees none of the entries."
  },
  {
   "property": "C46",
   "status": "partial",
   "theorems": [
    "C46_catalog_line_partial",
    "C46_refuted",
    "C58_entries"
   ],
   "note": "holds for paths and targets without a tab; a symlink with tabs gives two entries the same line"
  },
  {
   "property": "C47",
   "status": "proved",
   "theorems": [
    "C47_next_available",
    "C58_entries"
   ],
   "note": "C58_entries: the object method computes the same as the function in the statement"
  },
  {
   "property": "C48",
   "status": "partial",
   "theorems": [
    "C48_refuted",
    "C48_not_truncated"
   ],
   "note": "false of the code: every run overwrites the start of whatever file was there, for every prior content, and leaves its tail."
  },
  {
   "property": "C49",
   "status": "partial",
   "theorems": [
    "C49_list_to_archive_partial",
    "C49_run_succeeds"
   ],
   "note": "Every run, interleaving and prior file. Missing: lists where an entry that fits follows one that does not (C38), gap of one block (C45), metadata out of the tar format's range (C05, C06)."
  },
  {
   "property": "C50",
   "status": "partial",
   "theorems": [
    "C50_create_partial",
    "C50_run_exists_partial"
   ],
   "note": "C50_run_exists_partial: such a run exists for every tree of 2 to 250000 entries with paths up to M bytes (few_enough: M = 99: 250000 entries, M = 4096: 15000) and link targets up to 100 bytes. From tree to archive for every run; restrictions as in C49, C36 (hidden names), no tabs in names, and headers of one block or files within one bucket."
  },
  {
   "property": "C51",
   "status": "partial",
   "theorems": [
    "C51_refuted"
   ],
   "note": "false of the code: X and T return 0 and do nothing."
  },
  {
   "property": "C52",
   "status": "partial",
   "theorems": [
    "C52_crash_partial",
    "C52_refuted"
   ],
   "note": "Every history, crash point and torn write; no tabs in names, no file changed since the scan. Refuted when a name contains a tab (C11)."
  },
  {
   "property": "C53",
   "status": "partial",
   "theorems": [
    "C53_ranks_partial",
    "C53_refuted"
   ],
   "note": "Same size and same bytes except between the end of a file's bytes and the end of its last block; there false of the code: stale bytes of the rank's previous bucket."
  },
  {
   "property": "C54",
   "status": "partial",
   "theorems": [
    "C54_legacy_crash_partial",
    "C54_refuted"
   ],
   "note": "Every byte is the old one or the finished one (or in the slack of C53). False that a stopped run leaves the old or the new archive: new catalog in front of old data."
  },
  {
   "property": "C55",
   "status": "partial",
   "theorems": [
    "C55_create_completes_partial",
    "C55_completes_iff_partial",
    "C55_refuted"
   ],
   "note": "Proved for trees with paths below 100 bytes, link targets up to 100, no tabs, together below 2 GiB - 1 KiB in the archive, quiet heap (C28). False of the code for trees that take 2 GiB or more: no run ever ends. The protocol model starts with workers that know the bucket size; sizes beyond INT_MAX never get there (C80)."
  },
  {
   "property": "C56",
   "status": "proved",
   "theorems": [
    "C56_no_starvation"
   ],
   "note": "Every number of ranks and order sets, every schedule."
  },
  {
   "property": "C57",
   "status": "partial",
   "theorems": [
    "C57_truncated_partial",
    "C57_lines_partial",
    "C57_rounds",
    "C57_refuted",
    "C57_garbage_refuted"
   ],
   "note": "Any prefix of a printed bundle (names without tab and newline) and any lines of seven or more tabs are handled; false of the code for lines with fewer tabs: endless loop, or a made-up order."
  },
  {
   "property": "C58",
   "status": "partial",
   "theorems": [
    "C58_header_exact",
    "C58_header_current_partial",
    "C58_entries",
    "C58_refuted"
   ],
   "note": "Exact for every history; current as long as set_symlink_target is not used; false of the code after it (cached size)."
  },
  {
   "property": "C59",
   "status": "partial",
   "theorems": [
    "C59_file_copy_partial",
    "C59_directory_partial",
    "C59_refuted"
   ],
   "note": "Target files: proved. Directories and collections: false of the code (undefined unless empty)."
  },
  {
   "property": "C60",
   "status": "partial",
   "theorems": [
    "C60_rescan_partial",
    "C60_refuted"
   ],
   "note": "Every sequence of calls; the returned value is 0, never the number of entries."
  },
  {
   "property": "C61",
   "status": "partial",
   "theorems": [
    "C61_refuted"
   ],
   "note": "false of the code: the line is ignored."
  },
  {
   "property": "C62",
   "status": "partial",
   "theorems": [
    "C62_copies_partial",
    "C62_refuted"
   ],
   "note": "false of the code for every object: MPI_File_open gets a null pointer. (No program in the repository calls it.)"
  },
  {
   "property": "C63",
   "status": "partial",
   "theorems": [
    "C63_name_of_order_partial",
    "C63_refuted"
   ],
   "note": "All indices but one; at index = number of orders it throws."
  },
  {
   "property": "C64",
   "status": "partial",
   "theorems": [
    "C64_free_partial",
    "C64_split_partial",
    "C64_models_agree",
    "C64_refuted",
    "C64_pads_refuted"
   ],
   "note": "Exact boundary: freeable iff the list never grew or is full to the last slot; after a layout with padding the two lists share pad names. False of the code in general."
  },
  {
   "property": "C65",
   "status": "proved",
   "theorems": [
    "C65_refused_no_effect"
   ],
   "note": ""
  },
  {
   "property": "C66",
   "status": "partial",
   "theorems": [
    "C66_announced_partial",
    "C66_refuted"
   ],
   "note": "False of the code: only unknown flags are announced to the other ranks; in all other cases they wait for a broadcast that never comes (unless the MPI launcher kills them)."
  },
  {
   "property": "C67",
   "status": "partial",
   "theorems": [
    "C67_filled_partial",
    "C67_refuted"
   ],
   "note": "Proved when the files come in order of header+size; in the order the program's own sort delivers a set can be cut short (C67_refuted)."
  },
  {
   "property": "C68",
   "status": "partial",
   "theorems": [
    "C68_same_members_partial"
   ],
   "note": "Under the conditions of C19 (short, tab-free paths, tree unchanged); without them there may be no readable archive (C19_refuted)."
  },
  {
   "property": "C69",
   "status": "partial",
   "theorems": [
    "C69_unpack_partial",
    "C69_refuted"
   ],
   "note": "Conditions of C19 and a target path without \"..\"; with \"..\" the archive of every run is refused by a careful tar (C69_refuted)."
  },
  {
   "property": "C70",
   "status": "partial",
   "theorems": [
    "C70_legacy_unpack_partial"
   ],
   "note": "Conditions of C50; the tree must not be unpacked over the catalog or spacer name. Where they fail the code violates the property: C36_refuted, C45_refuted."
  },
  {
   "property": "C71",
   "status": "partial",
   "theorems": [
    "C71_resized_files_partial",
    "C71_shrunk_files_partial",
    "C71_refuted"
   ],
   "note": "Proved for size changes that keep each file within the 512-byte blocks it had at the scan and below 8 GiB, under the hypotheses of C19. False of the code otherwise (C71_refuted): the worker re-reads the size for the header but keeps the planned space, so a file that outgrows its blocks makes the rest of the archive unreadable."
  },
  {
   "property": "C72",
   "status": "partial",
   "theorems": [
    "C72_unopenable_partial",
    "C72_refuted",
    "C72_gone_refuted"
   ],
   "note": "Proved under the hypotheses of C19: all members are listed with right metadata and all others have the right contents, whichever files cannot be opened. False of the code otherwise: the contents stored for the unopenable file are whatever the worker's memory held and the run ends normally (C72_refuted); and if an entry is gone (lstat fails) the worker exits and, unless the MPI launcher kills the job, the run never ends (C72_gone_refuted, for every tree, entry and schedule)."
  },
  {
   "property": "C73",
   "status": "partial",
   "theorems": [
    "C73_linked_target_partial",
    "C73_legacy_partial"
   ],
   "note": "Proved for both versions whatever lstat says of the link, under the conditions of C19 (0.6) and C50 (0.5.1)."
  },
  {
   "property": "C74",
   "status": "partial",
   "theorems": [
    "C74_legacy_partial",
    "C74_refuted"
   ],
   "note": "0.5.1 lists nothing and makes no archive (its rank 0 returns; the other ranks are left waiting, C87_refuted). False of 0.6, for every command line and schedule (C74_refuted): it makes the archive file, hands out orders, a worker exits and no run ends."
  },
  {
   "property": "C75",
   "status": "partial",
   "theorems": [
    "C75_versions_agree_partial"
   ],
   "note": "Proved under the conditions of C19 (0.6) and C50 (0.5.1); the members only 0.6 has are shown to lie at or below names starting with a dot."
  },
  {
   "property": "C76",
   "status": "partial",
   "theorems": [
    "C76_slash_partial",
    "C76_same_place",
    "C76_legacy"
   ],
   "note": "0.6: same members with one more slash in the path, under the conditions of C19 for both spellings. 0.5.1: the runs are identical, unless the slash changes the size of the target's own header (C07)."
  },
  {
   "property": "C77",
   "status": "proved",
   "theorems": [
    "C77_no_mpi_error",
    "C77_bounded",
    "C77_texts_fit_partial"
   ],
   "note": "Message-level model of all ranks (Mpi.v): lengths, texts, broadcasts, collective open, replies and MPI_Finalize are steps of their own. Hypothesis: every bundle text fits an MPI count (texts_fit); C77_texts_fit_partial: so it is for every tree and bucket up to 10^9 bytes."
  },
  {
   "property": "C78",
   "status": "proved",
   "theorems": [
    "C78_all_or_hang",
    "C77_texts_fit_partial"
   ],
   "note": "Message-level model; by refinement to the protocol of C21-C25. texts_fit as in C77."
  },
  {
   "property": "C79",
   "status": "partial",
   "theorems": [
    "C79_create_partial",
    "C79_exact_partial"
   ],
   "note": "Message-level total correctness. C79_create_partial: trees with C55's restrictions (paths below 100 bytes, below 2 GiB, no tabs, quiet heap) and bucket size an int; C79_exact_partial covers longer paths and says exactly which plans get through (every bundle movable), the others never. Beyond these the code is wrong (C80, C55_refuted, C04, C28)."
  },
  {
   "property": "C80",
   "status": "partial",
   "theorems": [
    "C80_refuted",
    "C79_create_partial"
   ],
   "note": "False of the code: bucketsize=2147483647 is rounded up to 2^31, every worker throws on the U order, nothing is created and no rank gets through. For buckets up to INT_MAX see C79."
  },
  {
   "property": "C81",
   "status": "proved",
   "theorems": [
    "C81_only_a_new_archive",
    "C81_existing"
   ],
   "note": "Message-level model, all ways rank 0 can end."
  },
  {
   "property": "C82",
   "status": "partial",
   "theorems": [
    "C82_refuted",
    "C79_create_partial"
   ],
   "note": "False of the code whenever main stops before the collective open: no other rank is ever past MPI_Finalize. The good case is C79."
  },
  {
   "property": "C83",
   "status": "partial",
   "theorems": [
    "C83_refuted",
    "C81_existing"
   ],
   "note": "False of the code: the workers free() the handle made with new when told to stop (C32_exit_undefined), so every run ends with all of them in undefined behaviour and rank 0 waiting in MPI_Finalize. What holds: files are untouched (C81), no message is misunderstood before that."
  },
  {
   "property": "C84",
   "status": "proved",
   "theorems": [
    "C84_no_mpi_error",
    "C84_bounded"
   ],
   "note": "Arguments without NUL bytes (argv has none). MPI_Finalize and MPI_Barrier counted as collective calls."
  },
  {
   "property": "C85",
   "status": "proved",
   "theorems": [
    "C85_zero_is_complete"
   ],
   "note": "qsort's contract is a hypothesis on the sort function (C37). What the complete archive contains: C49, C50. In the modes X and T, 0 is returned although nothing is done (C51)."
  },
  {
   "property": "C86",
   "status": "partial",
   "theorems": [
    "C86_create_partial",
    "C86_small_partial"
   ],
   "note": "Bounds and restrictions of C50 (2 to 250000 entries, paths up to M bytes as in C50_run_exists_partial, link targets up to 100 bytes, no tabs, no unreadable directory); the catalog must not end one block before a bucket boundary (C45), which cannot happen up to (M + 167) n <= 4190000 (15000 entries with paths up to 99 bytes). C86_long_witness: a path of 155 bytes."
  },
  {
   "property": "C87",
   "status": "partial",
   "theorems": [
    "C87_refuted",
    "C86_create_partial"
   ],
   "note": "False of the code: unknown mode, target that is no directory, file that vanished: the other ranks wait for ever, in every run. The good case is C86."
  },
  {
   "property": "C88",
   "status": "proved",
   "theorems": [
    "C88_zero_means_found"
   ],
   "note": "Bounds on the list as in C50. An empty file is not opened, so only its metadata counts."
  },
  {
   "property": "C89",
   "status": "partial",
   "theorems": [
    "C89_unnoticed_partial",
    "C89_resized_files_partial",
    "C89_shrunk_files_partial",
    "C89_refuted"
   ],
   "note": "As C71, for 0.5.1 and over every run of all ranks: with the bounds of C86, and new sizes that keep each file within the 512-byte blocks it was listed with, the archive is right. Whatever the new sizes (within C50's bounds), every run ends with 0 on every rank (C89_unnoticed_partial). False of the code otherwise (C89_refuted): a file that outgrew its blocks hides another file from a tar reader, and the program returns 0."
  },
  {
   "property": "C90",
   "status": "partial",
   "theorems": [
    "C90_text_safe_partial",
    "C90_text_made_partial",
    "C90_refuted"
   ],
   "note": "Holds for every list of 1 to 10,737,418 entries, whatever their strings; and up to 4,000,000 entries and about 500 million bytes the text is made. False beyond: the first size of the buffer, 200 times the number of entries, is an int product that overflows for every longer list, and for the empty list the 56 bytes of the heading are written into an allocation of 0 bytes."
  },
  {
   "property": "C91",
   "status": "partial",
   "theorems": [
    "C91_options_partial",
    "C91_rejects",
    "C91_refuted"
   ],
   "note": "Holds for command lines without -d and -L and with at most ten archives, ten exponents and ten numbers of blocks; the refusals hold after any such command line, whatever follows. False beyond: -d and -L copy strlen+1 bytes into strlen allocated ones, and the eleventh value of a kind makes the array of archive names grow to a number of bytes instead of pointers and writes behind it. The limits are parameters (they are commented out in parfu_primary.h)."
  },
  {
   "property": "C92",
   "status": "partial",
   "theorems": [
    "C92_status",
    "C92_usage",
    "C92_refuted"
   ],
   "note": "The statuses for what is missing hold (C92_status, C92_usage). The first half is false for every command line: archive names are copied without their terminating NUL and then printed, so no run comes to its end with status 0 without reading past an allocation."
  },
  {
   "property": "C93",
   "status": "partial",
   "theorems": [
    "C93_slots_partial",
    "C93_names",
    "C93_refuted",
    "C93_overflow_refuted"
   ],
   "note": "Holds when the number of files divides the number of ranks, the payload is a whole number of ints and (ranks/files) times the buffer size fits an int. False otherwise: with a remainder and two or more iterations, two writes go to the same place and the last part of file 0 is never written; when the rank's part of the offset exceeds INT_MAX the int product overflows (undefined)."
  },
  {
   "property": "C94",
   "status": "partial",
   "theorems": [
    "C94_refused_partial",
    "C94_refuted"
   ],
   "note": "Too few arguments, a negative buffer size or number of iterations, and more files than ranks (aborted by MPI) are refused. False: 0 files divides by zero, more than 10 files (with more than 10 ranks) writes behind an array after a message was printed, a payload of 4 or more bytes above the buffer size writes behind the buffer."
  },
  {
   "property": "C95",
   "status": "proved",
   "theorems": [
    "C95_legacy_never_twice"
   ],
   "note": "For every run of the ranks as modelled in LegacyMpi.v, with no assumption beyond at least one rank and NUL-free arguments."
  },
  {
   "property": "C96",
   "status": "partial",
   "theorems": [
    "C96_never_twice_partial",
    "C96_tree_partial",
    "C96_refuted"
   ],
   "note": "Proved for names and link targets without a tab, paths the planner takes and buckets up to 10^9 bytes (C96_tree_partial) or any bucket where the order texts fit a message; whatever the files do meanwhile. Refuted with tabs: on a tree with one such name every run that ends has overlapping writes. Missing: order texts longer than INT_MAX (possible only with buckets above 10^9 and paths of kilobytes: rank 0 then hangs, C79_exact, while workers may still write)."
  },
  {
   "property": "C97",
   "status": "partial",
   "theorems": [
    "C97_repack_partial"
   ],
   "note": "Conditions of C19 for the first tree (short, tab-free paths, tree unchanged, metadata in range) and a target path without \"..\" (C69); for the second tree they follow. Without them there may be no readable archive to unpack (C19_refuted, C69_refuted)."
  },
  {
   "property": "C98",
   "status": "partial",
   "theorems": [
    "C98_migrate_partial"
   ],
   "note": "Conditions of C50 for the 0.5.1 run, of C19 for the 0.6 run (paths, link targets, metadata in range), and a target path that is neither the current directory itself nor contains \"..\" (C70). Unpacked into the archived directory itself the catalog would become part of the tree."
  },
  {
   "property": "C99",
   "status": "partial",
   "theorems": [
    "C99_same_place_partial",
    "C99_legacy_partial",
    "C99_versions_partial"
   ],
   "note": "Conditions of C69 (0.6) and C70 (0.5.1); the tree does not change between the two runs. Where they fail there may be no readable archive (C19_refuted, C45_refuted) or tar refuses it (C69_refuted)."
  },
  {
   "property": "C100",
   "status": "partial",
   "theorems": [
    "C100_repeat_partial"
   ],
   "note": "Except for the slack of C53, whose bytes the finishing run may leave as the stopped runs left them. The list is the same in all runs; conditions of C53 and C54 (present). That the repeated archive is readable is C49, which holds over every prior file."
  },
  {
   "property": "C101",
   "status": "partial",
   "theorems": [
    "C101_size_partial",
    "C101_same_size_partial"
   ],
   "note": "Conditions of C19 (paths, tabs, metadata in range, slash_safe); where they fail the archive may not be readable at all (C19_refuted). There is no end-of-archive marker in the sum because the program writes none (C33_refuted)."
  },
  {
   "property": "C102",
   "status": "partial",
   "theorems": [
    "C102_member_order_partial",
    "C102_legacy_partial",
    "C102_legacy_same_partial"
   ],
   "note": "Conditions of C19 (0.6) and C50 (0.5.1). The order of directories among each other is C28; that of files of equal size is left open by std::sort in 0.6."
  }
 ]
}