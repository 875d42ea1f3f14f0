#!/usr/bin/env python3
"""Writes MANIFEST.json from the table below; properties without an entry are
listed as partial with no theorem yet."""
import json
T = {
"C01":("proved",["C01_record_length"],"every key and value; int overflow for strings near 2 GiB not modelled"),
"C02":("proved",["C02_header_length"],"length = hdr_size, positive multiple of 512, and the header exists whenever kind and names resolve"),
"C03":("partial",["C03_header_roundtrip_partial","C03_names","C03_mtime_refuted"],"full round trip for ids < 2^21, 0 <= mtime < 2^33, size <> 2^33-1; outside these the code loses the value (C03_mtime_refuted, C05_refuted, C06_refuted)"),
"C04":("proved",["C04_checksum"],"both header blocks"),
"C05":("partial",["C05_ids_partial","C05_refuted"],"ids survive iff below 2^21; the property is false of the code"),
"C06":("partial",["C06_size_partial","C06_refuted"],"size survives iff it is not exactly 2^33-1; false of the code at that size"),
"C07":("partial",["C07_planned_header_partial","C07_planned_header_exact","C07_refuted"],"equal for files, symlinks and directories whose path ends in / or is shorter than 100; a 100-byte directory path is planned 512 and written 1536"),
"C08":("partial",["C08_serialize_partial","C08_refuted"],"holds for a receiving object without link name; a reused object keeps its stale link"),
"C09":("proved",["C09_layout","scanned_entry_wf"],"every list of well-formed entries; unsigned long wrap beyond 2^64 not modelled"),
"C10":("proved",["C10_order_files","C10_comparison"],"std::sort by its contract (any permutation without inversions, provided the comparison is a strict weak order, which is proved)"),
"C11":("proved",["C11_orders_cover","scanned_entry_wf"],"every plannable collection (bucket a multiple of 512, >= 100000, headers not larger than the bucket)"),
"C12":("proved",["C12_bundles_tile","C12_tiles_meaning"],""),
"C13":("partial",["C13_bundle_fits_partial","C13_two_buckets_partial","C13_refuted"],"false of the code (C13_refuted: a sorted collection with a bundle of bucket+512 bytes); proved when files are in order of header+size; in general bounded by two buckets"),
"C14":("proved",["C14_max_orders"],""),
"C15":("proved",["C15_no_empty_bundle","C15_unaligned_refuted"],"for every bucket that is a multiple of 512 as the property quantifies; the second theorem shows the alignment is needed"),
"C47":("proved",["C47_next_available","C58_entries"],"C58_entries: the object method computes the same as the function in the statement"),
"C16":("partial",["C16_orders_roundtrip_partial","C16_planned_roundtrip_partial","C16_two_gib_refuted","C16_tab_refuted"],"round trip for names without tab, numbers < 2^31, text < 4 GiB; false of the code otherwise: any archive with an entry at or past 2 GiB, and any name with a tab, makes the worker throw"),
"C17":("partial",["C17_inside_buffer_partial","C17_refuted"],"proved for bundles that fit their bucket; false of the code through C13"),
"C18":("partial",["C18_bucket_image_partial","C18_refuted"],"headers, contents and tail exact; the padding between entries of a bundle is uninitialised heap memory, so the property is false of the code"),
"C34":("partial",["C34_open_count_partial","C34_refuted"],"false of the code: target files are never closed; exact count proved, and shown unbounded"),
"C46":("partial",["C46_catalog_line_partial","C46_refuted","C58_entries"],"holds for paths and targets without a tab; a symlink with tabs gives two entries the same line"),
"C20":("partial",["C20_schedule_independent_partial","C20_refuted"],"Any two completed runs (any rank counts, any schedules) give the same archive size and cells, for names without tabs; refuted with a tab-laden file name whose parsed order overlaps another bundle."),
"C21":("proved",["C21_exactly_once"],"Invariant over every run of the protocol."),
"C22":("partial",["C22_terminates_partial","C22_refuted"],"Every run is finite (12N+2R+5 steps) and no state before the end is stuck, with >=1 worker and no failing bundle; refuted: 1 rank, or any bundle whose worker dies, never ends."),
"C23":("proved",["C23_shutdown_after_data","C23_reply_rank"],"Final state of every completed run."),
"C24":("partial",["C24_framing_partial","C24_refuted"],"Exact for NUL-free text below 2 GiB; refuted otherwise."),
"C25":("partial",["C25_worker_safe_partial","C25_boss_history","C25_refuted"],"Every write is preceded by a bucket size and a successful open, returns only on X or the documented 7; refuted: null handle, exception, free of a new'd handle, done after a failed open."),
"C26":("proved",["C26_scan_complete","C26_scan_ends","C26_paths_distinct"],"For every tree, readdir order and nesting; the only other outcome of the scan is the undefined behaviour of C29. Directories that cannot be opened and entries lstat/readlink refuses are part of the tree model."),
"C27":("partial",["C27_root_partial","C27_refuted"],"Refuted for every scan: the return value depends on the top directory only; the root case is returned but ignored by main."),
"C28":("proved",["C28_parents_first"],"Proved down to archive offsets for every result of the sort."),
"C29":("partial",["C29_link_target_partial","C29_refuted"],"Right whenever the scan has defined behaviour; the buffer is never NUL-terminated, so any other byte there is an out-of-bounds read."),
"C30":("proved",["C30_command_line","C30_default_aligned"],"For every argument list (each argument below 4 GiB, which the kernel guarantees)."),
"C31":("partial",["C31_any_limit_partial","C31_refuted"],"false of the code: the limit is an uninitialised variable and changes the bundles; whatever it holds, the planner succeeds and describes the same archive."),
"C32":("partial",["C32_not_overwritten_partial","C32_exit_undefined"],"The file is never opened nor written by any rank in any history; but the workers' exit on this path frees an object made with new (undefined behaviour)."),
"C35":("partial",["C35_accepted_partial","C35_refuted"],"false of the code: every refused bucket size ends in a null dereference and no worker is released; every other size is planned and the program runs to its end."),
"C19":("partial",["C19_end_to_end_partial","C19_slash_safe","C19_slash_safe_long","C19_refuted"],"Every history of every rank, every tree: the finished file, with any content of the bytes never written, reads as a tar archive with exactly the scanned entries. Refuted for a directory path of exactly 100 bytes (the archive is unreadable); directory paths below 100 bytes or of 101 to 501 bytes are fine."),
"C33":("partial",["C33_refuted"],"false of the code: no run ever writes end-of-archive blocks."),
"C37":("proved",["C37_total_preorder","C37_sorted_unique"],"For all entries."),
"C38":("partial",["C38_layout_partial","C38_sorted_list","C38_succeeds_partial","C38_refuted","C38_refuted_single"],"Proved when the entries that fit a bucket come first (always so for a sorted list whose headers have the same size); refuted for a sorted list with headers of different sizes, and for a list of one entry."),
"C39":("partial",["C39_round_robin","C39_visits_exactly","C39_check_accepts_partial","C39_room","C39_refuted"],"Round robin and per-bucket loop proved for every list the start-up check accepts; the check accepts every list as in C38 where files over a bucket leave room for a header (always with one-block headers); refuted otherwise: the program gives up."),
"C43":("partial",["C43_append","C43_refuted"],"Proved for lists created for two or more entries (below 2^30 additions); creating a list for one entry writes out of bounds."),
"C36":("partial",["C36_listing_partial","C36_unopenable","C36_refuted"],"Holds for every tree as far as reached by names that do not start with a dot; false of the code for hidden files (dropped). A directory that cannot be opened yields no list, never a silently short one."),
"C40":("partial",["C40_broadcast_partial","C40_refuted"],"Round trip for every list of two or more entries without tabs or NULs in names; a null pad name comes back as text. Refuted: tab in a name, list of one entry (out-of-bounds write)."),
"C41":("partial",["C41_catalog_partial","C41_refuted"],"false of the code: in every created archive the catalog says location -1 for every entry (it is written before the layout is computed); name, type, target and sizes are right."),
"C42":("partial",["C42_refuted"],"false of the code for every archive: both ways to call the reader fail."),
"C44":("proved",["C44_bucket_bridged","C44_archive_bridged"],"For every content of a bucket, at the level of one bucket's write and in the finished file."),
"C45":("partial",["C45_data_start_partial","C45_refuted"],"Holds unless exactly one block is left between catalog and boundary; then (witness: 1000 files) a tar reader sees none of the entries."),
"C48":("partial",["C48_refuted","C48_not_truncated"],"false of the code: every run overwrites the start of whatever file was there, for every prior content, and leaves its tail."),
"C49":("partial",["C49_list_to_archive_partial","C49_run_succeeds"],"Every run, interleaving and prior file. Missing: lists where an entry that fits follows one that does not (C38), gap of one block (C45), metadata out of the tar format's range (C05, C06)."),
"C50":("partial",["C50_create_partial","C50_run_exists_partial"],"C50_run_exists_partial: such a run exists for every tree of 2 to 250000 entries with paths up to M bytes (few_enough: M = 99: 250000 entries, M = 4096: 15000) and link targets up to 100 bytes. From tree to archive for every run; restrictions as in C49, C36 (hidden names), no tabs in names, and headers of one block or files within one bucket."),
"C51":("partial",["C51_refuted"],"false of the code: X and T return 0 and do nothing."),
"C52":("partial",["C52_crash_partial","C52_refuted"],"Every history, crash point and torn write; no tabs in names, no file changed since the scan. Refuted when a name contains a tab (C11)."),
"C53":("partial",["C53_ranks_partial","C53_refuted"],"Same size and same bytes except between the end of a file's bytes and the end of its last block; there false of the code: stale bytes of the rank's previous bucket."),
"C54":("partial",["C54_legacy_crash_partial","C54_refuted"],"Every byte is the old one or the finished one (or in the slack of C53). False that a stopped run leaves the old or the new archive: new catalog in front of old data."),
"C55":("partial",["C55_create_completes_partial","C55_completes_iff_partial","C55_refuted"],"Proved for trees with paths below 100 bytes, link targets up to 100, no tabs, together below 2 GiB - 1 KiB in the archive, quiet heap (C28). False of the code for trees that take 2 GiB or more: no run ever ends. The protocol model starts with workers that know the bucket size; sizes beyond INT_MAX never get there (C80)."),
"C56":("proved",["C56_no_starvation"],"Every number of ranks and order sets, every schedule."),
"C57":("partial",["C57_truncated_partial","C57_lines_partial","C57_rounds","C57_refuted","C57_garbage_refuted"],"Any prefix of a printed bundle (names without tab and newline) and any lines of seven or more tabs are handled; false of the code for lines with fewer tabs: endless loop, or a made-up order."),
"C58":("partial",["C58_header_exact","C58_header_current_partial","C58_entries","C58_refuted"],"Exact for every history; current as long as set_symlink_target is not used; false of the code after it (cached size)."),
"C59":("partial",["C59_file_copy_partial","C59_directory_partial","C59_refuted"],"Target files: proved. Directories and collections: false of the code (undefined unless empty)."),
"C60":("partial",["C60_rescan_partial","C60_refuted"],"Every sequence of calls; the returned value is 0, never the number of entries."),
"C61":("partial",["C61_refuted"],"false of the code: the line is ignored."),
"C62":("partial",["C62_copies_partial","C62_refuted"],"false of the code for every object: MPI_File_open gets a null pointer. (No program in the repository calls it.)"),
"C63":("partial",["C63_name_of_order_partial","C63_refuted"],"All indices but one; at index = number of orders it throws."),
"C64":("partial",["C64_free_partial","C64_split_partial","C64_models_agree","C64_refuted","C64_pads_refuted"],"Exact boundary: freeable iff the list never grew or is full to the last slot; after a layout with padding the two lists share pad names. False of the code in general."),
"C65":("proved",["C65_refused_no_effect"],""),
"C66":("partial",["C66_announced_partial","C66_refuted"],"False of the code: only unknown flags are announced to the other ranks; in all other cases they wait for a broadcast that never comes (unless the MPI launcher kills them)."),
"C67":("partial",["C67_filled_partial","C67_refuted"],"Proved when the files come in order of header+size; in the order the program's own sort delivers a set can be cut short (C67_refuted)."),
"C68":("partial",["C68_same_members_partial"],"Under the conditions of C19 (short, tab-free paths, tree unchanged); without them there may be no readable archive (C19_refuted)."),
"C69":("partial",["C69_unpack_partial","C69_refuted"],"Conditions of C19 and a target path without \"..\"; with \"..\" the archive of every run is refused by a careful tar (C69_refuted)."),
"C70":("partial",["C70_legacy_unpack_partial"],"Conditions of C50; the tree must not be unpacked over the catalog or spacer name. Where they fail the code violates the property: C36_refuted, C45_refuted."),
"C71":("partial",["C71_resized_files_partial","C71_shrunk_files_partial","C71_refuted"],"Proved for size changes that keep each file within the 512-byte blocks it had at the scan and below 8 GiB, under the hypotheses of C19. False of the code otherwise (C71_refuted): the worker re-reads the size for the header but keeps the planned space, so a file that outgrows its blocks makes the rest of the archive unreadable."),
"C72":("partial",["C72_unopenable_partial","C72_refuted","C72_gone_refuted"],"Proved under the hypotheses of C19: all members are listed with right metadata and all others have the right contents, whichever files cannot be opened. False of the code otherwise: the contents stored for the unopenable file are whatever the worker's memory held and the run ends normally (C72_refuted); and if an entry is gone (lstat fails) the worker exits and, unless the MPI launcher kills the job, the run never ends (C72_gone_refuted, for every tree, entry and schedule)."),
"C73":("partial",["C73_linked_target_partial","C73_legacy_partial"],"Proved for both versions whatever lstat says of the link, under the conditions of C19 (0.6) and C50 (0.5.1)."),
"C74":("partial",["C74_legacy_partial","C74_refuted"],"0.5.1 lists nothing and makes no archive (its rank 0 returns; the other ranks are left waiting, C87_refuted). False of 0.6, for every command line and schedule (C74_refuted): it makes the archive file, hands out orders, a worker exits and no run ends."),
"C75":("partial",["C75_versions_agree_partial"],"Proved under the conditions of C19 (0.6) and C50 (0.5.1); the members only 0.6 has are shown to lie at or below names starting with a dot."),
"C76":("partial",["C76_slash_partial","C76_same_place","C76_legacy"],"0.6: same members with one more slash in the path, under the conditions of C19 for both spellings. 0.5.1: the runs are identical, unless the slash changes the size of the target's own header (C07)."),
"C77":("proved",["C77_no_mpi_error","C77_bounded","C77_texts_fit_partial"],"Message-level model of all ranks (Mpi.v): lengths, texts, broadcasts, collective open, replies and MPI_Finalize are steps of their own. Hypothesis: every bundle text fits an MPI count (texts_fit); C77_texts_fit_partial: so it is for every tree and bucket up to 10^9 bytes."),
"C78":("proved",["C78_all_or_hang","C77_texts_fit_partial"],"Message-level model; by refinement to the protocol of C21-C25. texts_fit as in C77."),
"C79":("partial",["C79_create_partial","C79_exact_partial"],"Message-level total correctness. C79_create_partial: trees with C55's restrictions (paths below 100 bytes, below 2 GiB, no tabs, quiet heap) and bucket size an int; C79_exact_partial covers longer paths and says exactly which plans get through (every bundle movable), the others never. Beyond these the code is wrong (C80, C55_refuted, C04, C28)."),
"C80":("partial",["C80_refuted","C79_create_partial"],"False of the code: bucketsize=2147483647 is rounded up to 2^31, every worker throws on the U order, nothing is created and no rank gets through. For buckets up to INT_MAX see C79."),
"C81":("proved",["C81_only_a_new_archive","C81_existing"],"Message-level model, all ways rank 0 can end."),
"C82":("partial",["C82_refuted","C79_create_partial"],"False of the code whenever main stops before the collective open: no other rank is ever past MPI_Finalize. The good case is C79."),
"C83":("partial",["C83_refuted","C81_existing"],"False of the code: the workers free() the handle made with new when told to stop (C32_exit_undefined), so every run ends with all of them in undefined behaviour and rank 0 waiting in MPI_Finalize. What holds: files are untouched (C81), no message is misunderstood before that."),
"C84":("proved",["C84_no_mpi_error","C84_bounded"],"Arguments without NUL bytes (argv has none). MPI_Finalize and MPI_Barrier counted as collective calls."),
"C85":("proved",["C85_zero_is_complete"],"qsort's contract is a hypothesis on the sort function (C37). What the complete archive contains: C49, C50. In the modes X and T, 0 is returned although nothing is done (C51)."),
"C86":("partial",["C86_create_partial","C86_small_partial"],"Bounds and restrictions of C50 (2 to 250000 entries, paths up to M bytes as in C50_run_exists_partial, link targets up to 100 bytes, no tabs, no unreadable directory); the catalog must not end one block before a bucket boundary (C45), which cannot happen up to (M + 167) n <= 4190000 (15000 entries with paths up to 99 bytes). C86_long_witness: a path of 155 bytes."),
"C87":("partial",["C87_refuted","C86_create_partial"],"False of the code: unknown mode, target that is no directory, file that vanished: the other ranks wait for ever, in every run. The good case is C86."),
"C88":("proved",["C88_zero_means_found"],"Bounds on the list as in C50. An empty file is not opened, so only its metadata counts."),
"C89":("partial",["C89_unnoticed_partial","C89_resized_files_partial","C89_shrunk_files_partial","C89_refuted"],"As C71, for 0.5.1 and over every run of all ranks: with the bounds of C86, and new sizes that keep each file within the 512-byte blocks it was listed with, the archive is right. Whatever the new sizes (within C50's bounds), every run ends with 0 on every rank (C89_unnoticed_partial). False of the code otherwise (C89_refuted): a file that outgrew its blocks hides another file from a tar reader, and the program returns 0."),
"C90":("partial",["C90_text_safe_partial","C90_text_made_partial","C90_refuted"],"Holds for every list of 1 to 10,737,418 entries, whatever their strings; and up to 4,000,000 entries and about 500 million bytes the text is made. False beyond: the first size of the buffer, 200 times the number of entries, is an int product that overflows for every longer list, and for the empty list the 56 bytes of the heading are written into an allocation of 0 bytes."),
"C91":("partial",["C91_options_partial","C91_rejects","C91_refuted"],"Holds for command lines without -d and -L and with at most ten archives, ten exponents and ten numbers of blocks; the refusals hold after any such command line, whatever follows. False beyond: -d and -L copy strlen+1 bytes into strlen allocated ones, and the eleventh value of a kind makes the array of archive names grow to a number of bytes instead of pointers and writes behind it. The limits are parameters (they are commented out in parfu_primary.h)."),
"C92":("partial",["C92_status","C92_usage","C92_refuted"],"The statuses for what is missing hold (C92_status, C92_usage). The first half is false for every command line: archive names are copied without their terminating NUL and then printed, so no run comes to its end with status 0 without reading past an allocation."),
"C93":("partial",["C93_slots_partial","C93_names","C93_refuted","C93_overflow_refuted"],"Holds when the number of files divides the number of ranks, the payload is a whole number of ints and (ranks/files) times the buffer size fits an int. False otherwise: with a remainder and two or more iterations, two writes go to the same place and the last part of file 0 is never written; when the rank's part of the offset exceeds INT_MAX the int product overflows (undefined)."),
"C94":("partial",["C94_refused_partial","C94_refuted"],"Too few arguments, a negative buffer size or number of iterations, and more files than ranks (aborted by MPI) are refused. False: 0 files divides by zero, more than 10 files (with more than 10 ranks) writes behind an array after a message was printed, a payload of 4 or more bytes above the buffer size writes behind the buffer."),
"C95":("proved",["C95_legacy_never_twice"],"For every run of the ranks as modelled in LegacyMpi.v, with no assumption beyond at least one rank and NUL-free arguments."),
"C96":("partial",["C96_never_twice_partial","C96_tree_partial","C96_refuted"],"Proved for names and link targets without a tab, paths the planner takes and buckets up to 10^9 bytes (C96_tree_partial) or any bucket where the order texts fit a message; whatever the files do meanwhile. Refuted with tabs: on a tree with one such name every run that ends has overlapping writes. Missing: order texts longer than INT_MAX (possible only with buckets above 10^9 and paths of kilobytes: rank 0 then hangs, C79_exact, while workers may still write)."),
"C97":("partial",["C97_repack_partial"],"Conditions of C19 for the first tree (short, tab-free paths, tree unchanged, metadata in range) and a target path without \"..\" (C69); for the second tree they follow. Without them there may be no readable archive to unpack (C19_refuted, C69_refuted)."),
"C98":("partial",["C98_migrate_partial"],"Conditions of C50 for the 0.5.1 run, of C19 for the 0.6 run (paths, link targets, metadata in range), and a target path that is neither the current directory itself nor contains \"..\" (C70). Unpacked into the archived directory itself the catalog would become part of the tree."),
"C99":("partial",["C99_same_place_partial","C99_legacy_partial","C99_versions_partial"],"Conditions of C69 (0.6) and C70 (0.5.1); the tree does not change between the two runs. Where they fail there may be no readable archive (C19_refuted, C45_refuted) or tar refuses it (C69_refuted)."),
"C100":("partial",["C100_repeat_partial"],"Except for the slack of C53, whose bytes the finishing run may leave as the stopped runs left them. The list is the same in all runs; conditions of C53 and C54 (present). That the repeated archive is readable is C49, which holds over every prior file."),
"C101":("partial",["C101_size_partial","C101_same_size_partial"],"Conditions of C19 (paths, tabs, metadata in range, slash_safe); where they fail the archive may not be readable at all (C19_refuted). There is no end-of-archive marker in the sum because the program writes none (C33_refuted)."),
"C102":("partial",["C102_member_order_partial","C102_legacy_partial","C102_legacy_same_partial"],"Conditions of C19 (0.6) and C50 (0.5.1). The order of directories among each other is C28; that of files of equal size is left open by std::sort in 0.6."),
}
exec(open('/verif/manifest_more.py').read()) if __import__('os').path.exists('/verif/manifest_more.py') else None
ids=[json.loads(l)["id"] for l in open('/verif/properties.jsonl')]
claims=[]
for i in ids:
    if i in T:
        s,t,n=T[i]; claims.append({"property":i,"status":s,"theorems":t,"note":n})
    else:
        claims.append({"property":i,"status":"partial","theorems":[],"note":"not yet proved"})
json.dump({"claims":claims},open('/verif/MANIFEST.json','w'),indent=1)
