{"id": "C01", "title": "pax record length is self-consistent", "statement": "The length parfu puts in front of a pax extended record 'N key=value\\n' is exactly the number of bytes of that record, its own decimal digits included, and the search for it always ends within the three rounds its assertion allows.", "quantifier": "every keyword and every value, of any length", "why_tests_cant": "a test samples a few lengths; the digit-count boundaries (9/10, 99/100, 999/1000, ...) are infinitely many and the loop's termination bound is a claim about all of them", "anchors": ["tarentry.cc: tarentry::record_length (311-322)"]}
{"id": "C02", "title": "emitted header has the announced length and is block aligned", "statement": "For every file, directory and symlink the tar header parfu emits has exactly the length hdr_size() announces, and that length is a positive multiple of 512.", "quantifier": "every path, link target, size and stat record", "why_tests_cant": "lengths range over all names and sizes; only a proof covers every pax boundary", "anchors": ["tarentry.cc: make_tar_header (127-176), hdr_size (183-189), get_paxsize (191-212)"]}
{"id": "C03", "title": "header round-trip through an independent tar reader", "statement": "Reading an emitted header back with a ustar/pax reader written from the POSIX description yields the same path, link target, entry type, permission bits, modification time, owner, group and size.", "quantifier": "every file, directory and symlink whose numeric fields are in the ranges the format can carry", "why_tests_cant": "a round-trip over all names, lengths and numbers cannot be enumerated", "anchors": ["tarentry.cc: make_tar_header (127-176), make_ustar_header_block (214-309)"]}
{"id": "C04", "title": "header checksum verifies", "statement": "Each 512-byte header block parfu emits (the pax block and the ustar block) carries a checksum field that equals, read as octal, the sum of the block's bytes with the checksum field taken as blanks.", "quantifier": "every header block for every entry", "why_tests_cant": "the checksum depends on all 512 bytes; a sample of entries says nothing about the field width for extreme contents", "anchors": ["tarentry.cc: make_ustar_header_block (304-308)"]}
{"id": "C05", "title": "owner and group ids survive", "statement": "The numeric uid and gid of an archived entry are the ones a tar reader recovers from the header.", "quantifier": "every uid and gid the platform can hold", "why_tests_cant": "ids at and above 2^21 occur on real systems but not on test machines; the claim is about all of them", "anchors": ["tarentry.cc: make_ustar_header_block (256-259)"]}
{"id": "C06", "title": "regular file size survives in the header", "statement": "The size a tar reader recovers from the header of a regular file is the size of the file.", "quantifier": "every file size, including those at the limit of the 11-digit octal field", "why_tests_cant": "the boundary is at 8 GiB: a test would need an 8 GiB file of one exact size", "anchors": ["tarentry.cc: make_ustar_header_block (260-263), get_paxsize (205-209)", "tarentry.hh: MAX_FILE_SIZE"]}
{"id": "C07", "title": "planned header size equals the header actually written", "statement": "The room the boss rank reserves for an entry's tar header equals the length of the header the worker later writes there.", "quantifier": "every regular file, symlink and directory with any path and target", "why_tests_cant": "the two computations differ only on particular path lengths, which random tests do not hit", "anchors": ["parfu_file_system_classes.cc: Parfu_storage_entry::header_size (214-222)", "tarentry.cc: compute_hdr_size (324-333), tarentry ctor (79-83)", "parfu_rank_move_data.cc: parfu_make_tar_header_at (229-243)"]}
{"id": "C08", "title": "tar entry serialisation round-trip", "statement": "Deserialising what serialize() produced gives back the same entry and consumes exactly the bytes produced, whatever follows them in the buffer and whatever object receives it.", "quantifier": "every entry and every receiving object", "why_tests_cant": "names range over all byte strings and the receiving object over all states", "anchors": ["tarentry.cc: deserialize (86-108), serialize (110-125)"]}
{"id": "C09", "title": "archive layout: aligned, ordered, disjoint, gap-free", "statement": "After offsets are set every entry starts on a 512-byte boundary, entries follow each other in list order without overlapping, and only the padding up to the next block boundary separates them.", "quantifier": "every list of directories and files with any header and file sizes", "why_tests_cant": "it is an invariant of a loop over arbitrarily long lists", "anchors": ["parfu_file_system_classes.cc: set_offsets (619-681), parfu_next_block_boundary (604-615)"]}
{"id": "C10", "title": "ordering files loses and duplicates nothing", "statement": "Ordering the collection keeps exactly the same multiset of files and symlinks, leaves directories first, and lists files by non-decreasing size with symlinks before all regular files.", "quantifier": "every collection and every outcome the unstable sort may produce", "why_tests_cant": "std::sort is unstable: the claim is about every permutation it may return", "anchors": ["parfu_file_system_classes.cc: order_files (599-602), sort_by_size (595-597), Parfu_target_collection ctor (443-550)"]}
{"id": "C11", "title": "transfer orders cover every byte exactly once", "statement": "The orders handed to workers together contain, for every entry, its header exactly once at its offset and every byte of its contents exactly once at the right archive position, whether the entry fits a bucket or is cut into several pieces.", "quantifier": "every collection, bucket size and order limit accepted by the planner", "why_tests_cant": "the cut points depend on sizes and bucket; coverage is a property of the whole plan", "anchors": ["parfu_file_system_classes.cc: create_transfer_orders (683-932)"]}
{"id": "C12", "title": "bundles tile the archive", "statement": "The archive range each worker writes for one bundle never overlaps the range of another bundle and together the ranges cover the archive from byte 0 to its end.", "quantifier": "every collection, bucket size that is a multiple of 512 and order limit", "why_tests_cant": "overlaps would appear only for particular size combinations", "anchors": ["parfu_file_system_classes.cc: create_transfer_orders (683-932)", "parfu_rank_move_data.cc: move_data_Create (132-138,202-203)"]}
{"id": "C13", "title": "a bundle fits in the bucket", "statement": "No bundle of orders describes more than bucket_size bytes of archive, so the worker's staging buffer of bucket_size bytes is large enough.", "quantifier": "every collection, bucket size and order limit", "why_tests_cant": "the failing combination mixes a split file with a smaller-extent file of equal size; random tests do not produce it", "anchors": ["parfu_file_system_classes.cc: create_transfer_orders (683-932)", "parfu_rank_move_data.cc: move_data_Create (127-135,150-161)"]}
{"id": "C14", "title": "maxorders limits the orders in a bundle", "statement": "When a positive maximum number of orders is given, no bundle contains more orders than that; zero means no limit.", "quantifier": "every collection, bucket size and limit", "why_tests_cant": "counter logic over arbitrarily long lists", "anchors": ["parfu_file_system_classes.cc: create_transfer_orders (697-698,748-782,806-836,855-922)"]}
{"id": "C15", "title": "no empty bundle is ever sent", "statement": "Every bundle the planner produces contains at least one order (a worker handed an empty bundle would read the front of an empty vector), and the planner refuses bucket sizes under 100000 and empty collections.", "quantifier": "every collection, bucket size that is a multiple of 512 and limit", "why_tests_cant": "an empty bundle would need a special size pattern", "anchors": ["parfu_file_system_classes.cc: create_transfer_orders (683-932)", "parfu_rank_move_data.cc: move_data_Create (132-133), total_size (248-262)"]}
{"id": "C16", "title": "orders survive the trip to the worker", "statement": "Parsing the text of a bundle yields exactly the orders that were printed: same name, type, target, sizes and positions, in the same order.", "quantifier": "every bundle of orders", "why_tests_cant": "names and numbers range over everything a filesystem can contain, including separators and values over 2^31", "anchors": ["parfu_file_system_classes.cc: print_marching_order_raw (945-973)", "parfu_rank_move_data.cc: Parfu_rank_order_set ctor (25-95)"]}
{"id": "C17", "title": "worker never writes outside its staging buffer", "statement": "Assembling a bundle touches only bytes inside the staging buffer of bucket_size bytes, and never writes undefined bytes beyond it.", "quantifier": "every bundle the planner can produce for every tree", "why_tests_cant": "memory errors show only for inputs that trigger them", "anchors": ["parfu_rank_move_data.cc: move_data_Create (100-227)"]}
{"id": "C18", "title": "bucket image: headers and contents in place, nothing else leaks", "statement": "The block a worker writes for a bundle has each entry's header and contents at the planned place and zero bytes everywhere else.", "quantifier": "every bundle that fits its bucket", "why_tests_cant": "uninitialised memory is often zero in tests", "anchors": ["parfu_rank_move_data.cc: move_data_Create (120-222)"]}
{"id": "C19", "title": "end to end: the archive unpacks to the tree that was archived", "statement": "After a successful run an independent tar reader walking the archive file lists exactly the directories, files and symlinks of the target tree, each once, with its path, type, link target, size and contents.", "quantifier": "every directory tree, number of workers and interleaving of their work", "why_tests_cant": "it composes planning, messaging, concurrency and header encoding for unbounded trees and schedules", "anchors": ["parfu_main_0_6_test.cc: main (37-284)", "parfu_file_system_classes.cc", "parfu_boss_functions.cc", "parfu_worker_node.cc", "parfu_rank_move_data.cc", "tarentry.cc"]}
{"id": "C20", "title": "the archive does not depend on the schedule", "statement": "Every defined byte of the finished archive is the same whatever number of workers takes part, whichever worker gets which bundle and in whichever order they finish.", "quantifier": "every number of workers and every interleaving", "why_tests_cant": "a test sees a handful of interleavings of unboundedly many", "anchors": ["parfu_boss_functions.cc: push_out_all_orders (91-202)", "parfu_worker_node.cc (190-236)", "parfu_rank_move_data.cc: move_data_Create (213-222)"]}
{"id": "C21", "title": "every bundle is processed exactly once", "statement": "In every run of the boss/worker protocol each bundle is sent to exactly one worker and executed exactly once, and no worker is given a bundle while it still works on another.", "quantifier": "every number of bundles and workers and every interleaving", "why_tests_cant": "depends on message races that tests cannot enumerate", "anchors": ["parfu_boss_functions.cc: push_out_all_orders (91-202)", "parfu_worker_node.cc (190-236)"]}
{"id": "C22", "title": "distribution always terminates, without deadlock", "statement": "Handing out the orders always finishes: no run gets stuck with the boss waiting for a reply that never comes.", "quantifier": "every number of ranks the program can be started with, every number of bundles, every interleaving", "why_tests_cant": "deadlocks are schedule and count dependent", "anchors": ["parfu_boss_functions.cc: push_out_all_orders (91-202)"]}
{"id": "C23", "title": "shutdown only after all data is written", "statement": "When the boss sends the shutdown message every bundle has already been written to the archive and every worker is idle.", "quantifier": "every run", "why_tests_cant": "ordering claim over all interleavings", "anchors": ["parfu_boss_functions.cc: push_out_all_orders (141-199)", "parfu_main_0_6_test.cc (250-263)"]}
{"id": "C24", "title": "message framing delivers the text intact", "statement": "The string a worker reconstructs from a message is the instruction letter followed by the text the boss passed.", "quantifier": "every instruction and message text", "why_tests_cant": "texts range over all byte strings, including those with embedded NUL", "anchors": ["parfu_boss_functions.cc: parfu_broadcast_order (28-56), parfu_send_order_to_rank (59-87)", "parfu_worker_node.cc (115-140,178-196)"]}
{"id": "C25", "title": "worker state machine is safe for any message sequence", "statement": "Whatever sequence of messages a worker receives, it only moves data after it was given a bucket size and after the archive file was opened, and it stops only on an exit message or the documented error.", "quantifier": "every sequence of messages", "why_tests_cant": "message sequences are unbounded", "anchors": ["parfu_worker_node.cc: parfu_worker_node (70-270)"]}
{"id": "C26", "title": "the directory scan finds everything exactly once", "statement": "Scanning a directory records every regular file, symlink and subdirectory at any depth exactly once, hidden ones included, skipping only '.' and '..' and unsupported types.", "quantifier": "every directory tree of any depth and width", "why_tests_cant": "trees are unbounded", "anchors": ["parfu_file_system_classes.cc: spider_directory (268-441)", "parfu_2021_legacy.cc: parfu_what_is_path (30-97)"]}
{"id": "C27", "title": "a directory that cannot be opened is reported", "statement": "If a subdirectory cannot be opened during the scan, the scan reports failure to its caller instead of silently omitting the subdirectory's contents.", "quantifier": "every tree and every pattern of open failures, including running out of descriptors", "why_tests_cant": "needs failure injection at every directory", "anchors": ["parfu_file_system_classes.cc: spider_directory (296-299,427-440)"]}
{"id": "C28", "title": "parents precede children in the archive", "statement": "In the collection and thus in the archive every directory precedes its subdirectories and all its files, so sequential extraction always finds the parent present.", "quantifier": "every directory tree", "why_tests_cant": "unbounded trees", "anchors": ["parfu_file_system_classes.cc: Parfu_target_collection ctor (443-550)"]}
{"id": "C29", "title": "recorded symlink target is the real target", "statement": "The link target recorded for a symlink during the scan is exactly the link's target.", "quantifier": "every link target and every prior content of the heap", "why_tests_cant": "depends on uninitialised heap bytes that are usually zero in tests", "anchors": ["parfu_2021_legacy.cc: parfu_what_is_path (62-82)"]}
{"id": "C30", "title": "command line semantics", "statement": "Arguments without '=' are returned as targets in order; maxorders, bucketsize and archivefile set their values with the last occurrence winning; any other flag is refused; the resulting bucket size is a multiple of 512 and not smaller than requested.", "quantifier": "every argument list", "why_tests_cant": "argument lists are unbounded", "anchors": ["parfu_parse_args.cc: parfu_parse_args (27-93)"]}
{"id": "C31", "title": "absent maxorders means a defined default", "statement": "When maxorders is not on the command line the planner still runs with a defined limit.", "quantifier": "every command line without maxorders", "why_tests_cant": "an uninitialised stack variable tends to hold a stable value in a given build", "anchors": ["parfu_main_0_6_test.cc (49,97-101,170)"]}
{"id": "C32", "title": "an existing archive is never overwritten", "statement": "If the archive path already names a file, creating an archive with the 0.6 program fails and leaves that file's bytes as they were.", "quantifier": "every prior file content and every run", "why_tests_cant": "safety over all runs", "anchors": ["parfu_main_0_6_test.cc (212-229)", "parfu_worker_node.cc (148-153)"]}
{"id": "C33", "title": "the archive ends with the tar end-of-archive marker", "statement": "The finished archive ends with at least two zero blocks after the last entry, as the tar format requires.", "quantifier": "every tree", "why_tests_cant": "extractors tolerate its absence to different degrees", "anchors": ["parfu_rank_move_data.cc: move_data_Create (202-222)", "parfu_data_transfer.cc: parfu_wtar_archive_one_bucket_singFP (880-915)"]}
{"id": "C34", "title": "workers do not accumulate open files", "statement": "A worker has at most a bounded number of target files open at any time, however many files its bundles contain.", "quantifier": "every sequence of bundles", "why_tests_cant": "the leak only bites after thousands of files", "anchors": ["parfu_rank_move_data.cc: move_data_Create (181-199)"]}
{"id": "C35", "title": "too small a bucket is refused cleanly", "statement": "A bucket size the planner refuses makes the program stop with an error and release the workers.", "quantifier": "every bucket size below the planner's minimum", "why_tests_cant": "needs the whole start-up sequence for each value", "anchors": ["parfu_file_system_classes.cc: create_transfer_orders (702-706)", "parfu_main_0_6_test.cc (170-171)"]}
{"id": "C36", "title": "legacy directory listing is complete", "statement": "The 0.5.1 listing of a directory tree contains every regular file, symlink and subdirectory exactly once.", "quantifier": "every directory tree", "why_tests_cant": "unbounded trees; the omission depends on names", "anchors": ["parfu_file_list_utils.cc: parfu_build_file_list_from_directory (1185-1448)"]}
{"id": "C37", "title": "legacy sort order is a total order and keeps all entries", "statement": "The 0.5.1 comparison (size, then name) is a consistent total preorder - antisymmetric, transitive - so qsort is well defined, and it identifies only entries with the same size and name.", "quantifier": "every pair and triple of entries", "why_tests_cant": "qsort with an inconsistent comparison is undefined behaviour for some inputs only", "anchors": ["parfu_file_list_utils.cc: parfu_compare_fragment_entry_by_size (1526-1541), parfu_qsort_entry_list (1543ff)"]}
{"id": "C38", "title": "legacy layout keeps entries apart and inside their bucket", "statement": "The 0.5.1 layout gives every fragment an archive range that lies inside the bucket it is assigned to, that overlaps no other fragment, and fragments of one file are consecutive pieces covering it.", "quantifier": "every sorted entry list, bucket size and blocking size", "why_tests_cant": "depends on combinations of sizes and header sizes", "anchors": ["parfu_file_list_utils.cc: parfu_set_offsets_and_split_ffel (631-1172)"]}
{"id": "C39", "title": "legacy: each bucket is written by exactly one rank", "statement": "With any number of ranks the round-robin loop makes every bucket index be processed by exactly one rank, exactly once, and the per-bucket loop processes exactly the entries of that bucket.", "quantifier": "every number of ranks and buckets and every entry list", "why_tests_cant": "unbounded counts", "anchors": ["parfu_data_transfer.cc: parfu_wtar_archive_allbuckets_singFP (445-556)", "parfu_file_list_utils.cc: parfu_rank_call_list_from_ffel (1845-1899)"]}
{"id": "C40", "title": "legacy split list survives the broadcast", "statement": "Every rank reconstructs from the broadcast buffer the same fragment list the boss serialised.", "quantifier": "every fragment list", "why_tests_cant": "names and numbers unbounded", "anchors": ["parfu_buffer_utils.c: parfu_fragment_list_to_buffer (116-293), parfu_buffer_to_file_fragment_list (463-775)"]}
{"id": "C41", "title": "legacy catalog records where each file is", "statement": "The catalog stored in the archive gives, for each entry, its location in the archive's data area.", "quantifier": "every list of entries", "why_tests_cant": "needs the order of planning and catalog writing for every list", "anchors": ["parfu_data_transfer.cc: parfu_wtar_archive_list_to_singeFP (110-310)"]}
{"id": "C42", "title": "legacy catalog can be read back from an archive", "statement": "Reading the catalog from an archive file written by parfu 0.5.1 succeeds and yields the stored list.", "quantifier": "every archive", "why_tests_cant": "requires round-trip over all lists", "anchors": ["parfu_buffer_utils.c: parfu_ffel_from_file (811-902)"]}
{"id": "C43", "title": "legacy list append", "statement": "Appending to the entry list keeps all previous entries unchanged and in order, adds exactly the new one at the end, for any number of appends, and never writes past the allocation.", "quantifier": "every sequence of appends", "why_tests_cant": "growth happens at every power of two", "anchors": ["parfu_file_list_utils.cc: create_parfu_file_fragment_entry_list (27-76), parfu_add_entry_to_ffel_raw (190-327)"]}
{"id": "C44", "title": "legacy bucket is bridged to the next one", "statement": "After the data of a bucket the 0.5.1 writer places a spacer header whose declared size makes a tar reader land exactly on the next bucket's first header.", "quantifier": "every amount of data in a bucket", "why_tests_cant": "the gap takes every multiple of the block size", "anchors": ["parfu_data_transfer.cc: parfu_wtar_archive_one_bucket_singFP (786-806)", "parfu_buffer_utils.c: parfu_construct_tar_header_for_space (342-385)"]}
{"id": "C45", "title": "legacy data area starts after the catalog on a bucket boundary", "statement": "The data area starts at a multiple of the bucket size, after the catalog's header and contents, and the gap between is bridged so that a tar reader reaches the data area.", "quantifier": "every catalog length and bucket size", "why_tests_cant": "gap sizes around one block are corner cases", "anchors": ["parfu_data_transfer.cc: parfu_wtar_archive_list_to_singeFP (120-290)"]}
{"id": "C46", "title": "catalog line of an entry", "statement": "The archive catalog line of an entry determines its path, type, link target, size and header size.", "quantifier": "every entry", "why_tests_cant": "strings unbounded", "anchors": ["parfu_file_system_classes.cc: generate_archive_catalog_line (107-148)"]}
{"id": "C47", "title": "entry placement helper agrees with the layout", "statement": "Stringing entries together with next_available_after_me gives the same end of archive as set_offsets.", "quantifier": "every list of entries", "why_tests_cant": "loop invariant over arbitrary lists", "anchors": ["parfu_file_system_classes.cc: next_available_after_me (53-90), set_offsets (619-681)"]}
{"id": "C48", "title": "legacy: an existing archive is never overwritten", "statement": "If the archive path already names a file, creating an archive with the 0.5.1 program fails and leaves that file's bytes as they were.", "quantifier": "every prior file content and every run", "why_tests_cant": "must hold for every prior content, list of entries and number of ranks", "anchors": ["parfu_data_transfer.cc: parfu_wtar_archive_list_to_singeFP (250-330)"]}
{"id": "C49", "title": "legacy: the archive of a list holds every entry", "statement": "An archive the 0.5.1 writer makes from a list of entries is a tar file: an ordinary tar reader finds the catalog, then every entry of the list exactly once, in order, with its path, type, link target, size, contents and metadata, and nothing else but spacers.", "quantifier": "every list of entries, file contents, number of ranks, interleaving of the ranks' writes and prior file", "why_tests_cant": "layout, fragments over several buckets and interleavings are unbounded", "anchors": ["parfu_data_transfer.cc: parfu_wtar_archive_list_to_singeFP, parfu_wtar_archive_allbuckets_singFP, parfu_wtar_archive_one_bucket_singFP"]}
{"id": "C50", "title": "legacy end to end: create mode archives the tree", "statement": "parfu 0.5.1 in create mode makes an archive from which a tar reader gets the catalog and exactly the files, symlinks and directories under the target (reached by names without a leading dot), each once, as the file system shows them.", "quantifier": "every directory tree, listing order, number of ranks, interleaving of writes and prior file", "why_tests_cant": "must hold for every tree and every interleaving", "anchors": ["parfu_0_5_1_main_versA.c: main", "parfu_file_list_utils.cc: parfu_build_file_list_from_directory, parfu_qsort_entry_list", "parfu_buffer_utils.c: parfu_ffel_fill_rel_filenames", "parfu_data_transfer.cc: parfu_wtar_archive_list_to_singeFP"]}
{"id": "C51", "title": "legacy: every documented mode does its work or fails", "statement": "The 0.5.1 program, started in a documented mode (create, extract, list), does what the usage text says or returns an error.", "quantifier": "every command line, archive and rank", "why_tests_cant": "must hold for every archive and target", "anchors": ["parfu_0_5_1_main_versA.c: main (68-113, 135-276)"]}
{"id": "C52", "title": "a crash leaves no wrong byte", "statement": "If the 0.6 archiver is stopped at any moment of a create, every byte of the archive file is still unwritten or is the byte of the finished archive at that place, and every bundle whose write had returned is there completely.", "quantifier": "every tree, plan, number of ranks, history of the protocol, crash point and set of writes under way", "why_tests_cant": "crash points and schedules are unbounded", "anchors": ["parfu_file_system_classes.cc: Parfu_target_collection::create_archive, parfu_worker_node, Parfu_rank_order_set::move_data_Create"]}
{"id": "C53", "title": "legacy: the archive does not depend on the number of ranks", "statement": "parfu 0.5.1 makes the same archive from the same list whatever the number of ranks and the timing of their writes.", "quantifier": "every list, numbers of ranks, interleavings and prior files", "why_tests_cant": "every pair of runs is compared", "anchors": ["parfu_data_transfer.cc: parfu_wtar_archive_allbuckets_singFP, parfu_wtar_archive_one_bucket_singFP"]}
{"id": "C54", "title": "legacy: a crash leaves no wrong byte", "statement": "If parfu 0.5.1 is stopped at any moment of a create, the archive file is either as it was before or every byte in it is the one that was there before or the one of the finished archive.", "quantifier": "every list, number of ranks, prior file, crash point and set of bytes that reached the disk", "why_tests_cant": "crash points are unbounded", "anchors": ["parfu_data_transfer.cc: parfu_wtar_archive_list_to_singeFP, parfu_wtar_archive_one_bucket_singFP"]}
{"id": "C55", "title": "create completes", "statement": "With at least two MPI ranks, create of a tree ends for every schedule: scan and plan succeed, no run is stuck, every run comes to its end within a bounded number of steps, and the archive then lists exactly the tree.", "quantifier": "every tree, file system behaviour that shows it, bucket size, orders limit, number of ranks and schedule", "why_tests_cant": "termination of all schedules for all trees", "anchors": ["parfu_boss_functions.cc: push_out_all_orders", "parfu_worker_node.cc: parfu_worker_node", "parfu_file_system_classes.cc: spider_directory, create_transfer_orders", "parfu_rank_move_data.cc: Parfu_rank_order_set, move_data_Create"]}
{"id": "C56", "title": "No worker idles while order sets are left", "statement": "At every moment of a create run at most one message between the boss and a given worker is under way, in either direction; after the first round, as long as unsent order sets remain, every worker has an order set queued, works on one, has died on one, has replied, or is the one the boss is about to serve; a worker that works has no further message waiting.", "quantifier": "every number of order sets and ranks, every schedule and message delay", "why_tests_cant": "all interleavings of the MPI messages", "anchors": ["parfu_boss_functions.cc: push_out_all_orders", "parfu_worker_node.cc: parfu_worker_node"]}
{"id": "C57", "title": "malformed order text is rejected", "statement": "A worker given text that is not a whole bundle of orders (cut short anywhere, or with fields missing) rejects it or reads exactly the whole orders in it; it never loops and never makes up an order.", "quantifier": "every text", "why_tests_cant": "arbitrary text; non-termination", "anchors": ["parfu_rank_move_data.cc: Parfu_rank_order_set::Parfu_rank_order_set (25-95)"]}
{"id": "C58", "title": "header size of an entry is up to date", "statement": "Whatever calls were made before, header_size() of an entry is the length of the tar header for its present path, size and link target.", "quantifier": "every history of constructor, copy, assignment, set_symlink_target and query calls", "why_tests_cant": "all call histories", "anchors": ["parfu_file_system_classes.cc: header_size (214-222), generate_archive_catalog_line, next_available_after_me", "parfu_file_system_classes.hh: set_symlink_target (240-242)"]}
{"id": "C59", "title": "a copy equals the original", "statement": "Copying or assigning an entry, a directory or a collection yields an object equal to the source.", "quantifier": "every object reachable by API calls", "why_tests_cant": "all objects and histories; undefined behaviour", "anchors": ["parfu_file_system_classes.hh: copy constructors and assignment operators (210-232, 346-357, 399-423, 513-531, 640-651)"]}
{"id": "C60", "title": "scanning a directory object again", "statement": "However often a directory object is scanned, while the file system changes between the calls, it holds what one successful scan found, nothing twice; the value returned is the number of entries found, or negative when nothing was done.", "quantifier": "every sequence of calls and file system states", "why_tests_cant": "all histories", "anchors": ["parfu_file_system_classes.cc: spider_directory (268-441)"]}
{"id": "C61", "title": "entry from its catalog line", "statement": "The entry constructed from the catalog line of an entry is that entry.", "quantifier": "every entry", "why_tests_cant": "strings unbounded", "anchors": ["parfu_file_system_classes.cc: Parfu_target_file(string catalog_line) (224-227), generate_archive_catalog_line"]}
{"id": "C62", "title": "a container object can be opened", "statement": "A container file object, however it came about, can be opened for writing without undefined behaviour.", "quantifier": "every history of construction, copy and assignment", "why_tests_cant": "all histories; undefined behaviour", "anchors": ["parfu_file_system_classes.hh: Parfu_container_file (566-623)"]}
{"id": "C63", "title": "name of the n-th order", "statement": "Asking an order set for the file name of order n gives that name if there is such an order and the empty string if not; it never throws.", "quantifier": "every order set and index", "why_tests_cant": "all indices, signed/unsigned comparison", "anchors": ["parfu_rank_move_data.cc: order_n_filename (264-271)"]}
{"id": "C64", "title": "an entry list can be freed", "statement": "Freeing an entry list of the 0.5.1 library returns exactly the memory that was taken for it: nothing stays allocated, nothing is freed twice, no unassigned pointer is used; also for the two lists the layout leaves behind.", "quantifier": "every capacity, every sequence of additions, every layout, every heap", "why_tests_cant": "all list lengths and growth points; undefined behaviour need not show", "anchors": ["parfu_file_list_utils.cc: parfu_free_ffel, create_parfu_file_fragment_entry_list, parfu_add_entry_to_ffel_raw, parfu_set_offsets_and_split_ffel"]}
{"id": "C65", "title": "refused command lines have no effect", "statement": "A command line the program cannot act on (no arguments, no archive name, no target, several targets, unknown flag, unreadable number) is refused: the program does not report success and no rank creates, opens or writes any file.", "quantifier": "every command line, number of ranks, file system, disk", "why_tests_cant": "all command lines; absence of effects", "anchors": ["parfu_main_0_6_test.cc: main (50-105)", "parfu_parse_args.cc: parfu_parse_args", "parfu_worker_node.cc: parfu_worker_node"]}
{"id": "C66", "title": "a refused command line ends every rank", "statement": "When the program refuses a command line, every rank of the job ends.", "quantifier": "every refused command line and every rank", "why_tests_cant": "absence of a hang for all command lines", "anchors": ["parfu_main_0_6_test.cc: main (86-105)", "parfu_worker_node.cc: parfu_worker_node"]}
{"id": "C67", "title": "order sets are filled", "statement": "Apart from the limit on orders per set, a new order set is begun only when the next order would not have fitted behind the previous set within one bucket. Hence, without a limit, the number of sets is at most 1 + 2 * (archive length / bucket).", "quantifier": "every plannable list of directories and files, bucket size and order limit", "why_tests_cant": "all lists of sizes and header lengths; the break happens at boundaries that depend on sums of all earlier entries", "anchors": ["parfu_file_system_classes.cc: Parfu_file_collection::create_transfer_orders", "parfu_file_system_classes.cc: Parfu_file_collection::set_offsets"]}
{"id": "C68", "title": "tuning does not change the archive's content", "statement": "Two completed runs over the same unchanged tree produce archives of the same length with the same members (paths, types, sizes, link targets, owners, contents), whatever the bucket sizes, order limits, numbers of ranks, schedules, sorting and the order in which directories are read.", "quantifier": "every tree, pair of parameters, pair of schedules, pair of directory reading orders", "why_tests_cant": "relates all pairs of runs under all schedules", "anchors": ["parfu_file_system_classes.cc: Parfu_directory::spider_directory", "parfu_file_system_classes.cc: Parfu_file_collection::create_transfer_orders", "parfu_worker_node.cc: parfu_worker_node"]}
{"id": "C69", "title": "unpacking an archive gives the tree back", "statement": "Unpacking a finished 0.6 archive with a careful tar program below any directory that has room for the target re-creates every file, link and directory of the tree at its place with its contents and metadata, each after the directory it lies in, and changes nothing else; whatever the schedule that wrote the archive.", "quantifier": "every tree, schedule, number of ranks, content of the never-written bytes, and directory to unpack into", "why_tests_cant": "all trees and schedules; absence of effects outside the target", "anchors": ["parfu_file_system_classes.cc: Parfu_directory::spider_directory", "parfu_file_system_classes.cc: Parfu_file_collection::order_files", "parfu_rank_move_data.cc: move_data_Create"]}
{"id": "C70", "title": "legacy: unpacking an archive gives the tree back", "statement": "Unpacking an archive parfu 0.5.1 made of a tree re-creates every listed file, link and directory at its place with contents and metadata, each after the directory it lies in; besides these only the catalog and the spacer file appear.", "quantifier": "every tree, number of ranks, timing, prior archive file, and directory to unpack into", "why_tests_cant": "all trees and interleavings", "anchors": ["parfu_file_list_utils.cc: parfu_build_file_list_from_directory, parfu_compare_fragment_entry_by_size", "parfu_data_transfer.cc: parfu_wtar_archive_list_to_singeFP"]}
{"id": "C71", "title": "a file that grows or shrinks while archiving harms no other member", "statement": "If files change size between the scan and the copy, the finished 0.6 archive still lists every member of the tree with its current metadata, and every member's contents are those of its file up to the size the scan saw; if files only shrank, the members are exactly the files as they are at the copy.", "quantifier": "every tree, every combination of size changes, schedule and number of ranks", "why_tests_cant": "all size changes and schedules; races between other users' writes and the copy", "anchors": ["parfu_rank_move_data.cc: move_data_Create", "parfu_file_system_classes.cc: Parfu_target_file", "tarentry.cc: make_tar_header"]}
{"id": "C72", "title": "a file that cannot be read when its turn comes", "statement": "If a file was there at the scan but cannot be opened when a worker copies it, the finished 0.6 archive still lists every member with correct metadata and every other member's contents correctly; the user learns that the unreadable one's contents are missing, and a file gone altogether does not stop the run.", "quantifier": "every tree, every set of unreadable files, schedule and number of ranks", "why_tests_cant": "all subsets of failing opens, all schedules; absence of any finishing run", "anchors": ["parfu_rank_move_data.cc: Parfu_rank_order_set::move_data_Create", "tarentry.cc: Tarentry", "parfu_worker_node.cc: parfu_worker_node", "parfu_boss_functions.cc"]}
{"id": "C73", "title": "target given through a symbolic link", "statement": "If the target on the command line is a symbolic link to a directory, both versions archive the directory it leads to exactly as if it had been named directly, under the name given.", "quantifier": "every tree, link, schedule, number of ranks and (0.5.1) prior archive", "why_tests_cant": "all trees, schedules and what lstat says of the target", "anchors": ["parfu_file_system_classes.cc: Parfu_directory::spider_directory", "parfu_file_list_utils.cc: parfu_build_file_list_from_directory"]}
{"id": "C74", "title": "a target that is no directory is refused", "statement": "If the target does not exist or is a file, the program says so and ends without making an archive.", "quantifier": "every command line, target, number of ranks and schedule", "why_tests_cant": "absence of any ending run over all schedules", "anchors": ["parfu_main_0_6_test.cc: main", "parfu_file_system_classes.cc: Parfu_directory::spider_directory", "parfu_worker_node.cc: parfu_worker_node", "parfu_file_list_utils.cc: parfu_build_file_list_from_directory"]}
{"id": "C75", "title": "both versions archive the same members", "statement": "The archives parfu 0.6 and parfu 0.5.1 make of one tree hold the same members (names, types, sizes, contents, owners, modes, times), up to order, apart from the catalog and spacers of 0.5.1 and names starting with a dot.", "quantifier": "every tree, scan order, schedule and number of ranks of either run", "why_tests_cant": "all pairs of runs", "anchors": ["parfu_rank_move_data.cc: Parfu_rank_order_set::move_data_Create", "parfu_data_transfer.cc: parfu_wtar_archive_list_to_singeFP", "tarentry.cc: tarentry::make_tar_header"]}
{"id": "C76", "title": "a slash behind the target makes no difference", "statement": "Naming the target 'base/' instead of 'base' gives an archive with the same members, which unpack to the same places.", "quantifier": "every tree, target, schedule and number of ranks of either run", "why_tests_cant": "all pairs of runs, all trees", "anchors": ["parfu_file_system_classes.cc: Parfu_directory::spider_directory", "parfu_file_list_utils.cc: parfu_build_file_list_from_directory", "parfu_buffer_utils.c: parfu_ffel_fill_rel_filenames"]}
{"id": "C77", "title": "the ranks never misunderstand each other", "statement": "Once the archive could be opened, no rank ever receives a message of the wrong kind or length, calls a collective operation that does not match the others', or gets a reply it cannot use, whatever happens to the files meanwhile; every run takes a bounded number of steps.", "quantifier": "every command line, tree, number of ranks, interleaving of the MPI calls, choice of MPI to buffer or not, later state of the files", "why_tests_cant": "all interleavings at the level of single MPI calls", "anchors": ["parfu_main_0_6_test.cc: main (31-278)", "parfu_boss_functions.cc: parfu_broadcast_order, parfu_send_order_to_rank, push_out_all_orders", "parfu_worker_node.cc: parfu_worker_node"]}
{"id": "C78", "title": "rank 0 gets through only with a complete archive", "statement": "When rank 0 has handed out everything and passed MPI_Finalize, every order has been written to the archive exactly once; if one order cannot be carried out rank 0 does not get through.", "quantifier": "every command line, tree, number of ranks, interleaving of MPI calls, state of the files", "why_tests_cant": "all interleavings, all failures", "anchors": ["parfu_main_0_6_test.cc: main (31-278)", "parfu_boss_functions.cc: parfu_broadcast_order, parfu_send_order_to_rank, push_out_all_orders", "parfu_worker_node.cc: parfu_worker_node"]}
{"id": "C79", "title": "from the command line to the archive", "statement": "A command line that names a new archive and a directory makes all ranks end after a bounded number of MPI calls, with an archive on disk from which a tar reader lists exactly the tree, and no other file changed.", "quantifier": "every tree, command line, number of ranks from 2 on, interleaving of the MPI calls on all ranks, MPI buffering", "why_tests_cant": "total correctness over all trees and interleavings", "anchors": ["parfu_main_0_6_test.cc: main (31-278)", "parfu_boss_functions.cc: parfu_broadcast_order, parfu_send_order_to_rank, push_out_all_orders", "parfu_worker_node.cc: parfu_worker_node"]}
{"id": "C80", "title": "every accepted bucket size works", "statement": "A bucket size the command line and the planner accept is one the ranks can work with.", "quantifier": "every command line, tree, run", "why_tests_cant": "values near INT_MAX need more memory than a test machine has; all interleavings", "anchors": ["parfu_parse_args.cc: parfu_parse_args", "parfu_worker_node.cc: case 'U' (160-165)", "parfu_main_0_6_test.cc (202-204)"]}
{"id": "C81", "title": "only a new archive is written", "statement": "At no moment of any run, finished, refused or failed, does any rank change a file other than an archive it created itself under the name given; files that existed before keep their bytes.", "quantifier": "every command line, file system, disk, run, moment, way of ending", "why_tests_cant": "safety over all runs at every moment", "anchors": ["parfu_main_0_6_test.cc: main (31-278)", "parfu_boss_functions.cc: parfu_broadcast_order, parfu_send_order_to_rank, push_out_all_orders", "parfu_worker_node.cc: parfu_worker_node"]}
{"id": "C82", "title": "no rank is left behind", "statement": "However rank 0 ends, every other rank ends as well.", "quantifier": "every command line, file system, run", "why_tests_cant": "absence of a hang over all runs", "anchors": ["parfu_main_0_6_test.cc: main (31-278)", "parfu_boss_functions.cc: parfu_broadcast_order, parfu_send_order_to_rank, push_out_all_orders", "parfu_worker_node.cc: parfu_worker_node"]}
{"id": "C83", "title": "an archive that cannot be created ends the job", "statement": "If the archive exists already or cannot be created, every rank ends with defined behaviour and the job reports failure.", "quantifier": "every command line, tree, number of ranks from 2 on, interleaving", "why_tests_cant": "all interleavings; undefined behaviour is not visible in a run", "anchors": ["parfu_main_0_6_test.cc (212-229)", "parfu_worker_node.cc (case 'A' 142-157, case 'X' 171-179)"]}
{"id": "C84", "title": "0.5.1: ranks never misunderstand each other, nothing else is written, runs end", "statement": "In every run of the 0.5.1 program on any number of ranks, no rank receives a broadcast of another type or length than it asked for and no rank enters another collective call than the others; no file but the archive named in create mode is opened or written; and no run goes on for ever.", "quantifier": "every command line, tree, environment, number of ranks and interleaving", "why_tests_cant": "all interleavings of all ranks, including every way to fail halfway", "anchors": ["parfu_0_5_1_main_versA.c: main (68-287)", "parfu_data_transfer.cc: parfu_wtar_archive_list_to_singeFP (64-446), parfu_wtar_archive_allbuckets_singFP (449-556)"]}
{"id": "C85", "title": "0.5.1: exit code 0 means a complete archive", "statement": "If the 0.5.1 program returns 0 on any one rank in create mode, then the archive file at that moment is already the complete archive, and every rank will return 0.", "quantifier": "every command line, tree, environment, number of ranks, interleaving and moment", "why_tests_cant": "quantifies over interleavings and over every way another rank can fail", "anchors": ["parfu_0_5_1_main_versA.c: main (68-287)", "parfu_data_transfer.cc: parfu_wtar_archive_list_to_singeFP (64-446), parfu_wtar_archive_allbuckets_singFP (449-556)"]}
{"id": "C86", "title": "0.5.1: from the command line to the archive, on all ranks", "statement": "parfu C archive dir: every run of every rank ends with exit code 0, and then the file lists the catalog and every entry of the tree exactly once, with its metadata and contents.", "quantifier": "every tree within the bounds, number of ranks, interleaving, prior file", "why_tests_cant": "all trees and all interleavings; termination", "anchors": ["parfu_0_5_1_main_versA.c: main (68-287)", "parfu_data_transfer.cc: parfu_wtar_archive_list_to_singeFP (64-446), parfu_wtar_archive_allbuckets_singFP (449-556)"]}
{"id": "C87", "title": "0.5.1: if one rank fails, the job ends", "statement": "Whatever goes wrong, every rank of the 0.5.1 program returns in the end.", "quantifier": "every command line, file system, run", "why_tests_cant": "absence of a hang over all runs", "anchors": ["parfu_0_5_1_main_versA.c: main (68-287)", "parfu_data_transfer.cc: parfu_wtar_archive_list_to_singeFP (64-446), parfu_wtar_archive_allbuckets_singFP (449-556)"]}
{"id": "C88", "title": "0.5.1: a file that vanished is reported", "statement": "If a listed entry cannot be examined any more, or a nonempty listed file cannot be opened any more, when its turn comes, no rank returns 0.", "quantifier": "every tree, every such entry, number of ranks, interleaving", "why_tests_cant": "the failure can happen at any entry, in any bucket, on any rank", "anchors": ["parfu_0_5_1_main_versA.c: main (68-287)", "parfu_data_transfer.cc: parfu_wtar_archive_list_to_singeFP (64-446), parfu_wtar_archive_allbuckets_singFP (449-556)"]}
{"id": "C89", "title": "0.5.1: files whose size changes between the listing and the copying", "statement": "If files change their size after they were listed and before they are copied, the program either says so or makes an archive in which every other file is still complete and the changed file has the size it now has, with its contents as far as they were listed.", "quantifier": "every tree, every set of files that changed, every new size, number of ranks, interleaving", "why_tests_cant": "the change can hit any file, at any time, by any amount; the damage depends on where the file lies in its bucket", "anchors": ["parfu_data_transfer.cc: parfu_wtar_archive_one_bucket_singFP (559-850), parfu_wtar_archive_list_to_singeFP (64-446)", "parfu_0_5_1_main_versA.c: main (68-287)"]}
{"id": "C90", "title": "0.5.1: making the catalog text is memory safe", "statement": "Making the text of a list (for the archive's catalog or for the broadcast to the ranks) never writes outside the buffer it allocates, however long the names are and however many entries there are: it returns the text or says it cannot.", "quantifier": "every list, every length and content of its strings, both kinds of text, every bucket size", "why_tests_cant": "the buffer grows by doubling from a guess of 200 bytes per entry; whether a write fits depends on the lengths of all earlier lines, and the guess itself is an int product", "anchors": ["parfu_buffer_utils.c: parfu_fragment_list_to_buffer (116-293)", "parfu_primary.h: PARFU_DEFAULT_SIZE_PER_LINE, PARFU_MAXIMUM_BUFFER_SIZE"]}
{"id": "C91", "title": "Benchmark program: the options given are recorded", "statement": "Every command line made of the documented options, with the mode given at most once, the number of iterations at most once and all numbers within the limits, is accepted, and every mode, flag, number, directory, data file and archive name given is recorded, in the order given; a command line with an unknown option, a repeated mode or count, or a number outside the limits is refused.", "quantifier": "every command line: any number, order and repetition of options, every argument string, every setting of the limits", "why_tests_cant": "the recording arrays grow on demand and the options may come in any order and number: the state reached depends on the whole history of options", "anchors": ["parfu_behavior_control.c: parfu_parse_arguments (250-432), parfu_behav_extend_array (37-93), parfu_behav_add_min_expon, parfu_behav_add_bl_per_frag, parfu_behav_add_arc_file (155-248)"]}
{"id": "C92", "title": "Benchmark program: a correct command line runs its trials", "statement": "Started with a correct command line (one mode, at least one archive, a single archive when extracting) the benchmark program goes through its trials for every archive named and ends with status 0; otherwise it ends with the status that says what is missing.", "quantifier": "every command line, every setting of the limits, whichever files can be opened", "why_tests_cant": "must hold for every command line; the strings printed are those recorded by the option parser, whose termination in memory a test may miss by luck", "anchors": ["parfu_bench_test_002.c: main (26-174)", "parfu_behavior_control.c: parfu_behav_add_arc_file (217-248)"]}
{"id": "C93", "title": "Write benchmark: every rank fills its own parts of its file", "statement": "The write benchmark, started on any number of ranks with any payload and buffer size, number of iterations and number (1 to 10, at most the number of ranks) of files, makes every rank write its payload once per iteration to the file numbered by its rank modulo the number of files, no two writes go to the same place of a file, and in whatever order the writes happen each file has exactly one filled slot per rank and iteration.", "quantifier": "every number of ranks, files, iterations, payload and buffer size; every order of the writes; whatever the files contained before", "why_tests_cant": "arithmetic over five unbounded parameters and all orders of concurrent writes; all ranks write the same bytes, so overlapping writes are invisible in a test that compares contents", "anchors": ["parfu_write_test.c: main (115-133, 169-171, 204-220, 248-267)"]}
{"id": "C94", "title": "Write benchmark: unusable arguments are refused", "statement": "Too few arguments, a number of files outside 1 to 10 or above the number of ranks, a negative buffer size or number of iterations, or a payload larger than the buffer end the benchmark with an error and without undefined behaviour.", "quantifier": "every argument list, every number of ranks, every rank", "why_tests_cant": "writing outside an array may go unnoticed in a test, and the cases are unbounded", "anchors": ["parfu_write_test.c: main (80-92, 126, 141, 162-171)"]}
{"id": "C95", "title": "0.5.1: no byte of the archive is written twice", "statement": "While the 0.5.1 program runs on any number of ranks, no two writes, of one rank or of two, ever cover the same byte of the archive; so every byte a rank has written is in the file as that rank wrote it, whatever is written later and in whatever order. This holds at every moment, in failed runs too, for every command line, tree and change of the files meanwhile.", "quantifier": "every number of ranks, every schedule, every moment of every run, every command line, every file system and every later content of the files", "why_tests_cant": "a lost or overwritten byte depends on which of several concurrent writes arrives last, and on bucket counts, text lengths and rank numbers without bound", "anchors": ["parfu_data_transfer.cc: parfu_wtar_archive_list_to_singeFP (193-283)", "parfu_data_transfer.cc: parfu_wtar_archive_allbuckets_singFP (506-552)", "parfu_data_transfer.cc: parfu_wtar_archive_one_bucket_singFP (877-928)", "parfu_file_list_utils.cc: parfu_rank_call_list_from_ffel"]}
{"id": "C96", "title": "0.6: no byte of the archive is written twice", "statement": "While the 0.6 program creates an archive on any number of ranks, no two writes, of one worker or of two, ever cover the same byte; so every byte a worker has written is in the file as it wrote it, whatever is written later and in whatever order, and whatever happens to the files meanwhile.", "quantifier": "every tree, number of ranks, schedule, moment of every run, and every later content of the files", "why_tests_cant": "a lost or overwritten byte depends on which of several concurrent writes arrives last", "anchors": ["parfu_rank_move_data.cc: move_data_Create (216-219)", "parfu_file_system_classes.cc: create_transfer_orders", "parfu_boss_functions.cc: push_out_all_orders"]}
{"id": "C97", "title": "an unpacked archive can be archived again", "statement": "If an archive made by parfu is unpacked with tar in an empty place and the tree that results is archived again with parfu, the second archive has the same length and the same members (names, types, link targets, sizes, contents, metadata) as the first.", "quantifier": "every tree, every bucket size, order limit, rank count, schedule and directory listing order of both runs, every content of the bytes never written", "why_tests_cant": "quantifies over all trees and over pairs of independent runs", "anchors": ["parfu_main_0_6_test.cc: main (37-284)", "parfu_file_system_classes.cc: spider_directory, set_offsets, create_transfer_orders", "parfu_rank_move_data.cc: Parfu_rank_order_set", "tarentry.cc: make_tar_header"]}
{"id": "C98", "title": "archives of 0.5.1 can be migrated to 0.6 by unpacking", "statement": "If an archive made by parfu 0.5.1 is unpacked with tar in an empty place and the tree that results is archived with parfu 0.6, the new archive has exactly the members of the old one (names, types, link targets, sizes, contents, metadata), except the catalog and the spacers of 0.5.1.", "quantifier": "every tree, prior file content, rank count and interleaving of the 0.5.1 run, every bucket size, order limit, rank count, schedule and listing order of the 0.6 run, every content of the bytes never written", "why_tests_cant": "quantifies over all trees and over pairs of runs of two programs", "anchors": ["parfu_data_transfer.cc: parfu_wtar_archive_list_to_singeFP", "parfu_0_5_1_main_versA.c: main", "parfu_main_0_6_test.cc: main (37-284)", "parfu_file_system_classes.cc: spider_directory, set_offsets, create_transfer_orders"]}
{"id": "C99", "title": "what is unpacked does not depend on how the archive was made", "statement": "Unpacking two archives of the same tree in the same place gives the same result at every path, whatever bucket sizes, order limits, ranks, schedules and directory listing orders the two runs had; for two runs of 0.5.1 likewise, except for the catalog and spacer files; and an archive of each version gives the same at every path that 0.5.1 stores.", "quantifier": "every tree, every pair of runs (of 0.6, of 0.5.1, or one of each), every content of the bytes never written, every place with room for the tree", "why_tests_cant": "quantifies over all trees and pairs of runs, schedules and interleavings", "anchors": ["parfu_main_0_6_test.cc: main (37-284)", "parfu_file_system_classes.cc: spider_directory, set_offsets, create_transfer_orders", "parfu_rank_move_data.cc: Parfu_rank_order_set", "parfu_data_transfer.cc: parfu_wtar_archive_list_to_singeFP", "parfu_0_5_1_main_versA.c: main"]}
{"id": "C100", "title": "a stopped run of 0.5.1 can be repeated", "statement": "If runs of parfu 0.5.1 are stopped at any moment, any number of times, each on any number of ranks and with whatever the files contained then, and a run on the same list then finishes, the archive has the size and, except for the slack after the end of each file's bytes (C53), the bytes of the archive a single run would have made.", "quantifier": "every list of entries, every number of stopped runs, every crash point and set of bytes that reached the disk, rank count, interleaving, clock and file contents of each, every prior file", "why_tests_cant": "quantifies over all histories of crashes", "anchors": ["parfu_data_transfer.cc: parfu_wtar_archive_list_to_singeFP", "parfu_0_5_1_main_versA.c: main"]}
{"id": "C101", "title": "the archive is as large as its members", "statement": "The archive consists of its members and of nothing else: for every archived file, link or directory 512 bytes of header (if path and link target have at most 100 bytes and the contents less than 8 GiB; otherwise a number of whole blocks bounded by twice the length of the names plus 1875 bytes) and the contents rounded up to a multiple of 512. Two runs on the same tree therefore make archives of the same size, whatever bucket sizes, order limits, ranks, schedules and directory listing orders they had.", "quantifier": "every tree, bucket size, order limit, rank count, schedule and listing order", "why_tests_cant": "quantifies over all trees, tunings and schedules", "anchors": ["parfu_file_system_classes.cc: set_offsets, create_transfer_orders, spider_directory", "parfu_rank_move_data.cc: move_data_Create", "tarentry.cc: hdr_size, compute_hdr_size"]}
{"id": "C102", "title": "order of the members", "statement": "A tar reader lists the directories of an archive first, then the symbolic links, then the regular files, smaller files before larger ones, whatever the bucket size, order limit, ranks, schedule and directory listing order. In an archive of 0.5.1 (between catalog and spacers) entries that agree in this are ordered by name, so that any two runs on the same tree list the same members in the same order.", "quantifier": "every tree, bucket size, order limit, rank count, schedule, listing order, sort of files of equal size, and content of the bytes never written", "why_tests_cant": "quantifies over all trees, tunings and schedules, and over every result std::sort may deliver", "anchors": ["parfu_file_system_classes.cc: order_files, sort_by_size, set_offsets, create_transfer_orders", "parfu_main_0_6_test.cc: main (37-284)", "parfu_file_list_utils.cc: parfu_compare_fragment_entry_by_size, parfu_qsort_entry_list"]}
