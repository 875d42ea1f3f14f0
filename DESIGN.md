# Formal model of parfu (ncsa/parfu_archive_tool) in Coq

Plan written before the proofs; the table is kept in step with MANIFEST.json.

## Approach

Everything is plain Gallina over `list`, `Z`, `nat`, `ascii` (Coq standard
library only).  Bytes are `ascii`, byte strings are `list ascii`.  Offsets and
sizes are `Z`; where C++ narrows (`stoi`, `unsigned` indices) the narrowing is
written out.  Undefined behaviour, exceptions and `exit` are distinct outcomes
(never a default value).  External calls (lstat, readdir, getpwuid, MPI) are
arguments of the model: a filesystem value, name-lookup functions, and for
concurrency a small-step relation that allows every interleaving.

Files (rocq/theories):

| file | content |
|---|---|
| Bytes.v, Outcome.v | byte strings, decimal and octal printing/reading, list lemmas; outcomes (exit, abort, exception, undefined behaviour, endless loop) |
| TarSpec.v | *specification*: a ustar/pax reader written from the format, independent of the writer |
| TarModel.v, TarProofs.v, TarMore.v | tarentry.cc |
| Layout.v, LayoutSpec.v, LayoutProofs.v, LayoutMore.v | 0.6 collection: ordering, set_offsets, create_transfer_orders |
| OrderCodec.v, OrderCodecProofs.v, OrderMore.v | marching-order text, Parfu_rank_order_set parser, catalog line |
| Mover.v, MoverSpec.v, MoverProofs.v, MoverMore.v | move_data_Create, the staging buffer, archive cells |
| Boss.v, BossProofs.v, BossMore.v, BossRuns.v | boss/worker protocol as a small-step system |
| Worker.v, WorkerProofs.v | message framing, worker message loop |
| Assemble.v, AssembleProofs.v | the archive a run produces |
| Spider.v, SpiderSpec.v, SpiderProofs.v, SpiderMore.v | spider_directory, what_is_path, collection constructor |
| Args.v, ArgsSpec.v, ArgsProofs.v | parfu_parse_args |
| Program.v, ProgramProofs.v | main of 0.6 on rank 0, the disk |
| EndSpec.v, EndProofs.v, EndMore.v, EndRefuted.v | composition: tree -> archive -> tar reader (0.6) |
| Legacy.v, LegacyProofs.v | 0.5.1 entry lists, sort comparison |
| LegacyLayout.v, LegacySpec.v, LegacyLayoutProofs.v, LegacyRanks.v, LegacyMore.v | 0.5.1 layout, split list, bucket to rank assignment |
| LegacyScan.v, LegacyScanProofs.v | 0.5.1 directory listing |
| LegacyCodec.v, LegacyCodecProofs.v | 0.5.1 catalog text, both directions, reading it from a file |
| LegacyWrite.v, LegacySeats.v, LegacyImage.v, LegacyArchive.v, LegacySend.v | 0.5.1 bucket writer, all ranks, all interleavings |
| LegacyEndSpec.v, LegacyWalk.v, LegacyEnd.v, LegacyRun.v, LegacyHead.v, LegacyBridge.v, LegacyEndMore.v | 0.5.1 list -> archive -> tar reader |
| LegacyCreate.v, LegacyTreeSpec.v, LegacyCreateProofs.v | 0.5.1 create mode from the tree, mode dispatch |
| WholeSpec.v, Whole.v | C55: size of a tree in the archive; every job of a small tree succeeds |
| OrderRobust.v | C57: the order parser on text that is not a bundle |
| Objects.v, ObjectsSpec.v, ObjectsProofs.v | the class API as call histories: cached header sizes, copies, repeated scans, container objects |
| LegacyHeap.v, LegacyHeapProofs.v | 0.5.1: the blocks of memory of entry lists: create, add, split, free (C64) |
| PropertiesRefuse.v | C65, C66: command lines the program refuses |
| LayoutGreedy.v | C67: a set ends only when the next order does not fit |
| MembersSpec.v, Members.v, PropertiesMembers.v | C68: two runs over the same tree read in any order |
| UnpackSpec.v, Unpack.v, PropertiesUnpack.v | C69, C70: unpacking the members below a directory |
| DriftSpec.v, Drift.v, DriftProofs.v, PropertiesDrift.v | C71, C72: files whose size changes between scan and copy, that cannot be opened, or are gone |
| TargetSpec.v, Target.v, Versions.v, Slash.v, PropertiesTarget.v | C73 to C76: what the target may be; the two versions compared |
| Mpi.v, MpiSpec.v, MpiProofs.v, MpiBound.v, MpiEnd.v, MpiMore.v, MpiRefuse.v, MpiExact.v, PropertiesMpi.v | C77 to C83: the 0.6 program on all ranks, every MPI call a step; refinement to Boss.v, step bound, whole program |
| LegacyMpi.v, LegacyMpiSpec.v, LegacyMpiProofs.v, LegacyMpiMore.v, LegacyMpiEnd.v, LegacyMpiWhole.v, LegacyMpiRun.v, LegacyMpiHang.v, LegacyMpiTree.v, LegacyVanish.v, PropertiesLegacyMpi.v | C84 to C88: the 0.5.1 program on all ranks, every MPI call and every write a step |
| Behavior.v, BehaviorSpec.v, BehaviorProofs.v, PropertiesBehavior.v | C91, C92: parfu_behavior_control.c (option parser, growing arrays, getopt) and main of parfu_bench_test_002.c |
| WriteTest.v, WriteTestSpec.v, WriteTestProofs.v, PropertiesWriteTest.v | C93, C94: parfu_write_test.c |
| ApartSpec.v, Apart.v, LegacyApart.v, MpiApart.v, TextFit.v, PropertiesApart.v | C95, C96: no byte is written twice; TextFit.v: the text of a bundle is hardly longer than the bytes it describes, so it fits a message |
| RepackSpec.v, Repack.v, PropertiesRepack.v | C97: an unpacked archive, archived again, gives the same members |
| PropertiesMigrate.v | C98: archives of 0.5.1, unpacked and archived with 0.6, keep their members |
| PropertiesSamePlace.v | C99: what is unpacked does not depend on how the archive was made |
| LegacyRepeatSpec.v, LegacyRepeat.v, PropertiesLegacyRepeat.v | C100: a stopped run of 0.5.1 can be repeated |
| SizeSpec.v, Size.v, PropertiesSize.v | C101: the size of an archive |
| MemberOrderSpec.v, MemberOrder.v, PropertiesMemberOrder.v | C102: the order of the members |
| LegacyOrderSpec.v, LegacyOrder.v, PropertiesLegacyOrder.v | C102 for 0.5.1 |
| PropertiesLegacyText.v | C90: bounds of the catalog text's buffer |
| LegacyDriftSpec.v, LegacyDrift.v, LegacyDriftBad.v, PropertiesLegacyDrift.v | C89: sizes that change between listing and copying, 0.5.1 |
| CrashSpec.v, Crash.v | crash points of the 0.6 protocol: what may be on disk when it stops |
| LegacyAgreeSpec.v, LegacyAgree.v | 0.5.1: any two runs agree outside the slack; crash points |
| Samples.v | concrete data used by the witnesses |
| Properties*.v | only the property theorems (`exact lemma`), Print Assumptions, witnesses |

## Conventions

* A property that the code meets is one theorem `Cnn_name`.
* A property the code violates is split: `Cnn_..._refuted` proves, about the
  model of the code as it is, that it is violated (for every input of a class, or
  by a concrete input), and `Cnn_..._partial` proves the full statement under the
  weakest extra hypotheses found.  The English statement in properties.jsonl is
  left as a user would want it.
* Each theorem has an `Example ..._witness` next to it that satisfies its
  hypotheses with non-trivial data.
* Refutations about concrete inputs are evaluated inside Coq (`vm_compute`,
  re-checked by the kernel).

## Trusted base

* Coq 8.16.1: its kernel, including the `vm_compute` machine (vcheck additionally
  re-checks every file with coqchk, which does without it).  No plugin, no
  native_compute, no flag beyond `-Q theories Verif`.
* Axioms: none.  `Print Assumptions` after every property theorem prints "Closed
  under the global context" (see the build log).  vcheck lists seven
  `ssrunder`/module-type fields of the standard library as "library_axioms": they
  are parameters of module types in the loaded standard library, and no theorem
  depends on them.  Only the Coq standard library is imported.
* The specifications one has to read: TarSpec (what a tar reader does), LayoutSpec,
  MoverSpec, SpiderSpec, ArgsSpec, EndSpec, MembersSpec, UnpackSpec, DriftSpec, TargetSpec, ApartSpec, RepackSpec, LegacyRepeatSpec, SizeSpec, MemberOrderSpec, LegacyOrderSpec, BehaviorSpec, WriteTestSpec, MpiSpec, LegacyMpiSpec, LegacyDriftSpec, WholeSpec, ObjectsSpec, CrashSpec, LegacySpec, LegacyEndSpec,
  LegacyTreeSpec, LegacyAgreeSpec, and the statements in Properties*.v.
* The correspondence of the model with the C/C++ text is by reading; each
  definition cites file and lines.

### What is modelled

tarentry.cc (all of it); parfu_file_system_classes.cc (entries, header_size,
spider_directory, the collection constructor, order_files, set_offsets,
create_transfer_orders, print_marching_order(_raw), next_available_after_me,
generate_archive_catalog_line, generate_full_catalog_line);
parfu_file_system_classes.hh (entries, copies, assignments, container files);
parfu_2021_legacy.cc; parfu_rank_move_data.cc;
parfu_boss_functions.cc; parfu_worker_node.cc; parfu_parse_args.cc;
parfu_main_0_6_test.cc; of 0.5.1: parfu_file_list_utils.cc (list creation,
append and free, comparison, what_is_path, directory listing, offsets and split, rank call
list), parfu_buffer_utils.c (catalog text, headers, reader, fill_rel_filenames),
parfu_data_transfer.cc 64-935 (the whole writer), parfu_0_5_1_main_versA.c;
parfu_behavior_control.c (not its print function), parfu_bench_test_002.c;
parfu_write_test.c.

### What is not modelled, or simplified

* Code that is commented out in the repository (parfu_data_transfer.cc 935-2010:
  the old one-file create and extract; block-exponent layout), debug dumps,
  printed messages, timing, parfu_file_util_test.c, parfu_create_test_1.c, parfu_all_test_001.c (they call
  functions that are commented out or have other parameters now).
* MPI: sends are reliable and ordered per pair, receives with MPI_ANY_SOURCE may
  take any waiting reply, MPI_Send may or may not buffer.  In Boss.v the two
  messages of one order (length, text) are one step; Mpi.v has them separately and
  refines it (C77-C82). MPI_Bcast returns at a receiver after rank 0 called it, at
  rank 0 any time; MPI_File_open and MPI_Finalize return when every rank called
  them; a call that does not match is an error state.  MPI-IO writes are atomic per call and
  concurrent ones are interleaved as wholes; a successful write writes
  everything.  MPI_Bcast of a `long` with the pair type MPI_LONG_INT
  (parfu_data_transfer.cc 287, 352) reads and writes more than the variable; the
  model broadcasts the variable.  MPI_File_close on a handle that was never opened
  (0.5.1, every directory and link) returns an ignored error.
* parfu_behavior_control.c and parfu_bench_test_002.c are not part of the build and
  the limits they name are commented out in parfu_primary.h: Behavior.v takes
  the limits as parameters; getopt is modelled as GNU's with permutation.
* malloc/new succeed, disks do not fill; `int` overflow is modelled only where
  said (stoi, wrap32, the lengths of messages, list growth) and excluded by
  explicit bounds elsewhere; `unsigned long` offsets beyond 2^64 are not reached.
* The file system: a tree with oracles for what cannot be opened; it does not
  change between the scan and the move except where a theorem says so (`still`,
  `as_listed` are the hypotheses that it did not).
* struct stat is read as its fields; uname/gname lookups are functions.
* glibc prints a null string as "(null)" (0.5.1 pad name).

## Per-property plan

C01 record_length: model loop with fuel 3+assert outcome; prove result = length of record, by digit-count reasoning.
C02 list length computation on make_tar_header; C03 reader in TarSpec run on the emitted bytes; C04 sum of bytes; C05/C06 octal field ranges, refutation at 2^21 and at 8GiB-1.
C07 compute_hdr_size vs hdr_size of the constructed entry; refuted for directories with a 100-byte path, partial otherwise.
C08 serialise/deserialise over byte lists; refuted for a reused object.
C09 induction over the lists. C10 Permutation/Sorted for any outcome satisfying std::sort's contract.
C11-C15 invariants of the planner fold. C13 refuted by a concrete list, partial theorem for lists whose extents are sorted.
C16 print/parse round-trip under "no tab, no newline, < 2^31"; refutations otherwise.
C17, C18 staging buffer as list of cells (defined/undefined); refutation for padding.
C19, C20 cell-wise "ideal image" refined by every bundle write; composition with the protocol.
C21-C23 small-step protocol, invariants and a termination measure; refuted for one rank.
C24, C25 worker step function, induction over message lists.
C26-C29 tree model of the filesystem with an oracle for opendir failures and heap garbage.
C30, C31, C35 functions over argument lists with an explicit "uninitialised" value.
C32, C33 archive file state and open mode.
C34 handle counter in the mover.
C36-C45 legacy functions, same style. C46, C47 small 0.6 helpers.
C48 archive file before and after: write_at on any prior content; refuted for every run.
C49 composition of C38-C45 on the list level: every interleaving of the ranks' writes refines one image; a tar reader walks it.
C50 C36 + sort + C49: from the tree, through create mode. LegacyTotal.v proves in addition
    that a completed run exists for every tree whose listing text stays below 499 MB (no vacuity).
C52 small-step protocol state at any step + torn writes (CrashSpec): every job's write puts only final bytes; completed jobs are whole. Refuted by a tab.
C53 all writes of all runs agree cell by cell outside slack; refuted by evaluating two runs.
C54 torn image of the writes of any run (LegacyAgreeSpec); same agreement lemma.
C55 total correctness of create for small trees (WholeSpec): plan succeeds, every bundle's text is sendable and its job succeeds (Whole.v), hence C22 and C19 apply; trees of 2 GiB and more: some bundle always kills its worker, no run ends.
C56 no starvation: invariant over all runs of the protocol (BossMore.v: no_starvation).
C57 parser on prefixes of bundles and on arbitrary lines; fuel shown sufficient by a pigeonhole argument on the visited positions; endless loop by a fixed point.
C58, C59 list of objects and a call interpreter; ghost list of first-asked targets (ObjectsSpec), invariant over histories. C60 fold over calls with a file system each. C61-C63 evaluation for all inputs.
C64 pointers and allocated blocks; invariant over additions and growth; exact criterion for freeing. C65, C66 case analysis of main and the parser for all command lines, composed with the worker loop.
C67 invariant over the planner: adjacent sets; counting argument. C68 composition of C19 for both runs: both archives list one member per archivable node, and the description (path, type, size, link target, contents, owner and group names) determines the member. C69, C70 a strict unpacker (UnpackSpec) run on the members C19/C50 give, with the additional invariant that the nodes are listed parents first (from the breadth-first collection; in 0.5.1 from the sort). C71 simulation: the copy is compared with one from a file system whose files are padded, cell by cell; the tar reader then walks the layout with the current sizes in the same blocks. C72 the same simulation with the second file system able to open everything; a gone entry makes one order unable to succeed, and C25's argument then excludes the boss's final state. C73 the scan of either version never uses lstat of the target beyond accepting it, so it equals the scan of the file system with a directory in its place; then C19/C50. C74 the plan of an unopenable target is its one directory entry; then C72's argument. C75 composition of C19 and C50 as for C68, members keyed by path. C76 doubled slashes: same tree opened, C73 for both spellings, members determined by their description; 0.5.1: equality of the lists after the names are filled in. C77 to C80 a second model of the 0.6 program in which every MPI call of every rank is a step; a simulation relation maps each of its states to a state of Boss.v (rel_step), so that C21-C25 carry over; step bound by a measure on the program and the ranks; C80 by an invariant that no worker survives its second broadcast. C81 two invariants of the message-level system for an arbitrary rank 0 program: a file that cannot be opened, a file no order names. C82 a program without MPI_Finalize. C83 an invariant that fixes the state of each rank by the number of collective calls it has returned from; progress by the rank that is furthest behind. C84 the 0.5.1 ranks as programs over MPI calls and writes: the calls rank 0 will make are a list ("bc") that every other rank's program fits; invariant: what a rank has done and still has to do is this list's image; a measure falls with every step. C85 MPI_Finalize is the fourteenth call, which every rank reaches only when its part worked: so the parts of all ranks worked, their writes are interleaved after rank 0's, and the even programs lead to the end. C86 = C85 and C50. C87 a rank before a call rank 0 never makes stays there. C88 every entry has a fragment in some bucket, every bucket a rank, and that rank's part worked. C89 the lemmas about the bytes in the file (C44, C49) ask only that each entry still has a header of the listed length and can be opened, so they hold whatever the sizes; the walk of the reader asks that the header's size takes the listed number of blocks. Refuted by walking the reader over the archive of a tree of two files. C90 every sprintf of the text is a bounds-checked step of the model (outside the buffer: undefined); invariant over the lines: text and NUL fit the current size. C91 invariant by induction over the options from the left: what was recorded is what was asked, arrays of ten elements; growing the arrays is undefined from every such state. C92 an invariant of every state the parser returns: the first archive name has no NUL. C93 the slot of rank r in iteration t is t*(ranks/files) + r/files, a bijection when files divides ranks; contents by induction over any permutation of the writes. C94 by evaluation of the loops at general arguments. C95 each rank's writes are computed from the list rank 0 made: rank 0's first writes end before the data start, the others lie in the bucket of their index, with the terminator only after the last one (the bucket starts increase and each lies in its own bucket, both checked by the program); indices of different ranks differ modulo the number of ranks. C96 from the simulation behind C77: the writes so far are those of distinct bundles, which the planner keeps apart (C12). Both justify that the model applies writes one after the other although MPI's default mode does not order them. C97: the unpacked place of C69 is related to a second tree by RepackSpec.unpacked_as (every node made from a member that describes it, nothing else), the entry lists of the two scans are shown to be permutations of each other, and the members equal because a member determines and is determined by its node. C98 composition of C70 and C19: the unpacked place fixes the tree, the members determine the kinds of its nodes, descriptions determine members. C99 both unpacked places hold, at the paths of the tree, members that describe the same nodes (so they are equal) and elsewhere what was there before. C100 induction over the stopped runs: each leaves a file that differs from the prior one only where a finished run writes or where the slack is, and is no larger than a finished archive; then C53's agreement lemma across two prior files. C101 the end of the layout (C09) as a sum over the entries, entries as nodes (C26), header length of short names; equal sums for permuted node lists. C102 the walk of C19 gives the members in the order of the layout; the specification of std::sort orders the files; for 0.5.1 the sorted list, in which the order of two distinct entries is strict, so that it determines the list. Simplifications: the launcher is not modelled (mpirun may kill the waiting ranks when one returns nonzero without MPI_Finalize); the archive is never closed in 0.5.1 and is assumed to be on disk when written; a count above INT_MAX ends the process.
C51 mode dispatch of main; refuted by evaluation for every argument list of the two modes.
