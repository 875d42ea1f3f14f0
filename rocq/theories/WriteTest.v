(** Model of the write benchmark parfu_write_test.c (a program of its own). *)
From Verif Require Import Bytes Outcome LegacyCodec Behavior.

(** MAX_N_ARCHIVE_FILES, parfu_write_test.c 37 *)
Definition MAX_FILES : Z := 10.
Definition LONG_MAX : Z := 9223372036854775807. (* the largest long int, parfu_write_test.c 54-74 *)

(** the arguments, parfu_write_test.c 84-88, and the number of ranks (95) *)
Record job := { j_ranks : Z; j_data : Z; j_buf : Z; j_name : bytes; j_iters : Z; j_files : Z }.

(** memory or the contents of a file: a byte at every position, [None]: not
    initialised, or outside; parfu_write_test.c 162, 256 *)
Definition memory := Z -> option byte.
(** bytes stored from a position on, parfu_write_test.c 170, 256 *)
Definition store (m : memory) (at_ : Z) (l : list (option byte)) : memory :=
  fun p => if (at_ <=? p) && (p <? at_ + zlen l) then nth (Z.to_nat (p - at_)) l None else m p.
(** an int in memory (four bytes, little endian), parfu_write_test.c 170 *)
Definition int_bytes (z : Z) : list (option byte) :=
  map (fun k => Some (ascii_of_N (Z.to_N ((z / k) mod 256)))) [1; 256; 65536; 16777216].

(** the last rank of the group of file [i], parfu_write_test.c 117-120 *)
Definition last_rank (j : job) (i : Z) : Z :=
  let e := (j_ranks j / j_files j) * j_files j + i in if j_ranks j <=? e then e - j_files j else e.
(** parfu_write_test.c 126 *)
Definition in_file (j : job) (i : Z) : Z := Z.quot (last_rank j i - i) (j_files j) + 1.
(** MPI_Group_range_incl of the range from [i] to the last rank,
    parfu_write_test.c 127: both must be ranks, else the default handler aborts *)
Definition group_ok (j : job) (i : Z) : bool :=
  (0 <=? i) && (i <? j_ranks j) && (0 <=? last_rank j i) && (last_rank j i <? j_ranks j) && (i <=? last_rank j i).
(** the loop of parfu_write_test.c 115-133: the counts stored *)
Fixpoint groups (j : job) (n : nat) (i : Z) : outcome (list Z) :=
  match n with
  | O => Ok []
  | S n' =>
      if MAX_FILES <=? i then Err EUB else
      if negb (group_ok j i) then Err EAbort else
      r <- groups j n' (i + 1) ;; Ok (in_file j i :: r)
  end.

(** the loop of parfu_write_test.c 169-171, [n] more numbers from index [i] on *)
Fixpoint fill_loop (n : nat) (i : Z) (buf : Z) (m : memory) : outcome memory :=
  match n with
  | O => Ok m
  | S n' =>
      if buf <? 4 * i + 4 then Err EUB else
      if INT_MAX <? i * 22 + 7 then Err EUB else
      fill_loop n' (i + 1) buf (store m (4 * i) (int_bytes (i * 22 + 7)))
  end.
(** the same from the start: data_bytes is converted to unsigned, so a negative one
    makes the loop run out of the buffer (169) *)
Definition fill (j : job) : outcome memory :=
  if j_data j <? 0 then Err EUB else fill_loop (Z.to_nat (j_data j / 4)) 0 (j_buf j) (fun _ => None).

(** one MPI_File_write_at_all of a rank: file number, offset, bytes; parfu_write_test.c 256 *)
Record put := { p_file : Z; p_off : Z; p_bytes : list (option byte) }.
(** an int result: overflow is undefined; parfu_write_test.c 251 *)
Definition as_int (z : Z) : outcome Z := if (z <? -2147483648) || (INT_MAX <? z) then Err EUB else Ok z.
(** a long result; parfu_write_test.c 204-207, 250 *)
Definition as_long (z : Z) : outcome Z := if (z <? - LONG_MAX - 1) || (LONG_MAX <? z) then Err EUB else Ok z.
(** the offset, parfu_write_test.c 249-251 *)
Definition offset (j : job) (rank i : Z) : outcome Z :=
  a <- as_long (i * (j_ranks j / j_files j * j_buf j)) ;;
  c <- as_int (rank / j_files j * j_buf j) ;;
  as_long (a + c).
(** the loop of parfu_write_test.c 248-267, [n] more iterations from [i] on;
    [data]: the bytes the call takes from the buffer *)
Fixpoint write_loop (j : job) (rank : Z) (data : list (option byte)) (n : nat) (i : Z) : outcome (list put) :=
  match n with
  | O => Ok []
  | S n' =>
      o <- offset j rank i ;;
      r <- write_loop j rank data n' (i + 1) ;;
      Ok ({| p_file := rank mod j_files j; p_off := o; p_bytes := data |} :: r)
  end.
(** main of one rank from 94 on, parfu_write_test.c 94-289: the value returned, the size it gives
    its file (220), its writes.  Simplification: the MPI calls succeed (but for the
    groups and sizes that are invalid); the barriers and the times are left out. *)
Definition rank_main (j : job) (rank : Z) : outcome (Z * Z * list put) :=
  counts <- groups j (Z.to_nat (j_files j)) 0 ;;
  if j_files j =? 0 then Err EUB else
  if j_buf j <? 0 then Ok (-3, 0, []) else
  m <- fill j ;;
  if j_files j <? 0 then Ok (75, 0, []) else
  a <- as_long (nth (Z.to_nat (rank mod j_files j)) counts 0 * j_iters j) ;;
  size <- as_long (a * j_buf j) ;;
  if size <? 0 then Ok (4, size, []) else
  if (j_buf j <? j_data j) && (0 <? j_iters j) then Err EUB else
  ws <- write_loop j rank (map (fun k => m (Z.of_nat k)) (seq 0 (Z.to_nat (j_data j)))) (Z.to_nat (j_iters j)) 0 ;;
  Ok (0, size, ws).
(** the names, parfu_write_test.c 143-151 ("%s__%02d", for numbers below 100) *)
Definition file_name (j : job) (i : Z) : bytes := j_name j ++ b "__" ++ [digit (i / 10); digit (i mod 10)].
(** main of one rank on the arguments, parfu_write_test.c 77-289 *)
Definition write_test (ranks : Z) (args : list bytes) (rank : Z) : outcome (Z * Z * list put) :=
  match args with
  | a1 :: a2 :: a3 :: a4 :: a5 :: _ =>
      rank_main {| j_ranks := ranks; j_data := atoi a1; j_buf := atoi a2; j_name := a3; j_iters := atoi a4; j_files := atoi a5 |} rank
  | _ => Ok (-1, 0, [])
  end.

(** a file after MPI_File_set_size (220): what it had before, cut *)
Definition sized (old : memory) (size : Z) : memory := fun p => if (0 <=? p) && (p <? size) then old p else None.
(** and after writes (256), in the order given *)
Definition after (m : memory) (i : Z) (ws : list put) : memory :=
  fold_left (fun m w => if p_file w =? i then store m (p_off w) (p_bytes w) else m) ws m.
