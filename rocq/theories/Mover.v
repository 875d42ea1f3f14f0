(** Model of the worker's data movement: Parfu_rank_order_set::move_data_Create
    (parfu_rank_move_data.cc 97-262). *)
From Verif Require Import Bytes Outcome TarModel Layout.

(** What the worker sees of the file system while it works: name databases,
    lstat/readlink, and the contents an MPI_File_open for reading finds
    ([None]: the open fails): .cc 188-198, 236, tarentry.cc 56-76, 229-241. *)
Record env := { e_names : names; e_lstat : bytes -> option (stat * bytes); e_data : bytes -> option bytes }.

(** Memory and file cells: a byte the program determined, or one it never set
    (malloc does not clear): .cc 122. *)
Inductive cell := Byte (c : byte) | Undef.
(** a buffer, parfu_rank_move_data.cc 106 and 122 *)
Definition mem := Z -> cell.
(** malloc(bucket_size), .cc 122 *)
Definition fresh : mem := fun _ => Undef.
(** writing into it: std::copy .cc 238-241, memset 211, MPI_File_read_at 194-198 *)
Definition poke (m : mem) (pos : Z) (l : bytes) : mem := fun i =>
  if (pos <=? i) && (i <? pos + zlen l) then
    match nth_error l (Z.to_nat (i - pos)) with Some c => Byte c | None => m i end
  else m i.
(** storing [l] at [pos] of a buffer of [size] bytes; outside is undefined behaviour
    (.cc 194-198, 211, 238-241) *)
Definition store (size : Z) (m : mem) (pos : Z) (l : bytes) : outcome mem :=
  match l with
  | [] => Ok m
  | _ => if (0 <=? pos) && (pos + zlen l <=? size) then Ok (poke m pos l) else Err EUB
  end.

(** full_filename, .cc 170-175 *)
Definition full_name (base rel : bytes) : bytes :=
  match base with [] => rel | _ => base ++ [SLASH] ++ rel end.

(** parfu_make_tar_header_at, .cc 229-242 *)
Definition put_header (ev : env) (path : bytes) (size : Z) (m : mem) (pos : Z) : outcome mem :=
  e <- new_tarentry (e_lstat ev) path 0 ;;
  h <- make_tar_header (e_names ev) e ;;
  store size m pos h.

(** MPI_File_read_at of [n] bytes at [off]: what is there, at most to the end
    (.cc 194-198) *)
Definition read_at (d : bytes) (off n : Z) : bytes := firstn (Z.to_nat n) (skipn (Z.to_nat off) d).

(** body of the for loop, .cc 169-204.  The second component counts the target
    files opened (they are never closed).  An open that fails is only printed;
    the read that follows is assumed to fail too (MPI sets the handle to
    MPI_FILE_NULL) and leaves the buffer as it is. *)
Definition move_order (ev : env) (base : bytes) (bucket start : Z) (st : mem * Z) (o : order) : outcome (mem * Z) :=
  let '(m, opens) := st in
  let path := full_name base (o_rel o) in
  let at_ := o_pos o - start in
  m1 <- (if o_hdr o =? 0 then Ok m else put_header ev path bucket m at_) ;;
  if o_size o =? 0 then Ok (m1, opens)
  else match e_data ev path with
       | None => Ok (m1, opens)
       | Some d => m2 <- store bucket m1 (at_ + o_hdr o) (read_at d (o_fpos o) (o_size o)) ;; Ok (m2, opens + 1)
       end.
(** the for loop, .cc 169-204 *)
Fixpoint move_orders (ev : env) (base : bytes) (bucket start : Z) (st : mem * Z) (os : list order) : outcome (mem * Z) :=
  match os with
  | [] => Ok st
  | o :: os' => st' <- move_order ev base bucket start st o ;; move_orders ev base bucket start st' os'
  end.

(** the MPI_File_write_at issued at the end: position, length, bytes
    (.cc 216-219) *)
Record wr := { w_pos : Z; w_len : Z; w_mem : mem; w_opens : Z }.

(** move_data_Create, .cc 100-227.  orders.front() of an empty set is undefined.
    A bundle longer than the buffer only causes a warning.  Simplifications:
    malloc and the write succeed; unsigned long arithmetic in Z. *)
Definition move_data_Create (ev : env) (base : bytes) (bucket : Z) (os : list order) : outcome wr :=
  match os with
  | [] => Err EUB
  | o0 :: _ =>
      let start := o_pos o0 in
      let lst := last os o0 in
      let total := o_pos lst + o_hdr lst + o_size lst - start in
      st <- move_orders ev base bucket start (fresh, 0) os ;;
      let '(m, opens) := st in
      let blocked := next_block_boundary total in
      let pad := blocked - total in
      m' <- (if pad =? 0 then Ok m else store bucket m total (repeat NUL (Z.to_nat pad))) ;;
      if blocked <=? bucket then Ok {| w_pos := start; w_len := blocked; w_mem := m'; w_opens := opens |}
      else Err EUB
  end.

(** total_size, .cc 248-262 *)
Definition total_size (os : list order) : outcome Z :=
  match os with
  | [] => Err EUB
  | o0 :: _ => let lst := last os o0 in
      Ok (next_block_boundary (o_pos lst + o_hdr lst + o_size lst - o_pos o0))
  end.

(** order_n_filename, .cc 264-271: index == size passes the check and at() throws *)
Definition order_n_filename (os : list order) (i : Z) : outcome bytes :=
  if zlen os <? i mod 2 ^ 64 then Ok []
  else match nth_error os (Z.to_nat i) with Some o => Ok (o_rel o) | None => Err EThrow end.

(** The archive file: size and contents (bytes never written below the size
    read as zero): .cc 216-219. *)
Record archive := { ar_size : Z; ar_cell : Z -> cell }.
(** a new file: no code here, MPI_File_open with MPI_MODE_CREATE (parfu_worker_node.cc
    140-170) *)
Definition empty_archive : archive := {| ar_size := 0; ar_cell := fun _ => Byte NUL |}.
(** MPI_File_write_at, .cc 216-219 *)
Definition write_at (a : archive) (w : wr) : archive :=
  {| ar_size := if w_len w =? 0 then ar_size a else Z.max (ar_size a) (w_pos w + w_len w);
     ar_cell := fun p => if (w_pos w <=? p) && (p <? w_pos w + w_len w) then w_mem w (p - w_pos w) else ar_cell a p |}.
