(** Model of the 0.5.1 writer: parfu_wtar_archive_list_to_singeFP,
    parfu_wtar_archive_allbuckets_singFP, parfu_wtar_archive_one_bucket_singFP
    (parfu_data_transfer.cc 64-935), the two fixed tar headers
    (parfu_buffer_utils.c 297-385) and the create mode of the main program
    (parfu_0_5_1_main_versA.c 135-275). *)
From Verif Require Import Bytes Outcome TarModel Layout Mover Legacy LegacyLayout LegacyCodec.

(** parfu_construct_tar_header_for_catalog / _for_space, parfu_buffer_utils.c
    297-340, 342-385: the static structure, mtime and size printed over it, the
    checksum last.  [size] arrives as an int and is printed as unsigned long. *)
Definition fixed_header (name : bytes) (size now : Z) : bytes :=
  let pre := field 100 name ++ field 8 (b "0000600") ++ field 8 (b "0000000") ++ field 8 (b "0000000")
             ++ octfield 12 (size mod 2 ^ 64) ++ octfield 12 (now mod 2 ^ 64) in
  let post := [REGTYPE] ++ repeat NUL 100 ++ (b "ustar" ++ [NUL]) ++ b "00" ++ field 32 (b "root") ++ field 32 (b "root")
              ++ field 8 (b "0000000") ++ field 8 (b "0000000") ++ repeat NUL 155 ++ repeat NUL 12 in
  pre ++ chksum_field (sum_bytes (pre ++ repeat SP 8 ++ post)) ++ post.
(** parfu_buffer_utils.c 297-340 *)
Definition catalog_header (size now : Z) : bytes := fixed_header (b ".parfu_catalog") (wrap32 size) now.
(** parfu_buffer_utils.c 342-385 *)
Definition space_header (size now : Z) : bytes := fixed_header (b ".parfu_spacer ") (wrap32 size) now.

(** one MPI_File_write_at, parfu_data_transfer.cc 203-207, 220-224, 269-273, 887-891 *)
Definition put (pos len : Z) (m : mem) : wr := {| w_pos := pos; w_len := len; w_mem := m; w_opens := 0 |}.

(** the loop over the entries of a bucket, parfu_data_transfer.cc 634-817.  [bloc] is
    current_bucket_loc, the pair the transfer buffer and
    current_write_loc_in_bucket; [None]: a nonzero return.  Simplifications: the
    reads succeed (a short file gives fewer bytes); MPI_File_close of a handle
    that was not opened (line 816, every directory and link) returns an error
    that is ignored, as the result is. *)
Definition bucket_entry (blk P : Z) (ev : env) (bloc : Z) (st : mem * Z) (e : lent) : outcome (option (mem * Z)) :=
  let '(m, w) := st in
  let regular := match l_type e with LReg => true | _ => false end in
  x <- (if regular && (0 <? l_size e) then
          match e_data ev (l_rel e) with
          | None => Ok None
          | Some d =>
              let off := l_loc e - bloc in
              if (off <? 0) || (P <=? off) then Ok None
              else m1 <- store P m off (read_at d (l_orig e) (l_size e)) ;; Ok (Some m1)
          end
        else Ok (Some m)) ;;
  match x with
  | None => Ok None
  | Some m1 =>
      m2 <- (if l_orig e =? 0 then put_header ev (l_rel e) P m1 (l_loc e - bloc - l_hdr e) else Ok m1) ;;
      Ok (Some (m2, w + blocked_up blk (Z.max 0 (l_size e) + (if l_orig e =? 0 then l_hdr e else 0))))
  end.
(** parfu_data_transfer.cc 634-817: the loop *)
Fixpoint bucket_entries (blk P : Z) (ev : env) (bloc : Z) (st : mem * Z) (es : list lent) : outcome (option (mem * Z)) :=
  match es with
  | [] => Ok (Some st)
  | e :: es' =>
      x <- bucket_entry blk P ev bloc st e ;;
      match x with None => Ok None | Some st' => bucket_entries blk P ev bloc st' es' end
  end.

(** parfu_wtar_archive_one_bucket_singFP, 558-935: bucket [i] of the list [l]
    with first entries [starts]; the buffer afterwards and the writes.  [D] is the
    start of the data region, [now] the time.  Writing more than the buffer holds
    is undefined. *)
Definition one_bucket (blk P D now : Z) (ev : env) (l : list lent) (starts : list Z) (m : mem) (i : Z) : outcome (option (mem * list wr)) :=
  if P <? 10000 then Ok None else
  match nth_error starts (Z.to_nat i) with
  | None => Err EUB
  | Some k =>
      match nth_error l (Z.to_nat k) with
      | None => Err EUB
      | Some e0 =>
          if negb (l_bucket e0 =? i) then Ok None else
          let mine := take_bucket (l_bucket e0) (skipn (Z.to_nat k) l) in
          x <- bucket_entries blk P ev (P * i) (m, 0) mine ;;
          match x with
          | None => Ok None
          | Some (m1, w) =>
              let space := P - w in
              y <- (if 0 <=? space - blk then
                      m2 <- store P m1 w (space_header (space - blk) now) ;; Ok (m2, w + blk)
                    else Ok (m1, w)) ;;
              let '(m2, w2) := y in
              if P <? w2 then Err EUB else
              let w_data := put (D + i * P) w2 m2 in
              (* 903-928: the last entry of the list: terminator *)
              if k + zlen mine =? zlen l then
                let m3 := poke m2 0 (repeat NUL 1025) in
                Ok (Some (m3, [w_data; put (D + (i + 1) * P) 1024 m3]))
              else Ok (Some (m2, [w_data]))
          end
      end
  end.

(** parfu_wtar_archive_allbuckets_singFP, 446-556: the buckets of one rank, the
    same buffer (cleared once) for all of them *)
Fixpoint all_buckets (blk P D : Z) (clock : Z -> Z) (ev : env) (l : list lent) (starts : list Z) (m : mem) (is : list Z) : outcome (option (list wr)) :=
  match is with
  | [] => Ok (Some [])
  | i :: is' =>
      x <- one_bucket blk P D (clock i) ev l starts m i ;;
      match x with
      | None => Ok None
      | Some (m1, ws) =>
          y <- all_buckets blk P D clock ev l starts m1 is' ;;
          match y with None => Ok None | Some ws' => Ok (Some (ws ++ ws')) end
      end
  end.
(** parfu_data_transfer.cc 473-478: the transfer buffer as allocated and cleared *)
Definition cleared : mem := fun _ => Byte NUL.

(** parfu_data_transfer.cc 243-248: the end of the catalog, the start of the data region *)
Definition data_offset (P E : Z) : Z := (if E mod P =? 0 then E / P else E / P + 1) * P.
(** parfu_data_transfer.cc 250-282: the spacer between catalog and data *)
Definition catalog_spacer (blk P h E now : Z) : list wr :=
  let D := data_offset P E in
  if blk <? D - E then
    let loc := if E mod blk =? 0 then E else E + (blk - E mod blk) in
    [put loc h (poke fresh 0 (space_header (D - loc - h) now))]
  else [].

(** rank 0 up to the broadcasts, parfu_data_transfer.cc 122-363: the writes, the
    data offset, the text of the split list, the first entries of the buckets.
    The catalog is made from the list as it came (122-130), the offsets are set
    later (296-306).  [clock (-2)] and [clock (-1)] are the times of the two
    headers.  Simplifications: allocation and the writes succeed; the int
    variables do not overflow. *)
Definition prologue (blk P : Z) (pad : bytes) (clock : Z -> Z) (l : list lent) : outcome (option (list wr * Z * bytes * list Z)) :=
  x <- list_to_buffer l (wrap32 P) true ;;
  match x with
  | None => Ok None
  | Some cat =>
      h <- compute_hdr_size (b ".parfu_catalog") [] (zlen cat) ;;
      let E := h + zlen cat in
      if P =? 0 then Err EUB else
      let ws := put 0 h (poke fresh 0 (catalog_header (zlen cat) (clock (-2))))
                :: put h (zlen cat) (poke fresh 0 cat) :: catalog_spacer blk P h E (clock (-1)) in
      y <- set_offsets_and_split blk P pad l ;;
      match y with
      | None => Ok None
      | Some (_, fs, _) =>
          z <- list_to_buffer fs (wrap32 P) false ;;
          match z with
          | None => Ok None
          | Some text =>
              s <- rank_call_list fs ;;
              match s with
              | None => Ok None
              | Some starts =>
                  ok <- check_calls fs 0 starts ;;
                  if ok then Ok (Some (ws, data_offset P E, text, starts)) else Ok None
              end
          end
      end
  end.

(** every rank from the broadcasts on, 363-442 (simplification: broadcasts deliver
    what was sent; see DESIGN.md about their datatype) *)
Definition rank_part (blk P D : Z) (clock : Z -> Z) (ev : env) (text : bytes) (starts : list Z) (R r : Z) : outcome (option (list wr)) :=
  x <- buffer_to_list text false ;;
  match x with
  | None => Ok None
  | Some (_, l) =>
      ok <- check_calls l 0 starts ;;
      if ok then all_buckets blk P D clock ev l starts cleared (rank_loop R r (zlen starts)) else Ok None
  end.

(** parfu_data_transfer.cc 429-441: the ranks write concurrently: any interleaving of their writes *)
Fixpoint replace {A} (r : nat) (x : A) (l : list A) : list A :=
  match l, r with [], _ => [] | _ :: l', O => x :: l' | y :: l', S r' => y :: replace r' x l' end.
(** No code of the program: one order of the writes of all ranks, each rank in its own
    order. *)
Inductive interleave {A} : list (list A) -> list A -> Prop :=
| Il_done ls : Forall (fun x => x = []) ls -> interleave ls []
| Il_step ls r x t out : nth_error ls r = Some (x :: t) -> interleave (replace r t ls) out -> interleave ls (x :: out).

(** parfu_wtar_archive_list_to_singeFP on R ranks, every one of which returns 0:
    the archive file [prior] becomes [a].  The file is opened for writing and
    created if missing (MPI_MODE_WRONLY | MPI_MODE_CREATE, 176-187), nothing is
    truncated; rank 0's own writes come before the broadcasts. *)
Inductive legacy_run (blk P : Z) (pad : bytes) (clock : Z -> Z) (ev : env) (l : list lent) (R : nat) (prior : archive) : archive -> Prop :=
| Legacy_run ws0 D text starts wss ws :
    prologue blk P pad clock l = Ok (Some (ws0, D, text, starts)) ->
    Forall2 (fun r ws => rank_part blk P D clock ev text starts (Z.of_nat R) (Z.of_nat r) = Ok (Some ws)) (seq 0 R) wss ->
    interleave wss ws ->
    legacy_run blk P pad clock ev l R prior (fold_left write_at (ws0 ++ ws) prior).

(** the constants the main program passes: PARFU_DEFAULT_BLOCKING_FACTOR,
    parfu_primary.h 52, parfu_0_5_1_main_versA.c 29-30 *)
Definition L_BLOCK : Z := 512.
(** PARFU_DEFAULT_RANK_BLOCK_SIZE, parfu_primary.h 60 *)
Definition L_BUCKET : Z := 4194304.
(** PARFU_BLOCKING_FILE_NAME, parfu_primary.h 64 *)
Definition L_PAD : bytes := b ".parfu_space".

(** parfu_ffel_fill_rel_filenames, parfu_buffer_utils.c 904-964; a leading path
    of length 0 indexes at -1 *)
Definition fill_rel (top : bytes) (e : lent) : lent :=
  {| l_rel := (if ends_with_slash top then top else top ++ [SLASH]) ++ l_arc e; l_arc := l_arc e; l_type := l_type e; l_tgt := l_tgt e;
     l_size := l_size e; l_hdr := l_hdr e; l_loc := l_loc e; l_orig := l_orig e; l_ploc := l_ploc e; l_pname := l_pname e;
     l_phdr := l_phdr e; l_psize := l_psize e; l_nfrag := l_nfrag e; l_fptr := l_fptr e; l_bucket := l_bucket e |}.
(** parfu_ffel_fill_rel_filenames on the list, parfu_buffer_utils.c 904-964, called at
    parfu_0_5_1_main_versA.c 150-156 *)
Definition fill_rels (top : bytes) (l : list lent) : outcome (list lent) :=
  match top with [] => Err EUB | _ => Ok (map (fill_rel top) l) end.
