(** Model of tarentry.cc / tarentry.hh. *)
From Verif Require Import Bytes Outcome.

(** struct stat as far as parfu looks at it (S_ISLNK/S_ISREG/S_ISDIR become
    [st_kind]; [st_perm] are the remaining mode bits): tarentry.cc 56, 64, 81,
    221-222. *)
Inductive kind := KReg | KDir | KLnk | KOther.
(** the fields of statbuf read in tarentry.cc 56, 64-75, 81, 130-150, 255-283 *)
Record stat := {
  st_kind : kind; st_perm : Z; st_uid : Z; st_gid : Z; st_size : Z; st_mtime : Z }.

(** tarentry.hh 85-117: the object.  [te_offset] is carried, never interpreted. *)
Record tarentry := { te_offset : Z; te_stat : stat; te_file : bytes; te_link : bytes }.

(** Constants, tarentry.hh 64-74. *)
Definition BLOCKSIZE : Z := 512.
Definition MODE_MASK : Z := 4095.           (* 07777 *)
Definition MAX_FILE_SIZE : Z := 8589934591. (* 077777777777 *)
Definition REGTYPE : byte := "0"%char.
(** tarentry.hh 64-74 *)
Definition SYMTYPE : byte := "2"%char.
(** tarentry.hh 64-74 *)
Definition DIRTYPE : byte := "5"%char.
(** tarentry.hh 64-74 *)
Definition XHDTYPE : byte := "x"%char.

(** round_to_block, tarentry.hh 111-113. *)
Definition round_to_block (sz : Z) : Z := Z.land (sz + (BLOCKSIZE - 1)) (Z.lnot (BLOCKSIZE - 1)).

(** printf "%d %s=%s\n", tarentry.cc 157 / 162 / 169 / 317. *)
Definition pax_record (n : Z) (key value : bytes) : bytes :=
  print_int n ++ [SP] ++ key ++ [EQ] ++ value ++ [LF].

(** record_length, tarentry.cc 311-322.  [fuel] counts the iterations the
    assert(count++ < 3) still allows; running out is the failed assert.
    Simplification: `int` overflow for strings near 2 GiB is not modelled. *)
Fixpoint record_length_loop (fuel : nat) (newlen : Z) (key value : bytes) : outcome Z :=
  match fuel with
  | O => Err EAbort
  | S f =>
      let oldlen := newlen in
      let newlen' := zlen (pax_record oldlen key value) in
      if oldlen =? newlen' then Ok newlen' else record_length_loop f newlen' key value
  end.
(** record_length, tarentry.cc 311-322: the first guess is 313-314 *)
Definition record_length (key value : bytes) : outcome Z :=
  record_length_loop 3 (zlen key + zlen value + 5) key value.

(** One pax record if [c] holds, with the length computed by record_length,
    tarentry.cc 155-170. *)
Definition opt_record (c : bool) (key value : bytes) : outcome bytes :=
  if c then n <- record_length key value ;; Ok (pax_record n key value) else Ok [].
(** the same for the length alone, tarentry.cc 199-209 *)
Definition opt_record_length (c : bool) (key value : bytes) : outcome Z :=
  if c then record_length key value else Ok 0.

(** the three conditions, tarentry.cc 155/160/165 and 199/202/205 *)
Definition need_path (e : tarentry) : bool := 100 <? zlen (te_file e).
(** the symlink target: tarentry.cc 160 and 202 *)
Definition need_link (e : tarentry) : bool := 100 <? zlen (te_link e).
(** S_ISREG, tarentry.cc 165, 205 and 268 *)
Definition is_reg (s : stat) : bool := match st_kind s with KReg => true | _ => false end.
(** the size: tarentry.cc 165 and 205 *)
Definition need_size (e : tarentry) : bool :=
  is_reg (te_stat e) && (MAX_FILE_SIZE <? st_size (te_stat e)).

(** get_paxsize, tarentry.cc 191-212 ("%zu" of a non-negative size). *)
Definition get_paxsize (e : tarentry) : outcome Z :=
  p <- opt_record_length (need_path e) (b "path") (cstr (te_file e)) ;;
  l <- opt_record_length (need_link e) (b "linkpath") (cstr (te_link e)) ;;
  s <- opt_record_length (need_size e) (b "size") (print_dec (st_size (te_stat e))) ;;
  Ok (p + l + s).

(** pax_hdr_sz, tarentry.cc 130 and 186. *)
Definition pax_hdr_sz (pax_sz : Z) : Z :=
  if 0 <? pax_sz then round_to_block (BLOCKSIZE + pax_sz) else 0.

(** hdr_size, tarentry.cc 183-189. *)
Definition hdr_size (e : tarentry) : outcome Z :=
  p <- get_paxsize e ;; Ok (BLOCKSIZE + pax_hdr_sz p).
(** get_filesize, tarentry.hh 97 *)
Definition get_filesize (e : tarentry) : Z :=
  if is_reg (te_stat e) then st_size (te_stat e) else 0.
(** size, tarentry.cc 178-181 *)
Definition te_size (e : tarentry) : outcome Z :=
  h <- hdr_size e ;; Ok (h + round_to_block (get_filesize e)).

(** strncpy/memcpy into a fixed field that was zeroed before,
    tarentry.cc 249-253 and 299-303. *)
Definition field (w : nat) (l : bytes) : bytes := firstn w l ++ repeat NUL (w - length l).
(** snprintf into a zeroed field of [w] bytes: at most w-1 characters, then NUL,
    tarentry.cc 261-272 and 291-294. *)
Definition sfield (w : nat) (l : bytes) : bytes := field w (firstn (w - 1) l).
(** snprintf(f, sizeof f, "%0*o", sizeof f - 1, n), tarentry.cc 261-272. *)
Definition octfield (w : nat) (n : Z) : bytes := sfield w (zpad (w - 1) (print_oct n)).

(** Database lookups getgrgid / getpwuid, tarentry.cc 229-241. *)
Record names := { group_name : Z -> option bytes; user_name : Z -> option bytes }.

(** checksum field, tarentry.cc 273 and 308: the eight blanks overwritten by
    snprintf "0%-lo" (at most 7 characters and a NUL). *)
Definition chksum_field (sum : Z) : bytes :=
  let s := firstn 7 (digit 0 :: print_oct sum) in
  s ++ [NUL] ++ skipn (length s + 1) (repeat SP 8).

(** the sum over the block, tarentry.cc 305-307 *)
Definition sum_bytes (l : bytes) : Z := fold_right (fun c a => byte_val c + a) 0 l.

(** size put into the ustar field, tarentry.cc 268-270. *)
Definition ustar_size (s : stat) : Z :=
  let size := if is_reg s then st_size s else 0 in
  if size <? MAX_FILE_SIZE then size else 0.

(** the type flag, tarentry.cc 274-283 *)
Definition typeflag (x : option byte) (s : stat) : byte :=
  match x with
  | Some c => c
  | None => match st_kind s with KLnk => SYMTYPE | KDir => DIRTYPE | _ => REGTYPE end
  end.

(** make_ustar_header_block, tarentry.cc 214-309.  [x] is the xtype argument
    (0 = None).  %lo of a negative mtime prints the two's complement value. *)
Definition ustar_block (nm : names) (x : option byte) (s : stat) (file ln : bytes) : outcome bytes :=
  match st_kind s with
  | KOther => Err EExit
  | _ =>
      match group_name nm (st_gid s), user_name nm (st_uid s) with
      | Some gn, Some un =>
          let f_name := field 100 file in
          let f_mode := octfield 8 (Z.land (st_perm s) MODE_MASK) in
          let f_uid := octfield 8 (match x with Some _ => 0 | None => st_uid s end) in
          let f_gid := octfield 8 (match x with Some _ => 0 | None => st_gid s end) in
          let f_size := octfield 12 (ustar_size s) in
          let f_mtime := octfield 12 (st_mtime s mod 2 ^ 64) in
          let f_type := [typeflag x s] in
          let f_link := match st_kind s with KLnk => field 100 ln | _ => repeat NUL 100 end in
          let f_magic := b "ustar" ++ [NUL] in
          let f_version := b "00" in
          let f_uname := match x with Some _ => repeat NUL 32 | None => sfield 32 (cstr un) end in
          let f_gname := match x with Some _ => repeat NUL 32 | None => sfield 32 (cstr gn) end in
          let f_dev := match x with Some _ => repeat NUL 8 | None => octfield 8 0 end in
          let pre := f_name ++ f_mode ++ f_uid ++ f_gid ++ f_size ++ f_mtime in
          let post := f_type ++ f_link ++ f_magic ++ f_version ++ f_uname ++ f_gname
                      ++ f_dev ++ f_dev ++ repeat NUL 155 ++ repeat NUL 12 in
          let checksum := sum_bytes (pre ++ repeat SP 8 ++ post) in
          Ok (pre ++ chksum_field checksum ++ post)
      | _, _ => Err EExit
      end
  end.

(** libgen dirname/basename (POSIX), used only for the name of the pax block,
    tarentry.cc 138-142. *)
Fixpoint strip_slashes_rev (l : bytes) : bytes :=
  match l with
  | c :: l' => if beq c SLASH then strip_slashes_rev l' else l
  | [] => []
  end.
(** the last component, as libgen cuts it (tarentry.cc 138-142) *)
Fixpoint upto_slash_rev (l : bytes) : bytes :=
  match l with
  | c :: l' => if beq c SLASH then [] else c :: upto_slash_rev l'
  | [] => []
  end.
(** libgen basename (tarentry.cc 139, 142) *)
Definition basename (l : bytes) : bytes :=
  match l with
  | [] => b "."
  | _ => match strip_slashes_rev (rev l) with
         | [] => b "/"
         | r => rev (upto_slash_rev r)
         end
  end.
(** libgen dirname (tarentry.cc 138, 141) *)
Definition dirname (l : bytes) : bytes :=
  let r := strip_slashes_rev (rev l) in
  let r1 := skipn (length (upto_slash_rev r)) r in
  match r1 with
  | [] => match l with c :: _ => if beq c SLASH then b "/" else b "." | [] => b "." end
  | _ => match strip_slashes_rev r1 with [] => b "/" | r2 => rev r2 end
  end.
(** the name of the pax block, tarentry.cc 138-142 *)
Definition pax_filename (file : bytes) : bytes := dirname file ++ [SLASH] ++ basename file ++ b ".paxhdr".

(** make_tar_header, tarentry.cc 127-176.  The vector is zero-initialised, so
    bytes not written stay NUL; the assert(p < q) is the size check. *)
Definition make_tar_header (nm : names) (e : tarentry) : outcome bytes :=
  pax_sz <- get_paxsize e ;;
  let phs := pax_hdr_sz pax_sz in
  pax <- (if 0 <? pax_sz then
            let s := te_stat e in
            let pst := {| st_kind := KReg; st_perm := 420 (* 0644 *); st_uid := st_uid s; st_gid := st_gid s;
                          st_size := pax_sz; st_mtime := st_mtime s |} in
            blk <- ustar_block nm (Some XHDTYPE) pst (pax_filename (cstr (te_file e))) [] ;;
            r1 <- opt_record (need_path e) (b "path") (cstr (te_file e)) ;;
            r2 <- opt_record (need_link e) (b "linkpath") (cstr (te_link e)) ;;
            r3 <- opt_record (need_size e) (b "size") (print_dec (st_size s)) ;;
            let recs := r1 ++ r2 ++ r3 in
            if zlen recs <=? phs - BLOCKSIZE
            then Ok (blk ++ recs ++ repeat NUL (Z.to_nat (phs - BLOCKSIZE - zlen recs)))
            else Err EAbort
          else Ok []) ;;
  blk <- ustar_block nm None (te_stat e) (cstr (te_file e)) (cstr (te_link e)) ;;
  Ok (pax ++ blk).

(** compute_hdr_size, tarentry.cc 324-333: a dummy regular-file entry. *)
Definition compute_hdr_size (name link : bytes) (size : Z) : outcome Z :=
  hdr_size {| te_offset := 0;
              te_stat := {| st_kind := KReg; st_perm := 0; st_uid := 0; st_gid := 0;
                            st_size := size; st_mtime := 0 |};
              te_file := name; te_link := link |}.

(** What the constructor (tarentry.cc 48-84) does is given what lstat and readlink return.
    [None] from lstat is the exit(1).  The NUL is stored at st_size, so the
    name is well defined only when st_size equals the target's length (always
    the case on ordinary filesystems); anything else reads or writes bytes
    readlink did not set.  This one: tarentry.cc 81. *)
Definition ends_with_slash (l : bytes) : bool :=
  match rev l with c :: _ => beq c SLASH | [] => false end.
(** tarentry(fn, off), tarentry.cc 48-84 *)
Definition new_tarentry (lstat : bytes -> option (stat * bytes)) (fn : bytes) (off : Z) : outcome tarentry :=
  match lstat fn with
  | None => Err EExit
  | Some (s, target) =>
      lk <- (match st_kind s with
             | KLnk => if st_size s =? zlen target then Ok (cstr target) else Err EUB
             | _ => Ok []
             end) ;;
      let fn' := match st_kind s with
                 | KDir => if ends_with_slash fn then fn else fn ++ [SLASH]
                 | _ => fn
                 end in
      Ok {| te_offset := off; te_stat := s; te_file := fn'; te_link := lk |}
  end.

(** ** serialize / deserialize, tarentry.cc 86-125.
    A size_t is eight little-endian bytes; struct stat is an opaque fixed-size
    block of bytes [statsz] long (its layout is the compiler's). *)
Fixpoint le_bytes (k : nat) (n : Z) : bytes :=
  match k with
  | O => []
  | S k' => ascii_of_N (Z.to_N (n mod 256)) :: le_bytes k' (n / 256)
  end.
(** memcpy out of a size_t, tarentry.cc 92-99 *)
Fixpoint le_value (l : bytes) : Z :=
  match l with [] => 0 | c :: l' => byte_val c + 256 * le_value l' end.

(** the object as serialize sees it, tarentry.cc 109-125 *)
Record sentry := { se_stat : bytes; se_offset : Z; se_file : bytes; se_link : bytes }.

(** serialize, tarentry.cc 109-125 *)
Definition serialize (e : sentry) : bytes :=
  let sz := 8 + zlen (se_stat e) + 8 + 8 + zlen (se_file e) + 8 + zlen (se_link e) in
  le_bytes 8 sz ++ se_stat e ++ le_bytes 8 (se_offset e) ++ le_bytes 8 (zlen (se_file e))
  ++ se_file e ++ le_bytes 8 (zlen (se_link e)) ++ se_link e.

(** [this] is the receiving object; reading past the buffer is UB
    (the memcpys of tarentry.cc 92-101). *)
Definition take (n : Z) (l : bytes) : outcome (bytes * bytes) :=
  if zlen l <? n then Err EUB else Ok (firstn (Z.to_nat n) l, skipn (Z.to_nat n) l).
(** deserialize, tarentry.cc 86-107 *)
Definition deserialize (statsz : Z) (this : sentry) (buf : bytes) : outcome (sentry * Z) :=
  x0 <- take 8 buf ;; let '(f0, r0) := x0 in let sz := le_value f0 in
  x1 <- take statsz r0 ;; let '(st, r1) := x1 in
  x2 <- take 8 r1 ;; let '(f2, r2) := x2 in let off := le_value f2 in
  x3 <- take 8 r2 ;; let '(f3, r3) := x3 in
  x4 <- take (le_value f3) r3 ;; let '(fn, r4) := x4 in
  x5 <- take 8 r4 ;; let '(f5, r5) := x5 in let ll := le_value f5 in
  x6 <- (if 0 <? ll then take ll r5 else Ok (se_link this, r5)) ;; let '(ln, r6) := x6 in
  if sz =? zlen buf - zlen r6
  then Ok ({| se_stat := st; se_offset := off; se_file := fn; se_link := ln |}, sz)
  else Err EAbort.
