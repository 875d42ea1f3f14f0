(** Text form of transfer orders (print_marching_order_raw) and its parser
    (Parfu_rank_order_set), and the archive catalog line. *)
From Verif Require Import Bytes Outcome TarModel Layout.

(** print_marching_order_raw, parfu_file_system_classes.cc 945-973;
    separators parfu_main.hh 57-63 *)
Definition print_order (o : order) : bytes :=
  print_int (o_index o) ++ [TAB] ++ o_rel o ++ [TAB] ++ [o_type o] ++ [TAB] ++ o_target o ++ [TAB]
  ++ print_int (o_size o) ++ [TAB] ++ print_int (o_hdr o) ++ [TAB] ++ print_int (o_pos o) ++ [TAB]
  ++ print_int (o_fpos o) ++ [LF].
(** one transfer_order string: the appended lines (create_transfer_orders,
    parfu_file_system_classes.cc 784, 835, 874, 893, 912) *)
Definition print_bundle (os : list order) : bytes := flat_map print_order os.

(** string::npos stored in an `unsigned` (32 bits), parfu_rank_move_data.cc 27-33 *)
Definition U32 : Z := 2 ^ 32.
(** parfu_rank_move_data.cc 33 and 35: npos after truncation *)
Definition npos32 : Z := U32 - 1.
(** s.find(c, pos) stored in an unsigned, parfu_rank_move_data.cc 33, 40, 45 *)
Definition find_from (c : byte) (s : bytes) (pos : Z) : Z :=
  match find_byte c (skipn (Z.to_nat pos) s) with
  | Some i => (pos + Z.of_nat i) mod U32
  | None => npos32
  end.
(** s.substr(pos, len): throws when pos > size.  [len] is an unsigned difference
    (parfu_rank_move_data.cc 43, 48, 54). *)
Definition substr (s : bytes) (pos len : Z) : outcome bytes :=
  if zlen s <? pos then Err EThrow else Ok (firstn (Z.to_nat (len mod U32)) (skipn (Z.to_nat pos) s)).
(** stoi, parfu_rank_move_data.cc 43, 65, 70, 75, 82 *)
Definition get_stoi (l : bytes) : outcome Z := match stoi l with Some v => Ok v | None => Err EThrow end.

(** the field [entry_begin, entry_end) ended by [c], and the next entry_begin,
    parfu_rank_move_data.cc 43-45 *)
Definition get_field (c : byte) (s : bytes) (ebegin : Z) : outcome (bytes * Z) :=
  let eend := find_from c s ebegin in
  f <- substr s ebegin (eend - ebegin) ;; Ok (f, (eend + 1) mod U32).

(** one round of the while loop, parfu_rank_move_data.cc 33-90; returns the
    order and the next line_begin.  file_size, position_in_archive and
    offset_in_file are unsigned long, header_size is unsigned: assigning a
    negative int wraps. *)
Definition to_ulong (z : Z) : Z := z mod 2 ^ 64.
(** header_size, an unsigned: parfu_rank_move_data.cc 70, parfu_rank_move_data.hh 39-48 *)
Definition to_uint (z : Z) : Z := z mod 2 ^ 32.
(** one round, parfu_rank_move_data.cc 33-90 *)
Definition parse_order (s : bytes) (lbegin : Z) : outcome (order * Z) :=
  let lend := find_from LF s lbegin in
  if zlen s <? lend then Err EThrow else
  x0 <- get_field TAB s lbegin ;; let '(f0, p0) := x0 in
  i <- get_stoi f0 ;;
  x1 <- get_field TAB s p0 ;; let '(rel, p1) := x1 in
  x2 <- get_field TAB s p1 ;; let '(f2, p2) := x2 in
  ty <- (match f2 with c :: _ => Ok c | [] => Err EThrow end) ;;
  x3 <- get_field TAB s p2 ;; let '(tgt, p3) := x3 in
  x4 <- get_field TAB s p3 ;; let '(f4, p4) := x4 in
  sz <- get_stoi f4 ;;
  x5 <- get_field TAB s p4 ;; let '(f5, p5) := x5 in
  hd <- get_stoi f5 ;;
  x6 <- get_field TAB s p5 ;; let '(f6, p6) := x6 in
  ps <- get_stoi f6 ;;
  x7 <- get_field LF s p6 ;; let '(f7, p7) := x7 in
  fp <- get_stoi f7 ;;
  Ok ({| o_index := i; o_rel := rel; o_type := ty; o_target := tgt; o_size := to_ulong sz; o_hdr := to_uint hd;
         o_pos := to_ulong ps; o_fpos := to_ulong fp |}, p7).

(** Parfu_rank_order_set(string), parfu_rank_move_data.cc 25-95.  [fuel] bounds
    the rounds: a loop that never reaches the end is EHang.  Simplification:
    buffers are assumed shorter than 2^32 - 2 where theorems need it. *)
Fixpoint parse_orders (fuel : nat) (s : bytes) (lbegin : Z) : outcome (list order) :=
  if lbegin <? zlen s then
    match fuel with
    | O => Err EHang
    | S f =>
        x <- parse_order s lbegin ;; let '(o, p) := x in
        r <- parse_orders f s p ;; Ok (o :: r)
    end
  else Ok [].
(** the loop advances at least one byte per round unless it wraps, so |s|+1
    rounds are enough for every run that ends (parfu_rank_move_data.cc 30-32) *)
Definition parse_bundle (s : bytes) : outcome (list order) := parse_orders (S (length s)) s 0.

(** generate_archive_catalog_line, parfu_file_system_classes.cc 107-148 *)
Definition catalog_line (e : entry) : bytes :=
  en_rel e ++ [TAB] ++ [type_char (en_type e)] ++ [TAB] ++ en_target e ++ [TAB]
  ++ print_int (en_size e) ++ [TAB] ++ print_int (en_hdr e) ++ [TAB] ++ [LF].
