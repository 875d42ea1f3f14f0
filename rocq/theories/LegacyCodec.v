(** Model of the 0.5.1 catalog text: parfu_fragment_list_to_buffer,
    parfu_buffer_to_file_fragment_list, parfu_get_next_filename,
    parfu_ffel_from_file (parfu_buffer_utils.c). *)
From Verif Require Import Bytes Outcome TarModel Legacy.

(** parfu_buffer_utils.c 550, 575, 740-759, 855: conversion to int, as gcc does it *)
Definition wrap32 (z : Z) : Z := (z + 2147483648) mod 4294967296 - 2147483648.
(** strtol's limits, parfu_buffer_utils.c 514-520 and every later strtol *)
Definition clamp64 (z : Z) : Z := Z.max (- 2 ^ 63) (Z.min (2 ^ 63 - 1) z).

(** parfu_return_type_char, parfu_file_list_utils.cc 1449-1461 *)
Definition type_char (t : ltype) : byte :=
  match t with LReg => "F"%char | LDir => "d"%char | LLnk => "L"%char | LInv => "X"%char end.
(** parfu_buffer_utils.c 402: "%s" of a null pointer: what glibc prints (the C standard leaves it undefined) *)
Definition pad_text (p : option bytes) : bytes := match p with Some x => x | None => b "(null)" end.

(** snprintf_to_full_buffer, 387-409 *)
Definition full_line (e : lent) : bytes :=
  l_rel e ++ [TAB] ++ l_arc e ++ [TAB] ++ [type_char (l_type e)] ++ [TAB] ++ l_tgt e ++ [TAB]
  ++ print_int (l_size e) ++ [TAB] ++ print_int (l_hdr e) ++ [TAB] ++ print_int (l_loc e) ++ [TAB] ++ print_int (l_orig e) ++ [TAB]
  ++ print_int (l_ploc e) ++ [TAB] ++ pad_text (l_pname e) ++ [TAB] ++ print_int (l_phdr e) ++ [TAB] ++ print_int (l_psize e) ++ [TAB]
  ++ print_int (l_nfrag e) ++ [TAB] ++ print_int (l_fptr e) ++ [TAB] ++ print_int (l_bucket e) ++ [LF].
(** snprintf_to_archive_buffer, 411-423 *)
Definition archive_line (e : lent) : bytes :=
  l_arc e ++ [TAB] ++ [type_char (l_type e)] ++ [TAB] ++ l_tgt e ++ [TAB]
  ++ print_int (l_size e) ++ [TAB] ++ print_int (l_hdr e) ++ [TAB] ++ print_int (l_loc e) ++ [LF].
(** parfu_buffer_utils.c 219-224: which of the two *)
Definition line (arch : bool) (e : lent) : bytes := if arch then archive_line e else full_line e.

(** PARFU_MAXIMUM_BUFFER_SIZE, parfu_primary.h 95 *)
Definition MAX_BUFFER : Z := 1000000000.
(** 247-266: grow the output buffer until a line of [need] bytes and its NUL
    fit; [None]: the size passed the maximum.  A size of at least 1 passes it
    within 31 doublings ([fuel]). *)
Fixpoint room (fuel : nat) (size total need : Z) : option Z :=
  if wrap32 (size - total) <? need + 1 then
    match fuel with
    | O => None
    | S f => if MAX_BUFFER <? size * 2 then None else room f (size * 2) total need
    end
  else Some size.
(** the loop over the entries, 217-272: sprintf writes the line and its NUL
    (267-269), outside the buffer is undefined.  Simplification: a line is shorter than
    2^30 bytes (the line buffer's int size doubles from 1000 until it fits). *)
Fixpoint add_lines (size : Z) (out : bytes) (ls : list bytes) : outcome (option bytes) :=
  match ls with
  | [] => Ok (Some out)
  | x :: ls' => match room 40 size (zlen out) (zlen x) with
                | None => Ok None
                | Some size' => if size' <? zlen out + zlen x + 1 then Err EUB else add_lines size' (out ++ x) ls'
                end
  end.
(** 167-211: the header; numbers are not negative here *)
Definition ten (n : Z) : bytes := zpad 10 (print_dec n).
(** parfu_buffer_utils.c 167-211: the five lines of the header *)
Definition cat_head (total bkt n : Z) (arch : bool) : bytes :=
  ten total ++ [LF] ++ b "parfu_v04 " ++ [LF] ++ (if arch then b "archive   " else b "full      ") ++ [LF]
  ++ ten bkt ++ [LF] ++ ten n ++ [LF].

(** parfu_fragment_list_to_buffer, 116-293: the buffer.  The header is printed
    before the first check of the buffer's size; the total length is printed over
    the first ten bytes at the end (275-283). *)
Definition list_to_buffer (l : list lent) (bkt : Z) (arch : bool) : outcome (option bytes) :=
  let size := (if arch then 512 else 0) + 200 * zlen l in
  if INT_MAX <? 200 * zlen l then Err EUB else   (* 148-149: an int product *)
  if size <? 56 then Err EUB else
  y <- add_lines size (cat_head 0 bkt (zlen l) arch) (map (line arch) l) ;;
  match y with
  | None => Ok None
  | Some out =>
      if zlen (ten (zlen out)) =? 10 then Ok (Some (ten (zlen out) ++ skipn 10 out)) else Ok None
  end.

(** strtol and "current_read_position = *end_value_ptr + 1": the value and what
    follows the character after the number.  [Ok None]: no digits.  Running off the
    buffer is undefined. *)
Definition number (l : bytes) : outcome (option (Z * bytes)) :=
  match scan_int l with
  | Some (_, []) => Err EUB
  | Some (v, _ :: r) => Ok (Some (clamp64 v, r))
  | None => match skip_space l with [] => Err EUB | _ => Ok None end
  end.
(** parfu_get_next_filename, 777-806 (strchr stops at a NUL) *)
Definition next_name (l : bytes) : outcome (option (bytes * bytes)) :=
  match find_byte TAB (cstr l) with
  | Some k => Ok (Some (firstn k l, skipn (k + 1) l))
  | None => if existsb (beq NUL) l then Ok None else Err EUB
  end.
(** parfu_buffer_utils.c 463-775, the pattern "if NULL return NULL": return NULL as soon as something returns NULL *)
Definition andthen {A B} (x : outcome (option A)) (f : A -> outcome (option B)) : outcome (option B) :=
  y <- x ;; match y with Some a => f a | None => Ok None end.
Notation "p <~ e ; f" := (andthen e (fun p => f)) (at level 60, right associativity).

(** parfu_buffer_utils.c 636-649: the type character *)
Definition type_of (c : byte) : option ltype :=
  if beq c "F"%char then Some LReg else if beq c "d"%char then Some LDir else if beq c "L"%char then Some LLnk else None.

(** one round of the loop over the entries of a full catalog, parfu_buffer_utils.c 598-767 *)
Definition parse_full (l : bytes) : outcome (option (lent * bytes)) :=
  x <~ next_name l ; let '(rel, l) := x in
  x <~ next_name l ; let '(arc, l) := x in
  match l with
  | [] => Err EUB
  | c :: _ =>
  match type_of c with
  | None => Ok None
  | Some ty =>
  let l := skipn 2 l in
  x <~ next_name l ; let '(tgt, l) := x in
  x <~ number l ; let '(size, l) := x in
  x <~ number l ; let '(hdr, l) := x in
  x <~ number l ; let '(loc, l) := x in
  x <~ number l ; let '(orig, l) := x in
  x <~ number l ; let '(ploc, l) := x in
  x <~ next_name l ; let '(pname, l) := x in
  x <~ number l ; let '(phdr, l) := x in
  x <~ number l ; let '(psize, l) := x in
  x <~ number l ; let '(nfrag, l) := x in
  x <~ number l ; let '(fptr, l) := x in
  x <~ number l ; let '(bucket, l) := x in
  Ok (Some ({| l_rel := rel; l_arc := arc; l_type := ty; l_tgt := tgt; l_size := size; l_hdr := hdr; l_loc := loc; l_orig := orig;
               l_ploc := ploc; l_pname := Some pname; l_phdr := phdr; l_psize := psize;
               l_nfrag := wrap32 nfrag; l_fptr := wrap32 fptr; l_bucket := wrap32 bucket |}, l))
  end end.
(** of an archive catalog, parfu_buffer_utils.c 609-700; the other fields as create_list leaves them
    (pad size: -1 or uninitialised, not looked at) *)
Definition parse_archive (l : bytes) : outcome (option (lent * bytes)) :=
  x <~ next_name l ; let '(arc, l) := x in
  match l with
  | [] => Err EUB
  | c :: _ =>
  match type_of c with
  | None => Ok None
  | Some ty =>
  let l := skipn 2 l in
  x <~ next_name l ; let '(tgt, l) := x in
  x <~ number l ; let '(size, l) := x in
  x <~ number l ; let '(hdr, l) := x in
  x <~ number l ; let '(loc, l) := x in
  Ok (Some ({| l_rel := []; l_arc := arc; l_type := ty; l_tgt := tgt; l_size := size; l_hdr := hdr; l_loc := loc; l_orig := -1;
               l_ploc := -1; l_pname := None; l_phdr := -1; l_psize := -1; l_nfrag := -1; l_fptr := -1; l_bucket := -1 |}, l))
  end end.
(** parfu_buffer_utils.c 609-622: which of the two *)
Definition parse_entry (arch : bool) : bytes -> outcome (option (lent * bytes)) := if arch then parse_archive else parse_full.

(** the loop, 598-767; [len] is the length of the whole buffer *)
Fixpoint parse_entries (arch : bool) (len total : Z) (n : nat) (l : bytes) : outcome (option (list lent)) :=
  match n with
  | O => Ok (Some [])
  | S n' =>
      if total <? len - zlen l then Ok None else
      x <~ parse_entry arch l ; let '(e, l) := x in
      y <~ parse_entries arch len total n' l ;
      Ok (Some (e :: y))
  end.

(** parfu_buffer_to_file_fragment_list, 463-775: *bucket_size and the list *)
Definition buffer_to_list (buf : bytes) (arch : bool) : outcome (option (Z * list lent)) :=
  x <~ number buf ; let '(total, l) := x in
  if negb (bytes_eqb (firstn 10 l) (b "parfu_v04 ")) then Ok None else
  let l := skipn 11 l in
  if negb (bytes_eqb (firstn 10 l) (if arch then b "archive   " else b "full      ")) then Ok None else
  let l := skipn 11 l in
  x <~ number l ; let '(bkt, l) := x in
  let bkt := wrap32 bkt in
  if (bkt <? 100000) || (500000000 <? bkt) then Ok None else
  x <~ number l ; let '(n, l) := x in
  let n := wrap32 n in
  if n <? 1 then Ok None else
  _ <~ create_list n ;
  es <~ parse_entries arch (zlen buf) total (Z.to_nat n) l ;
  Ok (Some (bkt, es)).

(** parfu_buffer_utils.c 847, 878: fread of up to [n] bytes from [off] *)
Definition fread (file : bytes) (off n : Z) : bytes := firstn (Z.to_nat n) (skipn (Z.to_nat off) file).
(** parfu_ffel_from_file, 811-902: bucket size, catalog length, list; [None]: NULL *)
Definition ffel_from_file (file : bytes) (skip_tar_header : bool) : outcome (option (Z * Z * list lent)) :=
  let first := fread file (if skip_tar_header then 512 else 0) 11 in
  if zlen first <? 11 then Ok None else
  match scan_int first with
  | Some (_, []) => Err EUB         (* eleven digits: strtol leaves the buffer *)
  | None => match skip_space first with [] => Err EUB | _ => Ok None end
  | Some (v, _ :: _) =>
      let len := wrap32 (clamp64 v + 512) in
      if len <? 0 then Ok None else        (* malloc of a huge size fails *)
      let buf := fread file 0 len in
      if zlen buf =? len then
        x <~ buffer_to_list buf true ; let '(bkt, l) := x in Ok (Some (bkt, len, l))
      else Ok None
  end.
