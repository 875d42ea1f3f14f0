(** Model of the objects of parfu_file_system_classes.hh as a caller meets them:
    entries with their cached header size, copies and assignments, directories
    that may be scanned again, container files. *)
From Verif Require Import Bytes Outcome TarModel Layout OrderCodec Spider.

(** ** Entries: Parfu_storage_entry hh 98-184, Parfu_target_file hh 193-263.
    [ob_type]: the three known codes of parfu_main.hh 73-76, [None] for any
    other int (PARFU_FILE_TYPE_INVALID).  [ob_hdr] is tar_header_size, -1 until
    asked; [ob_placed] is are_locations_filled_out; [ob_home] is parent_container. *)
Record obj := { ob_base : bytes; ob_rel : bytes; ob_type : option etype; ob_target : bytes; ob_size : Z;
                ob_hdr : Z; ob_placed : bool; ob_home : option nat }.

(** the constructors, .cc 245-266; [tgt = []] for the one without a target.
    The members not mentioned keep the initialisers of hh 169-181. *)
Definition new_obj (base rel : bytes) (ty : option etype) (size : Z) (tgt : bytes) : obj :=
  {| ob_base := base; ob_rel := rel; ob_type := ty; ob_target := tgt; ob_size := size;
     ob_hdr := -1; ob_placed := false; ob_home := None |}.
(** Parfu_target_file(string catalog_line), .cc 224-227: the body is a comment *)
Definition from_catalog_line (line : bytes) : obj := new_obj [] [] None 0 [].
(** copy constructor, hh 210-220: are_locations_filled_out is not mentioned *)
Definition copy_obj (o : obj) : obj :=
  {| ob_base := ob_base o; ob_rel := ob_rel o; ob_type := ob_type o; ob_target := ob_target o; ob_size := ob_size o;
     ob_hdr := ob_hdr o; ob_placed := false; ob_home := ob_home o |}.
(** assignment, hh 221-232: [me] keeps its own are_locations_filled_out *)
Definition assign_obj (me o : obj) : obj :=
  {| ob_base := ob_base o; ob_rel := ob_rel o; ob_type := ob_type o; ob_target := ob_target o; ob_size := ob_size o;
     ob_hdr := ob_hdr o; ob_placed := ob_placed me; ob_home := ob_home o |}.
(** set_symlink_target, hh 240-242 *)
Definition set_target (o : obj) (t : bytes) : obj :=
  {| ob_base := ob_base o; ob_rel := ob_rel o; ob_type := ob_type o; ob_target := t; ob_size := ob_size o;
     ob_hdr := ob_hdr o; ob_placed := ob_placed o; ob_home := ob_home o |}.
(** tar_header_size stored, .cc 214-222 *)
Definition with_hdr (o : obj) (h : Z) : obj :=
  {| ob_base := ob_base o; ob_rel := ob_rel o; ob_type := ob_type o; ob_target := ob_target o; ob_size := ob_size o;
     ob_hdr := h; ob_placed := ob_placed o; ob_home := ob_home o |}.

(** header_size, .cc 214-222: the value and the object afterwards *)
Definition header_size (o : obj) : outcome (Z * obj) :=
  if ob_hdr o <? 0 then
    h <- compute_hdr_size (cstr (absolute_path (ob_base o) (ob_rel o))) (cstr (ob_target o)) (ob_size o) ;;
    Ok (h, with_hdr o h)
  else Ok (ob_hdr o, o).
(** the switch of .cc 118-128 and 169-179: nothing for an unknown type *)
Definition type_text (o : obj) : bytes := match ob_type o with Some t => [type_char t] | None => [] end.
(** type_char, .cc 39-50 *)
Definition obj_type_char (o : obj) : byte := match ob_type o with Some t => type_char t | None => "X"%char end.
(** is_symlink, hh 246-251 *)
Definition obj_is_symlink (o : obj) : bool := match ob_target o with [] => false | _ :: _ => true end.
(** generate_archive_catalog_line, .cc 107-148 (asks header_size) *)
Definition obj_catalog_line (o : obj) : outcome (bytes * obj) :=
  x <- header_size o ;; let '(h, o') := x in
  Ok (ob_rel o ++ [TAB] ++ type_text o ++ [TAB] ++ ob_target o ++ [TAB] ++ print_int (ob_size o) ++ [TAB] ++ print_int h ++ [TAB] ++ [LF], o').
(** generate_full_catalog_line, .cc 153-212 (the fields after the size are comments) *)
Definition obj_full_line (o : obj) : bytes :=
  ob_rel o ++ [TAB] ++ type_text o ++ [TAB] ++ ob_target o ++ [TAB] ++ print_int (ob_size o) ++ [TAB].
(** next_available_after_me, .cc 53-90 (asks header_size) *)
Definition obj_next_available (o : obj) (start : Z) : outcome (Z * obj) :=
  x <- header_size o ;; let '(h, o') := x in
  Ok ((if start mod BLOCKSIZE =? 0 then start else (start / BLOCKSIZE + 1) * BLOCKSIZE) + h + ob_size o, o').

(** what a caller can do with target files; objects are numbered in the order
    of their creation (hh 98-263, .cc 53-148) *)
Inductive call :=
  | CNew (base rel : bytes) (ty : option etype) (size : Z) (tgt : bytes)
  | CFromLine (line : bytes)
  | CCopy (i : nat)                    (* Parfu_target_file x(i) *)
  | CAssign (i j : nat)                (* i = j *)
  | CSetTarget (i : nat) (t : bytes)
  | CHeaderSize (i : nat)
  | CCatalogLine (i : nat)
  | CNextAvailable (i : nat) (start : Z).
(** what the calls return, hh 98-263: bookkeeping, no code *)
Inductive answer := ANone | ANum (z : Z) | AText (l : bytes).

(** bookkeeping of the model, no code *)
Definition replace {A} (l : list A) (i : nat) (x : A) : list A := firstn i l ++ x :: skipn (S i) l.
(** one call on the objects there are.  A number without object is a dangling
    pointer.  hh 98-263, .cc 53-148. *)
Definition do_call (st : list obj) (c : call) : outcome (list obj * answer) :=
  match c with
  | CNew base rel ty size tgt => Ok (st ++ [new_obj base rel ty size tgt], ANone)
  | CFromLine line => Ok (st ++ [from_catalog_line line], ANone)
  | CCopy i => match nth_error st i with Some o => Ok (st ++ [copy_obj o], ANone) | None => Err EUB end
  | CAssign i j => match nth_error st i, nth_error st j with Some a, Some o => Ok (replace st i (assign_obj a o), ANone) | _, _ => Err EUB end
  | CSetTarget i t => match nth_error st i with Some o => Ok (replace st i (set_target o t), ANone) | None => Err EUB end
  | CHeaderSize i => match nth_error st i with Some o => x <- header_size o ;; Ok (replace st i (snd x), ANum (fst x)) | None => Err EUB end
  | CCatalogLine i => match nth_error st i with Some o => x <- obj_catalog_line o ;; Ok (replace st i (snd x), AText (fst x)) | None => Err EUB end
  | CNextAvailable i start => match nth_error st i with Some o => x <- obj_next_available o start ;; Ok (replace st i (snd x), ANum (fst x)) | None => Err EUB end
  end.
(** any history of these calls: no code, the caller *)
Fixpoint do_calls (st : list obj) (cs : list call) : outcome (list obj) :=
  match cs with [] => Ok st | c :: cs' => x <- do_call st c ;; do_calls (fst x) cs' end.

(** ** Copies of objects that hold vectors.
    for(i<src.size()) dst[i] = src[i]: writing past the end of dst is undefined
    (operator[] does not grow a vector).  Parfu_slice_collection hh 346-357,
    Parfu_directory hh 399-423, Parfu_target_collection hh 513-531,
    Parfu_container_file_collection hh 640-651. *)
Definition copy_into {A} (src dst : list A) : outcome (list A) :=
  if (length dst <? length src)%nat then Err EUB else Ok (src ++ skipn (length src) dst).
(** a directory object: type and size are Parfu_storage_entry members that the
    copy constructor (hh 399-410) leaves at their initialisers *)
Record dobj := { do_base : bytes; do_rel : bytes; do_type : option etype; do_spidered : bool; do_subdirs : list nat; do_subfiles : list nat }.
(** Parfu_directory copy constructor, hh 399-410 *)
Definition copy_dir (d : dobj) : outcome dobj :=
  sd <- copy_into (do_subdirs d) [] ;; sf <- copy_into (do_subfiles d) [] ;;
  Ok {| do_base := do_base d; do_rel := do_rel d; do_type := None; do_spidered := do_spidered d; do_subdirs := sd; do_subfiles := sf |}.
(** hh 411-423: the assigned-to object keeps its type *)
Definition assign_dir (me d : dobj) : outcome dobj :=
  sd <- copy_into (do_subdirs d) (do_subdirs me) ;; sf <- copy_into (do_subfiles d) (do_subfiles me) ;;
  Ok {| do_base := do_base d; do_rel := do_rel d; do_type := do_type me; do_spidered := do_spidered d; do_subdirs := sd; do_subfiles := sf |}.
(** Parfu_target_collection: two vectors of references, hh 513-521 *)
Definition copy_collection {A} (c : list A * list A) : outcome (list A * list A) :=
  x <- copy_into (fst c) [] ;; y <- copy_into (snd c) [] ;; Ok (x, y).
(** Parfu_target_collection assignment, hh 522-531 *)
Definition assign_collection {A} (me c : list A * list A) : outcome (list A * list A) :=
  x <- copy_into (fst c) (fst me) ;; y <- copy_into (snd c) (snd me) ;; Ok (x, y).

(** ** Scanning a directory object more than once: spider_directory .cc 268-441
    with its guard .cc 288-291.  A directory object with the flag and, once
    scanned, what it holds. (hh 376-451) *)
Inductive scanned := Fresh (rel : bytes) | Done (rel : bytes) (d : pdir).
(** the value returned and the object afterwards.  opendir failing leaves the
    object as it was (.cc 304-307, the flag is set at .cc 439 only). *)
Definition spider_call (fuel : nat) (fs : fsys) (base : bytes) (x : scanned) : outcome (Z * scanned) :=
  match x with
  | Done rel d => Ok (-1, Done rel d)
  | Fresh rel =>
      y <- spider fuel fs base rel ;;
      if fst y =? -2 then Ok (-2, Fresh rel) else Ok (fst y, Done rel (snd y))
  end.
(** calls one after the other, each meeting the file system as it is then (.cc 268-291) *)
Fixpoint spider_calls (fuel : nat) (base : bytes) (fss : list fsys) (x : scanned) : outcome (list Z * scanned) :=
  match fss with
  | [] => Ok ([], x)
  | fs :: fss' => y <- spider_call fuel fs base x ;; z <- spider_calls fuel base fss' (snd y) ;; Ok (fst y :: fst z, snd z)
  end.

(** ** Container files: Parfu_container_file hh 566-623.  [cf_handle] is what
    container_file_ptr points to: an MPI_File* ([None]: NULL). *)
Record cfile := { cf_path : bytes; cf_open : bool; cf_handle : option nat }.
(** hh 569-574 with constructor_stuff hh 616-622 *)
Definition new_cfile (path : bytes) : cfile := {| cf_path := path; cf_open := false; cf_handle := None |}.
(** copy and assignment, hh 575-591: path, flag and handle *)
Definition copy_cfile (c : cfile) : cfile := {| cf_path := cf_path c; cf_open := cf_open c; cf_handle := cf_handle c |}.
(** MPI_File_open_write_new, hh 600-607: MPI_File_open stores the new handle
    through *container_file_ptr; storing through NULL is undefined *)
Definition open_cfile (c : cfile) (new_handle : nat) : outcome cfile :=
  match cf_handle c with
  | None => Err EUB
  | Some h => Ok {| cf_path := cf_path c; cf_open := true; cf_handle := Some h |}
  end.
(** what a caller can do with container files, hh 569-591 *)
Inductive ccall := KNew (path : bytes) | KCopy (i : nat) | KAssign (i j : nat).
(** one of these calls, hh 569-591 *)
Definition do_ccall (st : list cfile) (c : ccall) : outcome (list cfile) :=
  match c with
  | KNew p => Ok (st ++ [new_cfile p])
  | KCopy i => match nth_error st i with Some f => Ok (st ++ [copy_cfile f]) | None => Err EUB end
  | KAssign i j => match nth_error st i, nth_error st j with Some _, Some f => Ok (replace st i (copy_cfile f)) | _, _ => Err EUB end
  end.
(** any history of them: no code, the caller *)
Fixpoint do_ccalls (st : list cfile) (cs : list ccall) : outcome (list cfile) :=
  match cs with [] => Ok st | c :: cs' => st' <- do_ccall st c ;; do_ccalls st' cs' end.
