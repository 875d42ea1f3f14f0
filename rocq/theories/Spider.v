(** Model of the 0.6 scan: parfu_what_is_path (parfu_2021_legacy.cc 30-97),
    Parfu_directory::spider_directory and the Parfu_target_collection
    constructor (parfu_file_system_classes.cc 268-441, 443-550). *)
From Verif Require Import Bytes Outcome TarModel Layout.

(** What the scan sees of the file system: opendir/readdir (the names in the
    order delivered, "." and ".." included; [None]: opendir fails), lstat with
    readlink, and the uninitialised byte at the end of the buffer allocated for
    the link target of a path: .cc 304, 321, parfu_2021_legacy.cc 60-97. *)
Record fsys := {
  f_readdir : bytes -> option (list bytes);
  f_lstat : bytes -> option (stat * bytes);
  f_heap : bytes -> byte }.

(** the PARFU_WHAT_IS_PATH_* codes with their out-parameters,
    parfu_2021_legacy.cc 30-97 *)
Inductive found := FoundError | FoundIgnored | FoundReg (size : Z) | FoundDir | FoundLink (target : bytes).

(** parfu_what_is_path with follow_symlinks = 0, parfu_2021_legacy.cc 60-97.
    readlink fills at most st_size+1 bytes and the code demands exactly
    st_size; string(buffer) reads to the first NUL, which the code does not
    write: without one inside the buffer the read leaves it. *)
Definition what_is_path (fs : fsys) (path : bytes) : outcome found :=
  match f_lstat fs path with
  | None => Ok FoundError
  | Some (s, target) =>
      match st_kind s with
      | KLnk =>
          if zlen target =? st_size s then
            let buffer := target ++ [f_heap fs path] in
            match find_byte NUL buffer with
            | Some n => Ok (FoundLink (firstn n buffer))
            | None => Err EUB
            end
          else Ok FoundError
      | KDir => Ok FoundDir
      | KReg => Ok (FoundReg (st_size s))
      | KOther => Ok FoundIgnored
      end
  end.

(** Parfu_directory / Parfu_target_file as the scan builds them: base path
    common to all.  The file list keeps type, relative path, target, size (.cc 245-265, 383-401). *)
Record rawfile := { rf_type : etype; rf_rel : bytes; rf_target : bytes; rf_size : Z }.
(** Parfu_directory, parfu_file_system_classes.hh 376-451: relative path, subdirectories,
    subfiles *)
Inductive pdir := PDir (rel : bytes) (subs : list pdir) (files : list rawfile).
(** relative_path of a directory, hh 98-184 *)
Definition d_rel (d : pdir) : bytes := let 'PDir r _ _ := d in r.
(** N_subdirs/nth_subdir, .cc 515-517 *)
Definition d_subs (d : pdir) : list pdir := let 'PDir _ s _ := d in s.
(** N_subfiles/nth_subfile, .cc 534-537 *)
Definition d_files (d : pdir) : list rawfile := let 'PDir _ _ f := d in f.

(** my_directory_path, .cc 296-301 *)
Definition dir_path (base rel : bytes) : bytes := match rel with [] => base | _ => base ++ [SLASH] ++ rel end.
(** entry_relative_name, .cc 341-350 *)
Definition sub_rel (rel name : bytes) : bytes := match rel with [] => name | _ => rel ++ [SLASH] ++ name end.
(** entry_full_name, .cc 358-362 *)
Definition entry_full_name (base rel : bytes) : bytes := match base with [] => rel | _ => base ++ [SLASH] ++ rel end.
(** .cc 329-336 *)
Definition is_dot (name : bytes) : bool := bytes_eqb name (b ".") || bytes_eqb name (b "..").

(** the readdir loop, .cc 321-412: relative paths of the subdirectories and
    the files and symlinks, both in readdir order *)
Fixpoint read_entries (fs : fsys) (base rel : bytes) (names : list bytes) : outcome (list bytes * list rawfile) :=
  match names with
  | [] => Ok ([], [])
  | name :: rest =>
      if is_dot name then read_entries fs base rel rest
      else
        let r := sub_rel rel name in
        w <- what_is_path fs (entry_full_name base r) ;;
        x <- read_entries fs base rel rest ;;
        let '(subs, files) := x in
        match w with
        | FoundError | FoundIgnored => Ok (subs, files)
        | FoundReg n => Ok (subs, {| rf_type := TFile; rf_rel := r; rf_target := []; rf_size := n |} :: files)
        | FoundDir => Ok (r :: subs, files)
        | FoundLink t => Ok (subs, {| rf_type := TLink; rf_rel := r; rf_target := t; rf_size := 0 |} :: files)
        end
  end.

(** a loop over a vector (.cc 432-437, 507-522, 534-547) *)
Fixpoint for_each {A B} (f : A -> outcome B) (l : list A) : outcome (list B) :=
  match l with [] => Ok [] | a :: l' => x <- f a ;; y <- for_each f l' ;; Ok (x :: y) end.

(** spider_directory, .cc 268-441, on a directory not yet spidered: the value
    returned and the directory object afterwards.  The value returned by the
    recursive calls is not looked at (.cc 436).  [fuel] bounds the nesting;
    running out is a recursion without end. *)
Fixpoint spider (fuel : nat) (fs : fsys) (base rel : bytes) : outcome (Z * pdir) :=
  match fuel with
  | O => Err EHang
  | S f =>
      match f_readdir fs (dir_path base rel) with
      | None => Ok (-2, PDir rel [] [])
      | Some names =>
          x <- read_entries fs base rel names ;;
          let '(subrels, files) := x in
          subs <- for_each (spider f fs base) subrels ;;
          Ok (0, PDir rel (map snd subs) files)
      end
  end.

(** the growing directory list, .cc 507-522 (index loop; [fuel] as above) *)
Fixpoint grow (fuel : nat) (i : nat) (l : list pdir) : outcome (list pdir) :=
  match nth_error l i with
  | None => Ok l
  | Some d => match fuel with
              | O => Err EHang
              | S f => grow f (S i) (l ++ d_subs d)
              end
  end.

(** a directory in the list, .cc 495-498 and 516-520; Parfu_directory has size 0 and no
    target *)
Definition dir_entry (base : bytes) (d : pdir) : outcome entry := mk_entry TDir base (d_rel d) [] 0.
(** a file or symlink in the list, .cc 536-546 *)
Definition file_entry (base : bytes) (r : rawfile) : outcome entry :=
  mk_entry (rf_type r) base (rf_rel r) (rf_target r) (rf_size r).

(** the constructor, .cc 443-550: directories, then the files of each directory
    in the order of the directory list *)
Definition collection (fuel : nat) (base : bytes) (root : pdir) : outcome (list entry * list entry) :=
  ds <- grow fuel 0 [root] ;;
  dirs <- for_each (dir_entry base) ds ;;
  files <- for_each (file_entry base) (flat_map d_files ds) ;;
  Ok (dirs, files).

(** main, parfu_main_0_6_test.cc 119, 145-149: the target's directory object,
    the scan (return value not looked at), the collection *)
Definition scan (fuel : nat) (fs : fsys) (base : bytes) : outcome (list entry * list entry) :=
  x <- spider fuel fs base [] ;;
  collection fuel base (snd x).
