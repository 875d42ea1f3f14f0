(** Model of the 0.5.1 listing: parfu_what_is_path and
    parfu_build_file_list_from_directory (parfu_file_list_utils.cc 413-474,
    1185-1448), with follow_symlinks = 0, the value the main program passes
    (parfu_0_5_1_main_versA.c). *)
From Verif Require Import Bytes Outcome TarModel Layout Spider Legacy.

(** parfu_what_is_path, 413-474: the buffer has room for st_size+1 bytes,
    readlink must deliver st_size, and the NUL is stored behind them (line 455) *)
Definition legacy_what_is_path (fs : fsys) (path : bytes) : found :=
  match f_lstat fs path with
  | None => FoundError
  | Some (s, target) =>
      match st_kind s with
      | KLnk => if zlen target =? st_size s then FoundLink (cstr target) else FoundError
      | KDir => FoundDir
      | KReg => FoundReg (st_size s)
      | KOther => FoundIgnored
      end
  end.

(** 1351-1361 *)
Definition next_rel (rel name : bytes) : bytes := if ends_with_slash rel then rel ++ name else rel ++ [SLASH] ++ name.
(** 1374-1381 *)
Definition next_arc (arc name : bytes) : bytes := match arc with [] => name | _ => arc ++ [SLASH] ++ name end.
(** 1333-1340: strncmp(name, ".", 1) - every name that starts with a dot *)
Definition starts_with_dot (name : bytes) : bool := match name with c :: _ => beq c "."%char | [] => false end.

(** parfu_add_name_to_ffel, parfu_file_list_utils.cc 95-124: the entry added (LegacyProofs: additions append; the
    only refusal is a symlink without a target) *)
Definition named (ty : ltype) (rel arc tgt : bytes) (size : Z) : outcome lent :=
  h <- compute_hdr_size rel tgt size ;;
  Ok (stored (name_request ty rel arc (Some tgt) size h)).

(** the readdir loop, 1326-1437: the entries added to the full list, and the
    (relative, archive) names added to the directory list *)
Fixpoint list_entries (fs : fsys) (rel arc : bytes) (names : list bytes) : outcome (list lent * list (bytes * bytes)) :=
  match names with
  | [] => Ok ([], [])
  | name :: rest =>
      if starts_with_dot name then list_entries fs rel arc rest
      else
        let r := next_rel rel name in
        let a := next_arc arc name in
        match legacy_what_is_path fs r with
        | FoundError | FoundIgnored => list_entries fs rel arc rest
        | FoundLink t => e <- named LLnk r a t SIZE_LNK ;; x <- list_entries fs rel arc rest ;; let '(es, ds) := x in Ok (e :: es, ds)
        | FoundDir => e <- named LDir r a [] SIZE_DIR ;; x <- list_entries fs rel arc rest ;; let '(es, ds) := x in Ok (e :: es, (r, a) :: ds)
        | FoundReg n => e <- named LReg r a [] n ;; x <- list_entries fs rel arc rest ;; let '(es, ds) := x in Ok (e :: es, ds)
        end
  end.

(** the loop over the growing directory list, 1312-1446; [queue] holds the
    directories not yet read.  [None]: opendir failed, return NULL.  [fuel]
    bounds the number of directories. *)
Fixpoint list_dirs (fuel : nat) (fs : fsys) (queue : list (bytes * bytes)) : outcome (option (list lent)) :=
  match queue with
  | [] => Ok (Some [])
  | (rel, arc) :: queue' =>
      match fuel with
      | O => Err EHang
      | S f =>
          match f_readdir fs rel with
          | None => Ok None
          | Some names =>
              match rel with
              | [] => Err EUB       (* line 1351: index strlen - 1 *)
              | _ =>
                  x <- list_entries fs rel arc names ;; let '(es, ds) := x in
                  y <- list_dirs f fs (queue' ++ ds) ;;
                  match y with Some es' => Ok (Some (es ++ es')) | None => Ok None end
              end
          end
      end
  end.

(** parfu_build_file_list_from_directory, 1185-1448 *)
Definition list_directory (fuel : nat) (fs : fsys) (top : bytes) : outcome (option (list lent)) :=
  match legacy_what_is_path fs top with
  | FoundError | FoundReg _ | FoundIgnored => Ok None
  | FoundDir | FoundLink _ =>
      e <- named LDir top [] [] SIZE_DIR ;;
      y <- list_dirs fuel fs [(top, [])] ;;
      match y with Some es => Ok (Some (e :: es)) | None => Ok None end
  end.
