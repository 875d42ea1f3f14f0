(** Model of the 0.5.1 entry lists: create_parfu_file_fragment_entry_list,
    parfu_add_entry_to_ffel_raw and its wrappers, and the sort comparison
    (parfu_file_list_utils.cc, parfu_primary.h 73-176). *)
From Verif Require Import Bytes Outcome TarModel.

(** parfu_file_t, parfu_primary.h 77; the value 'X' (line 82) stands for
    PARFU_FILE_TYPE_INVALID *)
Inductive ltype := LReg | LDir | LLnk | LInv.

(** parfu_file_fragment_entry_t, parfu_primary.h 132-170.  Strings are what a C
    string holds (no NUL).  The pad file name may be a null pointer. *)
Record lent := {
  l_rel : bytes; l_arc : bytes; l_type : ltype; l_tgt : bytes;
  l_size : Z; l_hdr : Z; l_loc : Z; l_orig : Z;
  l_ploc : Z; l_pname : option bytes; l_phdr : Z; l_psize : Z;
  l_nfrag : Z; l_fptr : Z; l_bucket : Z }.

(** PARFU_SPECIAL_SIZE_*, parfu_primary.h 89-91 *)
Definition SIZE_DIR : Z := -3.
(** PARFU_SPECIAL_SIZE_SYMLINK, parfu_primary.h 90 *)
Definition SIZE_LNK : Z := -2.

(** parfu_file_fragment_entry_list_t, parfu_primary.h 172-176: the two counters
    and the allocated slots ([None]: nothing added yet) *)
Record llist := { n_total : Z; n_full : Z; slots : list (option lent) }.

(** create_parfu_file_fragment_entry_list, parfu_file_list_utils.cc 27-76:
    [None] is the null pointer.  Room for n entries (line 38: one entry is part
    of the structure).  Line 62 writes list[1] in every round, whatever n is:
    out of bounds when there is one entry only.  malloc does not fail here. *)
Definition create_list (n : Z) : outcome (option llist) :=
  if n <? 1 then Ok None
  else if n <? 2 then Err EUB
  else Ok (Some {| n_total := n; n_full := 0; slots := repeat None (Z.to_nat n) |}).

(** parfu_file_list_utils.cc 190-212: the arguments of parfu_add_entry_to_ffel_raw; the strings may be null *)
Record request := {
  q_rel : option bytes; q_arc : option bytes; q_type : ltype; q_tgt : option bytes;
  q_size : Z; q_hdr : Z; q_loc : Z; q_orig : Z;
  q_ploc : Z; q_pname : option bytes; q_phdr : Z; q_psize : Z;
  q_nfrag : Z; q_fptr : Z; q_bucket : Z }.

(** parfu_file_list_utils.cc 247-318: a null string is stored as the empty one *)
Definition or_empty (s : option bytes) : bytes := match s with Some x => x | None => [] end.
(** parfu_file_list_utils.cc 247-318: the strings are copied (a null one becomes empty), the pad
    name pointer is kept *)
Definition stored (q : request) : lent :=
  {| l_rel := or_empty (q_rel q); l_arc := or_empty (q_arc q); l_type := q_type q; l_tgt := or_empty (q_tgt q);
     l_size := q_size q; l_hdr := q_hdr q; l_loc := q_loc q; l_orig := q_orig q;
     l_ploc := q_ploc q; l_pname := q_pname q; l_phdr := q_phdr q; l_psize := q_psize q;
     l_nfrag := q_nfrag q; l_fptr := q_fptr q; l_bucket := q_bucket q |}.

(** parfu_file_list_utils.cc 247-318: the store at index n_entries_full *)
Fixpoint set_slot (k : nat) (e : lent) (s : list (option lent)) : option (list (option lent)) :=
  match s, k with
  | [], _ => None
  | _ :: s', O => Some (Some e :: s')
  | x :: s', S k' => match set_slot k' e s' with Some r => Some (x :: r) | None => None end
  end.

(** parfu_add_entry_to_ffel_raw, parfu_file_list_utils.cc 190-327: the value
    returned and the list.  n_entries_total is an int, doubled when full (line
    236); realloc makes room for one entry more than that (line 237). *)
Definition add_raw (l : option llist) (q : request) : outcome (Z * option llist) :=
  match l with
  | None => Ok (-1, None)
  | Some l0 =>
      match q_type q, q_tgt q with
      | LLnk, None => Ok (-1, Some l0)
      | _, _ =>
          l1 <- (if n_total l0 <=? n_full l0 then
                   if INT_MAX <? n_total l0 * 2 then Err EUB
                   else
                     let room := Z.to_nat (n_total l0 * 2 + 1) in
                     Ok {| n_total := n_total l0 * 2; n_full := n_full l0;
                           slots := firstn room (slots l0) ++ repeat None (room - length (slots l0)) |}
                 else Ok l0) ;;
          match set_slot (Z.to_nat (n_full l1)) (stored q) (slots l1) with
          | None => Err EUB
          | Some s => Ok (0, Some {| n_total := n_total l1; n_full := n_full l1 + 1; slots := s |})
          end
      end
  end.

(** No code of the program: any number of calls; the values returned and the final list *)
Fixpoint add_all (l : option llist) (qs : list request) : outcome (list Z * option llist) :=
  match qs with
  | [] => Ok ([], l)
  | q :: qs' =>
      x <- add_raw l q ;; let '(v, l1) := x in
      y <- add_all l1 qs' ;; let '(vs, l2) := y in
      Ok (v :: vs, l2)
  end.

(** parfu_add_name_to_ffel, 95-124 *)
Definition name_request (ty : ltype) (rel arc : bytes) (tgt : option bytes) (size hdr : Z) : request :=
  {| q_rel := Some rel; q_arc := Some arc; q_type := ty; q_tgt := tgt; q_size := size; q_hdr := hdr;
     q_loc := -1; q_orig := -1; q_ploc := -1; q_pname := None; q_phdr := -1; q_psize := -1; q_nfrag := -1;
     q_fptr := -1; q_bucket := -1 |}.
(** parfu_add_name_to_ffel, parfu_file_list_utils.cc 95-124 *)
Definition add_name (l : option llist) (ty : ltype) (rel arc : bytes) (tgt : option bytes) (size : Z) : outcome (Z * option llist) :=
  h <- compute_hdr_size rel (or_empty tgt) size ;;
  add_raw l (name_request ty rel arc tgt size h).

(** parfu_add_entry_to_ffel_mod, 127-159 *)
Definition mod_request (e : lent) (size loc orig nfrag fptr bucket : Z) : request :=
  {| q_rel := Some (l_rel e); q_arc := Some (l_arc e); q_type := l_type e; q_tgt := Some (l_tgt e); q_size := size; q_hdr := l_hdr e;
     q_loc := loc; q_orig := orig; q_ploc := l_ploc e; q_pname := l_pname e; q_phdr := l_phdr e; q_psize := l_psize e;
     q_nfrag := nfrag; q_fptr := fptr; q_bucket := bucket |}.

(** strcmp, used in parfu_file_list_utils.cc 1526-1541: the sign of the first difference of unsigned chars; C strings end
    at their NUL (not part of the model's strings) *)
Fixpoint strcmp (x y : bytes) : Z :=
  match x, y with
  | [], [] => 0
  | [], _ :: _ => -1
  | _ :: _, [] => 1
  | c :: x', d :: y' => if byte_val c <? byte_val d then -1 else if byte_val d <? byte_val c then 1 else strcmp x' y'
  end.
(** parfu_compare_fragment_entry_by_size, 1526-1541 *)
Definition compare_entries (x y : lent) : Z :=
  if l_size y <? l_size x then 1
  else if l_size x <? l_size y then -1
  else strcmp (l_arc x) (l_arc y).
