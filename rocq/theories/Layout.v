(** Model of the 0.6 collection: entries, ordering, offsets and transfer
    orders (parfu_file_system_classes.cc). *)
From Verif Require Import Bytes Outcome TarModel.

(** Parfu_storage_entry, parfu_file_system_classes.hh 97-184.  [en_hdr] is the
    cached tar_header_size (header_size(), .cc 214-222). *)
Inductive etype := TFile | TDir | TLink.
(** Parfu_storage_entry, parfu_file_system_classes.hh 97-184 *)
Record entry := {
  en_type : etype; en_base : bytes; en_rel : bytes; en_target : bytes;
  en_size : Z; en_hdr : Z }.

(** absolute_path, hh 101-103 *)
Definition absolute_path (base rel : bytes) : bytes := base ++ [SLASH] ++ rel.

(** the three ways spider_directory builds an entry (.cc 360-390), with
    header_size() evaluated: compute_hdr_size(absolute path, target, size) *)
Definition mk_entry (ty : etype) (base rel target : bytes) (size : Z) : outcome entry :=
  h <- compute_hdr_size (cstr (absolute_path base rel)) (cstr target) size ;;
  Ok {| en_type := ty; en_base := base; en_rel := rel; en_target := target; en_size := size; en_hdr := h |}.

(** type_char, .cc 39-50; chars from parfu_main.hh 104-107 *)
Definition type_char (t : etype) : byte :=
  match t with TDir => "D"%char | TLink => "L"%char | TFile => "F"%char end.

(** PARFU_FILE_SIZE_SYMLINK, parfu_main.hh 88 *)
Definition SIZE_SYMLINK : Z := -11.
(** PARFU_FILE_SIZE_DIR, parfu_main.hh 89 *)
Definition SIZE_DIR : Z := -12.
(** order_size, .cc 460, 529-541; is_symlink hh 246-251 *)
Definition order_size (e : entry) : Z :=
  match en_target e with [] => en_size e | _ :: _ => SIZE_SYMLINK end.

(** parfu_next_block_boundary, .cc 604-615 *)
Definition next_block_boundary (x : Z) : Z :=
  if x mod BLOCKSIZE =? 0 then x else (x / BLOCKSIZE + 1) * BLOCKSIZE.

(** next_available_after_me, .cc 53-90 *)
Definition next_available_after_me (e : entry) (start : Z) : Z :=
  let p := if start mod BLOCKSIZE =? 0 then start else (start / BLOCKSIZE + 1) * BLOCKSIZE in
  p + en_hdr e + en_size e.

(** set_offsets, .cc 619-681: both loops have the same body; the slice is
    (header_size, file_size, 0, working_offset) *)
Fixpoint offsets_from (w : Z) (es : list entry) : list (entry * Z) * Z :=
  match es with
  | [] => ([], w)
  | e :: es' =>
      let '(r, w') := offsets_from (next_block_boundary (w + (en_hdr e + en_size e))) es' in
      ((e, w) :: r, w')
  end.
(** set_offsets, .cc 619-681: directories first, files after them *)
Definition set_offsets (dirs files : list entry) : list (entry * Z) * list (entry * Z) :=
  let '(d, w) := offsets_from 0 dirs in
  let '(f, _) := offsets_from w files in (d, f).

(** parfu_move_order_t, parfu_rank_move_data.hh 39-48, as printed by
    print_marching_order_raw *)
Record order := {
  o_index : Z; o_rel : bytes; o_type : byte; o_target : bytes;
  o_size : Z; o_hdr : Z; o_pos : Z; o_fpos : Z }.

(** print_marching_order / print_marching_order_raw, .cc 934-973, arguments *)
Definition raw_order (idx : Z) (e : entry) (size hdr pos fpos : Z) : order :=
  {| o_index := idx; o_rel := en_rel e; o_type := type_char (en_type e); o_target := en_target e;
     o_size := size; o_hdr := hdr; o_pos := pos; o_fpos := fpos |}.
(** print_marching_order, .cc 934-943: the four numbers of the first slice *)
Definition slice_order (idx : Z) (eo : entry * Z) : order :=
  raw_order idx (fst eo) (en_size (fst eo)) (en_hdr (fst eo)) (snd eo) 0.

(** create_transfer_orders, .cc 683-932.  trans_orders = finished bundles and
    the bundle being filled ([back()]).  A bundle is kept as its list of
    orders; the text appended is OrderCodec.print_order of each (so
    back().size() > 0 is "at least one order").  unsigned long arithmetic is
    in Z: no wrap occurs while hdr <= bucket and totals stay below 2^64. *)
Record pstate := { p_done : list (list order); p_cur : list order; p_count : Z; p_arch : Z; p_bpos : Z }.

(** trans_orders->push_back(string("")), .cc 771, 821, 856, 890, 910 *)
Definition push_bundle (st : pstate) : list (list order) := p_done st ++ [p_cur st].

(** "this file can live in one bucket": .cc 764-790 and 815-849 *)
Definition plan_small (idx bucket maxo : Z) (st : pstate) (eo : entry * Z) (jump : Z) : pstate :=
  let next0 := p_bpos st + jump in
  let o := slice_order idx eo in
  if (bucket <? next0) || ((0 <? maxo) && (maxo <=? p_count st)) then
    {| p_done := push_bundle st; p_cur := [o]; p_count := 1;
       p_arch := p_arch st + jump; p_bpos := 0 + jump |}
  else
    {| p_done := p_done st; p_cur := p_cur st ++ [o]; p_count := p_count st + 1;
       p_arch := p_arch st + jump; p_bpos := next0 |}.

(** .cc 751-797: a directory whose header exceeds the bucket is skipped *)
Definition plan_dir (idx bucket maxo : Z) (st : pstate) (eo : entry * Z) : pstate :=
  let ext := en_hdr (fst eo) in
  let jump := next_block_boundary ext in
  if ext <=? bucket then plan_small idx bucket maxo st eo jump else st.

(** .cc 885-905: the while loop over full buckets.  [fuel] bounds the number
    of iterations; running out would be a non-terminating loop. *)
Fixpoint plan_full (fuel : nat) (idx bucket : Z) (e : entry) (st : pstate) (fpos ext : Z)
  : outcome (pstate * Z * Z) :=
  if bucket <? ext then
    match fuel with
    | O => Err EHang
    | S f =>
        plan_full f idx bucket e
          {| p_done := push_bundle st; p_cur := [raw_order idx e bucket 0 (p_arch st) fpos]; p_count := 1;
             p_arch := p_arch st + bucket; p_bpos := p_bpos st |}
          (fpos + bucket) (ext - bucket)
    end
  else Ok (st, fpos, ext).

(** .cc 850-927: a file larger than a bucket.  position_in_bucket is not
    touched in this branch. *)
Definition plan_big (idx bucket : Z) (st : pstate) (e : entry) : outcome pstate :=
  let total := en_hdr e + en_size e in
  let '(done0, cur0, count0) :=
    match p_cur st with [] => (p_done st, [], p_count st) | _ => (push_bundle st, [], 0) end in
  let o := raw_order idx e (bucket - en_hdr e) (en_hdr e) (p_arch st) 0 in
  let st1 := {| p_done := done0; p_cur := cur0 ++ [o]; p_count := count0 + 1;
                p_arch := p_arch st + bucket; p_bpos := p_bpos st |} in
  x <- plan_full (Z.to_nat (total / bucket)) idx bucket e st1 (0 + (bucket - en_hdr e)) (total - bucket) ;;
  let '(st2, fpos, ext) := x in
  if 0 <? ext then
    Ok {| p_done := push_bundle st2; p_cur := [raw_order idx e ext 0 (p_arch st2) fpos]; p_count := 1;
          p_arch := next_block_boundary (p_arch st2 + ext); p_bpos := p_bpos st2 |}
  else Ok st2.

(** .cc 800-929: one file *)
Definition plan_file (idx bucket maxo : Z) (st : pstate) (eo : entry * Z) : outcome pstate :=
  let e := fst eo in
  let total := en_hdr e + en_size e in
  if total <=? bucket then Ok (plan_small idx bucket maxo st eo (next_block_boundary total))
  else plan_big idx bucket st e.

(** the loop over the files, .cc 800-929 *)
Fixpoint plan_files (idx bucket maxo : Z) (st : pstate) (fs : list (entry * Z)) : outcome pstate :=
  match fs with
  | [] => Ok st
  | f :: fs' => st' <- plan_file idx bucket maxo st f ;; plan_files idx bucket maxo st' fs'
  end.

(** .cc 740-747 *)
Definition p_init : pstate := {| p_done := []; p_cur := []; p_count := 0; p_arch := 0; p_bpos := 0 |}.

(** None = nullptr (.cc 706, 726).  [dirs]/[files] carry the offsets of set_offsets. *)
(** create_transfer_orders, .cc 683-932: the early returns are 703-707 and 714-728 *)
Definition create_transfer_orders (idx bucket maxo : Z) (dirs files : list (entry * Z))
  : outcome (option (list (list order))) :=
  if bucket <? 100000 then Ok None else
  match dirs, files with
  | [], [] => Ok None
  | _, _ =>
      st <- plan_files idx bucket maxo (fold_left (plan_dir idx bucket maxo) dirs p_init) files ;;
      Ok (Some (push_bundle st))
  end.
