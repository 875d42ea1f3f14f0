(** Model of the 0.5.1 layout: parfu_set_offsets_and_split_ffel and
    parfu_rank_call_list_from_ffel (parfu_file_list_utils.cc), and of the loops
    that hand the buckets to the ranks (parfu_data_transfer.cc). *)
From Verif Require Import Bytes Outcome TarModel Legacy.

(** parfu_file_list_utils.cc 724-733: the next multiple of the blocking size *)
Definition blocked_up (blk s : Z) : Z := if s mod blk =? 0 then s else (s / blk + 1) * blk.
(** parfu_file_list_utils.cc 713-722 *)
Definition sum_size (e : lent) : Z := (if 0 <=? l_size e then l_size e else 0) + l_hdr e.

(** parfu_file_list_utils.cc 631-684, the variables: write_loc_whole_archive_file,
    write_loc_this_rank, current_rank_bucket *)
Record lpos := { w_all : Z; w_rank : Z; w_bucket : Z }.

(** parfu_file_list_utils.cc 830-887 and 1011-1075: pad information; [None]: the error return.
    [space] is possible_pad_space and [at_] where it begins. *)
Definition set_pad (blk : Z) (pad : bytes) (space at_ : Z) (e : lent) : outcome (option lent) :=
  if blk <=? space then
    h <- compute_hdr_size pad (l_tgt e) space ;;
    if space <? h then Ok None else
    h2 <- compute_hdr_size pad (l_tgt e) (space - h) ;;
    if h2 =? h then
      Ok (Some {| l_rel := l_rel e; l_arc := l_arc e; l_type := l_type e; l_tgt := l_tgt e; l_size := l_size e; l_hdr := l_hdr e;
                  l_loc := l_loc e; l_orig := l_orig e; l_ploc := at_; l_pname := Some pad; l_phdr := h; l_psize := space - h;
                  l_nfrag := l_nfrag e; l_fptr := l_fptr e; l_bucket := l_bucket e |})
    else Ok None
  else Ok (Some e).

(** parfu_file_list_utils.cc 759-762, 819, 893-894, 1016: fields set in the incoming list *)
Definition set_place (e : lent) (loc orig bucket : Z) : lent :=
  {| l_rel := l_rel e; l_arc := l_arc e; l_type := l_type e; l_tgt := l_tgt e; l_size := l_size e; l_hdr := l_hdr e;
     l_loc := loc; l_orig := orig; l_ploc := l_ploc e; l_pname := l_pname e; l_phdr := l_phdr e; l_psize := l_psize e;
     l_nfrag := l_nfrag e; l_fptr := l_fptr e; l_bucket := bucket |}.
(** parfu_file_list_utils.cc 819 and 1016: the location alone *)
Definition set_loc (e : lent) (loc : Z) : lent := set_place e loc (l_orig e) (l_bucket e).
(** parfu_add_entry_to_ffel_mod: the entry added (C43 is about the list itself) *)
Definition frag (e : lent) (size loc orig nfrag bucket : Z) : lent := stored (mod_request e size loc orig nfrag (-1) bucket).

(** parfu_file_list_utils.cc 1077-1133: fragments j = [j] .. [j + n - 1], each filling bucket [bkt + ..] *)
Fixpoint whole_frags (P : Z) (e : lent) (ntot : Z) (n : nat) (j bkt : Z) : list lent :=
  match n with
  | O => []
  | S n' =>
      (if j =? 0 then frag e (P - l_hdr e) (bkt * P + l_hdr e) 0 ntot bkt
       else frag e P (bkt * P) (P * j - l_hdr e) ntot bkt) :: whole_frags P e ntot n' (j + 1) (bkt + 1)
  end.

(** one round of the loop over the entries, 687-1168: the entry as left in the
    incoming list, the fragments added, the new position.  [None]: return NULL.
    Simplification: the int variables (bucket counts, check_bucket) do not
    overflow, i.e. fewer than 2^31 buckets. *)
Definition place_one (blk P : Z) (pad : bytes) (p : lpos) (e : lent) : outcome (option (lent * list lent * lpos)) :=
  if l_hdr e <=? 0 then Ok None else
  let bs := blocked_up blk (sum_size e) in
  if bs <=? P then
    if w_rank p + bs <=? P then
      (* option A *)
      let e1 := set_place e (w_all p) 0 (w_bucket p) in
      Ok (Some (e1, [frag e1 (l_size e) (w_all p + l_hdr e) 0 1 (w_bucket p)],
                {| w_all := w_all p + bs;
                   w_rank := if bs =? P then 0 else w_rank p + bs;
                   w_bucket := if bs =? P then w_bucket p + 1 else w_bucket p |}))
    else
      (* option B *)
      let bkt := w_bucket p + 1 in
      let start := bkt * P in
      x <- set_pad blk pad (start - w_all p) (w_all p) (set_loc e start) ;;
      match x with
      | None => Ok None
      | Some e0 =>
          let e1 := set_place e0 start 0 bkt in
          Ok (Some (e1, [frag e1 (l_size e) (start + l_hdr e) 0 1 bkt],
                    {| w_all := start + bs;
                       w_rank := if bs =? P then 0 else bs;
                       w_bucket := if bs =? P then bkt + 1 else bkt |}))
      end
  else
    (* option C *)
    let nw := bs / P in
    let uneven := negb (bs mod P =? 0) in
    let ntot := if uneven then nw + 1 else nw in
    let bkt := if w_all p mod P =? 0 then w_all p / P else w_all p / P + 1 in
    let start := bkt * P in
    x <- set_pad blk pad (start - w_all p) (w_all p) (set_loc e start) ;;
    match x with
    | None => Ok None
    | Some e1 =>
        let fs := whole_frags P e1 ntot (Z.to_nat nw) 0 bkt in
        let taken := nw * P - l_hdr e in            (* P - hdr and then P each time *)
        let bkt' := bkt + nw in
        if uneven then
          Ok (Some (e1, fs ++ [frag e1 (l_size e - taken) (bkt' * P) (P * nw - l_hdr e) ntot bkt'],
                    {| w_all := bkt' * P + (bs - taken); w_rank := w_rank p; w_bucket := bkt' |}))
        else
          Ok (Some (e1, fs, {| w_all := bkt' * P; w_rank := w_rank p; w_bucket := bkt' |}))
    end.

(** the loop over the entries, parfu_file_list_utils.cc 687-1168 *)
Fixpoint place_all (blk P : Z) (pad : bytes) (p : lpos) (l : list lent) : outcome (option (list lent * list lent * lpos)) :=
  match l with
  | [] => Ok (Some ([], [], p))
  | e :: l' =>
      x <- place_one blk P pad p e ;;
      match x with
      | None => Ok None
      | Some (e1, fs, p1) =>
          y <- place_all blk P pad p1 l' ;;
          match y with
          | None => Ok None
          | Some (es, fss, p2) => Ok (Some (e1 :: es, fs ++ fss, p2))
          end
      end
  end.

(** parfu_set_offsets_and_split_ffel, 631-1172: the incoming list as left
    behind, the split list, *n_rank_buckets.  A blocking size or a bucket size of
    0 divides by zero. *)
Definition set_offsets_and_split (blk P : Z) (pad : bytes) (l : list lent) : outcome (option (list lent * list lent * Z)) :=
  c <- create_list (zlen l) ;;
  match c with
  | None => Ok None
  | Some _ =>
      if (blk =? 0) || (P =? 0) then Err EUB else
      x <- place_all blk P pad {| w_all := 0; w_rank := 0; w_bucket := 0 |} l ;;
      match x with
      | None => Ok None
      | Some (es, fs, p) => Ok (Some (es, fs, w_bucket p))
      end
  end.

(** parfu_rank_call_list_from_ffel, 1845-1899 (line 1870 stores element 0 of a
    list of n_entries_full ints) *)
Fixpoint run_starts (last : Z) (i : Z) (l : list lent) : list Z :=
  match l with
  | [] => []
  | e :: l' => if l_bucket e =? last then run_starts last (i + 1) l' else i :: run_starts (l_bucket e) (i + 1) l'
  end.
(** parfu_rank_call_list_from_ffel, parfu_file_list_utils.cc 1845-1899 *)
Definition rank_call_list (l : list lent) : outcome (option (list Z)) :=
  match l with
  | [] => Err EUB
  | e :: _ => if l_bucket e =? 0 then Ok (Some (run_starts (-1) 0 l)) else Ok None
  end.

(** parfu_data_transfer.cc 341-348 and 412-420: entry rcl[i] must be in bucket i *)
Fixpoint check_calls (l : list lent) (i : Z) (rcl : list Z) : outcome bool :=
  match rcl with
  | [] => Ok true
  | k :: rcl' =>
      match nth_error l (Z.to_nat k) with
      | None => Err EUB
      | Some e => if l_bucket e =? i then check_calls l (i + 1) rcl' else Ok false
      end
  end.

(** parfu_wtar_archive_allbuckets_singFP, 506-552: the bucket indices rank
    [my_rank] of [n_ranks] works on, in order *)
Fixpoint my_buckets (fuel : nat) (n_ranks iter len : Z) : list Z :=
  match fuel with
  | O => []
  | S f => if iter <? len then iter :: my_buckets f n_ranks (iter + n_ranks) len else []
  end.
(** parfu_data_transfer.cc 506-552: at most [len] rounds when there is at least one rank *)
Definition rank_loop (n_ranks my_rank len : Z) : list Z := my_buckets (Z.to_nat len) n_ranks my_rank len.

(** parfu_wtar_archive_one_bucket_singFP, parfu_data_transfer.cc
    634-635: the entries the loop
    visits, from index [k] while they are in bucket [bkt] *)
Fixpoint take_bucket (bkt : Z) (l : list lent) : list lent :=
  match l with
  | [] => []
  | e :: l' => if l_bucket e =? bkt then e :: take_bucket bkt l' else []
  end.
(** parfu_data_transfer.cc 613-614, 634: from entry rcl[i] *)
Definition visited (l : list lent) (rcl : list Z) (i : Z) : outcome (list lent) :=
  match nth_error rcl (Z.to_nat i) with
  | None => Err EUB
  | Some k =>
      match nth_error l (Z.to_nat k) with
      | None => Err EUB
      | Some e => Ok (take_bucket (l_bucket e) (skipn (Z.to_nat k) l))
      end
  end.
