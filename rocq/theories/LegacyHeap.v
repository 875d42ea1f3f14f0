(** Model of who owns the memory of a 0.5.1 entry list: create, add, split and
    free (parfu_file_list_utils.cc 27-327 and 631-1172), at the level of blocks of
    memory.  Contents of the blocks are in Legacy.v and LegacyLayout.v; that both
    models count alike is C64_models_agree. *)
From Verif Require Import Bytes Outcome TarModel Legacy LegacyLayout.

(** the heap: blocks are numbered in the order they are allocated and a number is
    never given out again (a real malloc may reuse an address; freeing a stale
    pointer is undefined behaviour all the same).  malloc does not fail. *)
Record heap := { next : nat; live : list nat }.
Definition malloc (h : heap) : nat * heap := (next h, {| next := S (next h); live := next h :: live h |}).
(** free of a block that is not allocated is undefined behaviour *)
Definition free_block (p : nat) (h : heap) : outcome heap :=
  if existsb (Nat.eqb p) (live h) then Ok {| next := next h; live := filter (fun q => negb (Nat.eqb q p)) (live h) |}
  else Err EUB.

(** a pointer variable: null, never assigned (memory fresh from realloc), or the
    address of a block *)
Inductive ptr := Null | Wild | At (p : nat).
(** `if(p != NULL) free(p)`, lines 82-89; reading an unassigned pointer is
    undefined behaviour already *)
Definition free_ptr (x : ptr) (h : heap) : outcome heap :=
  match x with Null => Ok h | Wild => Err EUB | At p => free_block p h end.
Fixpoint free_ptrs (xs : list ptr) (h : heap) : outcome heap :=
  match xs with
  | [] => Ok h
  | x :: xs' => h1 <- free_ptr x h ;; free_ptrs xs' h1
  end.

(** the pointers of parfu_file_fragment_entry_t (parfu_primary.h 132-170) and the
    list with its counters (172-176); [h_self] is the block of the list itself *)
Record hcell := { c_rel : ptr; c_arc : ptr; c_tgt : ptr; c_pad : ptr }.
Record hlist := { h_self : nat; h_total : Z; h_full : Z; h_cells : list hcell }.
Definition null_cell : hcell := {| c_rel := Null; c_arc := Null; c_tgt := Null; c_pad := Null |}.
Definition wild_cell : hcell := {| c_rel := Wild; c_arc := Wild; c_tgt := Wild; c_pad := Wild |}.

(** create_parfu_file_fragment_entry_list, 27-76 (see Legacy.create_list) *)
Definition h_create (n : Z) (h : heap) : outcome (option (heap * hlist)) :=
  if n <? 1 then Ok None
  else if n <? 2 then Err EUB
  else let '(p, h1) := malloc h in
       Ok (Some (h1, {| h_self := p; h_total := n; h_full := 0; h_cells := repeat null_cell (Z.to_nat n) |})).

(** parfu_free_ffel, 79-93: the pointers in the order they are freed; the loop
    runs over n_entries_total, not n_entries_full *)
Definition cell_ptrs (c : hcell) : list ptr := [c_rel c; c_arc c; c_tgt c; c_pad c].
Definition list_ptrs (l : hlist) : list ptr :=
  flat_map cell_ptrs (firstn (Z.to_nat (h_total l)) (h_cells l)) ++ [At (h_self l)].
Definition h_free (l : hlist) (h : heap) : outcome heap :=
  if zlen (h_cells l) <? h_total l then Err EUB else free_ptrs (list_ptrs l) h.

Fixpoint set_cell (k : nat) (c : hcell) (s : list hcell) : option (list hcell) :=
  match s, k with
  | [], _ => None
  | _ :: s', O => Some (c :: s')
  | x :: s', S k' => match set_cell k' c s' with Some r => Some (x :: r) | None => None end
  end.

(** parfu_add_entry_to_ffel_raw, 190-327: the value returned, the heap, the list.
    [linked]: the entry is a link; [tgt]: a target is given (lines 222-227).  When
    the list is full it is reallocated to twice its entries (234-246; room for one
    more, line 237), and the new entries are left unassigned.  Three strings are
    copied to new blocks, the pad name pointer itself is stored (312). *)
Definition h_add (linked tgt : bool) (pad : ptr) (h : heap) (l : hlist) : outcome (Z * (heap * hlist)) :=
  if linked && negb tgt then Ok (-1, (h, l)) else
  hl <- (if h_total l <=? h_full l then
           if INT_MAX <? h_total l * 2 then Err EUB
           else
             let room := Z.to_nat (h_total l * 2 + 1) in
             h1 <- free_block (h_self l) h ;;
             let '(p, h2) := malloc h1 in
             Ok (h2, {| h_self := p; h_total := h_total l * 2; h_full := h_full l;
                        h_cells := firstn room (h_cells l) ++ repeat wild_cell (room - length (h_cells l)) |})
         else Ok (h, l)) ;;
  let '(h1, l1) := hl in
  let '(p1, h2) := malloc h1 in
  let '(p2, h3) := malloc h2 in
  let '(p3, h4) := malloc h3 in
  match set_cell (Z.to_nat (h_full l1)) {| c_rel := At p1; c_arc := At p2; c_tgt := At p3; c_pad := pad |} (h_cells l1) with
  | None => Err EUB
  | Some s => Ok (0, (h4, {| h_self := h_self l1; h_total := h_total l1; h_full := h_full l1 + 1; h_cells := s |}))
  end.
(** one call for a request of Legacy.v *)
Definition is_link (q : request) : bool := match q_type q with LLnk => true | _ => false end.
Definition has_tgt (q : request) : bool := match q_tgt q with Some _ => true | None => false end.
Definition h_request (q : request) (pad : ptr) (h : heap) (l : hlist) : outcome (Z * (heap * hlist)) :=
  h_add (is_link q) (has_tgt q) pad h l.

(** a list made by one create and any calls of parfu_add_name_to_ffel (95-124,
    which passes a null pad name) *)
Fixpoint h_adds (qs : list request) (h : heap) (l : hlist) : outcome (heap * hlist) :=
  match qs with
  | [] => Ok (h, l)
  | q :: qs' => x <- h_request q Null h l ;; let '(_, (h1, l1)) := x in h_adds qs' h1 l1
  end.
Definition h_build (n : Z) (qs : list request) (h : heap) : outcome (option (heap * hlist)) :=
  c <- h_create n h ;;
  match c with
  | None => Ok None
  | Some (h1, l) => x <- h_adds qs h1 l ;; Ok (Some x)
  end.

(** [k] copies of one entry to the list, 1060-1166 and 770, 898
    (parfu_add_entry_to_ffel_mod, 127-159, passes on the pad name pointer; the
    target of a list entry is never null) *)
Fixpoint h_copies (k : nat) (linked : bool) (pad : ptr) (h : heap) (l : hlist) : outcome (heap * hlist) :=
  match k with
  | O => Ok (h, l)
  | S k' => x <- h_add linked true pad h l ;; let '(_, (h1, l1)) := x in h_copies k' linked pad h1 l1
  end.

(** whether a pad name is allocated for the entry: lines 826-831 and 1013-1017 *)
Definition pads (blk P : Z) (p : lpos) (e : lent) : bool :=
  let bs := blocked_up blk (sum_size e) in
  if bs <=? P then
    if w_rank p + bs <=? P then false else blk <=? (w_bucket p + 1) * P - w_all p
  else blk <=? (if w_all p mod P =? 0 then w_all p / P else w_all p / P + 1) * P - w_all p.

(** the loop of parfu_set_offsets_and_split_ffel, 685-1166, over the entries [l]
    and their cells [cs] in the incoming list: a new block for the pad name is
    stored in the incoming entry (875, 1063), whatever was there before, and then
    the entry is copied once per fragment.  [None]: the error return. *)
Definition with_pad (c : hcell) (x : ptr) : hcell := {| c_rel := c_rel c; c_arc := c_arc c; c_tgt := c_tgt c; c_pad := x |}.
Definition link_entry (e : lent) : bool := match l_type e with LLnk => true | _ => false end.
Fixpoint h_place (blk P : Z) (pad : bytes) (p : lpos) (l : list lent) (cs : list hcell) (h : heap) (out : hlist) :
  outcome (option (heap * (list hcell * hlist))) :=
  match l, cs with
  | [], _ => Ok (Some (h, (cs, out)))
  | _ :: _, [] => Err EUB
  | e :: l', c :: cs' =>
      x <- place_one blk P pad p e ;;
      match x with
      | None => Ok None
      | Some (_, fs, p1) =>
          let '(c1, h1) := if pads blk P p e then let '(q, h1) := malloc h in (with_pad c (At q), h1) else (c, h) in
          y <- h_copies (length fs) (link_entry e) (c_pad c1) h1 out ;; let '(h2, out1) := y in
          z <- h_place blk P pad p1 l' cs' h2 out1 ;;
          match z with
          | None => Ok None
          | Some (h3, (cs1, out2)) => Ok (Some (h3, (c1 :: cs1, out2)))
          end
      end
  end.
(** parfu_set_offsets_and_split_ffel, 631-1172: the heap, the incoming list as
    left behind, the split list *)
Definition h_split (blk P : Z) (pad : bytes) (l : list lent) (src : hlist) (h : heap) : outcome (option (heap * (hlist * hlist))) :=
  c <- h_create (zlen l) h ;;
  match c with
  | None => Ok None
  | Some (h1, out) =>
      if (blk =? 0) || (P =? 0) then Err EUB else
      x <- h_place blk P pad {| w_all := 0; w_rank := 0; w_bucket := 0 |} l (h_cells src) h1 out ;;
      match x with
      | None => Ok None
      | Some (h2, (cs, out1)) =>
          Ok (Some (h2, ({| h_self := h_self src; h_total := h_total src; h_full := h_full src; h_cells := cs |}, out1)))
      end
  end.
