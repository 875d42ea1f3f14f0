(** The 0.5.1 program on R ranks, every MPI call and every write a step: main
    (parfu_0_5_1_main_versA.c 68-287), parfu_wtar_archive_list_to_singeFP and
    parfu_wtar_archive_allbuckets_singFP (parfu_data_transfer.cc 64-556).
    LegacyWrite.v has the same work as one relation for runs in which every
    rank returns 0; here every rank stops where it stops.

    MPI as assumed (as in Mpi.v): MPI_Bcast returns at a receiving rank after
    rank 0 called it, at rank 0 when all have it or, if MPI chooses, at once;
    MPI_Barrier, MPI_File_open and MPI_Finalize return when every rank called
    them.  A call that does not fit the one rank 0 makes is an error state. *)
From Verif Require Import Bytes Outcome TarModel Layout Mover Worker Boss Spider Program Legacy LegacyLayout LegacyScan LegacyCodec LegacyWrite LegacyCreate Mpi.

(** what is broadcast: MPI_INT, MPI_LONG_INT, MPI_CHARs, MPI_INTs *)
Inductive lpack := KInt (n : Z) | KLong (n : Z) | KText (t : bytes) | KInts (l : list Z).
(** what a receiving rank asks for: type and count *)
Inductive want := NInt | NLong | NText (n : Z) | NInts (n : Z).
(** No code of the program: MPI, type and count of a broadcast at a receiver against those
    at rank 0. *)
Definition fits (w : want) (p : lpack) : bool :=
  match w, p with
  | NInt, KInt _ | NLong, KLong _ => true
  | NText n, KText t => zlen t =? n
  | NInts n, KInts l => zlen l =? n
  | _, _ => false
  end.
(** No code of the program: the contents of a broadcast. *)
Definition int_of (p : lpack) : Z := match p with KInt n | KLong n => n | _ => 0 end.
(** No code of the program: the contents of a broadcast. *)
Definition text_of (p : lpack) : bytes := match p with KText t => t | _ => [] end.
(** No code of the program: the contents of a broadcast. *)
Definition ints_of (p : lpack) : list Z := match p with KInts l => l | _ => [] end.
(** collective calls *)
Inductive lcall := KBcast (p : lpack) | KBarrier | KOpen (path : bytes) | KFinal.

(** what a rank has still to do.  [LReturn n]: main has returned n; [LDie]: the
    process ended otherwise; [LBad]: MPI error *)
Inductive lprog :=
| LBcast (p : lpack) (k : lprog)               (* MPI_Bcast at rank 0 *)
| LFetch (w : want) (k : lpack -> lprog)       (* MPI_Bcast at another rank *)
| LBarrier (k : lprog)
| LOpen (path : bytes) (k : bool -> lprog)     (* MPI_File_open *)
| LWrite (path : bytes) (w : wr) (k : lprog)   (* MPI_File_write_at *)
| LFinal (k : lprog)                           (* MPI_Finalize *)
| LReturn (code : Z)
| LDie (e : err)
| LBad.

(** a part of parfu_wtar_archive_list_to_singeFP: a nonzero return makes main
    return 243 (parfu_0_5_1_main_versA.c 272) *)
Definition step_of {A} (x : outcome (option A)) (k : A -> lprog) : lprog :=
  match x with Err e => LDie e | Ok None => LReturn 243 | Ok (Some a) => k a end.
(** the same for the checks of parfu_data_transfer.cc 341-348, 412-420 *)
Definition check_of (x : outcome bool) (k : lprog) : lprog :=
  match x with Err e => LDie e | Ok false => LReturn 243 | Ok true => k end.
(** for a part that returns nothing to look at; parfu_0_5_1_main_versA.c 150-156 *)
Definition value_of {A} (x : outcome A) (k : A -> lprog) : lprog :=
  match x with Err e => LDie e | Ok a => k a end.
(** MPI_File_write_at one after the other, parfu_data_transfer.cc 203-207, 220-224, 269-273,
    887-891 *)
Definition writes (path : bytes) (ws : list wr) (k : lprog) : lprog := fold_right (LWrite path) k ws.

(** parfu_wtar_archive_allbuckets_singFP, parfu_data_transfer.cc 506-552 *)
Fixpoint move (P D : Z) (clock : Z -> Z) (ev : env) (l : list lent) (starts : list Z) (path : bytes) (m : mem) (is : list Z) (k : lprog) : lprog :=
  match is with
  | [] => k
  | i :: is' => step_of (one_bucket L_BLOCK P D (clock i) ev l starts m i) (fun x => writes path (snd x) (move P D clock ev l starts path (fst x) is' k))
  end.
(** parfu_0_5_1_main_versA.c 274-287 *)
Definition closing : lprog := LBarrier (LFinal (LReturn 0)).
(** every rank once it has the list and the bucket starts, parfu_data_transfer.cc 412-442 *)
Definition move_part (P D : Z) (clock : Z -> Z) (ev : env) (R r : nat) (path : bytes) (l : list lent) (starts : list Z) : lprog :=
  check_of (check_calls l 0 starts)
    (LBarrier (move P D clock ev l starts path cleared (rank_loop (Z.of_nat R) (Z.of_nat r) (zlen starts)) closing)).
(** parfu_data_transfer.cc 363: the count of the MPI_Bcast is an int.  Simplification: a length that
    does not fit is an MPI error at once, also above 4 GiB *)
Definition count_of (n : Z) (k : lprog) : lprog := if INT_MAX <? n then LDie EAbort else k.

(** rank 0 in parfu_wtar_archive_list_to_singeFP, parfu_data_transfer.cc 113-442 *)
Definition writer0 (P : Z) (pad : bytes) (clock : Z -> Z) (ev : env) (R : nat) (arc : bytes) (l : list lent) : lprog :=
  step_of (list_to_buffer l (wrap32 P) true) (fun cat =>            (* 122-130 *)
  if zlen arc <? 1 then LReturn 243 else                            (* 136-140 *)
  LBcast (KInt (zlen arc)) (LBcast (KText (arc ++ [NUL])) (         (* 144-158 *)
  LOpen arc (fun ok => if negb ok then LReturn 243 else             (* 176-187 *)
  value_of (compute_hdr_size (b ".parfu_catalog") [] (zlen cat)) (fun h =>
  writes arc [put 0 h (poke fresh 0 (catalog_header (zlen cat) (clock (-2)))); put h (zlen cat) (poke fresh 0 cat)] (   (* 193-235 *)
  if P =? 0 then LDie EUB else
  writes arc (catalog_spacer L_BLOCK P h (h + zlen cat) (clock (-1))) (   (* 238-283 *)
  LBcast (KLong (data_offset P (h + zlen cat))) (                   (* 287 *)
  step_of (set_offsets_and_split L_BLOCK P pad l) (fun x =>         (* 296-306 *)
  step_of (list_to_buffer (snd (fst x)) (wrap32 P) false) (fun text =>   (* 307-314 *)
  step_of (rank_call_list (snd (fst x))) (fun starts =>             (* 331-337 *)
  check_of (check_calls (snd (fst x)) 0 starts) (                   (* 341-348 *)
  LBcast (KLong (zlen text)) (count_of (zlen text) (LBcast (KText text) (   (* 352-363 *)
  step_of (buffer_to_list text false) (fun y =>                     (* 366-372 *)
  LBcast (KInt (zlen starts)) (LBcast (KInts starts) (              (* 376-385 *)
  move_part P (data_offset P (h + zlen cat)) clock ev R 0 arc (snd y) starts)))))))))))))))))).

(** another rank: parfu_0_5_1_main_versA.c 217-258, then parfu_data_transfer.cc 144-442 *)
Definition create_other (P : Z) (clock : Z -> Z) (ev : env) (R r : nat) : lprog :=
  LFetch NInt (fun n => LFetch (NText (int_of n)) (fun _ => LBarrier (
  LFetch NInt (fun n => LFetch (NText (int_of n + 1)) (fun t =>
  let arc := cstr (text_of t) in
  LOpen arc (fun ok => if negb ok then LReturn 243 else
  LFetch NLong (fun D => LFetch NLong (fun n => count_of (int_of n) (LFetch (NText (int_of n)) (fun t =>
  step_of (buffer_to_list (text_of t) false) (fun y =>
  LFetch NInt (fun n => LFetch (NInts (int_of n)) (fun s =>
  move_part P (int_of D) clock ev R r arc (snd y) (ints_of s)))))))))))))).

(** main on rank r, parfu_0_5_1_main_versA.c 68-287.  [sort] is what qsort does
    with the list (C37); [args] is argv without the program name *)
Definition lmain (R fuel : nat) (fs : fsys) (sort : list lent -> list lent) (clock : Z -> Z) (ev : env) (args : list bytes) (r : nat) : lprog :=
  match legacy_main r args with
  | (c, Usage) | (c, UnknownMode) => LReturn c
  | (_, DoNothing) => LFinal (LReturn 0)
  | (_, DoCreate arc top) =>
      if (r =? 0)%nat then
        match list_directory fuel fs top with
        | Err e => LDie e
        | Ok None => LReturn 333                                    (* 138-144 *)
        | Ok (Some es) =>
            value_of (fill_rels top es) (fun es' =>                 (* 150-156 *)
            LBcast (KInt (zlen arc + 1)) (LBcast (KText (arc ++ [NUL])) (LBarrier (    (* 217-258 *)
            writer0 L_BUCKET L_PAD clock ev R arc (sort es')))))
        end
      else create_other L_BUCKET clock ev R r
  end.

(** *** the ranks together *)
Record lsys := {
  l_prog : nat -> lprog;
  l_in : nat -> bool;              (* inside the collective call its program starts with *)
  l_seen : nat -> nat;             (* collective calls returned from *)
  l_hist : list lcall;             (* collective calls rank 0 has entered *)
  l_log : list (nat * event) }.
(** No code of the program: the state when every rank has called MPI_Init. *)
Definition lstart (p : nat -> lprog) : lsys := {| l_prog := p; l_in := fun _ => false; l_seen := fun _ => 0%nat; l_hist := []; l_log := [] |}.

(** MPI: the call a program starts with, if it waits for all ranks; [after]: what
    comes then, and what is seen on the disk *)
Definition joint (p : lprog) : option lcall :=
  match p with LBarrier _ => Some KBarrier | LOpen path _ => Some (KOpen path) | LFinal _ => Some KFinal | _ => None end.
(** No code of the program: the same at rank 0, broadcasts included. *)
Definition first_call (p : lprog) : option lcall := match p with LBcast x _ => Some (KBcast x) | _ => joint p end.
(** No code of the program: what comes after the call. *)
Definition then_do (opens : bytes -> bool) (p : lprog) : lprog :=
  match p with LBarrier k | LFinal k | LBcast _ k => k | LOpen path k => k (opens path) | _ => p end.
(** No code of the program: what the call leaves on the disk, MPI_File_open
    (parfu_data_transfer.cc 176-187). *)
Definition effect (opens : bytes -> bool) (p : lprog) : list event := match p with LOpen path _ => [EvOpen path (opens path)] | _ => [] end.
(** No code of the program: how many collective calls rank r has entered. *)
Definition entered (s : lsys) (r : nat) : nat := (l_seen s r + if l_in s r then 1 else 0)%nat.

(** No code of the program: rank r enters a collective call. *)
Definition enter (s : lsys) (r : nat) (h : list lcall) : lsys :=
  {| l_prog := l_prog s; l_in := upd (l_in s) r true; l_seen := l_seen s; l_hist := l_hist s ++ h; l_log := l_log s |}.
(** No code of the program: rank r returns from one. *)
Definition leave (s : lsys) (r : nat) (k : lprog) (l : list event) : lsys :=
  {| l_prog := upd (l_prog s) r k; l_in := upd (l_in s) r false; l_seen := upd (l_seen s) r (S (l_seen s r)); l_hist := l_hist s; l_log := l_log s ++ map (pair r) l |}.
(** No code of the program: a step of rank r alone. *)
Definition local (s : lsys) (r : nat) (k : lprog) (l : list event) : lsys :=
  {| l_prog := upd (l_prog s) r k; l_in := upd (l_in s) r false; l_seen := l_seen s; l_hist := l_hist s; l_log := l_log s ++ map (pair r) l |}.

(** MPI: the label is [True] for steps that must eventually happen, [False] for those
    that happen only if MPI buffers a broadcast *)
Inductive lstep (R : nat) (opens : bytes -> bool) : Prop -> lsys -> lsys -> Prop :=
| L_enter0 s c : first_call (l_prog s 0%nat) = Some c -> l_in s 0%nat = false -> lstep R opens True s (enter s 0 [c])
| L_enter s r c : (1 <= r < R)%nat -> joint (l_prog s r) = Some c -> l_in s r = false -> lstep R opens True s (enter s r [])
| L_casted s p k : l_prog s 0%nat = LBcast p k -> l_in s 0%nat = true -> (forall r, (1 <= r < R)%nat -> (l_seen s 0 < l_seen s r)%nat) ->
    lstep R opens True s (leave s 0 k [])
| L_cast_buffer s p k : l_prog s 0%nat = LBcast p k -> l_in s 0%nat = true -> lstep R opens False s (leave s 0 k [])
| L_fetch s r w k p : (1 <= r < R)%nat -> l_prog s r = LFetch w k -> nth_error (l_hist s) (l_seen s r) = Some (KBcast p) -> fits w p = true ->
    lstep R opens True s (leave s r (k p) [])
| L_fetch_bad s r w k c : (1 <= r < R)%nat -> l_prog s r = LFetch w k -> nth_error (l_hist s) (l_seen s r) = Some c ->
    (forall p, c = KBcast p -> fits w p = false) -> lstep R opens True s (local s r LBad [])
| L_join s r c : (r < R)%nat -> joint (l_prog s r) = Some c -> l_in s r = true -> nth_error (l_hist s) (l_seen s r) = Some c ->
    (forall q, (q < R)%nat -> (l_seen s r < entered s q)%nat) ->
    lstep R opens True s (leave s r (then_do opens (l_prog s r)) (effect opens (l_prog s r)))
| L_join_bad s r c c' : (r < R)%nat -> joint (l_prog s r) = Some c -> l_in s r = true -> nth_error (l_hist s) (l_seen s r) = Some c' -> c' <> c ->
    lstep R opens True s (local s r LBad [])
| L_write s r path w k : (r < R)%nat -> l_prog s r = LWrite path w k -> lstep R opens True s (local s r k [EvWrite path w]).

(** No code of the program: runs of n steps. *)
Inductive lrun (R : nat) (opens : bytes -> bool) (p : nat -> lprog) : nat -> lsys -> Prop :=
| lrun_start : lrun R opens p 0 (lstart p)
| lrun_step n s s' m : lrun R opens p n s -> lstep R opens m s s' -> lrun R opens p (S n) s'.
(** No code of the program: runs of steps that must happen. *)
Inductive lleads (R : nat) (opens : bytes -> bool) : lsys -> lsys -> Prop :=
| ll_here s : lleads R opens s s
| ll_step s s' s'' : lstep R opens True s s' -> lleads R opens s' s'' -> lleads R opens s s''.
