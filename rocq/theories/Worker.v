(** Message framing (parfu_broadcast_order, parfu_send_order_to_rank,
    parfu_boss_functions.cc 28-87) and the worker's reaction to one message
    (parfu_worker_node, parfu_worker_node.cc 70-270). *)
From Verif Require Import Bytes Outcome TarModel Layout OrderCodec Mover.

(** *** framing.  message_length is an int holding size()+1, the buffer is
    data() with its terminating NUL.  A length that does not fit an int is
    passed negative (or wrapped) to MPI_Send and malloc: no defined result
    (parfu_boss_functions.cc 41-52 and 72-83). *)
Definition frame (letter text : bytes) : outcome (Z * bytes) :=
  let n := zlen (letter ++ text) + 1 in
  if n <=? INT_MAX then Ok (n, letter ++ text ++ [NUL]) else Err EUB.
(** the worker's side: string(message_buffer), .cc 134, 203 *)
Definition unframe (m : Z * bytes) : bytes := cstr (snd m).
(** parfu_boss_functions.cc 28-87 to parfu_worker_node.cc 134 and 203 *)
Definition deliver (letter text : bytes) : outcome bytes := m <- frame letter text ;; Ok (unframe m).

(** *** the worker.  file_handle: never opened, opened, or the open failed
    (parfu_worker_node.cc 83, 147-155) *)
Inductive handle := HNull | HOpen (path : bytes) | HFailed (path : bytes).
(** receive_mode, parfu_worker_node.cc 79 *)
Inductive mode := ModeB | ModeN.
(** the worker's variables, parfu_worker_node.cc 71-87 *)
Record wstate := { ws_mode : mode; ws_bucket : Z; ws_handle : handle; ws_base : bytes }.
(** .cc 71-87 *)
Definition wstart : wstate := {| ws_mode := ModeB; ws_bucket := 0; ws_handle := HNull; ws_base := [] |}.

(** what the outside sees of the worker, .cc 150-256 *)
Inductive event :=
| EvOpen (path : bytes) (ok : bool)      (* collective open of the archive *)
| EvBucket (n : Z)                       (* bucket size set *)
| EvBase (path : bytes)
| EvWrite (path : bytes) (w : wr)        (* MPI_File_write_at on the open archive *)
| EvNoWrite (path : bytes)               (* same, on a handle whose open failed: only an error is printed *)
| EvDone                                 (* reply with my rank *)
| EvWarn.

(** the loop goes on, or returns: parfu_worker_node.cc 179, 215, 251 *)
Inductive reaction := Go (s : wstate) | Return (code : Z).

(** instruction_letter = substr(0,1); .cc 139, 208 *)
Definition letter_of (m : bytes) : bytes := firstn 1 m.
(** substr(1), .cc 146, 161, 220, 239 *)
Definition rest_of (m : bytes) : bytes := skipn 1 m.

(** mode B, .cc 120-189.  [opens p] tells whether the collective open of [p]
    with CREATE|EXCL succeeds.  On X with an open handle free() is called on an
    object made with new: undefined behaviour. *)
Definition on_broadcast (opens : bytes -> bool) (s : wstate) (m : bytes) : outcome (list event * reaction) :=
  if bytes_eqb (letter_of m) (b "A") then
    let p := rest_of m in
    let ok := opens p in
    Ok ([EvOpen p ok], Go {| ws_mode := ws_mode s; ws_bucket := ws_bucket s;
                             ws_handle := if ok then HOpen p else HFailed p; ws_base := ws_base s |})
  else if bytes_eqb (letter_of m) (b "U") then
    n <- get_stoi (rest_of m) ;;
    Ok ([EvBucket (to_ulong n)], Go {| ws_mode := ws_mode s; ws_bucket := to_ulong n; ws_handle := ws_handle s; ws_base := ws_base s |})
  else if bytes_eqb (letter_of m) (b "N") then
    Ok ([], Go {| ws_mode := ModeN; ws_bucket := ws_bucket s; ws_handle := ws_handle s; ws_base := ws_base s |})
  else if bytes_eqb (letter_of m) (b "X") then
    match ws_handle s with HNull => Ok ([], Return 0) | _ => Err EUB end
  else Ok ([EvWarn], Go s).

(** mode N, .cc 190-259 *)
Definition on_individual (ev : env) (s : wstate) (m : bytes) : outcome (list event * reaction) :=
  if bytes_eqb (letter_of m) (b "C") then
    if ws_bucket s =? 0 then Ok ([], Return 7)
    else
      os <- parse_bundle (rest_of m) ;;
      _ <- total_size os ;;
      _ <- order_n_filename os 0 ;;
      w <- move_data_Create ev (ws_base s) (ws_bucket s) os ;;
      match ws_handle s with
      | HNull => Err EUB
      | HOpen p => Ok ([EvWrite p w; EvDone], Go s)
      | HFailed p => Ok ([EvNoWrite p; EvDone], Go s)
      end
  else if bytes_eqb (letter_of m) (b "P") then
    Ok ([EvBase (rest_of m)], Go {| ws_mode := ws_mode s; ws_bucket := ws_bucket s; ws_handle := ws_handle s; ws_base := rest_of m |})
  else if bytes_eqb (letter_of m) (b "B") then
    Ok ([], Go {| ws_mode := ModeB; ws_bucket := ws_bucket s; ws_handle := ws_handle s; ws_base := ws_base s |})
  else if bytes_eqb (letter_of m) (b "X") then Ok ([], Return 0)
  else Ok ([EvWarn], Go s).

(** switch(receive_mode), .cc 119-263 *)
Definition on_message (opens : bytes -> bool) (ev : env) (s : wstate) (m : bytes) : outcome (list event * reaction) :=
  match ws_mode s with ModeB => on_broadcast opens s m | ModeN => on_individual ev s m end.

(** the while(1) loop over a history of messages.  Each message can meet a
    different file system: [ev]/[opens] take the message number.  Result: the
    events so far and how it stands: still looping, returned, or dead
    (.cc 118-266). *)
Inductive standing := Looping (s : wstate) | Returned (code : Z) (unread : list bytes) | Died (e : err) (unread : list bytes).
(** while(1), .cc 118-266 *)
Fixpoint worker_from (opens : nat -> bytes -> bool) (ev : nat -> env) (k : nat) (s : wstate) (ms : list bytes) : list event * standing :=
  match ms with
  | [] => ([], Looping s)
  | m :: ms' =>
      match on_message (opens k) (ev k) s m with
      | Err e => ([], Died e ms')
      | Ok (l, Return c) => (l, Returned c ms')
      | Ok (l, Go s') => let '(l', r) := worker_from opens ev (S k) s' ms' in (l ++ l', r)
      end
  end.
(** parfu_worker_node, .cc 70-95: rank 0 is refused with -1 *)
Definition worker_node (opens : nat -> bytes -> bool) (ev : nat -> env) (rank : Z) (ms : list bytes) : list event * standing :=
  if rank =? 0 then ([], Returned (-1) ms) else worker_from opens ev 0 wstart ms.

(** a worker that got U, A, N and P (parfu_main_0_6_test.cc 201-249) *)
Definition ready (bucket : Z) (path base : bytes) : wstate :=
  {| ws_mode := ModeN; ws_bucket := bucket; ws_handle := HOpen path; ws_base := base |}.
