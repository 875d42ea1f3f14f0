(** The whole 0.6 program on R ranks, message by message: main
    (parfu_main_0_6_test.cc 31-283), parfu_broadcast_order,
    parfu_send_order_to_rank and push_out_all_orders (parfu_boss_functions.cc),
    parfu_worker_node (parfu_worker_node.cc), as a small-step system with every
    interleaving.  Boss.v has one message per order and starts with idle
    workers; here every MPI call is a step of its own: lengths and texts are
    separate messages, broadcasts, the collective open and MPI_Finalize are
    there, and the replies carry their text.

    MPI as assumed: messages between two ranks arrive in the order they were
    sent; MPI_ANY_SOURCE takes a message of any rank; MPI_Send returns when the
    message was received or, if MPI chooses, at once; MPI_Bcast returns at a
    receiving rank after rank 0 called it, and at rank 0 when all have it or, if
    MPI chooses, at once; MPI_File_open and MPI_Finalize return when every rank
    called them.  A receive or collective call that does not fit what is sent
    (other type, longer text, other collective, other file name) is an error
    state. *)
From Verif Require Import Bytes Outcome TarModel Layout OrderCodec Mover Worker Boss Spider Args Program.

(** one message: an MPI_INT, or MPI_CHARs (parfu_boss_functions.cc 49-52, 80-83) *)
Inductive packet := PLen (n : Z) | PText (t : bytes).
(** collective calls: parfu_boss_functions.cc 49-52, parfu_main_0_6_test.cc 218, 229, 281 *)
Inductive coll := CCast (p : packet) | COpen (path : bytes) | CFinal.

(** what rank 0 has still to do: the MPI calls of parfu_main_0_6_test.cc 77-282 *)
Inductive prog :=
| PCast (p : packet) (k : prog)      (* MPI_Bcast *)
| POpen (path : bytes) (k : prog)    (* MPI_File_open *)
| PSend (r : nat) (p : packet) (k : prog)
| PRecv (k : bytes -> prog)          (* MPI_Recv from any source *)
| PFinal (k : prog)                  (* MPI_Finalize *)
| PStop (e : ending).

(** parfu_broadcast_order, parfu_boss_functions.cc 28-55 *)
Definition cast_order (letter text : bytes) (k : prog) : prog :=
  match frame letter text with
  | Ok (n, t) => PCast (PLen n) (PCast (PText t) k)
  | Err e => PStop (BDied e)
  end.
(** parfu_send_order_to_rank, 58-87 *)
Definition send_order (r : nat) (letter text : bytes) (k : prog) : prog :=
  match frame letter text with
  | Ok (n, t) => PSend r (PLen n) (PSend r (PText t) k)
  | Err e => PStop (BDied e)
  end.

(** push_out_all_orders, 91-202.  [drain n]: n receives whose content is not
    looked at (138-149, 188-196).  [feed]: 158-178; a rank outside the
    communicator is an MPI error.  [first]: 111-122. *)
Fixpoint drain (n : nat) (k : prog) : prog :=
  match n with O => k | S n' => PRecv (fun _ => drain n' k) end.
(** parfu_boss_functions.cc 158-178 *)
Fixpoint feed (R : nat) (ts : list bytes) (k : prog) : prog :=
  match ts with
  | [] => k
  | t :: ts' => PRecv (fun reply =>
      match stoi (cstr reply) with
      | Some v => if (0 <=? v) && (v <? Z.of_nat R) then send_order (Z.to_nat v) (b "C") t (feed R ts' k) else PStop (BDied EAbort)
      | None => PStop (BDied EThrow)
      end)
  end.
(** parfu_boss_functions.cc 111-122 *)
Fixpoint first (R N r : nat) (ts : list bytes) (k : prog) : prog :=
  match ts with
  | [] => drain N k
  | t :: ts' => if Nat.ltb r R then send_order r (b "C") t (first R N (S r) ts' k) else feed R ts (drain (R - 1) k)
  end.
(** push_out_all_orders, parfu_boss_functions.cc 91-202 *)
Definition push_out (R : nat) (ts : list bytes) (k : prog) : prog := first R (length ts) 1 ts k.

(** what main does after planning, as MPI calls, parfu_main_0_6_test.cc 201-282 *)
Fixpoint program (R : nat) (acts : list act) (e : ending) : prog :=
  match acts with
  | [] => PStop e
  | ABcast l t :: acts' => cast_order l t (program R acts' e)
  | AOpen p _ :: acts' => POpen p (program R acts' e)
  | ASend r l t :: acts' => send_order r l t (program R acts' e)
  | APush bs :: acts' => push_out R (map print_bundle bs) (program R acts' e)
  | AFinalize :: acts' => PFinal (program R acts' e)
  end.

(** a worker, parfu_worker_node.cc 118-270 and the end of main (parfu_main_0_6_test.cc 277-282).  It is inside
    of: MPI_Bcast for a length, for a text of n bytes; MPI_Recv for a length,
    for a text; holds a message; the collective open; about to reply, inside
    the MPI_Send of the reply; MPI_Finalize; through; dead; in error *)
Inductive wpc := WB | WBt (n : Z) | WN | WNt (n : Z) | WGot (t : bytes) | WOpen (path : bytes) (ok : bool)
  | WAns | WIn | WFin | WDone | WGone (e : err) | WBad.
(** what rank 0 is inside of: parfu_boss_functions.cc 49-52, 80-83, parfu_main_0_6_test.cc 218, 229, 281 *)
Inductive bstat := BReady | BSend (r : nat) | BCast | BOpen (path : bytes) | BFin.

(** the state of all ranks and of MPI: bookkeeping of the model, no code *)
Record msys := {
  m_prog : prog;
  m_stat : bstat;
  m_colls : list coll;            (* collective calls rank 0 has entered *)
  m_queue : nat -> list packet;   (* sent to r, not yet received *)
  m_pc : nat -> wpc;
  m_ws : nat -> wstate;
  m_seen : nat -> nat;            (* collective calls r has returned from *)
  m_reps : nat -> list bytes;     (* replies sent by r, not yet received *)
  m_log : list (nat * event) }.   (* what the ranks did, in the order it happened *)

(** after MPI_Init, parfu_main_0_6_test.cc 71-77 *)
Definition mstart (p : prog) : msys :=
  {| m_prog := p; m_stat := BReady; m_colls := []; m_queue := fun _ => []; m_pc := fun _ => WB; m_ws := fun _ => wstart;
     m_seen := fun _ => 0%nat; m_reps := fun _ => []; m_log := [] |}.

(** rank 0 goes on: bookkeeping of the model, no code *)
Definition on_boss s p st : msys :=
  {| m_prog := p; m_stat := st; m_colls := m_colls s; m_queue := m_queue s; m_pc := m_pc s; m_ws := m_ws s; m_seen := m_seen s;
     m_reps := m_reps s; m_log := m_log s |}.
(** a collective call returns at rank 0: bookkeeping of the model, no code *)
Definition on_log s l : msys :=
  {| m_prog := m_prog s; m_stat := BReady; m_colls := m_colls s; m_queue := m_queue s; m_pc := m_pc s; m_ws := m_ws s; m_seen := m_seen s;
     m_reps := m_reps s; m_log := m_log s ++ l |}.
(** rank 0 enters a collective call: bookkeeping of the model, no code *)
Definition on_coll s p st c : msys :=
  {| m_prog := p; m_stat := st; m_colls := m_colls s ++ [c]; m_queue := m_queue s; m_pc := m_pc s; m_ws := m_ws s; m_seen := m_seen s;
     m_reps := m_reps s; m_log := m_log s |}.
(** rank 0 enters MPI_Send: bookkeeping of the model, no code *)
Definition on_send s p r x : msys :=
  {| m_prog := p; m_stat := BSend r; m_colls := m_colls s; m_queue := upd (m_queue s) r (m_queue s r ++ [x]); m_pc := m_pc s; m_ws := m_ws s;
     m_seen := m_seen s; m_reps := m_reps s; m_log := m_log s |}.
(** rank 0 leaves MPI_Recv: bookkeeping of the model, no code *)
Definition on_recv s p r q : msys :=
  {| m_prog := p; m_stat := BReady; m_colls := m_colls s; m_queue := m_queue s; m_pc := m_pc s; m_ws := m_ws s; m_seen := m_seen s;
     m_reps := upd (m_reps s) r q; m_log := m_log s |}.
(** worker r goes on: bookkeeping of the model, no code *)
Definition on_pc s r pc : msys :=
  {| m_prog := m_prog s; m_stat := m_stat s; m_colls := m_colls s; m_queue := m_queue s; m_pc := upd (m_pc s) r pc; m_ws := m_ws s;
     m_seen := m_seen s; m_reps := m_reps s; m_log := m_log s |}.
(** a collective call returns at rank r: bookkeeping of the model, no code *)
Definition on_seen s r pc l : msys :=
  {| m_prog := m_prog s; m_stat := m_stat s; m_colls := m_colls s; m_queue := m_queue s; m_pc := upd (m_pc s) r pc; m_ws := m_ws s;
     m_seen := upd (m_seen s) r (S (m_seen s r)); m_reps := m_reps s; m_log := m_log s ++ l |}.
(** worker r leaves MPI_Recv: bookkeeping of the model, no code *)
Definition on_take s r pc q : msys :=
  {| m_prog := m_prog s; m_stat := m_stat s; m_colls := m_colls s; m_queue := upd (m_queue s) r q; m_pc := upd (m_pc s) r pc; m_ws := m_ws s;
     m_seen := m_seen s; m_reps := m_reps s; m_log := m_log s |}.
(** worker r has acted on a message: bookkeeping of the model, no code *)
Definition on_exec s r pc w l : msys :=
  {| m_prog := m_prog s; m_stat := m_stat s; m_colls := m_colls s; m_queue := m_queue s; m_pc := upd (m_pc s) r pc; m_ws := upd (m_ws s) r w;
     m_seen := m_seen s; m_reps := m_reps s; m_log := m_log s ++ l |}.
(** worker r enters MPI_Send, parfu_worker_node.cc 230-232 *)
Definition on_reply s r x : msys :=
  {| m_prog := m_prog s; m_stat := m_stat s; m_colls := m_colls s; m_queue := m_queue s; m_pc := upd (m_pc s) r WIn; m_ws := m_ws s;
     m_seen := m_seen s; m_reps := upd (m_reps s) r (m_reps s r ++ [x]); m_log := m_log s |}.

(** parfu_worker_node.cc 119: the mode decides what the worker waits for *)
Definition listen (w : wstate) : wpc := match ws_mode w with ModeB => WB | ModeN => WN end.
(** a worker waits for these calls to return everywhere: parfu_worker_node.cc 150,
    parfu_main_0_6_test.cc 281 *)
Definition joining (pc : wpc) : bool := match pc with WOpen _ _ | WFin => true | _ => false end.
(** collective calls rank r has entered (those that wait for all) or returned from:
    bookkeeping of the model, no code *)
Definition joined (s : msys) (r : nat) : nat := (m_seen s r + if joining (m_pc s r) then 1 else 0)%nat.
(** a collective call returns when all have entered it: MPI, no code *)
Definition all_joined (R : nat) (s : msys) (n : nat) : Prop := forall r, (1 <= r < R)%nat -> (n <= joined s r)%nat.
(** the text of a reply, parfu_worker_node.cc 230: to_string(my_rank) with its NUL *)
Definition reply_of (r : nat) : bytes := print_int (Z.of_nat r) ++ [NUL].
(** INT_STRING_BUFFER_SIZE, parfu_boss_functions.cc 89 *)
Definition REPLY_MAX : Z := 20.

(** what a worker does with the message it holds: the events, the state, where it is then
    (parfu_worker_node.cc 134-263) *)
Definition react (opens : bytes -> bool) (ev : env) (w : wstate) (t : bytes) : list event * (wstate * wpc) :=
  match on_message opens ev w (cstr t) with
  | Err e => ([], (w, WGone e))
  | Ok (l, Return _) => (l, (w, WFin))
  | Ok ([EvOpen p ok], Go w') => ([], (w', WOpen p ok))
  | Ok ([EvWrite p x; EvDone], Go w') => ([EvWrite p x], (w', WAns))
  | Ok ([EvNoWrite p; EvDone], Go w') => ([EvNoWrite p], (w', WAns))
  | Ok (l, Go w') => (l, (w', listen w'))
  end.

(** the label is [True] for steps that must eventually happen, [False] for
    steps that happen only if MPI chooses to buffer.  Code: that of [prog] and [wpc] above:
    parfu_main_0_6_test.cc 77-282, parfu_boss_functions.cc 28-202, parfu_worker_node.cc 118-266 *)
Inductive mstep (R : nat) (opens : bytes -> bool) (ev : env) : Prop -> msys -> msys -> Prop :=
(* rank 0 enters a call *)
| M_cast s p k : m_prog s = PCast p k -> m_stat s = BReady -> mstep R opens ev True s (on_coll s k BCast (CCast p))
| M_open s p k : m_prog s = POpen p k -> m_stat s = BReady -> mstep R opens ev True s (on_coll s k (BOpen p) (COpen p))
| M_final s k : m_prog s = PFinal k -> m_stat s = BReady -> mstep R opens ev True s (on_coll s k BFin CFinal)
| M_send s r p k : m_prog s = PSend r p k -> m_stat s = BReady -> mstep R opens ev True s (on_send s k r p)
(* its calls return *)
| M_recv s k r t q : m_prog s = PRecv k -> m_stat s = BReady -> m_reps s r = t :: q -> zlen t <= REPLY_MAX ->
    mstep R opens ev True s (on_recv s (k t) r q)
| M_recv_long s k r t q : m_prog s = PRecv k -> m_stat s = BReady -> m_reps s r = t :: q -> REPLY_MAX < zlen t ->
    mstep R opens ev True s (on_recv s (PStop (BDied EAbort)) r q)
| M_sent s r : m_stat s = BSend r -> m_queue s r = [] -> mstep R opens ev True s (on_boss s (m_prog s) BReady)
| M_sent_buffer s r : m_stat s = BSend r -> mstep R opens ev False s (on_boss s (m_prog s) BReady)
| M_casted s : m_stat s = BCast -> (forall r, (1 <= r < R)%nat -> (length (m_colls s) <= m_seen s r)%nat) ->
    mstep R opens ev True s (on_boss s (m_prog s) BReady)
| M_cast_buffer s : m_stat s = BCast -> mstep R opens ev False s (on_boss s (m_prog s) BReady)
| M_opened0 s p : m_stat s = BOpen p -> all_joined R s (length (m_colls s)) -> mstep R opens ev True s (on_log s [(0%nat, EvOpen p (opens p))])
| M_done0 s : m_stat s = BFin -> all_joined R s (length (m_colls s)) -> mstep R opens ev True s (on_log s [])
(* worker r: broadcasts *)
| M_blen s r n : (1 <= r < R)%nat -> m_pc s r = WB -> nth_error (m_colls s) (m_seen s r) = Some (CCast (PLen n)) ->
    mstep R opens ev True s (on_seen s r (WBt n) [])
| M_btext s r n t : (1 <= r < R)%nat -> m_pc s r = WBt n -> nth_error (m_colls s) (m_seen s r) = Some (CCast (PText t)) -> zlen t = n ->
    mstep R opens ev True s (on_seen s r (WGot t) [])
| M_blen_bad s r c : (1 <= r < R)%nat -> m_pc s r = WB -> nth_error (m_colls s) (m_seen s r) = Some c -> (forall n, c <> CCast (PLen n)) ->
    mstep R opens ev True s (on_pc s r WBad)
| M_btext_bad s r n c : (1 <= r < R)%nat -> m_pc s r = WBt n -> nth_error (m_colls s) (m_seen s r) = Some c ->
    (forall t, zlen t = n -> c <> CCast (PText t)) -> mstep R opens ev True s (on_pc s r WBad)
(* worker r: messages of its own *)
| M_len s r n q : (1 <= r < R)%nat -> m_pc s r = WN -> m_queue s r = PLen n :: q -> mstep R opens ev True s (on_take s r (WNt n) q)
| M_text s r n t q : (1 <= r < R)%nat -> m_pc s r = WNt n -> m_queue s r = PText t :: q -> zlen t <= n ->
    mstep R opens ev True s (on_take s r (WGot t) q)
| M_len_bad s r t q : (1 <= r < R)%nat -> m_pc s r = WN -> m_queue s r = PText t :: q -> mstep R opens ev True s (on_take s r WBad q)
| M_text_bad s r n p q : (1 <= r < R)%nat -> m_pc s r = WNt n -> m_queue s r = p :: q ->
    (forall t, zlen t <= n -> p <> PText t) -> mstep R opens ev True s (on_take s r WBad q)
(* worker r acts on a message *)
| M_exec s r t l w pc : (1 <= r < R)%nat -> m_pc s r = WGot t -> react opens ev (m_ws s r) t = (l, (w, pc)) ->
    mstep R opens ev True s (on_exec s r pc w (map (pair r) l))
(* the collective open returns at r *)
| M_opened s r p ok : (1 <= r < R)%nat -> m_pc s r = WOpen p ok -> nth_error (m_colls s) (m_seen s r) = Some (COpen p) ->
    all_joined R s (S (m_seen s r)) -> mstep R opens ev True s (on_seen s r (listen (m_ws s r)) [(r, EvOpen p ok)])
| M_open_bad s r p ok c : (1 <= r < R)%nat -> m_pc s r = WOpen p ok -> nth_error (m_colls s) (m_seen s r) = Some c -> c <> COpen p ->
    mstep R opens ev True s (on_pc s r WBad)
(* the reply *)
| M_reply s r : (1 <= r < R)%nat -> m_pc s r = WAns -> mstep R opens ev True s (on_reply s r (reply_of r))
| M_taken s r : (1 <= r < R)%nat -> m_pc s r = WIn -> m_reps s r = [] -> mstep R opens ev True s (on_pc s r (listen (m_ws s r)))
| M_buffered s r : (1 <= r < R)%nat -> m_pc s r = WIn -> mstep R opens ev False s (on_pc s r (listen (m_ws s r)))
(* MPI_Finalize returns at r *)
| M_done s r : (1 <= r < R)%nat -> m_pc s r = WFin -> nth_error (m_colls s) (m_seen s r) = Some CFinal ->
    all_joined R s (S (m_seen s r)) -> mstep R opens ev True s (on_seen s r WDone [])
| M_final_bad s r c : (1 <= r < R)%nat -> m_pc s r = WFin -> nth_error (m_colls s) (m_seen s r) = Some c -> c <> CFinal ->
    mstep R opens ev True s (on_pc s r WBad).

(** runs of [n] steps of the program whose rank 0 does [p] (no code of its own: 0 or more [mstep]) *)
Inductive mrun (R : nat) (opens : bytes -> bool) (ev : env) (p : prog) : nat -> msys -> Prop :=
| mrun_start : mrun R opens ev p 0 (mstart p)
| mrun_step n s s' m : mrun R opens ev p n s -> mstep R opens ev m s s' -> mrun R opens ev p (S n) s'.

(** the disk after these events (parfu_rank_move_data.cc 216-219, parfu_worker_node.cc 150-153) *)
Definition disk_after (dk : disk) (l : list (nat * event)) : disk := fold_left (fun d re => on_disk d (snd re)) l dk.
