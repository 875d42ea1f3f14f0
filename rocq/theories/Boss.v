(** The boss/worker protocol: push_out_all_orders (parfu_boss_functions.cc
    91-202) running against the workers' "C" loop (parfu_worker_node.cc
    190-236) as a small-step system with every interleaving.

    Orders are numbered 0..N-1, ranks 0..R-1 (rank 0 is the boss).  [okb o]
    tells whether moving bundle [o] succeeds; if not the worker dies (uncaught
    exception, undefined behaviour) and never answers.

    MPI_Send may return as soon as MPI has buffered the message or only when
    the receiver has taken it; both are allowed.  The Prop-valued label of
    [step] is [True] for steps that must eventually happen and [False] for
    steps that only happen if MPI chooses to buffer.

    Simplification: the two messages of one order (length, text) are one. *)
From Coq Require Import List Arith.
Import ListNotations.

(** where push_out_all_orders is, parfu_boss_functions.cc 111-201 *)
Inductive bphase :=
| BFirst (k : nat)      (* lines 111-122: k orders sent, next_rank = k+1 *)
| BCollect (i : nat)    (* 138-149: all sent; i replies received *)
| BFeed (n : nat)       (* 158-169: waiting for any reply; n orders sent *)
| BGive (n r : nat)     (* 170-177: reply of rank r received, send order n to it *)
| BDrain (i : nat)      (* 188-196: final receives, index i *)
| BEnd.                 (* returned *)

(** where a worker is in its "C" round, parfu_worker_node.cc 192-234 *)
Inductive wphase :=
| WIdle                 (* in MPI_Recv, .cc 192-201 *)
| WBusy (o : nat)       (* message received, order set being moved *)
| WPost                 (* archive written, about to MPI_Send the rank *)
| WWait                 (* inside that MPI_Send *)
| WDead (o : nat).      (* crashed while moving order o *)

(** the state of the system: bookkeeping of the model, no code *)
Record sys := {
  boss : bphase;
  blocked : option nat;           (* rank whose MPI_Send the boss is still inside *)
  inbox : nat -> list nat;        (* orders sent, not yet received, per rank *)
  work : nat -> wphase;
  rep : nat -> nat;               (* replies sent, not yet received, per rank *)
  log : list (nat * nat);         (* (rank, order) in the order the archive was written *)
  given : list (nat * nat)        (* (rank, order) in the order the boss sent them; history only *)
}.

(** bookkeeping of the model, no code *)
Definition upd {A} (f : nat -> A) (r : nat) (v : A) : nat -> A := fun x => if Nat.eqb x r then v else f x.

(** before push_out_all_orders, parfu_boss_functions.cc 93-104 *)
Definition init : sys :=
  {| boss := BFirst 0; blocked := None; inbox := fun _ => []; work := fun _ => WIdle; rep := fun _ => 0; log := []; given := [] |}.

(** bookkeeping of the model, no code *)
Definition set_boss s b bl ib rp : sys :=
  {| boss := b; blocked := bl; inbox := ib; work := work s; rep := rp; log := log s; given := given s |}.
(** parfu_send_order_to_rank (parfu_boss_functions.cc 58-87): enters MPI_Send *)
Definition send s r o : nat -> list nat := upd (inbox s) r (inbox s r ++ [o]).
(** parfu_boss_functions.cc 114-117 and 170-174 *)
Definition send_boss s b r o : sys :=
  {| boss := b; blocked := Some r; inbox := send s r o; work := work s; rep := rep s; log := log s; given := given s ++ [(r, o)] |}.
(** a reply is received, parfu_boss_functions.cc 141, 160 and 189 *)
Definition recv s r : nat -> nat := upd (rep s) r (rep s r - 1).
(** MPI_Send returns when its message is taken, parfu_boss_functions.cc 80-83 *)
Definition unblock (bl : option nat) (r : nat) : option nat :=
  match bl with Some x => if Nat.eqb x r then None else bl | None => None end.

(** parfu_boss_functions.cc 111-201 and parfu_worker_node.cc 192-234, one MPI call at a time *)
Inductive step (N R : nat) (okb : nat -> bool) : Prop -> sys -> sys -> Prop :=
(* boss; it does nothing else while inside a send *)
| S_first s k : boss s = BFirst k -> blocked s = None -> k + 1 < R -> k < N ->
    step N R okb True s (send_boss s (BFirst (k + 1)) (k + 1) k)
| S_first_all s k : boss s = BFirst k -> blocked s = None -> ~ (k + 1 < R /\ k < N) -> N <= k ->
    step N R okb True s (set_boss s (BCollect 0) None (inbox s) (rep s))
| S_first_more s k : boss s = BFirst k -> blocked s = None -> ~ (k + 1 < R /\ k < N) -> k < N ->
    step N R okb True s (set_boss s (BFeed k) None (inbox s) (rep s))
| S_collect s i r : boss s = BCollect i -> blocked s = None -> i < N -> 0 < rep s r ->
    step N R okb True s (set_boss s (BCollect (i + 1)) None (inbox s) (recv s r))
| S_collect_end s i : boss s = BCollect i -> blocked s = None -> N <= i ->
    step N R okb True s (set_boss s BEnd None (inbox s) (rep s))
| S_feed s n r : boss s = BFeed n -> blocked s = None -> n < N -> 0 < rep s r ->
    step N R okb True s (set_boss s (BGive n r) None (inbox s) (recv s r))
| S_give s n r : boss s = BGive n r -> blocked s = None ->
    step N R okb True s (send_boss s (BFeed (n + 1)) r n)
| S_feed_end s n : boss s = BFeed n -> blocked s = None -> N <= n ->
    step N R okb True s (set_boss s (BDrain 1) None (inbox s) (rep s))
| S_drain s i r : boss s = BDrain i -> blocked s = None -> i < R -> 0 < rep s r ->
    step N R okb True s (set_boss s (BDrain (i + 1)) None (inbox s) (recv s r))
| S_drain_end s i : boss s = BDrain i -> blocked s = None -> R <= i ->
    step N R okb True s (set_boss s BEnd None (inbox s) (rep s))
(* the boss's MPI_Send returns because the message was buffered *)
| S_buffer s r : blocked s = Some r ->
    step N R okb False s (set_boss s (boss s) None (inbox s) (rep s))
(* worker r (1 <= r < R) receives; if the boss is inside that send it returns *)
| W_recv s r o q : 1 <= r < R -> work s r = WIdle -> inbox s r = o :: q ->
    step N R okb True s {| boss := boss s; blocked := unblock (blocked s) r; inbox := upd (inbox s) r q;
                           work := upd (work s) r (WBusy o); rep := rep s; log := log s; given := given s |}
(* moves the data: the archive write *)
| W_exec s r o : 1 <= r < R -> work s r = WBusy o -> okb o = true ->
    step N R okb True s {| boss := boss s; blocked := blocked s; inbox := inbox s;
                           work := upd (work s) r WPost; rep := rep s; log := log s ++ [(r, o)]; given := given s |}
| W_crash s r o : 1 <= r < R -> work s r = WBusy o -> okb o = false ->
    step N R okb True s {| boss := boss s; blocked := blocked s; inbox := inbox s;
                           work := upd (work s) r (WDead o); rep := rep s; log := log s; given := given s |}
(* sends its rank back *)
| W_reply s r : 1 <= r < R -> work s r = WPost ->
    step N R okb True s {| boss := boss s; blocked := blocked s; inbox := inbox s;
                           work := upd (work s) r WWait; rep := upd (rep s) r (rep s r + 1); log := log s; given := given s |}
(* its MPI_Send returns: received, or buffered *)
| W_taken s r : 1 <= r < R -> work s r = WWait -> rep s r = 0 ->
    step N R okb True s {| boss := boss s; blocked := blocked s; inbox := inbox s;
                           work := upd (work s) r WIdle; rep := rep s; log := log s; given := given s |}
| W_buffer s r : 1 <= r < R -> work s r = WWait ->
    step N R okb False s {| boss := boss s; blocked := blocked s; inbox := inbox s;
                            work := upd (work s) r WIdle; rep := rep s; log := log s; given := given s |}.

(** a run of [n] steps of parfu_boss_functions.cc 91-202 *)
Inductive run (N R : nat) (okb : nat -> bool) : nat -> sys -> Prop :=
| run_init : run N R okb 0 init
| run_step n s s' m : run N R okb n s -> step N R okb m s s' -> run N R okb (S n) s'.
