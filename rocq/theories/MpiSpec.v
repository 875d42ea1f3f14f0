(** Specification for C77-C80: runs of the whole program on all ranks. *)
From Verif Require Import Bytes Outcome TarModel Layout OrderCodec Mover Worker Boss Spider Args Program Mpi.

(** every rank is past MPI_Finalize *)
Definition ended (R : nat) (s : msys) : Prop :=
  m_prog s = PStop Finished /\ m_stat s = BReady /\ forall r, (1 <= r < R)%nat -> m_pc s r = WDone.
(** a rank is in an MPI error: a receive or a collective call that does not fit what the others do *)
Definition mpi_error (R : nat) (s : msys) : Prop :=
  (exists r, (1 <= r < R)%nat /\ m_pc s r = WBad) \/ exists e, m_prog s = PStop e /\ e <> Finished.
(** a rank other than 0 ended by a signal or an exception *)
Definition crashed (R : nat) (s : msys) : Prop := exists r e, (1 <= r < R)%nat /\ m_pc s r = WGone e.
(** [s'] is reached from [s] by steps that need no buffering *)
Inductive mleads (R : nat) (opens : bytes -> bool) (ev : env) : msys -> msys -> Prop :=
| ml_here s : mleads R opens ev s s
| ml_step s s' s'' : mstep R opens ev True s s' -> mleads R opens ev s' s'' -> mleads R opens ev s s''.
(** a C string a command line can hold *)
Definition usable (a : bytes) : Prop := no_byte NUL a /\ zlen a + 2 <= INT_MAX.
Definition texts_fit (bs : list (list order)) : Prop := forall B, In B bs -> zlen (print_bundle B) + 2 <= INT_MAX.
(** the program of main when the command line names archive, bucket size and target and the open succeeds *)
Definition created (R : nat) (o : opts) (base : bytes) (bs : list (list order)) : list act :=
  [ABcast (b "U") (print_int (op_bucket o)); ABcast (b "A") (op_archive o); AOpen (op_archive o) true; ABcast (b "N") (b "individual")] ++
  map (fun r => ASend r (b "P") base) (seq 1 (R - 1)) ++ [APush bs] ++ map (fun r => ASend r (b "X") (b "shutdown")) (seq 1 (R - 1)) ++ [AFinalize].
