(** SPECIFICATION: no byte of a file is written twice, so none is lost (C95, C96).
    The writes are the MPI_File_write_at calls of parfu_rank_move_data.cc 216-219 (0.6)
    and parfu_data_transfer.cc 203-228, 269-277, 887-920 (0.5.1). *)
From Verif Require Import Bytes Mover Worker Program Mpi.

(** there is a byte that both writes cover *)
Definition overlap (w w' : wr) : Prop :=
  exists x, w_pos w <= x < w_pos w + w_len w /\ w_pos w' <= x < w_pos w' + w_len w'.
(** of the writes the ranks have made, in whatever order, no two cover the same byte of the same file *)
Definition never_twice (log : list (nat * event)) : Prop :=
  forall l1 r p w l2 r' w' l3, log = l1 ++ (r, EvWrite p w) :: l2 ++ (r', EvWrite p w') :: l3 -> ~ overlap w w'.
(** every byte a rank has written is on disk as it wrote it, whoever wrote later *)
Definition nothing_lost (log : list (nat * event)) : Prop :=
  forall dk r p w x, In (r, EvWrite p w) log -> w_pos w <= x < w_pos w + w_len w ->
  exists ar, disk_after dk log p = Some ar /\ ar_cell ar x = w_mem w (x - w_pos w).
