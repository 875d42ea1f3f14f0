(** SPECIFICATION of the archive file at a crash point. *)
From Verif Require Import Bytes Outcome Mover Assemble.

(** what the archive file may be when the program is stopped: the writes that
    returned ([finished], in that order) are there; of the writes still being
    made ([going]) any subset of their bytes is.  [w o] is the write of order
    set [o].  Bytes never written read as zero. *)
Definition crash_image (w : nat -> option wr) (finished going : list nat) (disk : archive) : Prop :=
  (ar_size disk <= ar_size (assemble w finished) \/
   exists o x, In o going /\ w o = Some x /\ 0 < w_len x /\ ar_size disk <= w_pos x + w_len x) /\
  forall p, ar_cell disk p = ar_cell (assemble w finished) p \/
    exists o x, In o going /\ w o = Some x /\ w_pos x <= p < w_pos x + w_len x /\ ar_cell disk p = w_mem x (p - w_pos x).
