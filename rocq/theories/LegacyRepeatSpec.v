(** SPECIFICATION for C100: runs of the 0.5.1 writer that were stopped. *)
From Verif Require Import Bytes Outcome Mover Legacy LegacyLayout LegacySpec LegacyWrite LegacyEndSpec LegacyRun LegacyAgreeSpec.

(** the archive file after any number of stopped runs on the same list, one after
    the other, each with its own ranks, clock and files on disk, and each stopped
    at any moment; a file does not get shorter.
    Models: nothing in /repo; the runs are legacy_crash (parfu_0_5_1_main_versA.c and
    parfu_data_transfer.cc, parfu_wtar_archive_list_to_singeFP) *)
Inductive attempts (P : Z) (pad : bytes) (l : list lent) (prior : archive) : archive -> Prop :=
| Att_none : attempts P pad l prior prior
| Att_more d clock ev R d' : attempts P pad l prior d -> present P pad ev l -> (1 <= R)%nat ->
    legacy_crash P pad clock ev l R d d' -> ar_size d <= ar_size d' -> attempts P pad l prior d'.
