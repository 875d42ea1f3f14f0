(** SPECIFICATION for the runs of the 0.5.1 program on R ranks (C84-C87). *)
From Verif Require Import Bytes Mover Program LegacyMpi.

(** the archive file before the run; a missing one counts as empty *)
Definition before (dk : disk) (p : bytes) : archive := match dk p with Some a => a | None => empty_archive end.
(** main has returned on this rank, or its process ended otherwise *)
Definition gone (p : lprog) : Prop := match p with LReturn _ | LDie _ => True | _ => False end.
(** main has returned 0 on every rank *)
Definition all_zero (R : nat) (s : lsys) : Prop := forall r, (r < R)%nat -> l_prog s r = LReturn 0.
