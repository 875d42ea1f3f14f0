(** Model of the create mode of the 0.5.1 program (parfu_0_5_1_main_versA.c
    135-275): list the directory, fill in the relative names, sort, write. *)
From Coq Require Import Permutation Sorted.
From Verif Require Import Bytes Outcome TarModel Layout Mover Spider Legacy LegacyLayout LegacyScan LegacyCodec LegacyWrite.

(** [fs] is the file system as listed, [ev] as read while writing.
    parfu_qsort_entry_list, parfu_file_list_utils.cc 1543-1549: qsort leaves
    some arrangement sorted by the comparison (C37).  Blocking size, bucket size
    and pad name: main 29-30, parfu_data_transfer.cc 113-118.  [prior] is the
    archive file before the run. *)
Inductive create_run (fuel : nat) (fs : fsys) (clock : Z -> Z) (ev : env) (top : bytes) (R : nat) (prior : archive) : list lent -> archive -> Prop :=
| Create_run es es' l ar :
    list_directory fuel fs top = Ok (Some es) ->
    fill_rels top es = Ok es' ->
    Permutation es' l -> StronglySorted (fun x y => compare_entries x y <= 0) l ->
    legacy_run L_BLOCK L_BUCKET L_PAD clock ev l R prior ar ->
    create_run fuel fs clock ev top R prior l ar.

(** main, 68-113 and 135-276, as far as the modes go: what a rank does after
    MPI_Init.  [args] is argv without the program name. *)
Inductive mode_action := Usage | UnknownMode | DoCreate (archive target : bytes) | DoNothing.
(** parfu_0_5_1_main_versA.c 68-109, 133-134, 284-287 *)
Definition legacy_main (rank : nat) (args : list bytes) : Z * mode_action :=
  let mode := match args with (c :: _) :: _ => c | _ => NUL end in
  if ((length args <? 2) || ((length args =? 2) && negb (beq mode "T"%char)))%nat%bool then (-1, Usage)
  else if (rank =? 0)%nat && negb (beq mode "C"%char || beq mode "X"%char || beq mode "T"%char) then (-2, UnknownMode)
  else if beq mode "C"%char then (0, DoCreate (nth 1 args []) (nth 2 args []))
  else (0, DoNothing).
