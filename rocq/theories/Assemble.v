(** The archive produced by a run: the workers' writes applied in the order
    they happen. *)
From Verif Require Import Bytes Outcome TarModel Layout OrderCodec Mover Worker Boss.

(** the archive write a worker in state [s] issues on receiving message [m]
    (None: it dies, returns or writes nothing): parfu_worker_node.cc 211-236,
    parfu_rank_move_data.cc 216-219 *)
Definition job (ev : env) (s : wstate) (m : bytes) : option wr :=
  match on_message (fun _ => false) ev s m with
  | Ok (EvWrite _ w :: _, Go _) => Some w
  | _ => None
  end.
(** no code: whether the worker got that far (parfu_worker_node.cc 226-234) *)
Definition succeeds (o : option wr) : bool := match o with Some _ => true | None => false end.

(** executed orders, oldest first, applied to a freshly created file
    (parfu_rank_move_data.cc 216-219) *)
Definition assemble (w : nat -> option wr) (os : list nat) : archive :=
  fold_left (fun a o => match w o with Some x => write_at a x | None => a end) os empty_archive.

(** the write issued for order set [o]: push_out_all_orders frames "C" and the
    text (parfu_boss_functions.cc 114-117, 170-174), the worker unframes and runs it *)
Definition jobs (ev : env) (bucket : Z) (path base : bytes) (bs : list (list order)) (o : nat) : option wr :=
  match deliver (b "C") (print_bundle (nth o bs [])) with
  | Ok m => job ev (ready bucket path base) m
  | Err _ => None
  end.
