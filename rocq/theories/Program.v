(** Model of main for rank 0 (parfu_main_0_6_test.cc 31-283). *)
From Verif Require Import Bytes Outcome TarModel Layout OrderCodec Mover Worker Spider Args.

(** what the boss does that the other ranks or the disk notice (main 92, 202-231, 239-281) *)
Inductive act :=
| ABcast (letter text : bytes)              (* parfu_broadcast_order *)
| AOpen (path : bytes) (ok : bool)          (* the collective open, WRONLY|CREATE|EXCL *)
| ASend (rank : nat) (letter text : bytes)  (* parfu_send_order_to_rank *)
| APush (bs : list (list order))            (* push_out_all_orders *)
| AFinalize.
(** exit, a crash, or the return of main: main 53, 93, 101, 110, 116, 230, 282 *)
Inductive ending := Exited (code : Z) | BDied (e : err) | Finished.

(** DEFAULT_BUCKET_SIZE, main 29, 44 *)
Definition DEFAULT_BUCKET_SIZE : Z := 4992000.

(** main 119-162: scan, sort, offsets, orders.  [sort] is what std::sort
    delivers for this list. *)
Definition plan (fuel : nat) (fs : fsys) (sort : list entry -> list entry) (base : bytes) (bucket maxo : Z)
  : outcome (option (list (list order))) :=
  x <- scan fuel fs base ;;
  let '(dirs, files) := x in
  let '(d, f) := set_offsets dirs (sort files) in
  create_transfer_orders 0 bucket maxo d f.

(** main, rank 0 of [R].  [args] is argv without the program name.  [junk] is
    the content of max_orders_per_bucket (main 43: not initialised).  [opens p]:
    whether the collective exclusive open of [p] succeeds.  The nullptr of
    create_transfer_orders is dereferenced by transfer_orders->size() (main 163).
    main 31-283. *)
Definition boss_main (R : nat) (junk : Z) (fuel : nat) (fs : fsys) (sort : list entry -> list entry)
  (opens : bytes -> bool) (args : list bytes) : list act * ending :=
  match args with
  | [] => ([], Exited (-42))
  | _ =>
      match parse_args {| op_bucket := DEFAULT_BUCKET_SIZE; op_maxo := junk; op_archive := [] |} args with
      | Err e => ([], BDied e)
      | Ok None => ([ABcast (b "X") (b "abort")], Exited 1)
      | Ok (Some (o, ts)) =>
          match op_archive o with
          | [] => ([], Exited 5)
          | _ =>
              match ts with
              | [] => ([], Exited 3)
              | _ :: _ :: _ => ([], Exited 4)
              | [base] =>
                  match plan fuel fs sort base (op_bucket o) (op_maxo o) with
                  | Err e => ([], BDied e)
                  | Ok None => ([], BDied EUB)
                  | Ok (Some bs) =>
                      let pre := [ABcast (b "U") (print_int (op_bucket o)); ABcast (b "A") (op_archive o);
                                  AOpen (op_archive o) (opens (op_archive o))] in
                      if opens (op_archive o) then
                        (pre ++ [ABcast (b "N") (b "individual")] ++
                         map (fun r => ASend r (b "P") base) (seq 1 (R - 1)) ++ [APush bs] ++
                         map (fun r => ASend r (b "X") (b "shutdown")) (seq 1 (R - 1)) ++ [AFinalize], Finished)
                      else (pre ++ [ABcast (b "X") (b "bye"); AFinalize], Exited 1)
                  end
              end
          end
      end
  end.

(** *** the disk.  A collective exclusive open creates an empty file (and fails
    if there is one already); writes change it (main 218-221,
    parfu_worker_node.cc 150-153, parfu_rank_move_data.cc 216-219). *)
Definition disk := bytes -> option archive.
(** bookkeeping of the model, no code *)
Definition set_file (dk : disk) (p : bytes) (a : archive) : disk := fun q => if bytes_eqb q p then Some a else dk q.
(** MPI_MODE_CREATE|MPI_MODE_EXCL, main 218-221 *)
Definition excl_ok (dk : disk) (can_create : bytes -> bool) (p : bytes) : bool :=
  match dk p with Some _ => false | None => can_create p end.
(** what a worker's events do to the disk (parfu_worker_node.cc 150-153, parfu_rank_move_data.cc 216-219) *)
Definition on_disk (dk : disk) (e : event) : disk :=
  match e with
  | EvOpen p true => set_file dk p (match dk p with Some a => a | None => empty_archive end)
  | EvWrite p w => set_file dk p (write_at (match dk p with Some a => a | None => empty_archive end) w)
  | _ => dk
  end.
