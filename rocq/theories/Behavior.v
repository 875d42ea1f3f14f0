(** Model of the option parser parfu_behavior_control.c and of the benchmark's
    main program that calls it, parfu_bench_test_002.c.  (Neither is in the list
    of objects of the Makefile; the limits they name are commented out in
    parfu_primary.h 99-105, so the model takes them as arguments.) *)
From Verif Require Import Bytes Outcome LegacyCodec.

(** PARFU_ABSOLUTE_MIN_BLOCK_SIZE_EXPONENT, PARFU_LARGEST_ALLOWED_MAX_...,
    PARFU_MIN_ALLOWED_BLOCKS_PER_FRAGMENT, PARFU_MAX_ALLOWED_...,
    parfu_primary.h 99-105 *)
Record limits := { exp_lo : Z; exp_hi : Z; bpf_lo : Z; bpf_hi : Z }.
(** PARFU_MAX_TEST_ITERATIONS, parfu_primary.h 379 *)
Definition MAX_ITERATIONS : Z := 1000.
(** DEFAULT_N_VALUES_IN_BEHAVIOR_CONTROL_ARRAY, parfu_primary.h 374 *)
Definition N_VALUES : Z := 10.

(** a string in memory: its bytes, and whether a NUL follows them
    (parfu_behavior_control.c 240-246) *)
Record text := { t_bytes : bytes; t_ends : bool }.
(** parfu_behavior_control_t, parfu_primary.h 382-398.  An array is the list of
    its allocated elements, [None]: not initialised; a null string is
    [Some None].  [b_target], [b_data]: null or a string. *)
Record behav := {
  b_trial : bool; b_mode : byte; b_iter_given : bool; b_iters : Z; b_overwrite : bool;
  b_target : option text; b_data : option text; b_stdout : bool; b_len : Z;
  b_narcs : Z; b_arcs : list (option (option text));
  b_nexps : Z; b_exps : list (option Z);
  b_nbpfs : Z; b_bpfs : list (option Z) }.

(** parfu_init_behavior_control_raw, parfu_behavior_control.c 95-153; [None]: NULL *)
Definition init_raw (len : Z) : option behav :=
  if len <? 1 then None else Some
  {| b_trial := false; b_mode := NUL; b_iter_given := false; b_iters := -1; b_overwrite := false;
     b_target := None; b_data := None; b_stdout := false; b_len := len;
     b_narcs := 0; b_arcs := repeat (Some None) (Z.to_nat len);
     b_nexps := 0; b_exps := repeat None (Z.to_nat len);
     b_nbpfs := 0; b_bpfs := repeat None (Z.to_nat len) |}.
(** parfu_init_behavior_control, parfu_behavior_control.c 25-35 *)
Definition init : option behav := init_raw N_VALUES.

(** a store into an array, outside is undefined; parfu_behavior_control.c 69, 181, 212, 240 *)
Definition put_at {A} (k : Z) (x : A) (l : list (option A)) : outcome (list (option A)) :=
  if (0 <=? k) && (k <? zlen l) then Ok (firstn (Z.to_nat k) l ++ Some x :: skipn (S (Z.to_nat k)) l) else Err EUB.
(** realloc to [n] elements, parfu_behavior_control.c 61, 74, 83 *)
Definition resize {A} (n : nat) (l : list (option A)) : list (option A) := firstn n l ++ repeat None (n - length l).
(** the loop of parfu_behavior_control.c 68-70: [n] elements from [k] on become NULL *)
Fixpoint null_from (n : nat) (k : Z) (l : list (option (option text))) : outcome (list (option (option text))) :=
  match n with O => Ok l | S n' => l' <- put_at k None l ;; null_from n' (k + 1) l' end.

(** parfu_behav_extend_array, parfu_behavior_control.c 37-93: the value returned
    and the structure.  The new size of archive_files is new_length bytes (60);
    a pointer has eight. *)
Definition extend (x : behav) : outcome (Z * behav) :=
  let n := b_len x * 2 in
  if INT_MAX <? n then Err EUB else
  if (n <? 1) || (n <=? b_len x) then Ok (1, x) else
  arcs <- null_from (Z.to_nat (n - b_len x)) (b_len x) (resize (Z.to_nat (n / 8)) (b_arcs x)) ;;
  Ok (0, {| b_trial := b_trial x; b_mode := b_mode x; b_iter_given := b_iter_given x; b_iters := b_iters x; b_overwrite := b_overwrite x;
            b_target := b_target x; b_data := b_data x; b_stdout := b_stdout x; b_len := n;
            b_narcs := b_narcs x; b_arcs := arcs;
            b_nexps := b_nexps x; b_exps := resize (Z.to_nat n) (b_exps x);
            b_nbpfs := b_nbpfs x; b_bpfs := resize (Z.to_nat n) (b_bpfs x) |}).
(** the call of it in the three adding functions, parfu_behavior_control.c
    174-180, 205-211, 232-238 *)
Definition make_place (x : behav) (index : Z) : outcome (Z * behav) := if index =? b_len x then extend x else Ok (0, x).

(** parfu_behav_add_min_expon, parfu_behavior_control.c 155-184 *)
Definition add_exp (lim : limits) (x : behav) (v : Z) : outcome (Z * behav) :=
  if (v <? exp_lo lim) || (exp_hi lim <? v) then Ok (1, x) else
  y <- make_place x (b_nexps x) ;; let '(r, x) := y in
  if negb (r =? 0) then Ok (1, x) else
  l <- put_at (b_nexps x) v (b_exps x) ;;
  Ok (0, {| b_trial := b_trial x; b_mode := b_mode x; b_iter_given := b_iter_given x; b_iters := b_iters x; b_overwrite := b_overwrite x;
            b_target := b_target x; b_data := b_data x; b_stdout := b_stdout x; b_len := b_len x;
            b_narcs := b_narcs x; b_arcs := b_arcs x; b_nexps := b_nexps x + 1; b_exps := l; b_nbpfs := b_nbpfs x; b_bpfs := b_bpfs x |}).
(** parfu_behav_add_bl_per_frag, parfu_behavior_control.c 186-215 *)
Definition add_bpf (lim : limits) (x : behav) (v : Z) : outcome (Z * behav) :=
  if (v <? bpf_lo lim) || (bpf_hi lim <? v) then Ok (1, x) else
  y <- make_place x (b_nbpfs x) ;; let '(r, x) := y in
  if negb (r =? 0) then Ok (1, x) else
  l <- put_at (b_nbpfs x) v (b_bpfs x) ;;
  Ok (0, {| b_trial := b_trial x; b_mode := b_mode x; b_iter_given := b_iter_given x; b_iters := b_iters x; b_overwrite := b_overwrite x;
            b_target := b_target x; b_data := b_data x; b_stdout := b_stdout x; b_len := b_len x;
            b_narcs := b_narcs x; b_arcs := b_arcs x; b_nexps := b_nexps x; b_exps := b_exps x; b_nbpfs := b_nbpfs x + 1; b_bpfs := l |}).
(** parfu_behav_add_arc_file, parfu_behavior_control.c 217-248; [None]: a null
    name.  The string is allocated and copied without its NUL (239-245). *)
Definition add_arc (x : behav) (name : option bytes) : outcome (Z * behav) :=
  match name with
  | None => Ok (1, x)
  | Some s =>
      y <- make_place x (b_narcs x) ;; let '(r, x) := y in
      if negb (r =? 0) then Ok (1, x) else
      l <- put_at (b_narcs x) (Some {| t_bytes := s; t_ends := false |}) (b_arcs x) ;;
      Ok (0, {| b_trial := b_trial x; b_mode := b_mode x; b_iter_given := b_iter_given x; b_iters := b_iters x; b_overwrite := b_overwrite x;
                b_target := b_target x; b_data := b_data x; b_stdout := b_stdout x; b_len := b_len x;
                b_narcs := b_narcs x + 1; b_arcs := l; b_nexps := b_nexps x; b_exps := b_exps x; b_nbpfs := b_nbpfs x; b_bpfs := b_bpfs x |})
  end.

(** memcpy of [n] bytes into [room] allocated ones, parfu_behavior_control.c 295-303, 312-320 *)
Definition copy_string (s : bytes) (n room : Z) : outcome text :=
  if room <? n then Err EUB else Ok {| t_bytes := s; t_ends := zlen s <? n |}.
(** atoi, parfu_behavior_control.c 339, 358, 383: strtol, converted to int *)
Definition atoi (l : bytes) : Z := match scan_int l with Some (v, _) => wrap32 (clamp64 v) | None => 0 end.

(** the fields the switch sets itself, parfu_behavior_control.c 270-416 *)
Definition set_flags (x : behav) (mode : byte) (trial out over : bool) (given : bool) (iters : Z) (target data : option text) : behav :=
  {| b_trial := trial; b_mode := mode; b_iter_given := given; b_iters := iters; b_overwrite := over;
     b_target := target; b_data := data; b_stdout := out; b_len := b_len x;
     b_narcs := b_narcs x; b_arcs := b_arcs x; b_nexps := b_nexps x; b_exps := b_exps x; b_nbpfs := b_nbpfs x; b_bpfs := b_bpfs x |}.
(** the result of an adding function: nonzero makes the parser return NULL
    (parfu_behavior_control.c 331-336, 350-355, 369-374) *)
Definition taken (y : outcome (Z * behav)) : outcome (option behav) :=
  z <- y ;; if fst z =? 0 then Ok (Some (snd z)) else Ok None.

(** the switch for one result of getopt, parfu_behavior_control.c 270-416;
    [None]: return NULL *)
Definition on_option (lim : limits) (x : behav) (o : byte * bytes) : outcome (option behav) :=
  let '(c, arg) := o in
  if beq c "C"%char || beq c "X"%char then
    if negb (beq (b_mode x) NUL) then Ok None
    else Ok (Some (set_flags x c (b_trial x) (b_stdout x) (b_overwrite x) (b_iter_given x) (b_iters x) (b_target x) (b_data x)))
  else if beq c "T"%char then Ok (Some (set_flags x (b_mode x) true (b_stdout x) (b_overwrite x) (b_iter_given x) (b_iters x) (b_target x) (b_data x)))
  else if beq c "S"%char then Ok (Some (set_flags x (b_mode x) (b_trial x) true (b_overwrite x) (b_iter_given x) (b_iters x) (b_target x) (b_data x)))
  else if beq c "L"%char then
    match b_data x with
    | Some _ => Ok None
    | None => t <- copy_string arg (zlen arg + 1) (zlen arg) ;;
              Ok (Some (set_flags x (b_mode x) (b_trial x) (b_stdout x) (b_overwrite x) (b_iter_given x) (b_iters x) (b_target x) (Some t)))
    end
  else if beq c "d"%char then
    match b_target x with
    | Some _ => Ok None
    | None => t <- copy_string arg (zlen arg + 1) (zlen arg) ;;
              Ok (Some (set_flags x (b_mode x) (b_trial x) (b_stdout x) (b_overwrite x) (b_iter_given x) (b_iters x) (Some t) (b_data x)))
    end
  else if beq c "F"%char then
    taken (add_arc (set_flags x (b_mode x) (b_trial x) (b_stdout x) true (b_iter_given x) (b_iters x) (b_target x) (b_data x)) (Some arg))
  else if beq c "f"%char then taken (add_arc x (Some arg))
  else if beq c "e"%char then
    if (atoi arg <? exp_lo lim) || (exp_hi lim <? atoi arg) then Ok None else taken (add_exp lim x (atoi arg))
  else if beq c "B"%char then
    if (atoi arg <? bpf_lo lim) || (bpf_hi lim <? atoi arg) then Ok None else taken (add_bpf lim x (atoi arg))
  else if beq c "N"%char then
    if b_iter_given x then Ok None else
    if (atoi arg <? 1) || (MAX_ITERATIONS <? atoi arg) then Ok None
    else Ok (Some (set_flags x (b_mode x) (b_trial x) (b_stdout x) (b_overwrite x) true (atoi arg) (b_target x) (b_data x)))
  else if beq c "?"%char then Ok None
  else Ok (Some x).
(** while(getopt), parfu_behavior_control.c 268-417 *)
Fixpoint on_options (lim : limits) (x : behav) (os : list (byte * bytes)) : outcome (option behav) :=
  match os with
  | [] => Ok (Some x)
  | o :: os' => y <- on_option lim x o ;; match y with None => Ok None | Some x' => on_options lim x' os' end
  end.

(** getopt with "CXd:f:F:N:e:B:TSL:", parfu_behavior_control.c 268: [Some true]
    an option with an argument, [Some false] one without, [None] unknown *)
Definition known (c : byte) : option bool :=
  if existsb (beq c) (b "CXTS") then Some false else if existsb (beq c) (b "dfFNeBL") then Some true else None.
(** getopt (parfu_behavior_control.c 268) on one argument "-cluster": the options in it, or those before an
    option that wants the next argument of the command line *)
Fixpoint cluster (l : bytes) : list (byte * bytes) * option byte :=
  match l with
  | [] => ([], None)
  | c :: l' =>
      match known c with
      | None => let '(os, w) := cluster l' in (("?"%char, [c]) :: os, w)
      | Some false => let '(os, w) := cluster l' in ((c, []) :: os, w)
      | Some true => match l' with [] => ([], Some c) | _ => ([(c, l')], None) end
      end
  end.
(** getopt, parfu_behavior_control.c 268 (GNU: arguments that are not options may stand anywhere; "--" ends
    them) on argv without the program name.  A missing argument is '?'. *)
Fixpoint getopt (args : list bytes) : list (byte * bytes) :=
  match args with
  | [] => []
  | a :: args' =>
      match a with
      | c :: d :: r =>
          if beq c MINUS then
            if beq d MINUS && (length r =? 0)%nat then []
            else match cluster (d :: r) with
                 | (os, None) => os ++ getopt args'
                 | (os, Some w) => os ++ match args' with [] => [("?"%char, [w])] | v :: args'' => (w, v) :: getopt args'' end
                 end
          else getopt args'
      | _ => getopt args'
      end
  end.
(** parfu_parse_arguments, parfu_behavior_control.c 250-432 (what follows the
    loop only prints) *)
Definition parse_arguments (lim : limits) (args : list bytes) : outcome (option behav) :=
  match init with None => Ok None | Some x => on_options lim x (getopt args) end.

(** fprintf "%s" of a string: one without a NUL is read past its end;
    parfu_bench_test_002.c 156-157 *)
Definition print_string (t : option (option (option text))) : outcome bytes :=
  match t with Some (Some (Some s)) => if t_ends s then Ok (t_bytes s) else Err EUB | Some (Some None) => Ok (b "(null)") | _ => Err EUB end.
(** the outer loop, parfu_bench_test_002.c 155-170: the names printed (the
    numbers of the inner loops are stored before) *)
Fixpoint print_names (n : nat) (k : nat) (l : list (option (option text))) : outcome (list bytes) :=
  match n with O => Ok [] | S n' => s <- print_string (nth_error l k) ;; r <- print_names n' (S k) l ;; Ok (s :: r) end.
(** main, parfu_bench_test_002.c 26-174: the exit status and the archive names
    the trials are for.  [opens]: can the data file be opened.  Simplification: the messages, the
    default values stored in element 0 of an empty array (that element exists) and
    the unused product of the counts are left out. *)
Definition bench_main (lim : limits) (opens : bytes -> bool) (args : list bytes) : outcome (Z * list bytes) :=
  match args with
  | [] => Ok (2, [])
  | _ =>
      y <- parse_arguments lim args ;;
      match y with
      | None => Ok (2, [])
      | Some x =>
          if negb (beq (b_mode x) "X"%char || beq (b_mode x) "C"%char) then Ok (2, []) else
          if b_narcs x <? 1 then Ok (3, []) else
          if beq (b_mode x) "X"%char && (1 <? b_narcs x) then Ok (4, []) else
          d <- match b_data x with None => Ok true | Some t => if t_ends t then Ok (opens (t_bytes t)) else Err EUB end ;;
          if negb d then Ok (3, []) else
          l <- print_names (Z.to_nat (b_narcs x)) 0 (b_arcs x) ;; Ok (0, l)
      end
  end.
