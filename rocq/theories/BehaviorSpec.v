(** SPECIFICATION for C91, C92: command lines of the benchmark program, as the
    options given, in order, each with its argument. *)
From Verif Require Import Bytes Outcome Behavior.

(** the arguments of the options [cs] *)
Definition args_of (cs : bytes) (os : list (byte * bytes)) : list bytes := map snd (filter (fun o => existsb (beq (fst o)) cs) os).
(** the options [cs] that were given *)
Definition given (cs : bytes) (os : list (byte * bytes)) : list (byte * bytes) := filter (fun o => existsb (beq (fst o)) cs) os.

(** a command line the program should take: options it knows, C or X at most
    once, N at most once, numbers within the limits (the options C, X, T, S have
    no argument) *)
Definition allowed (lim : limits) (os : list (byte * bytes)) : Prop :=
  Forall (fun o => In (fst o) (b "CXfFNeBTS")) os /\ Forall (fun o => In (fst o) (b "CXTS") -> snd o = []) os /\
  (length (given (b "CX") os) <= 1)%nat /\ (length (given (b "N") os) <= 1)%nat /\
  Forall (fun a => 1 <= atoi a <= 1000) (args_of (b "N") os) /\
  Forall (fun a => exp_lo lim <= atoi a <= exp_hi lim) (args_of (b "e") os) /\
  Forall (fun a => bpf_lo lim <= atoi a <= bpf_hi lim) (args_of (b "B") os).
(** at most ten archives, ten exponents and ten numbers of blocks *)
Definition few (os : list (byte * bytes)) : Prop :=
  (length (args_of (b "fF") os) <= 10)%nat /\ (length (args_of (b "e") os) <= 10)%nat /\ (length (args_of (b "B") os) <= 10)%nat.

(** what was asked for *)
Definition asked (os : list (byte * bytes)) (x : behav) : Prop :=
  b_mode x = match given (b "CX") os with (c, _) :: _ => c | [] => NUL end /\
  (b_trial x = true <-> given (b "T") os <> []) /\ (b_stdout x = true <-> given (b "S") os <> []) /\ (b_overwrite x = true <-> given (b "F") os <> []) /\
  (b_iter_given x = true <-> given (b "N") os <> []) /\
  b_iters x = match args_of (b "N") os with a :: _ => atoi a | [] => -1 end /\
  b_narcs x = zlen (args_of (b "fF") os) /\
  map (option_map (option_map t_bytes)) (firstn (length (args_of (b "fF") os)) (b_arcs x)) = map (fun a => Some (Some a)) (args_of (b "fF") os) /\
  b_nexps x = zlen (args_of (b "e") os) /\ firstn (length (args_of (b "e") os)) (b_exps x) = map (fun a => Some (atoi a)) (args_of (b "e") os) /\
  b_nbpfs x = zlen (args_of (b "B") os) /\ firstn (length (args_of (b "B") os)) (b_bpfs x) = map (fun a => Some (atoi a)) (args_of (b "B") os) /\
  b_target x = None /\ b_data x = None.

(** how an option is written *)
Definition written (o : byte * bytes) : list bytes :=
  if existsb (beq (fst o)) (b "CXTS") then [[MINUS; fst o]] else [[MINUS; fst o]; snd o].

(** a further piece of the command line, after the options [os], that must be
    refused: an option that is not known, a second C or X, a second N, a number outside
    the limits *)
Inductive wrong (lim : limits) (os : list (byte * bytes)) : list bytes -> Prop :=
| wrong_letter c : ~ In c (b "CXdfFNeBTSL") -> c <> MINUS -> wrong lim os [[MINUS; c]]
| wrong_mode c : In c (b "CX") -> given (b "CX") os <> [] -> wrong lim os [[MINUS; c]]
| wrong_again a : given (b "N") os <> [] -> wrong lim os [[MINUS; "N"%char]; a]
| wrong_iterations a : ~ (1 <= atoi a <= 1000) -> wrong lim os [[MINUS; "N"%char]; a]
| wrong_exponent a : ~ (exp_lo lim <= atoi a <= exp_hi lim) -> wrong lim os [[MINUS; "e"%char]; a]
| wrong_blocks a : ~ (bpf_lo lim <= atoi a <= bpf_hi lim) -> wrong lim os [[MINUS; "B"%char]; a].
