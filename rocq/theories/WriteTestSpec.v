(** SPECIFICATION for C93, C94: the write benchmark.  Rank r belongs to file
    r mod files.  A file has a slot of buf bytes for every one of its ranks in
    every iteration. *)
From Coq Require Import Permutation.
From Verif Require Import Bytes Outcome WriteTest.

(** arguments the program is meant for *)
Definition usable (j : job) : Prop :=
  1 <= j_files j <= 10 /\ j_files j <= j_ranks j <= INT_MAX /\ 0 <= j_iters j <= INT_MAX /\
  0 <= j_data j <= j_buf j /\ 1 <= j_buf j <= INT_MAX /\ j_data j mod 4 = 0.
(** products that C's int and long hold *)
Definition holds (j : job) : Prop :=
  j_ranks j / j_files j * j_buf j <= INT_MAX /\ 22 * (j_data j / 4) <= INT_MAX - 7 /\
  (j_ranks j / j_files j + 1) * j_iters j * j_buf j <= 9223372036854775807.

(** how many ranks write to file [i] *)
Definition ranks_of (j : job) (i : Z) : Z :=
  Z.of_nat (length (filter (fun r => Z.of_nat r mod j_files j =? i) (seq 0 (Z.to_nat (j_ranks j))))).
(** byte [p] of the data: the numbers 7, 29, 51, ... as ints, little endian *)
Definition pattern (p : Z) : byte := ascii_of_N (Z.to_N (((22 * (p / 4) + 7) / 256 ^ (p mod 4)) mod 256)).

(** all ranks end with 0; [out r]: the size rank [r] gives its file and its writes *)
Definition all_end (j : job) (out : Z -> Z * list put) : Prop :=
  forall r, 0 <= r < j_ranks j -> rank_main j r = Ok (0, fst (out r), snd (out r)).
(** all writes of all ranks, in some order *)
Definition in_some_order (j : job) (out : Z -> Z * list put) (ws : list put) : Prop :=
  Permutation ws (flat_map (fun r => snd (out (Z.of_nat r))) (seq 0 (Z.to_nat (j_ranks j)))).
