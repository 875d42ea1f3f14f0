(** SPECIFICATION of the end-to-end property of the 0.5.1 program: the trees for
    which the archive is claimed to be right. *)
From Verif Require Import Bytes Outcome TarModel Layout Spider SpiderSpec EndSpec Legacy PropertiesLegacyScan.

(** the nodes the program lists: reached by plain names only (C36) *)
Definition reached (t : node) (p : list bytes) (n : node) : Prop := at_path t p n /\ Forall plain p /\ archivable n.

(** either every path is shorter than 100 bytes, with link targets up to 100
    bytes and files below 8 GiB (every tar header is then one block), or no file
    is larger than 4000000 bytes, so that everything fits a bucket, with paths
    and targets up to 40000 bytes and no directory whose header grows when "/"
    is appended to its path (C07) *)
Definition manageable (top : bytes) (t : node) : Prop :=
  (forall p n, reached t p n -> zlen (node_path top p) < 100 /\
     match n with NLink l => zlen l <= 100 | NFile s => s <= MAX_FILE_SIZE | _ => True end) \/
  (forall p n, reached t p n -> zlen (node_path top p) <= 40000 /\
     match n with NLink l => zlen l <= 40000 | NFile s => s <= 4000000 | _ => slash_safe (dir_path top (join p)) end).

(** bytes of all the regular files in the list *)
Fixpoint total_size (l : list lent) : Z := match l with [] => 0 | e :: l' => Z.max 0 (l_size e) + total_size l' end.

(** every path is shorter than 100 bytes, link targets have up to 100, files are
    below 8 GiB: no extended headers *)
Definition short_names (top : bytes) (t : node) : Prop :=
  forall p n, reached t p n -> zlen (node_path top p) < 100 /\
    match n with NLink l => zlen l <= 100 | NFile s => s <= MAX_FILE_SIZE | _ => True end.
(** every path has up to [M] bytes, link targets have up to 100 *)
Definition names_to (M : Z) (top : bytes) (t : node) : Prop :=
  forall p n, reached t p n -> zlen (node_path top p) <= M /\ match n with NLink l => zlen l <= 100 | _ => True end.
(** bytes of all the regular files among the nodes *)
Fixpoint nodes_bytes (l : list (list bytes * node)) : Z :=
  match l with [] => 0 | (_, NFile s) :: l' => Z.max 0 s + nodes_bytes l' | _ :: l' => nodes_bytes l' end.
(** how many entries with paths up to [M] bytes are claimed to be archived: the
    text about them, at most 2 M + 330 bytes for each part of a file, must stay below 499
    million bytes (with no more than 100 GB of data, M = 99: 250000 entries; M = 1000:
    80000; M = 4096: 15000) *)
Definition few_enough (M : Z) (l : list (list bytes * node)) : Prop :=
  2 <= zlen l <= 250000 /\ nodes_bytes l <= 1000000000000 /\
  (9 * zlen l / 4 + nodes_bytes l / 4194304 + 2) * (2 * M + 330) <= 499000000.
