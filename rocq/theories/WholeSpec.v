(** SPECIFICATION for C55: the trees of which a create run always completes. *)
From Verif Require Import Bytes TarModel Layout LayoutSpec OrderCodec SpiderSpec EndSpec.

(** bytes a tree takes in an archive when every member has a one-block header:
    a block per file, link and directory, and the contents in whole blocks *)
Fixpoint tree_bytes (n : node) : Z :=
  match n with
  | NFile size => 512 + up512 size
  | NLink _ | NLocked => 512
  | NDir ch => 512 + fold_right (fun c sum => tree_bytes (snd c) + sum) 0 ch
  | NOther | NUnreadable => 0
  end.

(** paths shorter than 100 bytes and link targets of at most 100, so that no
    extended header is needed; everything together below 2 GiB *)
Definition small_tree (base : bytes) (t : node) : Prop :=
  (forall p n, at_path t p n -> zlen (node_path base p) < 100 /\ match n with NLink l => zlen l <= 100 | _ => True end) /\
  tree_bytes t <= 2 ^ 31 - 1024.

(** what a bundle needs for a worker to move it: its message (letter, text and
    NUL) has a length MPI can count, its bytes fit the bucket, and its numbers
    can be read back by stoi *)
Definition movable (bucket : Z) (B : list order) : Prop :=
  zlen (b "C" ++ print_bundle B) < INT_MAX /\ bundle_end B - bundle_start B <= bucket /\
  Forall (fun o => o_size o <= INT_MAX /\ o_hdr o <= INT_MAX /\ o_pos o <= INT_MAX /\ o_fpos o <= INT_MAX) B.
