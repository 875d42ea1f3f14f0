(** SPECIFICATION for C101: how large an archive of 0.6 is.
    Models nothing in /repo. *)
From Verif Require Import Bytes TarSpec SpiderSpec EndSpec.

(** bytes of contents, and target, of a node of the tree; models nothing in /repo *)
Definition contents (n : node) : Z := match n with NFile size => size | _ => 0 end.
Definition target_of (n : node) : bytes := match n with NLink t => t | _ => [] end.
(** a node whose header needs no extension: path and target of at most 100
    bytes, contents below 8 GiB *)
Definition brief (base : bytes) (p : list bytes) (n : node) : Prop :=
  zlen (node_path base p) <= 100 /\ zlen (target_of n) <= 100 /\ contents n < 2 ^ 33.
(** sizes an archive with one member per node of the list may have: whole blocks of
    512 bytes, one for the header of a brief node, a bounded number for that of
    another, and the contents rounded up to whole blocks; nothing else *)
Inductive takes (base : bytes) : list (list bytes * node) -> Z -> Prop :=
| Takes_none : takes base [] 0
| Takes_more p n h rest z : 512 <= h -> h mod 512 = 0 -> (brief base p n -> h = 512) ->
    h <= 2 * (zlen (node_path base p) + zlen (target_of n)) + 1875 ->
    takes base rest z -> takes base ((p, n) :: rest) (h + round512 (contents n) + z).
