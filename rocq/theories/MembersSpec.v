(** SPECIFICATION for C68: one tree, read in any order. *)
From Verif Require Import Bytes SpiderSpec.

(** a node without what lies below it *)
Definition bare (n : node) : node := match n with NDir _ => NDir [] | _ => n end.
(** the trees have the same paths, and at each the same file (of the same size),
    link (to the same target), directory, ...: they differ at most in the order
    in which the names of a directory are read *)
Definition same_tree (t t' : node) : Prop :=
  forall p m, (exists n, at_path t p n /\ bare n = m) <-> (exists n, at_path t' p n /\ bare n = m).
