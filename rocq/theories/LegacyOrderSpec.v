(** SPECIFICATION for the second part of C102: the order of the members of an
    archive of 0.5.1.  Models nothing in /repo. *)
From Verif Require Import Bytes SpiderSpec SizeSpec.

(** [x] comes before [y] in a dictionary: [y] continues [x], or has a larger
    character where they first differ *)
Definition text_before (x y : bytes) : Prop :=
  (exists c z, y = x ++ c :: z) \/ exists p c d x' y', x = p ++ c :: x' /\ y = p ++ d :: y' /\ byte_val c < byte_val d.
(** directories, links, files *)
Definition class (n : node) : Z := match n with NDir _ | NLocked => 0 | NLink _ => 1 | _ => 2 end.
(** directories before links before files, smaller files before larger ones,
    and by name where these agree *)
Definition node_before (x y : list bytes * node) : Prop :=
  class (snd x) < class (snd y) \/
  class (snd x) = class (snd y) /\
    (contents (snd x) < contents (snd y) \/ contents (snd x) = contents (snd y) /\ text_before (join (fst x)) (join (fst y))).
Definition nodes_in_order (nodes : list (list bytes * node)) : Prop :=
  forall i j x y, (i < j)%nat -> nth_error nodes i = Some x -> nth_error nodes j = Some y -> node_before x y.
