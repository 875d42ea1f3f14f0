(** SPECIFICATION for C97: what was unpacked is a tree again. *)
From Verif Require Import Bytes TarSpec TarModel Mover SpiderSpec EndSpec UnpackSpec.

(** the tree [t] below [base], with the contents and metadata [ev] shows, is
    what the place [S] holds there, no more and no less: every node of [t] was
    made from a member that describes it, and everything made is in [t] *)
Definition unpacked_as (S : place) (ev : env) (base : bytes) (t : node) : Prop :=
  (forall p n, at_path t p n -> exists m, S (components base ++ p) = Some (Made m) /\ describes ev base p n m) /\
  (forall p m, S (components base ++ p) = Some (Made m) -> exists n, at_path t p n).
