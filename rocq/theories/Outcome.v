(** Results of C++ code: normal completion or one of the abnormal ends,
    kept apart instead of being mapped to default values. *)
Inductive err : Set :=
| EExit    (* exit(n) / error return that stops the operation *)
| EAbort   (* failed assert *)
| EThrow   (* uncaught C++ exception *)
| EUB      (* undefined behaviour: out of bounds, uninitialised, null deref *)
| EHang.   (* never returns *)

Inductive outcome (A : Type) : Type :=
| Ok (a : A)
| Err (e : err).
Arguments Ok {A} _.
Arguments Err {A} _.

Definition bind {A B} (x : outcome A) (f : A -> outcome B) : outcome B :=
  match x with Ok a => f a | Err e => Err e end.
Notation "x <- e1 ;; e2" := (bind e1 (fun x => e2)) (at level 61, e1 at next level, right associativity).

Definition of_option {A} (e : err) (x : option A) : outcome A :=
  match x with Some a => Ok a | None => Err e end.
