(** SPECIFICATION of the command line, independent of the parser. *)
From Verif Require Import Bytes.

(** an argument is a target (no '=') or flag=value, split at the first '=' *)
Definition is_target (a : bytes) : Prop := no_byte EQ a.
Definition is_flag (a flag value : bytes) : Prop := no_byte EQ flag /\ a = flag ++ [EQ] ++ value.

(** [v] is the value of the last argument giving [flag] *)
Definition last_value (flag : bytes) (args : list bytes) (v : bytes) : Prop :=
  exists pre post, args = pre ++ (flag ++ [EQ] ++ v) :: post /\ forall w, ~ In (flag ++ [EQ] ++ w) post.
Definition never_given (flag : bytes) (args : list bytes) : Prop := forall w, ~ In (flag ++ [EQ] ++ w) args.

(** targets in order *)
Inductive targets : list bytes -> list bytes -> Prop :=
| T_nil : targets [] []
| T_target a args ts : is_target a -> targets args ts -> targets (a :: args) (a :: ts)
| T_flag a args ts f v : is_flag a f v -> targets args ts -> targets (a :: args) ts.

(** arguments the program can act on: a target; archivefile=anything; or one of
    the two numeric flags with a value stoi reads *)
Definition acceptable (a : bytes) : Prop :=
  is_target a \/ (exists v, is_flag a (b "archivefile") v) \/
  (exists f v n, (f = b "maxorders" \/ f = b "bucketsize") /\ is_flag a f v /\ stoi v = Some n).
Definition unknown_flag (a : bytes) : Prop :=
  exists f v, is_flag a f v /\ f <> b "maxorders" /\ f <> b "bucketsize" /\ f <> b "archivefile".
Definition bad_number (a : bytes) : Prop :=
  exists f v, (f = b "maxorders" \/ f = b "bucketsize") /\ is_flag a f v /\ stoi v = None.
