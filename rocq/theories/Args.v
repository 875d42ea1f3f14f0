(** Model of parfu_parse_args (parfu_parse_args.cc 27-93). *)
From Verif Require Import Bytes Outcome Layout OrderCodec.

(** what the caller's variables hold: bucket size, maximum number of orders,
    archive name (.cc 29-31, parfu_main_0_6_test.cc 43-48, 79) *)
Record opts := { op_bucket : Z; op_maxo : Z; op_archive : bytes }.

(** equals_position, .cc 45: find() truncated to unsigned; npos becomes 2^32-1 *)
Definition equals_position (a : bytes) : Z :=
  match find_byte EQ a with Some n => Z.of_nat n mod 2 ^ 32 | None => 2 ^ 32 - 1 end.

(** one argument, .cc 43-88.  [inl t]: a target; [inr None]: unknown flag.
    stoi's int is converted to unsigned (maxorders) or unsigned long
    (bucketsize); rounding up to 512 wraps at 2^64. *)
Definition parse_arg (o : opts) (a : bytes) : outcome (bytes + option opts) :=
  if zlen a <? equals_position a then Ok (inl a)
  else
    let flag := firstn (Z.to_nat (equals_position a)) a in
    let value := skipn (S (Z.to_nat (equals_position a))) a in
    if bytes_eqb flag (b "maxorders") then
      n <- get_stoi value ;;
      Ok (inr (Some {| op_bucket := op_bucket o; op_maxo := to_uint n; op_archive := op_archive o |}))
    else if bytes_eqb flag (b "bucketsize") then
      n <- get_stoi value ;;
      Ok (inr (Some {| op_bucket := next_block_boundary (to_ulong n) mod 2 ^ 64; op_maxo := op_maxo o; op_archive := op_archive o |}))
    else if bytes_eqb flag (b "archivefile") then
      Ok (inr (Some {| op_bucket := op_bucket o; op_maxo := op_maxo o; op_archive := value |}))
    else Ok (inr None).

(** the loop over args[1..], .cc 42-90; None = nullptr *)
Fixpoint parse_args (o : opts) (args : list bytes) : outcome (option (opts * list bytes)) :=
  match args with
  | [] => Ok (Some (o, []))
  | a :: rest =>
      x <- parse_arg o a ;;
      match x with
      | inl t => y <- parse_args o rest ;;
                 Ok (match y with Some (o', ts) => Some (o', t :: ts) | None => None end)
      | inr (Some o') => parse_args o' rest
      | inr None => Ok None
      end
  end.
