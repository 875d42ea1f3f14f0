(** SPECIFICATION for C53 and C54: the bytes of an archive that the 0.5.1 layout
    leaves undetermined, and crash points. *)
From Verif Require Import Bytes Outcome Mover Legacy LegacyLayout LegacySpec LegacyWrite.

(** the bytes of the file that piece [f] of the layout carries *)
Definition piece (ev : env) (f : lent) : bytes :=
  match l_type f with
  | LReg => if 0 <? l_size f then match e_data ev (l_rel f) with Some d => read_at d (l_orig f) (l_size f) | None => [] end else []
  | _ => []
  end.
(** archive byte [p] is between the end of the bytes of some piece and the end
    of the whole blocks reserved for it; [D]: where the data region begins *)
Definition slack (ev : env) (D : Z) (fs : list lent) (p : Z) : Prop :=
  exists f, In f fs /\
    l_loc f + zlen (piece ev f) <= p - D < frag_start f + blocked_up 512 (Z.max 0 (l_size f) + (if l_orig f =? 0 then l_hdr f else 0)).

(** what the archive file may be if the program is stopped at any moment: of the
    writes of the run any bytes have arrived, in any order *)
Definition torn (ws : list wr) (prior disk : archive) : Prop :=
  ar_size disk <= ar_size (fold_left write_at ws prior) /\
  forall p, ar_cell disk p = ar_cell prior p \/
    exists w, In w ws /\ w_pos w <= p < w_pos w + w_len w /\ ar_cell disk p = w_mem w (p - w_pos w).
Inductive legacy_crash (P : Z) (pad : bytes) (clock : Z -> Z) (ev : env) (l : list lent) (R : nat) (prior : archive) : archive -> Prop :=
| Legacy_crash ws0 D text starts wss ws disk :
    prologue 512 P pad clock l = Ok (Some (ws0, D, text, starts)) ->
    Forall2 (fun r ws => rank_part 512 P D clock ev text starts (Z.of_nat R) (Z.of_nat r) = Ok (Some ws)) (seq 0 R) wss ->
    interleave wss ws ->
    torn (ws0 ++ ws) prior disk ->
    legacy_crash P pad clock ev l R prior disk.
