(** SPECIFICATION of the 0.5.1 layout. *)
From Verif Require Import Bytes TarModel Legacy LegacyLayout.

(** the archive bytes a fragment occupies (relative to the data area): its data,
    and the tar header in front of the data of the first fragment of a file *)
Definition frag_start (f : lent) : Z := if l_orig f =? 0 then l_loc f - l_hdr f else l_loc f.
Definition frag_end (f : lent) : Z := l_loc f + Z.max 0 (l_size f).
Definition in_bucket (P : Z) (f : lent) : Prop :=
  l_bucket f * P <= frag_start f /\ frag_end f <= (l_bucket f + 1) * P.
(** no overlap, and in list order *)
Definition apart (l : list lent) : Prop :=
  forall i j f g, (i < j)%nat -> nth_error l i = Some f -> nth_error l j = Some g -> frag_end f <= frag_start g.

Definition same_file (e f : lent) : Prop :=
  l_rel f = l_rel e /\ l_arc f = l_arc e /\ l_type f = l_type e /\ l_tgt f = l_tgt e /\ l_hdr f = l_hdr e.
(** pieces of a file from offset [o] to offset [total] *)
Fixpoint consecutive (o : Z) (fs : list lent) (total : Z) : Prop :=
  match fs with
  | [] => o = total
  | f :: fs' => l_orig f = o /\ 0 <= l_size f /\ consecutive (o + l_size f) fs' total
  end.
(** entry and header, rounded up, fit a bucket *)
Definition fits (blk P : Z) (e : lent) : Prop := blocked_up blk (sum_size e) <= P.

(** [fs] are the fragments of entry [e]: itself if it fits, else consecutive
    pieces from the beginning that cover it (up to the rounding of the last
    block: exactly unless the rounded size is a multiple of the bucket size) *)
Definition split_of (blk P : Z) (e : lent) (fs : list lent) : Prop :=
  Forall (same_file e) fs /\ Forall (fun f => l_nfrag f = zlen fs) fs /\
  (fits blk P e -> exists f, fs = [f] /\ l_orig f = 0 /\ l_size f = l_size e) /\
  (~ fits blk P e -> exists total, consecutive 0 fs total /\ l_size e <= total < l_size e + blk /\
     (blocked_up blk (sum_size e) mod P <> 0 -> total = l_size e)).

(** entries that fit a bucket come before those that do not *)
Definition small_first (blk P : Z) (l : list lent) : Prop :=
  exists l1 l2, l = l1 ++ l2 /\ Forall (fits blk P) l1 /\ Forall (fun e => ~ fits blk P e) l2.
