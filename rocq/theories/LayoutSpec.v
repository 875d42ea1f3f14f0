(** SPECIFICATION of the archive layout and of what a set of transfer orders
    means, independent of how the planner works. *)
From Verif Require Import Bytes Layout.

(** What belongs at an archive byte: byte [k] of the tar header, or byte [k]
    of the contents, of the entry named by (path, type letter, link target). *)
Definition ident : Type := bytes * byte * bytes.
Inductive content := CHdr (i : ident) (k : Z) | CData (i : ident) (k : Z).

(** A header of [hdr] bytes at [pos] followed by [size] bytes of contents taken
    from offset [fpos] of the file: what it puts at archive byte [p]. *)
Definition piece_at (i : ident) (pos hdr size fpos p : Z) : list content :=
  if (pos <=? p) && (p <? pos + hdr) then [CHdr i (p - pos)]
  else if (pos + hdr <=? p) && (p <? pos + hdr + size) then [CData i (fpos + (p - (pos + hdr)))]
  else [].

(** an order, and a list of orders (every writer of byte [p], in order) *)
Definition order_id (o : order) : ident := (o_rel o, o_type o, o_target o).
Definition order_at (o : order) (p : Z) : list content :=
  piece_at (order_id o) (o_pos o) (o_hdr o) (o_size o) (o_fpos o) p.
Definition orders_at (os : list order) (p : Z) : list content := flat_map (fun o => order_at o p) os.

(** an entry laid out at offset [off]: whole header, whole contents *)
Definition entry_id (e : entry) : ident := (en_rel e, type_char (en_type e), en_target e).
Definition entry_at (eo : entry * Z) (p : Z) : list content :=
  piece_at (entry_id (fst eo)) (snd eo) (en_hdr (fst eo)) (en_size (fst eo)) 0 p.
Definition layout_at (l : list (entry * Z)) (p : Z) : list content := flat_map (fun eo => entry_at eo p) l.

(** end of the bytes an order describes *)
Definition o_end (o : order) : Z := o_pos o + o_hdr o + o_size o.
(** archive bytes a non-empty bundle describes: from its first order to the end of its last *)
Definition bundle_start (B : list order) : Z := match B with o :: _ => o_pos o | [] => 0 end.
Definition bundle_end (B : list order) : Z := match rev B with o :: _ => o_end o | [] => 0 end.

Definition up512 (n : Z) : Z := (n + 511) / 512 * 512.

(** the ranges written for the bundles (rounded up to whole blocks) follow each
    other from [a] to [z] without gap or overlap *)
Fixpoint tiles (a : Z) (bs : list (list order)) (z : Z) : Prop :=
  match bs with
  | [] => a = z
  | B :: bs' => B <> [] /\ bundle_start B = a /\ a < bundle_end B /\
                tiles (a + up512 (bundle_end B - bundle_start B)) bs' z
  end.

(** entries as the scan produces them: header a positive number of blocks,
    nothing negative, directories without contents *)
Definition wf_item (e : entry) : Prop :=
  512 <= en_hdr e /\ en_hdr e mod 512 = 0 /\ 0 <= en_size e.
