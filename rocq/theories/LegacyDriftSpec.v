(** SPECIFICATION for C89: files whose size changes between the listing and the
    copying, in the 0.5.1 program. *)
From Verif Require Import Bytes TarSpec TarModel Layout Mover MoverSpec SpiderSpec MembersSpec DriftSpec Legacy LegacyLayout LegacySpec LegacyEndSpec.

(** entry [e] with another size *)
Definition sized (e : lent) (z : Z) : lent :=
  {| l_rel := l_rel e; l_arc := l_arc e; l_type := l_type e; l_tgt := l_tgt e; l_size := z; l_hdr := l_hdr e;
     l_loc := l_loc e; l_orig := l_orig e; l_ploc := l_ploc e; l_pname := l_pname e; l_phdr := l_phdr e; l_psize := l_psize e;
     l_nfrag := l_nfrag e; l_fptr := l_fptr e; l_bucket := l_bucket e |}.

(** when its file is copied, entry [e] is as the list says except that its size
    is now [z], which takes as many 512-byte blocks *)
Definition found_sized (ev : env) (e : lent) (z : Z) : Prop :=
  as_listed ev (sized e z) /\ round512 (Z.max 0 z) = round512 (Z.max 0 (l_size e)).
Definition as_found (ev : env) (e : lent) : Prop := exists z, found_sized ev e z.

(** when it is copied, entry [e] still has a header of the length listed and, if
    it is a file, can still be opened; its size may be any *)
Definition as_there (ev : env) (e : lent) : Prop :=
  0 < l_hdr e /\ (exists h, file_header ev (l_rel e) = Some h /\ l_hdr e = zlen h) /\
  (l_type e = LReg -> exists d, e_data ev (l_rel e) = Some d).

(** member [m] is entry [e] as found, with the contents up to the size listed *)
Definition entry_found (ev : env) (e : lent) (m : member) : Prop :=
  exists z m', found_sized ev e z /\ entry_shown ev (sized e z) m' /\ alike (l_size e) m m'.

(** the same node, except that a file may have any other size (both up to the
    8 GiB of a plain header) *)
Definition kin (n n' : node) : Prop :=
  match n, n' with
  | NFile s, NFile s' => s = s' \/ s <= MAX_FILE_SIZE /\ s' <= MAX_FILE_SIZE
  | _, _ => bare n = bare n'
  end.
Definition resized (t t' : node) : Prop := forall p,
  (forall n, at_path t p n -> exists n', at_path t' p n' /\ kin n n') /\
  (forall n', at_path t' p n' -> exists n, at_path t p n /\ kin n n').
