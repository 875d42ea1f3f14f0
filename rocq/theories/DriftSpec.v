(** SPECIFICATION for C71 and C72: files that change between the scan and the
    copy, and files that cannot be opened. *)
From Verif Require Import Bytes TarSpec TarModel Layout LayoutSpec Mover SpiderSpec MembersSpec EndSpec.

(** [n] as scanned, [n'] as found by the workers: a file may have another size
    that takes as many blocks (both below 8 GiB); anything else is the same *)
Definition near (n n' : node) : Prop :=
  match n, n' with
  | NFile s, NFile s' => s = s' \/ up512 s = up512 s' /\ s <= MAX_FILE_SIZE /\ s' <= MAX_FILE_SIZE
  | _, _ => bare n = bare n'
  end.
(** the trees have the same paths, and near nodes there *)
Definition drifted (t t' : node) : Prop := forall p,
  (forall n, at_path t p n -> exists n', at_path t' p n' /\ near n n') /\
  (forall n', at_path t' p n' -> exists n, at_path t p n /\ near n n').

(** members [m] and [m'] are the same, except that of the contents only the
    first [k] bytes (and the length) need to agree *)
Definition alike (k : Z) (m m' : member) : Prop :=
  m_path m = m_path m' /\ m_type m = m_type m' /\ m_link m = m_link m' /\ m_mode m = m_mode m' /\
  m_uid m = m_uid m' /\ m_gid m = m_gid m' /\ m_mtime m = m_mtime m' /\ m_size m = m_size m' /\
  m_uname m = m_uname m' /\ m_gname m = m_gname m' /\
  zlen (m_data m) = zlen (m_data m') /\ firstn (Z.to_nat k) (m_data m) = firstn (Z.to_nat k) (m_data m').
(** bytes of the file that were known to the scan *)
Definition known (n : node) : Z := match n with NFile s => s | _ => 0 end.

(** [ev] is the file system [ev'], except that some files cannot be opened for
    reading *)
Definition hides (ev ev' : env) : Prop :=
  e_names ev = e_names ev' /\ e_lstat ev = e_lstat ev' /\ forall q, e_data ev q = e_data ev' q \/ e_data ev q = None.
(** node [n] at [p] is a file that cannot be opened *)
Definition closed (ev : env) (base : bytes) (p : list bytes) (n : node) : Prop :=
  match n with NFile _ => e_data ev (node_path base p) = None | _ => False end.
