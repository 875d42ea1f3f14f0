(** SPECIFICATION: what a tar reader should find in an archive made by the
    0.5.1 program from a list of entries. *)
From Verif Require Import Bytes Outcome TarSpec TarModel Mover MoverSpec Legacy LegacyLayout LegacySpec.

(** the file system shows each entry as the list says, with metadata the tar
    format of the program can hold, and the planned header length is that of
    the header the program makes for it *)
Definition as_listed (ev : env) (e : lent) : Prop :=
  exists s target, e_lstat ev (l_rel e) = Some (s, target) /\
    0 <= st_uid s < 2 ^ 21 /\ 0 <= st_gid s < 2 ^ 21 /\ 0 <= st_mtime s < 2 ^ 33 /\
    0 <= st_size s < 2 ^ 63 /\ st_size s <> 2 ^ 33 - 1 /\
    no_byte NUL (l_rel e) /\ zlen (l_rel e) < 2 ^ 29 /\
    match l_type e with
    | LReg => st_kind s = KReg /\ st_size s = l_size e /\ target = [] /\ exists d, e_data ev (l_rel e) = Some d /\ zlen d = l_size e
    | LLnk => st_kind s = KLnk /\ st_size s = zlen target /\ no_byte NUL target /\ zlen target < 2 ^ 30 /\ l_size e <= 0
    | LDir => st_kind s = KDir /\ target = [] /\ l_size e <= 0
    | LInv => False
    end /\
    exists h, file_header ev (l_rel e) = Some h /\ l_hdr e = zlen h.

(** member [m] is entry [e]: its path, type, link target, size, contents and the
    metadata lstat gives *)
Definition entry_shown (ev : env) (e : lent) (m : member) : Prop :=
  exists s target, e_lstat ev (l_rel e) = Some (s, target) /\
    m_mode m = st_perm s mod 2 ^ 12 /\ m_uid m = st_uid s /\ m_gid m = st_gid s /\ m_mtime m = st_mtime s /\
    owned_as (e_names ev) s m /\
    match l_type e with
    | LReg => m_path m = l_rel e /\ m_type m = "0"%char /\ m_link m = [] /\ m_size m = l_size e /\ e_data ev (l_rel e) = Some (m_data m)
    | LLnk => m_path m = l_rel e /\ m_type m = "2"%char /\ m_link m = target /\ m_size m = 0 /\ m_data m = []
    | LDir => m_path m = (if ends_with_slash (l_rel e) then l_rel e else l_rel e ++ [SLASH]) /\
              m_type m = "5"%char /\ m_link m = [] /\ m_size m = 0 /\ m_data m = []
    | LInv => False
    end.

(** the members are the entries (or nodes) of the list, each once, in its order,
    with spacers anywhere *)
Inductive interspersed {A} (shown : A -> member -> Prop) (spacer : member -> Prop) : list A -> list member -> Prop :=
| In_nil : interspersed shown spacer [] []
| In_spacer m l ms : spacer m -> interspersed shown spacer l ms -> interspersed shown spacer l (m :: ms)
| In_entry e m l ms : shown e m -> interspersed shown spacer l ms -> interspersed shown spacer (e :: l) (m :: ms).
Definition is_spacer (m : member) : Prop := m_path m = b ".parfu_spacer " /\ m_type m = "0"%char /\ m_link m = [].
(** the first member *)
Definition is_catalog (text : bytes) (m : member) : Prop :=
  m_path m = b ".parfu_catalog" /\ m_type m = "0"%char /\ m_link m = [] /\ m_size m = zlen text /\ m_data m = text.

(** an upper bound of the room the list takes (the bucket number is an int) *)
Fixpoint volume (P : Z) (l : list lent) : Z :=
  match l with [] => 0 | e :: l' => 2 * P + blocked_up 512 (sum_size e) + l_hdr e + volume P l' end.
