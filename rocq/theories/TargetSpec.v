(** SPECIFICATION for C73 to C77: what the target on the command line may be. *)
From Verif Require Import Bytes TarSpec TarModel Layout Spider SpiderSpec.

(** opening [base] as a directory shows the tree [t] (or fails).  Nothing is
    said of what lstat tells about [base] itself: it may be a symbolic link. *)
Inductive opens_as (fs : fsys) (base : bytes) : node -> Prop :=
| Opens names ch : f_readdir fs base = Some names ->
    filter (fun n => negb (bytes_eqb n (b ".") || bytes_eqb n (b ".."))) names = map fst ch ->
    Forall (fun c => shows fs (base ++ [SLASH] ++ fst c) (snd c)) ch ->
    opens_as fs base (NDir ch)
| Opens_not : f_readdir fs base = None -> opens_as fs base NLocked.

(** [base] is a symbolic link *)
Definition is_link (fs : fsys) (base : bytes) : Prop :=
  exists s target, f_lstat fs base = Some (s, target) /\ st_kind s = KLnk /\ st_size s = zlen target.

(** [base] is not a directory, nor a link: something else, or nothing *)
Definition no_directory (fs : fsys) (base : bytes) : Prop :=
  match f_lstat fs base with
  | Some (s, _) => st_kind s <> KDir /\ st_kind s <> KLnk
  | None => True
  end.

(** the file system does not mind a doubled slash after [base], nor one slash
    behind it where a directory is opened *)
Definition slash_blind {A} (base : bytes) (f : bytes -> A) : Prop := forall q, f (base ++ [SLASH; SLASH] ++ q) = f (base ++ [SLASH] ++ q).
Definition fs_blind (base : bytes) (fs : fsys) : Prop :=
  slash_blind base (f_lstat fs) /\ slash_blind base (f_readdir fs) /\ f_readdir fs (base ++ [SLASH]) = f_readdir fs base.

(** [m'] is [m] with one more slash behind [base] *)
Definition respelt (base : bytes) (m m' : member) : Prop :=
  (exists rest, m_path m = base ++ [SLASH] ++ rest /\ m_path m' = base ++ [SLASH; SLASH] ++ rest) /\
  m_type m = m_type m' /\ m_link m = m_link m' /\ m_mode m = m_mode m' /\ m_uid m = m_uid m' /\ m_gid m = m_gid m' /\
  m_mtime m = m_mtime m' /\ m_size m = m_size m' /\ m_uname m = m_uname m' /\ m_gname m = m_gname m' /\ m_data m = m_data m'.

(** [base] is a directory or a symbolic link (where it leads is not looked at) *)
Definition dir_or_link (fs : fsys) (base : bytes) : Prop :=
  exists s target, f_lstat fs base = Some (s, target) /\ (st_kind s = KDir \/ st_kind s = KLnk /\ st_size s = zlen target).
