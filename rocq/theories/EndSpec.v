(** SPECIFICATION of the end-to-end property: what a tar reader should find in
    an archive of a directory tree. *)
From Verif Require Import Bytes Outcome TarSpec TarModel Mover MoverSpec SpiderSpec.

(** path of a node of the tree rooted at [base] *)
Definition node_path (base : bytes) (p : list bytes) : bytes := base ++ [SLASH] ++ join p.

(** the file system the workers see still shows node [n] at [p], with metadata
    the tar format of the program can hold (C03: ids below 2^21, times in
    [0,2^33), any size but 2^33-1) and with owner names known *)
Definition still (ev : env) (base : bytes) (p : list bytes) (n : node) : Prop :=
  exists s target, e_lstat ev (node_path base p) = Some (s, target) /\
    0 <= st_uid s < 2 ^ 21 /\ 0 <= st_gid s < 2 ^ 21 /\ 0 <= st_mtime s < 2 ^ 33 /\
    0 <= st_size s < 2 ^ 63 /\ st_size s <> 2 ^ 33 - 1 /\
    group_name (e_names ev) (st_gid s) <> None /\ user_name (e_names ev) (st_uid s) <> None /\
    match n with
    | NFile size => st_kind s = KReg /\ st_size s = size /\ exists d, e_data ev (node_path base p) = Some d /\ zlen d = size
    | NLink t => st_kind s = KLnk /\ st_size s = zlen t /\ target = t
    | NDir _ | NLocked => st_kind s = KDir
    | NOther | NUnreadable => True
    end /\ (st_kind s <> KLnk -> target = []).

(** member [m] of an archive is node [n] of the tree: name (directories end in
    "/"), type, link target, size, contents, and the metadata lstat gives *)
Definition describes (ev : env) (base : bytes) (p : list bytes) (n : node) (m : member) : Prop :=
  match n with
  | NFile size => m_path m = node_path base p /\ m_type m = "0"%char /\ m_link m = [] /\ m_size m = size /\
                  e_data ev (node_path base p) = Some (m_data m)
  | NLink t => m_path m = node_path base p /\ m_type m = "2"%char /\ m_link m = t /\ m_size m = 0 /\ m_data m = []
  | NDir _ | NLocked => m_path m = node_path base p ++ (match p with [] => [] | _ => [SLASH] end) /\
                        m_type m = "5"%char /\ m_link m = [] /\ m_size m = 0 /\ m_data m = []
  | NOther | NUnreadable => False
  end /\
  exists s target, e_lstat ev (node_path base p) = Some (s, target) /\
    m_mode m = st_perm s mod 2 ^ 12 /\ m_uid m = st_uid s /\ m_gid m = st_gid s /\ m_mtime m = st_mtime s /\
    owned_as (e_names ev) s m.

(** file contents [a] are possible for the archive cells: every byte the
    program determined is there, the others are arbitrary *)
Definition concretises (a : bytes) (ar : archive) : Prop :=
  zlen a = ar_size ar /\
  forall p c, 0 <= p < ar_size ar -> ar_cell ar p = Byte c -> nth_error a (Z.to_nat p) = Some c.

(** the tar header of a directory path keeps its length when "/" is appended
    (C07: the planner forgets the slash, the header has it) *)
Definition slash_safe (path : bytes) : Prop := compute_hdr_size path [] 0 = compute_hdr_size (path ++ [SLASH]) [] 0.

(** names and link targets of the tree without tabs (C16) *)
Definition tab_free (t : node) : Prop :=
  forall p n, at_path t p n -> no_byte TAB (join p) /\ match n with NLink l => no_byte TAB l | _ => True end.
