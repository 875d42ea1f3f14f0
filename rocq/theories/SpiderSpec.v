(** SPECIFICATION of directory trees and of what a scan should find. *)
From Verif Require Import Bytes TarModel Layout Spider.

(** A directory tree.  [NLocked]: a directory that cannot be opened.
    [NUnreadable]: lstat or readlink does not work.  [NOther]: device, fifo, ... *)
Inductive node :=
| NFile (size : Z)
| NLink (target : bytes)
| NDir (children : list (bytes * node))
| NLocked
| NOther
| NUnreadable.

(** node [n'] is found in [n] by following the names [p] *)
Inductive at_path : node -> list bytes -> node -> Prop :=
| At_here n : at_path n [] n
| At_below ch name n p n' : In (name, n) ch -> at_path n p n' -> at_path (NDir ch) (name :: p) n'.

(** path as text *)
Fixpoint join (p : list bytes) : bytes :=
  match p with
  | [] => []
  | [n] => n
  | n :: p' => n ++ [SLASH] ++ join p'
  end.

(** names a directory can contain, and can contain only once *)
Definition good_name (n : bytes) : Prop :=
  n <> [] /\ n <> b "." /\ n <> b ".." /\ no_byte SLASH n /\ no_byte NUL n.
Inductive wf_node : node -> Prop :=
| Wf_file s : 0 <= s < 2 ^ 63 -> wf_node (NFile s)
| Wf_link t : t <> [] -> no_byte NUL t -> wf_node (NLink t)
| Wf_dir ch : NoDup (map fst ch) -> Forall (fun c => good_name (fst c)) ch -> Forall (fun c => wf_node (snd c)) ch ->
    wf_node (NDir ch)
| Wf_locked : wf_node NLocked
| Wf_other : wf_node NOther
| Wf_unreadable : wf_node NUnreadable.

(** the file system shows tree [n] at [path]; readdir delivers "." and ".."
    anywhere among the names *)
Inductive shows (fs : fsys) : bytes -> node -> Prop :=
| Sh_file path s l : f_lstat fs path = Some (s, l) -> st_kind s = KReg -> shows fs path (NFile (st_size s))
| Sh_link path s t : f_lstat fs path = Some (s, t) -> st_kind s = KLnk -> st_size s = zlen t -> shows fs path (NLink t)
| Sh_dir path s l names ch : f_lstat fs path = Some (s, l) -> st_kind s = KDir ->
    f_readdir fs path = Some names ->
    filter (fun n => negb (bytes_eqb n (b ".") || bytes_eqb n (b ".."))) names = map fst ch ->
    Forall (fun c => shows fs (path ++ [SLASH] ++ fst c) (snd c)) ch ->
    shows fs path (NDir ch)
| Sh_locked path s l : f_lstat fs path = Some (s, l) -> st_kind s = KDir -> f_readdir fs path = None -> shows fs path NLocked
| Sh_other path s l : f_lstat fs path = Some (s, l) -> st_kind s = KOther -> shows fs path NOther
| Sh_gone path : f_lstat fs path = None -> shows fs path NUnreadable
| Sh_badlink path s t : f_lstat fs path = Some (s, t) -> st_kind s = KLnk -> st_size s <> zlen t -> shows fs path NUnreadable.

(** the uninitialised byte after every link target happens to be NUL *)
Definition quiet_heap (fs : fsys) : Prop := forall path, f_heap fs path = NUL.

(** entry [e] records node [n] *)
Definition records (n : node) (e : entry) : Prop :=
  match n with
  | NFile s => en_type e = TFile /\ en_size e = s /\ en_target e = []
  | NLink t => en_type e = TLink /\ en_size e = 0 /\ en_target e = t
  | NDir _ | NLocked => en_type e = TDir /\ en_size e = 0 /\ en_target e = []
  | NOther | NUnreadable => False
  end.
Definition archivable (n : node) : Prop := match n with NOther | NUnreadable => False | _ => True end.
Definition is_dir_node (n : node) : Prop := match n with NDir _ | NLocked => True | _ => False end.
