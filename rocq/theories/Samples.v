(** Concrete inputs used by the Examples that show the theorems' hypotheses can be met. *)
From Verif Require Import Bytes Outcome TarModel.

Definition a_names : names :=
  {| group_name := fun g => if g =? 100 then Some (b "users") else if g =? 0 then Some (b "root") else if g =? 3000000 then Some (b "biggrp") else None;
     user_name := fun u => if u =? 1000 then Some (b "alice") else if u =? 0 then Some (b "root") else if u =? 3000000 then Some (b "bigusr") else None |}.
Definition st_reg (sz : Z) : stat := {| st_kind := KReg; st_perm := 420; st_uid := 1000; st_gid := 100; st_size := sz; st_mtime := 1600000000 |}.
Definition st_dir : stat := {| st_kind := KDir; st_perm := 493; st_uid := 1000; st_gid := 100; st_size := 4096; st_mtime := 1600000000 |}.
Definition st_lnk (n : Z) : stat := {| st_kind := KLnk; st_perm := 511; st_uid := 1000; st_gid := 100; st_size := n; st_mtime := 1600000000 |}.

Definition long_name (n : nat) : bytes := b "base/" ++ repeat "n"%char (n - 5).
(** a file system with a few entries *)
Definition a_lstat (p : bytes) : option (stat * bytes) :=
  if bytes_eqb p (b "base/file") then Some (st_reg 1234, [])
  else if bytes_eqb p (long_name 150) then Some (st_reg 9000000000, [])
  else if bytes_eqb p (b "base/lnk") then Some (st_lnk 130, repeat "t"%char 130)
  else if bytes_eqb p (b "base/dir") then Some (st_dir, [])
  else if bytes_eqb p (long_name 100) then Some (st_dir, [])
  else if bytes_eqb p (b "base/max") then Some (st_reg 8589934591, [])
  else if bytes_eqb p (b "base/biguid") then
    Some ({| st_kind := KReg; st_perm := 420; st_uid := 3000000; st_gid := 3000000; st_size := 5; st_mtime := 1600000000 |}, [])
  else None.

(** a collection: the root directory and one subdirectory, a symlink, an empty
    file, two small files and one that does not fit a bucket of [a_bucket] *)
From Verif Require Import Layout.
Definition a_bucket : Z := 102400.
Definition force (o : outcome entry) : entry :=
  match o with Ok e => e | Err _ => {| en_type := TFile; en_base := []; en_rel := []; en_target := []; en_size := 0; en_hdr := 0 |} end.
Definition a_dirs : list entry :=
  [force (mk_entry TDir (b "base") [] [] 0); force (mk_entry TDir (b "base") (b "dir") [] 0)].
Definition a_files : list entry :=
  [force (mk_entry TLink (b "base") (b "lnk") (b "target") 0);
   force (mk_entry TFile (b "base") (b "empty") [] 0);
   force (mk_entry TFile (b "base") (b "dir/file") [] 1234);
   force (mk_entry TFile (b "base") (repeat "n"%char 150) [] 60000);
   force (mk_entry TFile (b "base") (b "big") [] 250000)].
(** two files, sorted by size, whose header sizes differ *)
Definition c13_files : list entry :=
  [force (mk_entry TFile (b "base") (repeat "n"%char 600) [] (a_bucket - 1024));
   force (mk_entry TFile (b "base") (b "other") [] (a_bucket - 1024))].

(** a file system in which the entries above are found as recorded *)
From Verif Require Import Mover.
Definition t_lstat (p : bytes) : option (stat * bytes) :=
  if bytes_eqb p (b "base/") then Some (st_dir, [])
  else if bytes_eqb p (b "base/dir") then Some (st_dir, [])
  else if bytes_eqb p (b "base/lnk") then Some (st_lnk 6, b "target")
  else if bytes_eqb p (b "base/empty") then Some (st_reg 0, [])
  else if bytes_eqb p (b "base/dir/file") then Some (st_reg 1234, [])
  else if bytes_eqb p (b "base/" ++ repeat "n"%char 150) then Some (st_reg 60000, [])
  else if bytes_eqb p (b "base/big") then Some (st_reg 250000, [])
  else if bytes_eqb p (b "base/" ++ repeat "n"%char 600) then Some (st_reg (a_bucket - 1024), [])
  else if bytes_eqb p (b "base/other") then Some (st_reg (a_bucket - 1024), [])
  else None.
Definition t_data (p : bytes) : option bytes :=
  match t_lstat p with
  | Some (s, _) => match st_kind s with KReg => Some (repeat "d"%char (Z.to_nat (st_size s))) | _ => None end
  | None => None
  end.
Definition t_env : env := {| e_names := a_names; e_lstat := t_lstat; e_data := t_data |}.
