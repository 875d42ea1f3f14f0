(** Property theorems C26-C29 (directory scan). *)
From Coq Require Import Permutation.
From Verif Require Import Bytes Outcome TarModel Layout LayoutSpec LayoutProofs LayoutMore Samples Spider SpiderSpec SpiderProofs SpiderMore.

(** a small file system: a hidden file, nested directories, a link, a device,
    a directory that cannot be opened, a link whose size lstat reports as 0 *)
Definition s_tree : node := NDir
  [(b ".hidden", NFile 3);
   (b "dir", NDir [(b "file", NFile 1234); (b "sub", NDir [(b "x", NFile 0)])]);
   (b "lnk", NLink (b "target"));
   (b "locked", NLocked); (b "dev", NOther); (b "odd", NUnreadable)].
Definition st_oth : stat := {| st_kind := KOther; st_perm := 420; st_uid := 0; st_gid := 0; st_size := 0; st_mtime := 0 |}.
Definition s_lstat (p : bytes) : option (stat * bytes) :=
  if bytes_eqb p (b "base") then Some (st_dir, [])
  else if bytes_eqb p (b "base/.hidden") then Some (st_reg 3, [])
  else if bytes_eqb p (b "base/dir") then Some (st_dir, [])
  else if bytes_eqb p (b "base/dir/file") then Some (st_reg 1234, [])
  else if bytes_eqb p (b "base/dir/sub") then Some (st_dir, [])
  else if bytes_eqb p (b "base/dir/sub/x") then Some (st_reg 0, [])
  else if bytes_eqb p (b "base/lnk") then Some (st_lnk 6, b "target")
  else if bytes_eqb p (b "base/locked") then Some (st_dir, [])
  else if bytes_eqb p (b "base/dev") then Some (st_oth, [])
  else if bytes_eqb p (b "base/odd") then Some (st_lnk 0, b "/proc/x")
  else None.
Definition s_readdir (p : bytes) : option (list bytes) :=
  if bytes_eqb p (b "base") then Some [b "."; b ".hidden"; b ".."; b "dir"; b "lnk"; b "locked"; b "dev"; b "odd"]
  else if bytes_eqb p (b "base/dir") then Some [b "file"; b "."; b "sub"; b ".."]
  else if bytes_eqb p (b "base/dir/sub") then Some [b "."; b ".."; b "x"]
  else None.
Definition s_fs : fsys := {| f_readdir := s_readdir; f_lstat := s_lstat; f_heap := fun _ => NUL |}.
(** the same with another byte where the link target's buffer ends *)
Definition s_fs_garbage : fsys := {| f_readdir := s_readdir; f_lstat := s_lstat; f_heap := fun _ => "!"%char |}.

Example s_good : forall l, In l [b ".hidden"; b "dir"; b "file"; b "sub"; b "x"; b "lnk"; b "locked"; b "dev"; b "odd"] -> good_name l.
Proof.
  intros l H. unfold good_name, no_byte. cbn in H. repeat destruct H as [<-|H]; try contradiction;
    repeat split; try discriminate; cbn; intros F; repeat destruct F as [F|F]; try discriminate; contradiction.
Qed.
Ltac nodup := repeat constructor; cbn; intros F; repeat destruct F as [F|F]; try discriminate; contradiction.
Example s_wf : wf_node s_tree.
Proof.
  unfold s_tree. apply Wf_dir; [nodup|repeat constructor; cbn [fst]; apply s_good; cbn; tauto|].
  repeat apply Forall_cons; try apply Forall_nil; cbn [snd]; try constructor; try lia; try discriminate.
  - nodup.
  - repeat constructor; cbn [fst]; apply s_good; cbn; tauto.
  - repeat apply Forall_cons; try apply Forall_nil; cbn [snd]; constructor; try lia; [nodup| |].
    + repeat constructor; cbn [fst]; apply s_good; cbn; tauto.
    + repeat constructor; lia.
  - cbn. intros F; repeat destruct F as [F|F]; try discriminate; contradiction.
Qed.
Example s_shows : shows s_fs (b "base") s_tree.
Proof.
  eapply Sh_dir; [vm_compute; reflexivity|reflexivity|vm_compute; reflexivity|vm_compute; reflexivity|].
  repeat apply Forall_cons; try apply Forall_nil; cbn [fst snd].
  - eapply (Sh_file s_fs _ (st_reg 3)); vm_compute; reflexivity.
  - eapply Sh_dir; [vm_compute; reflexivity|reflexivity|vm_compute; reflexivity|vm_compute; reflexivity|].
    repeat apply Forall_cons; try apply Forall_nil; cbn [fst snd].
    + eapply (Sh_file s_fs _ (st_reg 1234)); vm_compute; reflexivity.
    + eapply Sh_dir; [vm_compute; reflexivity|reflexivity|vm_compute; reflexivity|vm_compute; reflexivity|].
      repeat apply Forall_cons; try apply Forall_nil; cbn [fst snd]. eapply (Sh_file s_fs _ (st_reg 0)); vm_compute; reflexivity.
  - eapply Sh_link; vm_compute; reflexivity.
  - eapply Sh_locked; vm_compute; reflexivity.
  - eapply Sh_other; vm_compute; reflexivity.
  - eapply Sh_badlink; vm_compute; try reflexivity. discriminate.
Qed.

(** *** C26.  Whenever the scan of a tree ends (it does: next theorem; the only
    other outcome is the undefined behaviour of C29), it has recorded each node
    that is a regular file, symlink or directory (hidden or not, at any depth)
    exactly once, with its path, type, size and target, and nothing else. *)
Theorem C26_scan_complete : forall fuel fs base t dirs files,
  scan fuel fs base = Ok (dirs, files) ->
  base <> [] -> is_dir_node t -> wf_node t -> shows fs base t ->
  NoDup (map en_rel (dirs ++ files)) /\
  (forall e, In e (dirs ++ files) -> exists p n, at_path t p n /\ en_base e = base /\ en_rel e = join p /\ records n e) /\
  (forall p n, at_path t p n -> archivable n -> exists e, In e (dirs ++ files) /\ en_rel e = join p /\ records n e) /\
  Forall (fun e => en_type e = TDir) dirs /\ Forall (fun e => en_type e <> TDir) files.
Proof.
  intros fuel fs base t dirs files H H2 H3 H4 H5. destruct (scan_any _ _ _ _ _ _ H H2 H3 H4 H5) as (_ & B & C & D & E & F & _).
  repeat split; auto. intros e He. destruct (C e He) as (_ & Hb & p & n & ? & ? & ?). exists p, n. auto.
Qed.
Print Assumptions C26_scan_complete.
Theorem C26_scan_ends : forall fs base t,
  quiet_heap fs -> base <> [] -> is_dir_node t -> wf_node t -> shows fs base t ->
  exists dirs files fuel0, forall fuel, (fuel0 <= fuel)%nat -> scan fuel fs base = Ok (dirs, files).
Proof.
  intros fs base t H1 H2 H3 H4 H5. destruct (scan_lemma fs base t H1 H2 H3 H4 H5) as (dirs & files & (f0 & A) & _).
  exists dirs, files, f0. exact A.
Qed.
Print Assumptions C26_scan_ends.
(** distinct nodes have distinct recorded paths, so "once per path" is "once per node" *)
Theorem C26_paths_distinct : forall p q, Forall good_name p -> Forall good_name q -> join p = join q -> p = q.
Proof. intros p q H1 H2. apply join_inj; auto. Qed.
Print Assumptions C26_paths_distinct.
Example C26_witness : quiet_heap s_fs /\ wf_node s_tree /\ shows s_fs (b "base") s_tree /\
  exists dirs files, scan 6 s_fs (b "base") = Ok (dirs, files) /\
    map en_rel (dirs ++ files) = [[]; b "dir"; b "locked"; b "dir/sub"; b ".hidden"; b "lnk"; b "dir/file"; b "dir/sub/x"].
Proof.
  split; [intros p; reflexivity|]. split; [exact s_wf|]. split; [exact s_shows|]. do 2 eexists. split; vm_compute; reflexivity.
Qed.

(** *** C27: false of the code.  Whatever subdirectories could not be opened,
    the scan of a directory that could be opened itself returns 0; *)
Theorem C27_refuted : forall fuel fs base r d,
  spider fuel fs base [] = Ok (r, d) -> f_readdir fs base <> None -> r = 0.
Proof. intros fuel fs base r d H Hn. apply spider_code in H. cbn [dir_path] in H. destruct (f_readdir fs base); congruence. Qed.
Print Assumptions C27_refuted.
Example C27_refuted_witness : shows s_fs (b "base/locked") NLocked /\ exists d, spider 6 s_fs (b "base") [] = Ok (0, d).
Proof. split; [eapply Sh_locked; vm_compute; reflexivity|]. eexists. vm_compute. reflexivity. Qed.
(** only failure to open the target itself is returned, and the caller (main)
    goes on all the same with a collection of one directory *)
Theorem C27_root_partial : forall fuel fs base, f_readdir fs base = None ->
  spider (S fuel) fs base [] = Ok (-2, PDir [] [] []) /\
  exists e, scan (S fuel) fs base = Ok ([e], []) /\ en_type e = TDir /\ en_rel e = [].
Proof.
  intros fuel fs base H. assert (E : spider (S fuel) fs base [] = Ok (-2, PDir [] [] [])) by (cbn [spider dir_path]; rewrite H; reflexivity).
  split; auto. unfold scan. rewrite E. cbn [bind snd]. unfold collection. cbn [grow nth_error d_subs app].
  assert (G : grow fuel 1 [PDir [] [] []] = Ok [PDir [] [] []]) by (destruct fuel; reflexivity). rewrite G. cbn [bind for_each flat_map d_files app].
  unfold dir_entry. destruct (mk_entry_ok TDir base (d_rel (PDir [] [] [])) [] 0) as (e & He). rewrite He. cbn [bind].
  exists e. split; auto. apply mk_entry_fields in He. destruct He as (? & ? & ? & ?). auto.
Qed.
Print Assumptions C27_root_partial.

(** *** C28, as positions in the archive: whatever order the sort gives the
    files, every entry is preceded by its parent directory's whole record *)
Theorem C28_parents_first : forall fuel fs base t dirs files files' d f,
  scan fuel fs base = Ok (dirs, files) ->
  base <> [] -> is_dir_node t -> wf_node t -> shows fs base t ->
  order_files files files' -> set_offsets dirs files' = (d, f) ->
  forall e off p name, In (e, off) (d ++ f) -> Forall good_name (p ++ [name]) -> en_rel e = join (p ++ [name]) ->
  exists e' off', In (e', off') (d ++ f) /\ en_type e' = TDir /\ en_rel e' = join p /\ off' + en_hdr e' <= off.
Proof.
  intros fuel fs base t dirs files files' d f H H2 H3 H4 H5. exact (C28_lemma _ _ _ _ _ _ _ _ (scan_any _ _ _ _ _ _ H H2 H3 H4 H5)).
Qed.
Print Assumptions C28_parents_first.
Example C28_witness : exists dirs files d f, scan 6 s_fs (b "base") = Ok (dirs, files) /\ order_files files (isort files) /\
  set_offsets dirs (isort files) = (d, f) /\
  map (fun eo => (en_rel (fst eo), snd eo)) (d ++ f) =
    [([], 0); (b "dir", 512); (b "locked", 1024); (b "dir/sub", 1536); (b "lnk", 2048); (b "dir/sub/x", 2560); (b ".hidden", 3072); (b "dir/file", 4096)].
Proof.
  do 4 eexists. split; [vm_compute; reflexivity|]. split; [apply isort_order_files|]. split; [vm_compute; reflexivity|]. vm_compute. reflexivity.
Qed.

(** *** C29: right whenever the scan has defined behaviour (link targets hold no
    NUL: POSIX) ... *)
Theorem C29_link_target_partial : forall fuel fs base dirs files,
  scan fuel fs base = Ok (dirs, files) -> base <> [] ->
  forall e, In e files -> en_type e = TLink ->
  exists s t, f_lstat fs (base ++ [SLASH] ++ en_rel e) = Some (s, t) /\ st_kind s = KLnk /\ (no_byte NUL t -> en_target e = t).
Proof.
  intros fuel fs base dirs files H Hb e Hin Ht. pose proof (C29_lemma _ _ _ _ _ H e Hin Ht) as L.
  unfold entry_full_name in L. destruct base; [congruence|exact L].
Qed.
Print Assumptions C29_link_target_partial.
Example C29_witness : exists dirs files, scan 6 s_fs (b "base") = Ok (dirs, files) /\
  map en_target (filter (fun e => match en_type e with TLink => true | _ => false end) files) = [b "target"].
Proof. do 2 eexists. split; vm_compute; reflexivity. Qed.
(** ... but the target is never terminated: any other byte in the uninitialised
    cell makes the program read past its buffer *)
Theorem C29_refuted : forall fs path s t,
  f_lstat fs path = Some (s, t) -> st_kind s = KLnk -> st_size s = zlen t -> no_byte NUL t -> f_heap fs path <> NUL ->
  what_is_path fs path = Err EUB.
Proof.
  intros fs path s t H K Hl Hn Hg. unfold what_is_path. rewrite H, K, Hl, Z.eqb_refl. cbn zeta. rewrite find_byte_none; auto.
  apply no_byte_app. split; auto. intros [E|[]]. auto.
Qed.
Print Assumptions C29_refuted.
Example C29_refuted_witness : scan 6 s_fs_garbage (b "base") = Err EUB.
Proof. vm_compute. reflexivity. Qed.
