(** C36: the 0.5.1 listing of a directory tree. *)
From Coq Require Import Permutation.
From Verif Require Import Bytes Outcome TarModel Layout Samples Spider SpiderSpec SpiderProofs Legacy LegacyScan LegacyScanProofs PropertiesScan.

(** a name that does not start with a dot *)
Definition plain (name : bytes) : Prop := forall rest, name <> "."%char :: rest.
Lemma plain_vis name : plain name <-> vis name.
Proof.
  unfold plain, vis, starts_with_dot. destruct name as [|c r]; [split; auto; discriminate|]. split.
  - intros H. destruct (beq c "."%char) eqn:E; auto. apply beq_spec in E. subst. destruct (H r eq_refl).
  - intros H r' E. injection E as -> _. rewrite beq_refl in H. discriminate.
Qed.
Lemma plain_all p : Forall plain p <-> Forall vis p.
Proof. split; intros H; (eapply Forall_impl; [|exact H]); intros x; apply plain_vis. Qed.

(** *** C36, the part that holds.  A tree all of whose directories (reached by
    plain names) can be opened: the listing is the tree's regular files, symlinks
    and directories reached by plain names only - each exactly once, with its path,
    type, size and target - and nothing else. *)
Theorem C36_listing_partial : forall fs top ch,
  top <> [] -> ends_with_slash top = false -> wf_node (NDir ch) -> shows fs top (NDir ch) ->
  (forall q, Forall plain q -> ~ at_path (NDir ch) q NLocked) ->
  exists f0, forall fuel, (f0 <= fuel)%nat -> exists es, list_directory fuel fs top = Ok (Some es) /\
    NoDup (map l_arc es) /\
    (forall e, In e es -> exists p n, at_path (NDir ch) p n /\ Forall plain p /\ l_arc e = join p /\
        l_rel e = (match p with [] => top | _ => top ++ [SLASH] ++ join p end) /\ lrecords n e) /\
    (forall p n, at_path (NDir ch) p n -> Forall plain p -> archivable n -> exists e, In e es /\ l_arc e = join p /\ lrecords n e).
Proof.
  intros fs top ch H1 H2 Hw Hs Hl. destruct (C36_lemma fs top ch H1 H2 Hw Hs) as (f0 & A); [intros q Hq; apply Hl; apply plain_all; exact Hq|].
  exists f0. intros fuel Hf. destruct (A fuel Hf) as (es & E & N & S1 & S2). exists es. split; auto. split; auto. split.
  - intros e He. destruct (S1 e He) as (p & n & a1 & a2 & a3 & a4 & a5). exists p, n. split; auto. split; [apply plain_all; exact a2|]. split; auto. split; auto.
    rewrite a4. unfold dir_path. destruct p as [|x p]; [reflexivity|]. destruct (join (x :: p)) eqn:J; auto.
    exfalso. apply (join_nonempty (x :: p)); [eapply at_good; eauto|discriminate|exact J].
  - intros p n Ha Hv. apply S2; auto. apply plain_all; exact Hv.
Qed.
Print Assumptions C36_listing_partial.
(** it is never silently incomplete for a directory that cannot be opened: then no
    list is returned *)
Theorem C36_unopenable : forall fs top n fuel es,
  top <> [] -> ends_with_slash top = false -> wf_node n -> is_dir_node n -> shows fs top n ->
  list_directory fuel fs top = Ok (Some es) -> forall q, Forall plain q -> ~ at_path n q NLocked.
Proof. intros fs top n fuel es H1 H2 H3 H4 H5 H6 q Hq. eapply open_lemma; eauto. apply plain_all. exact Hq. Qed.
Print Assumptions C36_unopenable.

(** a file system with a hidden file, a hidden directory, a link, a device *)
Definition h_tree : list (bytes * node) :=
  [(b ".hidden", NFile 3); (b "dir", NDir [(b "file", NFile 1234); (b ".d", NDir [(b "x", NFile 0)])]); (b "lnk", NLink (b "target")); (b "dev", NOther)].
Definition h_lstat (p : bytes) : option (stat * bytes) :=
  if bytes_eqb p (b "base") then Some (st_dir, [])
  else if bytes_eqb p (b "base/.hidden") then Some (st_reg 3, [])
  else if bytes_eqb p (b "base/dir") then Some (st_dir, [])
  else if bytes_eqb p (b "base/dir/file") then Some (st_reg 1234, [])
  else if bytes_eqb p (b "base/dir/.d") then Some (st_dir, [])
  else if bytes_eqb p (b "base/dir/.d/x") then Some (st_reg 0, [])
  else if bytes_eqb p (b "base/lnk") then Some (st_lnk 6, b "target")
  else if bytes_eqb p (b "base/dev") then Some (st_oth, [])
  else None.
Definition h_readdir (p : bytes) : option (list bytes) :=
  if bytes_eqb p (b "base") then Some [b "."; b ".hidden"; b ".."; b "dir"; b "lnk"; b "dev"]
  else if bytes_eqb p (b "base/dir") then Some [b "file"; b "."; b ".."; b ".d"]
  else if bytes_eqb p (b "base/dir/.d") then Some [b "."; b ".."; b "x"]
  else None.
Definition h_fs : fsys := {| f_readdir := h_readdir; f_lstat := h_lstat; f_heap := fun _ => NUL |}.
Example h_good : forall l, In l [b ".hidden"; b "dir"; b "file"; b ".d"; b "x"; b "lnk"; b "dev"] -> good_name l.
Proof.
  intros l H. unfold good_name, no_byte. cbn in H. repeat destruct H as [<-|H]; try contradiction;
    repeat split; try discriminate; cbn; intros F; repeat destruct F as [F|F]; try discriminate; contradiction.
Qed.
Example h_wf : wf_node (NDir h_tree).
Proof.
  unfold h_tree. apply Wf_dir; [nodup|repeat constructor; cbn [fst]; apply h_good; cbn; tauto|].
  repeat apply Forall_cons; try apply Forall_nil; cbn [snd]; try constructor; try lia; try discriminate.
  - nodup.
  - repeat constructor; cbn [fst]; apply h_good; cbn; tauto.
  - repeat apply Forall_cons; try apply Forall_nil; cbn [snd]; constructor; try lia; [nodup| |].
    + repeat constructor; cbn [fst]; apply h_good; cbn; tauto.
    + repeat constructor; lia.
  - cbn. intros F; repeat destruct F as [F|F]; try discriminate; contradiction.
Qed.
Example h_shows : shows h_fs (b "base") (NDir h_tree).
Proof.
  eapply Sh_dir; [vm_compute; reflexivity|reflexivity|vm_compute; reflexivity|vm_compute; reflexivity|].
  repeat apply Forall_cons; try apply Forall_nil; cbn [fst snd].
  - eapply (Sh_file h_fs _ (st_reg 3)); vm_compute; reflexivity.
  - eapply Sh_dir; [vm_compute; reflexivity|reflexivity|vm_compute; reflexivity|vm_compute; reflexivity|].
    repeat apply Forall_cons; try apply Forall_nil; cbn [fst snd].
    + eapply (Sh_file h_fs _ (st_reg 1234)); vm_compute; reflexivity.
    + eapply Sh_dir; [vm_compute; reflexivity|reflexivity|vm_compute; reflexivity|vm_compute; reflexivity|].
      repeat apply Forall_cons; try apply Forall_nil; cbn [fst snd]. eapply (Sh_file h_fs _ (st_reg 0)); vm_compute; reflexivity.
  - eapply Sh_link; vm_compute; reflexivity.
  - eapply Sh_other; vm_compute; reflexivity.
Qed.
Example h_open : forall q, Forall plain q -> ~ at_path (NDir h_tree) q NLocked.
Proof.
  intros q _ H. unfold h_tree in H.
  repeat match goal with
  | A : at_path (NDir _) _ NLocked |- _ => inversion A; clear A; subst
  | A : at_path (NFile _) _ NLocked |- _ => inversion A
  | A : at_path (NLink _) _ NLocked |- _ => inversion A
  | A : at_path NOther _ NLocked |- _ => inversion A
  | I : In _ _ |- _ => cbn [In] in I; repeat (destruct I as [I|I]; [injection I as ? ?; subst|]); [..|destruct I]
  end.
Qed.
Example C36_witness : wf_node (NDir h_tree) /\ shows h_fs (b "base") (NDir h_tree) /\ (forall q, Forall plain q -> ~ at_path (NDir h_tree) q NLocked) /\
  exists es, list_directory 5 h_fs (b "base") = Ok (Some es) /\
    map (fun e => (l_rel e, l_arc e, l_size e)) es =
      [(b "base", [], -3); (b "base/dir", b "dir", -3); (b "base/lnk", b "lnk", -2); (b "base/dir/file", b "dir/file", 1234)].
Proof. split; [exact h_wf|]. split; [exact h_shows|]. split; [exact h_open|]. eexists. split; vm_compute; reflexivity. Qed.
(** FALSE of the code in general: a file whose name starts with a dot is dropped *)
Theorem C36_refuted : exists fs top ch es p s,
  wf_node (NDir ch) /\ shows fs top (NDir ch) /\ (forall fuel, list_directory (5 + fuel) fs top = Ok (Some es)) /\
  at_path (NDir ch) p (NFile s) /\ forall e, In e es -> l_arc e <> join p.
Proof.
  exists h_fs, (b "base"), h_tree. eexists. exists [b ".hidden"], 3.
  split; [exact h_wf|]. split; [exact h_shows|]. split; [intros fuel; vm_compute; reflexivity|].
  split; [econstructor; [left; reflexivity|constructor]|].
  intros e He. cbn [In] in He. repeat destruct He as [<-|He]; try contradiction; vm_compute; discriminate.
Qed.
Print Assumptions C36_refuted.
