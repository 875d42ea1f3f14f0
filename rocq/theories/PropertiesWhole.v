(** Property theorem C55: a create run completes. *)
From Coq Require Import Permutation.
From Verif Require Import Bytes Outcome TarSpec TarModel TarProofs TarMore Layout LayoutSpec LayoutProofs LayoutMore OrderCodec OrderCodecProofs OrderMore
  Mover MoverSpec MoverProofs MoverMore Worker WorkerProofs Assemble AssembleProofs Boss BossProofs BossMore BossRuns
  Spider SpiderSpec SpiderProofs SpiderMore Program ProgramProofs EndSpec EndProofs EndMore Samples PropertiesScan PropertiesBoss PropertiesProgram PropertiesEnd
  WholeSpec Whole.

(** *** C55.  The whole of create (0.6), total correctness.  The file system
    shows tree [t] at [base] and still shows it to the workers.  Then the scan
    and the plan succeed, every run with at least one worker is short and never
    stuck, steps MPI cannot refuse lead from every state of every run to the
    end, and the archive at the end of every run is read back as the tree.
    Partial: [small_tree] (paths below 100 bytes, together below 2 GiB), no
    tabs, and the heap byte after each link target is NUL (C28). *)
Theorem C55_create_completes_partial : forall fs sort base t ev bucket maxo path R,
  (forall l, order_files l (sort l)) -> quiet_heap fs -> base <> [] -> no_byte NUL base ->
  is_dir_node t -> wf_node t -> shows fs base t -> small_tree base t -> tab_free t ->
  100000 <= bucket -> bucket mod 512 = 0 ->
  (forall p n, at_path t p n -> archivable n -> still ev base p n) -> (2 <= R)%nat ->
  exists f0, forall fuel, (f0 <= fuel)%nat -> exists bs, plan fuel fs sort base bucket maxo = Ok (Some bs) /\
  let w := jobs ev bucket path base bs in
  let okb o := succeeds (w o) in
  (forall n s, run (length bs) R okb n s -> (n <= 12 * length bs + 2 * R + 5)%nat) /\
  (forall n s, run (length bs) R okb n s -> boss s <> BEnd -> exists s', step (length bs) R okb True s s') /\
  (forall n s, run (length bs) R okb n s -> exists s', leads (length bs) R okb s s' /\ boss s' = BEnd) /\
  (forall n s a, run (length bs) R okb n s -> boss s = BEnd -> concretises a (assemble w (map snd (log s))) ->
     exists ms nodes, tar_list a = Some ms /\
       NoDup (map fst nodes) /\ (forall p n, In (p, n) nodes <-> at_path t p n /\ archivable n) /\
       Forall2 (fun pn m => describes ev base (fst pn) (snd pn) m) nodes ms).
Proof.
  intros fs sort base t ev bucket maxo path R Hs Hq Hb Hbn Hd Hw Hsh Hsm Htab Hbk Hbm Hst HR.
  destruct (scan_lemma fs base t Hq Hb Hd Hw Hsh) as (dirs & files & (f0 & Hf) & _).
  exists f0. intros fuel Hfuel.
  destruct (plan_ok fuel fs sort base t bucket maxo Hs Hq Hb Hd Hw Hsh (small_short _ _ Hsm) Hbk Hbm dirs files (Hf fuel Hfuel)) as (d & f & bs & _ & Hpl & _).
  exists bs. split; auto.
  assert (Hok : forall o, (o < length bs)%nat -> succeeds (jobs ev bucket path base bs o) = true).
  { exact (tree_completes fuel fs sort base t ev bucket maxo bs path Hpl Hs Hb Hbn Hd Hw Hsh Hsm Htab Hbk Hbm Hst). }
  split; [|split; [|split]].
  - intros n s H. eapply run_bound; eauto. lia.
  - intros n s H E. exact (progress _ R _ n s HR H Hok E).
  - intros n s H. exact (finishes _ R _ HR Hok _ n s H eq_refl).
  - intros n s a H E Ha. assert (HR1 : (1 <= R)%nat) by lia.
    exact (C19_lemma fuel fs sort base t ev bucket maxo bs path R n s a Hpl Hs Hb Hbn Hd Hw Hsh (small_short _ _ Hsm) Htab Hbk Hbm Hst (small_slash _ _ Hsm) HR1 H E Ha).
Qed.
Print Assumptions C55_create_completes_partial.

(** witness: the sample tree meets every hypothesis *)
Example C55_witness : quiet_heap s_fs /\ is_dir_node s_tree /\ wf_node s_tree /\ shows s_fs (b "base") s_tree /\
  small_tree (b "base") s_tree /\ tab_free s_tree /\ (forall p n, at_path s_tree p n -> archivable n -> still s_env (b "base") p n) /\
  tree_bytes s_tree = 6144.
Proof.
  split; [intros p; reflexivity|]. split; [exact I|]. split; [exact s_wf|]. split; [exact s_shows|]. split.
  { split; [|vm_compute; discriminate]. intros p n H. unfold s_tree in H. paths; split; auto; vm_compute; auto; discriminate. }
  split; [exact s_tab|]. split; [exact s_still|]. vm_compute. reflexivity.
Qed.

(** exactly when a plan completes, for any header sizes: if every bundle is
    [movable] then every state of every run leads to the end; if one is not, no
    run ever ends *)
Theorem C55_completes_iff_partial : forall ev path base idx bucket maxo dirs files d f bs R,
  plannable bucket dirs files -> set_offsets dirs files = (d, f) ->
  create_transfer_orders idx bucket maxo d f = Ok (Some bs) ->
  Forall plain (dirs ++ files) -> INT_MIN <= idx <= INT_MAX ->
  Forall (unchanged ev base) (dirs ++ files) -> (2 <= R)%nat ->
  let okb o := succeeds (jobs ev bucket path base bs o) in
  (Forall (movable bucket) bs -> forall n s, run (length bs) R okb n s -> exists s', leads (length bs) R okb s s' /\ boss s' = BEnd) /\
  (~ Forall (movable bucket) bs -> forall n s, run (length bs) R okb n s -> boss s <> BEnd).
Proof. exact completes_iff. Qed.
Print Assumptions C55_completes_iff_partial.
(** both cases occur: the sample bundles are movable, the planner's oversized bundle (C13) is not *)
Example C55_movable : Forall (movable a_bucket) t_bundles /\ length t_bundles = 3%nat.
Proof. split; [|vm_compute; reflexivity]. repeat constructor; vm_compute; intuition discriminate. Qed.
Example C55_not_movable : let '(d, f) := set_offsets (firstn 1 a_dirs) c13_files in
  exists bs, create_transfer_orders 0 a_bucket 0 d f = Ok (Some bs) /\ ~ Forall (movable a_bucket) bs.
Proof.
  destruct (set_offsets (firstn 1 a_dirs) c13_files) as [d f] eqn:Es. vm_compute in Es. injection Es as <- <-.
  eexists. split; [vm_compute; reflexivity|]. intros H. rewrite Forall_forall in H.
  match type of H with forall x, In x ?l -> _ => assert (E : forallb (fun B => bundle_end B - bundle_start B <=? a_bucket) l = false) by (vm_compute; reflexivity);
    assert (E' : forallb (fun B => bundle_end B - bundle_start B <=? a_bucket) l = true) end.
  { apply forallb_forall. intros B HB. apply Z.leb_le. apply (H B HB). }
  congruence.
Qed.

(** false beyond 2 GiB, whatever the number of ranks and the schedule: if the
    tree without any one of its members still takes 2 GiB, no run of the plan
    ends with the boss through *)
Theorem C55_refuted : forall fuel fs sort base t ev bucket maxo bs path R n s,
  plan fuel fs sort base bucket maxo = Ok (Some bs) ->
  (forall l, order_files l (sort l)) -> base <> [] -> is_dir_node t -> wf_node t -> shows fs base t ->
  short_paths base t -> tab_free t -> 100000 <= bucket -> bucket mod 512 = 0 ->
  (forall p m, at_path t p m -> archivable m -> 2 ^ 31 + (match m with NFile size => 512 + up512 size | _ => 512 end) <= tree_bytes t) ->
  (1 <= R)%nat -> run (length bs) R (fun o => succeeds (jobs ev bucket path base bs o)) n s -> boss s <> BEnd.
Proof. exact tree_hangs. Qed.
Print Assumptions C55_refuted.

(** such a tree: two files of 2 GiB in a directory *)
Definition big_stat : stat := {| st_kind := KReg; st_perm := 420; st_uid := 1; st_gid := 1; st_size := 2147483648; st_mtime := 1 |}.
Definition big_tree : node := NDir [(b "x", NFile 2147483648); (b "y", NFile 2147483648)].
Definition big_fs : fsys := {| f_lstat := fun p => if bytes_eqb p (b "d") then Some (st_dir, []) else if bytes_eqb p (b "d/x") then Some (big_stat, []) else if bytes_eqb p (b "d/y") then Some (big_stat, []) else None;
  f_readdir := fun p => if bytes_eqb p (b "d") then Some [b "."; b ".."; b "x"; b "y"] else None; f_heap := fun _ => NUL |}.
Example C55_big : exists bs, plan 9 big_fs isort (b "d") (2 ^ 30) 0 = Ok (Some bs) /\ length bs = 7%nat /\
  is_dir_node big_tree /\ wf_node big_tree /\ shows big_fs (b "d") big_tree /\ short_paths (b "d") big_tree /\ tab_free big_tree /\
  (forall p m, at_path big_tree p m -> archivable m -> 2 ^ 31 + (match m with NFile size => 512 + up512 size | _ => 512 end) <= tree_bytes big_tree).
Proof.
  eexists. split; [vm_compute; reflexivity|]. split; [reflexivity|]. split; [exact I|]. split.
  { constructor; repeat constructor; cbn; try discriminate; try lia; intros H; repeat (destruct H as [H|H]; try discriminate H); auto. }
  split. { eapply Sh_dir with (names := [b "."; b ".."; b "x"; b "y"]); try (vm_compute; reflexivity).
    constructor; [|constructor; [|constructor]]; (eapply (Sh_file big_fs _ big_stat []); vm_compute; reflexivity). }
  split. { intros p m H. unfold big_tree in H. paths; split; auto; vm_compute; discriminate. }
  split. { intros p m H. unfold big_tree in H. paths; split; auto; cbn; intros X; repeat (destruct X as [X|X]; try discriminate X); auto. }
  intros p m H _. unfold big_tree in H. paths; vm_compute; discriminate.
Qed.
