(** Property theorems C77-C83 (the whole program on R ranks, message by message). *)
From Coq Require Import Permutation Lia.
From Verif Require Import Bytes Outcome TarSpec TarModel Layout LayoutSpec LayoutMore OrderCodec Mover MoverSpec Worker Assemble Boss BossProofs
  Spider SpiderSpec SpiderMore Args ArgsSpec Program ProgramProofs EndSpec WholeSpec Whole Mpi MpiProofs MpiBound MpiSpec MpiEnd MpiMore MpiRefuse MpiExact
  Samples PropertiesScan PropertiesProgram PropertiesEnd PropertiesWhole.

(** *** C77: whatever the files do meanwhile ([ev] is arbitrary), at every
    moment of every run no rank is in an MPI error, no rank 0 exception or abort
    happens while orders are handed out, and no other file is touched.
    [texts_fit]: the text of every bundle fits an MPI count *)
Theorem C77_no_mpi_error : forall R junk fuel fs sort opens args acts ev,
  boss_main R junk fuel fs sort opens args = (acts, Finished) -> Forall usable args ->
  (1 <= R)%nat -> Z.of_nat R <= INT_MAX -> (forall bs, In (APush bs) acts -> texts_fit bs) ->
  forall n s, mrun R opens ev (program R acts Finished) n s ->
  ~ mpi_error R s /\ forall dk q, ~ In (AOpen q true) acts -> disk_after dk (m_log s) q = dk q.
Proof. exact safe_lemma. Qed.
Print Assumptions C77_no_mpi_error.
(** every run of every such program takes a bounded number of steps, in which
    every MPI call and every order worked on is at least one *)
Theorem C77_bounded : forall R opens ev acts e n s, (1 <= R)%nat -> mrun R opens ev (program R acts e) n s ->
  (n <= list_sum (map (fun a => match a with APush bs => 4 * length bs + R | _ => 2 end) acts) * (4 * R + 2) + R)%nat.
Proof. intros R opens ev acts e n s HR H. exact (steps_bound R opens ev _ _ n s HR (within_program R acts e) H). Qed.
Print Assumptions C77_bounded.

(** *** C78: when rank 0 is through, every bundle of the plan has been written
    to the archive exactly once, with the bytes of its job; if the job of one
    bundle fails, rank 0 is never through, in no run *)
Theorem C78_all_or_hang : forall R junk fuel fs sort opens args acts ev,
  boss_main R junk fuel fs sort opens args = (acts, Finished) -> Forall usable args ->
  (1 <= R)%nat -> Z.of_nat R <= INT_MAX -> (forall bs, In (APush bs) acts -> texts_fit bs) ->
  exists o base bs, parse_args {| op_bucket := DEFAULT_BUCKET_SIZE; op_maxo := junk; op_archive := [] |} args = Ok (Some (o, [base])) /\
    plan fuel fs sort base (op_bucket o) (op_maxo o) = Ok (Some bs) /\
    let w := jobs ev (op_bucket o) (op_archive o) base bs in
    (forall n s, mrun R opens ev (program R acts Finished) n s -> m_prog s = PStop Finished ->
      exists ws, Permutation (filter is_write (map snd (m_log s))) (map (EvWrite (op_archive o)) ws) /\
                 Forall2 (fun k x => w k = Some x) (seq 0 (length bs)) ws) /\
    ((exists k, (k < length bs)%nat /\ w k = None) ->
      forall n s, mrun R opens ev (program R acts Finished) n s -> m_prog s <> PStop Finished).
Proof. exact complete_lemma. Qed.
Print Assumptions C78_all_or_hang.

(** *** C79: from the command line to the archive on disk, over every run of
    every rank.  Partial: the restrictions of C55 on the tree; a bucket size
    that is an int (C80) *)
Theorem C79_create_partial : forall R junk fs sort args o base t ev dk cc,
  (2 <= R)%nat -> Z.of_nat R <= INT_MAX -> Forall usable args ->
  parse_args {| op_bucket := DEFAULT_BUCKET_SIZE; op_maxo := junk; op_archive := [] |} args = Ok (Some (o, [base])) ->
  op_archive o <> [] -> dk (op_archive o) = None -> cc (op_archive o) = true -> 100000 <= op_bucket o <= INT_MAX ->
  (forall l, order_files l (sort l)) -> quiet_heap fs -> base <> [] -> is_dir_node t -> wf_node t -> shows fs base t ->
  small_tree base t -> tab_free t -> (forall p n, at_path t p n -> archivable n -> still ev base p n) ->
  exists f0, forall fuel, (f0 <= fuel)%nat -> exists acts N, boss_main R junk fuel fs sort (excl_ok dk cc) args = (acts, Finished) /\
  let p := program R acts Finished in let opens := excl_ok dk cc in
  (forall n s, mrun R opens ev p n s -> (n <= (4 * N + 5 * R + 6) * (4 * R + 2) + R)%nat /\ ~ mpi_error R s /\ ~ crashed R s /\
     (forall q, q <> op_archive o -> disk_after dk (m_log s) q = dk q) /\
     (ended R s \/ exists s', mstep R opens ev True s s') /\ (exists s', mleads R opens ev s s' /\ ended R s')) /\
  (forall n s, mrun R opens ev p n s -> ended R s -> exists x, disk_after dk (m_log s) (op_archive o) = Some x /\
     forall a, concretises a x -> exists ms nodes, tar_list a = Some ms /\
       NoDup (map fst nodes) /\ (forall q m, In (q, m) nodes <-> at_path t q m /\ archivable m) /\
       Forall2 (fun pn m => describes ev base (fst pn) (snd pn) m) nodes ms).
Proof. exact whole_lemma. Qed.
Print Assumptions C79_create_partial.

(** exactly, for any header sizes and path lengths the planner takes: the runs
    of a tree end well if every bundle of its plan is [movable], and if one is
    not, rank 0 is never through in any run.  Partial: C19's restrictions (no
    tabs, quiet heap, no change meanwhile, [slash_safe] names, C02) *)
Theorem C79_exact_partial : forall R junk fs sort args o base t ev dk cc,
  (2 <= R)%nat -> Z.of_nat R <= INT_MAX -> Forall usable args ->
  parse_args {| op_bucket := DEFAULT_BUCKET_SIZE; op_maxo := junk; op_archive := [] |} args = Ok (Some (o, [base])) ->
  op_archive o <> [] -> dk (op_archive o) = None -> cc (op_archive o) = true -> 100000 <= op_bucket o <= INT_MAX ->
  (forall l, order_files l (sort l)) -> quiet_heap fs -> base <> [] -> is_dir_node t -> wf_node t -> shows fs base t -> short_paths base t -> tab_free t ->
  (forall p n, at_path t p n -> archivable n -> still ev base p n) ->
  (forall p n, at_path t p n -> is_dir_node n -> p <> [] -> slash_safe (node_path base p)) ->
  exists f0, forall fuel, (f0 <= fuel)%nat -> exists acts bs, boss_main R junk fuel fs sort (excl_ok dk cc) args = (acts, Finished) /\
  plan fuel fs sort base (op_bucket o) (op_maxo o) = Ok (Some bs) /\
  let p := program R acts Finished in let opens := excl_ok dk cc in
  (Forall (movable (op_bucket o)) bs ->
    (forall n s, mrun R opens ev p n s -> (n <= (4 * length bs + 5 * R + 6) * (4 * R + 2) + R)%nat /\ ~ mpi_error R s /\ ~ crashed R s /\
       (forall q, q <> op_archive o -> disk_after dk (m_log s) q = dk q) /\
       (ended R s \/ exists s', mstep R opens ev True s s') /\ (exists s', mleads R opens ev s s' /\ ended R s')) /\
    (forall n s, mrun R opens ev p n s -> ended R s -> exists x, disk_after dk (m_log s) (op_archive o) = Some x /\
       forall a, concretises a x -> exists ms nodes, tar_list a = Some ms /\
         NoDup (map fst nodes) /\ (forall q m, In (q, m) nodes <-> at_path t q m /\ archivable m) /\
         Forall2 (fun pn m => describes ev base (fst pn) (snd pn) m) nodes ms)) /\
  (~ Forall (movable (op_bucket o)) bs -> forall n s, mrun R opens ev p n s -> m_prog s <> PStop Finished).
Proof. exact exact_lemma. Qed.
Print Assumptions C79_exact_partial.
(** witness: the bundles of the sample tree are movable, and its paths pass *)
Example C79_exact_witness : plan 9 s_fs isort (b "base") DEFAULT_BUCKET_SIZE 1 = Ok (Some (s_plan 1)) /\ length (s_plan 1) = 8%nat /\
  Forall (movable DEFAULT_BUCKET_SIZE) (s_plan 1) /\ short_paths (b "base") s_tree /\ tab_free s_tree /\
  (forall p n, at_path s_tree p n -> is_dir_node n -> p <> [] -> slash_safe (node_path (b "base") p)).
Proof.
  split; [vm_compute; reflexivity|]. split; [vm_compute; reflexivity|]. split; [|split; [exact s_short|split; [exact s_tab|exact s_safe]]].
  repeat constructor; vm_compute; intuition discriminate.
Qed.

(** *** C80: the command line takes a bucket size no run survives.  Rounded up
    beyond int, it makes every worker throw on the first message: no rank is
    ever through, and nothing is created, in no run *)
Theorem C80_refuted : forall R junk fuel fs sort opens args acts ev o base,
  boss_main R junk fuel fs sort opens args = (acts, Finished) -> Forall usable args ->
  parse_args {| op_bucket := DEFAULT_BUCKET_SIZE; op_maxo := junk; op_archive := [] |} args = Ok (Some (o, [base])) ->
  (2 <= R)%nat -> Z.of_nat R <= INT_MAX -> (forall bs, In (APush bs) acts -> texts_fit bs) -> INT_MAX < op_bucket o ->
  forall n s, mrun R opens ev (program R acts Finished) n s ->
  m_log s = [] /\ m_prog s <> PStop Finished /\ forall r, (1 <= r < R)%nat -> m_pc s r <> WDone.
Proof. exact over_lemma. Qed.
Print Assumptions C80_refuted.

(** witnesses: the sample tree *)
Example usable_small l : forallb (fun a => forallb (fun c => negb (Ascii.eqb c NUL)) a && (zlen a <=? 1000)) l = true -> Forall usable l.
Proof.
  intros H. rewrite forallb_forall in H. apply Forall_forall. intros a Ha. specialize (H a Ha). apply andb_prop in H as [H1 H2]. split.
  - intros Hn. rewrite forallb_forall in H1. specialize (H1 _ Hn). discriminate H1.
  - apply Z.leb_le in H2. unfold INT_MAX. lia.
Qed.
Example s_usable : Forall usable s_args.
Proof. apply usable_small. reflexivity. Qed.
Definition over_args : list bytes := [b "archivefile=out.tar"; b "bucketsize=2147483647"; b "base"].
Example over_usable : Forall usable over_args.
Proof. apply usable_small. reflexivity. Qed.
Example texts_small bs : forallb (fun B => zlen (print_bundle B) <=? 100000) bs = true -> texts_fit bs.
Proof. intros H B HB. rewrite forallb_forall in H. specialize (H B HB). apply Z.leb_le in H. unfold INT_MAX. lia. Qed.
(** three ranks; the orders of the sample tree *)
Definition s_opts (bucket m : Z) : opts := {| op_bucket := bucket; op_maxo := m; op_archive := b "out.tar" |}.
Example s_boss : boss_main 3 1 9 s_fs isort (fun _ => true) s_args = (created 3 (s_opts DEFAULT_BUCKET_SIZE 1) (b "base") (s_plan 1), Finished) /\
  length (s_plan 1) = 8%nat /\ texts_fit (s_plan 1).
Proof.
  split; [|split; [vm_compute; reflexivity|apply texts_small; vm_compute; reflexivity]].
  vm_compute; reflexivity.
Qed.
Example created_texts R o base bs : texts_fit bs -> forall bs', In (APush bs') (created R o base bs) -> texts_fit bs'.
Proof.
  intros H bs' Hin. unfold created in Hin. rewrite !in_app_iff in Hin. destruct Hin as [Hin|[Hin|[Hin|[Hin|Hin]]]].
  - repeat (destruct Hin as [X|Hin]; [discriminate X|]). destruct Hin.
  - apply in_map_iff in Hin as (r & X & _). discriminate X.
  - destruct Hin as [X|[]]. injection X as <-. exact H.
  - apply in_map_iff in Hin as (r & X & _). discriminate X.
  - destruct Hin as [X|[]]. discriminate X.
Qed.
Example C77_witness : exists acts, boss_main 3 1 9 s_fs isort (fun _ => true) s_args = (acts, Finished) /\ Forall usable s_args /\
  (forall bs, In (APush bs) acts -> texts_fit bs) /\ length acts = 10%nat.
Proof.
  destruct s_boss as (E & _ & Hf). eexists. split; [exact E|]. split; [exact s_usable|]. split; [apply created_texts, Hf|reflexivity].
Qed.
(** C78: files that are there, and files that are gone when the workers look *)
Definition gone_env : env := {| e_names := a_names; e_lstat := fun _ => None; e_data := fun _ => None |}.
Example C78_witness : (forall k, (k < length (s_plan 1))%nat -> jobs s_env DEFAULT_BUCKET_SIZE (b "out.tar") (b "base") (s_plan 1) k <> None) /\
  (0 < length (s_plan 1))%nat /\ jobs gone_env DEFAULT_BUCKET_SIZE (b "out.tar") (b "base") (s_plan 1) 0 = None.
Proof.
  assert (L : length (s_plan 1) = 8%nat) by (vm_compute; reflexivity). split; [|split; [lia|vm_compute; reflexivity]].
  intros k Hk. assert (E : forallb (fun k => succeeds (jobs s_env DEFAULT_BUCKET_SIZE (b "out.tar") (b "base") (s_plan 1) k)) (seq 0 8) = true) by (vm_compute; reflexivity).
  rewrite forallb_forall in E. intros X. specialize (E k). rewrite X in E. discriminate E. apply in_seq. lia.
Qed.
(** C79: every hypothesis holds of the sample tree, so there is a run that ends *)
Example C79_witness : exists acts n s, boss_main 3 1 9 s_fs isort (excl_ok (fun _ => None) (fun _ => true)) s_args = (acts, Finished) /\
  mrun 3 (excl_ok (fun _ => None) (fun _ => true)) s_env (program 3 acts Finished) n s /\ ended 3 s.
Proof.
  destruct C55_witness as (Hq & Hd & Hw & Hsh & Hsm & Htab & Hst & _).
  destruct (run_lemma 3 (excl_ok (fun _ => None) (fun _ => true)) s_env (s_opts DEFAULT_BUCKET_SIZE 1) (b "base") (s_plan 1) (fun _ => None)) as [A _].
  - lia.
  - vm_compute; discriminate.
  - apply (Forall_inv (usable_small [b "out.tar"] eq_refl)).
  - apply (Forall_inv (usable_small [b "base"] eq_refl)).
  - vm_compute; split; discriminate.
  - reflexivity.
  - reflexivity.
  - intros k Hk. destruct C78_witness as [X _]. specialize (X k Hk). cbn [s_opts op_bucket op_archive]. destruct (jobs _ _ _ _ _ k); [reflexivity|congruence].
  - assert (G : forall n s s', mrun 3 (excl_ok (fun _ => None) (fun _ => true)) s_env (program 3 (created 3 (s_opts DEFAULT_BUCKET_SIZE 1) (b "base") (s_plan 1)) Finished) n s ->
      mleads 3 (excl_ok (fun _ => None) (fun _ => true)) s_env s s' ->
      exists n', mrun 3 (excl_ok (fun _ => None) (fun _ => true)) s_env (program 3 (created 3 (s_opts DEFAULT_BUCKET_SIZE 1) (b "base") (s_plan 1)) Finished) n' s').
    { intros n s s' H L. revert n H. induction L as [s|s s1 s2 St L IH]; intros n H; [eauto|]. exact (IH (S n) (mrun_step _ _ _ _ _ _ _ _ H St)). }
    destruct (A _ _ (mrun_start _ _ _ _)) as (_ & _ & _ & _ & _ & s' & L & E). destruct (G _ _ _ (mrun_start _ _ _ _) L) as (n' & H').
    exists (created 3 (s_opts DEFAULT_BUCKET_SIZE 1) (b "base") (s_plan 1)), n', s'. split; [|split; [exact H'|exact E]].
    vm_compute; reflexivity.
Qed.
(** C80: a bucket size of INT_MAX on the command line *)
Definition over_plan : list (list order) := match plan 9 s_fs isort (b "base") 2147483648 1 with Ok (Some bs) => bs | _ => [] end.
Example C80_witness : parse_args {| op_bucket := DEFAULT_BUCKET_SIZE; op_maxo := 1; op_archive := [] |} over_args = Ok (Some (s_opts 2147483648 1, [b "base"])) /\
  boss_main 3 1 9 s_fs isort (fun _ => true) over_args = (created 3 (s_opts 2147483648 1) (b "base") over_plan, Finished) /\
  texts_fit over_plan /\ INT_MAX < 2147483648.
Proof.
  assert (P : parse_args {| op_bucket := DEFAULT_BUCKET_SIZE; op_maxo := 1; op_archive := [] |} over_args = Ok (Some (s_opts 2147483648 1, [b "base"]))) by (vm_compute; reflexivity).
  split; [exact P|]. split; [|split; [apply texts_small; vm_compute; reflexivity|reflexivity]].
  rewrite (boss_main_eq _ _ _ _ _ _ over_args (s_opts 2147483648 1) (b "base")); [|discriminate|exact P|vm_compute; discriminate]. cbn [s_opts op_bucket op_maxo].
  assert (E : plan 9 s_fs isort (b "base") 2147483648 1 = Ok (Some over_plan)) by (vm_compute; reflexivity). rewrite E. reflexivity.
Qed.

(** *** C81: whatever the command line, the file system and the schedule, and
    however rank 0 ends: at every moment every file is as it was, except one
    that rank 0 and the others created anew under the given archive name *)
Theorem C81_only_a_new_archive : forall R junk fuel fs sort opens args acts e ev n s dk q,
  boss_main R junk fuel fs sort opens args = (acts, e) -> Forall usable args ->
  mrun R opens ev (program R acts e) n s -> ~ In (AOpen q true) acts -> disk_after dk (m_log s) q = dk q.
Proof. exact files_lemma. Qed.
Print Assumptions C81_only_a_new_archive.
(** in particular files that are there at the start, whatever rank 0 does *)
Theorem C81_existing : forall R dk cc ev p n s q, dk q <> None -> mrun R (excl_ok dk cc) ev p n s -> disk_after dk (m_log s) q = dk q.
Proof.
  intros R dk cc ev p n s q Hq H. apply (untouched_lemma R (excl_ok dk cc) ev p n s q dk); auto. unfold excl_ok. destruct (dk q); congruence.
Qed.
Print Assumptions C81_existing.
(** witness: the sample run of C79 creates out.tar, and its program opens nothing else *)
Example C81_witness : exists acts, boss_main 3 1 9 s_fs isort (excl_ok (fun _ => None) (fun _ => true)) s_args = (acts, Finished) /\
  In (AOpen (b "out.tar") true) acts /\ ~ In (AOpen (b "other") true) acts.
Proof.
  exists (created 3 (s_opts DEFAULT_BUCKET_SIZE 1) (b "base") (s_plan 1)). split; [vm_compute; reflexivity|]. unfold created. split.
  - apply in_or_app. left. right. right. left. reflexivity.
  - cbn [seq Nat.sub map app s_opts op_bucket op_archive]. intros H. repeat (destruct H as [H|H]; [discriminate H|]). destruct H.
Qed.

(** *** C82: false of the code.  When main stops before the collective open
    (refused command line, unreadable target, refused bucket size) no other
    rank ever gets out, in no run: rank 0 leaves without MPI_Finalize and,
    except for an unknown flag, without telling the others *)
Theorem C82_refuted : forall R junk fuel fs sort opens args acts e ev n s,
  boss_main R junk fuel fs sort opens args = (acts, e) -> (forall p ok, ~ In (AOpen p ok) acts) ->
  mrun R opens ev (program R acts e) n s -> forall r, m_pc s r <> WDone.
Proof. exact stranded_lemma. Qed.
Print Assumptions C82_refuted.
(** two such command lines: no archive name; an unknown flag *)
Example C82_witness :
  boss_main 3 1 9 s_fs isort (fun _ => true) [b "base"] = ([], Exited 5) /\
  boss_main 3 1 9 s_fs isort (fun _ => true) [b "archivefile=x"; b "colour=red"; b "base"] = ([ABcast (b "X") (b "abort")], Exited 1).
Proof. split; vm_compute; reflexivity. Qed.

(** *** C83: false of the code.  When the archive cannot be opened no rank is
    ever past MPI_Finalize: the runs go on until every other rank has met
    undefined behaviour (free of an object made with new) on the order to stop,
    and rank 0 is not through.  (The disk: C81.)  Real allocators may let the
    others live on; C++ does not promise it. *)
Theorem C83_refuted : forall R junk fuel fs sort opens args acts e p ev o base,
  boss_main R junk fuel fs sort opens args = (acts, e) -> In (AOpen p false) acts -> Forall usable args ->
  parse_args {| op_bucket := DEFAULT_BUCKET_SIZE; op_maxo := junk; op_archive := [] |} args = Ok (Some (o, [base])) ->
  op_bucket o <= INT_MAX -> (2 <= R)%nat ->
  forall n s, mrun R opens ev (program R acts e) n s ->
  (forall r, (1 <= r < R)%nat -> m_pc s r <> WBad /\ m_pc s r <> WDone) /\ ~ (m_prog s = PStop e /\ m_stat s = BReady) /\
  ((exists s', mstep R opens ev True s s') \/ (forall r, (1 <= r < R)%nat -> m_pc s r = WGone EUB)).
Proof. exact refuse_lemma. Qed.
Print Assumptions C83_refuted.
Example C83_witness : exists acts, boss_main 3 100 9 s_fs isort (excl_ok (fun q => if bytes_eqb q (b "out.tar") then Some empty_archive else None) (fun _ => true)) s_args = (acts, Exited 1) /\
  In (AOpen (b "out.tar") false) acts /\
  parse_args {| op_bucket := DEFAULT_BUCKET_SIZE; op_maxo := 100; op_archive := [] |} s_args = Ok (Some (s_opts DEFAULT_BUCKET_SIZE 100, [b "base"])).
Proof.
  exists (refused (s_opts DEFAULT_BUCKET_SIZE 100)). split; [vm_compute; reflexivity|]. split; [right; right; left; reflexivity|vm_compute; reflexivity].
Qed.
