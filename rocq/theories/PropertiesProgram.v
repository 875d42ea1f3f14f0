(** Property theorems C30, C31, C32, C35 (command line, main). *)
From Coq Require Import Permutation.
From Verif Require Import Bytes Outcome TarModel Layout LayoutSpec LayoutProofs LayoutMore OrderCodec Mover MoverSpec Worker WorkerProofs
  Spider SpiderSpec SpiderProofs SpiderMore Args ArgsSpec ArgsProofs Program ProgramProofs Samples PropertiesScan.

(** *** C30, from the caller's initial values [o]; [short]: each argument is
    below 4 GiB (the kernel allows 128 KiB) *)
Theorem C30_command_line : forall o args, Forall short args ->
  ((exists o' ts, parse_args o args = Ok (Some (o', ts))) <-> Forall acceptable args) /\
  (forall o' ts, parse_args o args = Ok (Some (o', ts)) ->
    targets args ts /\
    (forall v, last_value (b "archivefile") args v -> op_archive o' = v) /\
    (never_given (b "archivefile") args -> op_archive o' = op_archive o) /\
    (forall v, last_value (b "maxorders") args v -> exists n, stoi v = Some n /\ op_maxo o' = n mod 2 ^ 32) /\
    (never_given (b "maxorders") args -> op_maxo o' = op_maxo o) /\
    (forall v, last_value (b "bucketsize") args v -> exists n, stoi v = Some n /\
       n <= op_bucket o' /\ op_bucket o' mod 512 = 0 /\ (0 <= n -> op_bucket o' < n + 512)) /\
    (never_given (b "bucketsize") args -> op_bucket o' = op_bucket o)) /\
  (forall good bad rest, args = good ++ bad :: rest -> Forall acceptable good ->
    (unknown_flag bad -> parse_args o args = Ok None) /\ (bad_number bad -> parse_args o args = Err EThrow)).
Proof. exact C30_lemma. Qed.
Print Assumptions C30_command_line.
(** the value the program starts from is a multiple of 512 *)
Theorem C30_default_aligned : DEFAULT_BUCKET_SIZE mod 512 = 0.
Proof. reflexivity. Qed.
Example C30_witness :
  let args := [b "t1"; b "bucketsize=100001"; b "archivefile=x"; b "maxorders=7"; b "t2"; b "archivefile=y=z"] in
  Forall short args /\
  parse_args {| op_bucket := DEFAULT_BUCKET_SIZE; op_maxo := 0; op_archive := [] |} args =
    Ok (Some ({| op_bucket := 100352; op_maxo := 7; op_archive := b "y=z" |}, [b "t1"; b "t2"])) /\
  parse_args {| op_bucket := DEFAULT_BUCKET_SIZE; op_maxo := 0; op_archive := [] |} [b "t"; b "bucket=3"] = Ok None /\
  parse_args {| op_bucket := DEFAULT_BUCKET_SIZE; op_maxo := 0; op_archive := [] |} [b "t"; b "bucketsize=k"] = Err EThrow.
Proof. split; [repeat constructor; vm_compute; reflexivity|]. split; [vm_compute; reflexivity|]. split; vm_compute; reflexivity. Qed.

(** a tree of Unix paths as used below *)
Example s_short : short_paths (b "base") s_tree.
Proof.
  intros p n H. unfold s_tree in H.
  repeat match goal with
  | H : In _ (_ :: _) |- _ => destruct H as [H|H]
  | H : In _ [] |- _ => destruct H
  | H : (_, _) = (_, _) |- _ => injection H as <- <-
  | H : False |- _ => destruct H
  | H : at_path _ _ _ |- _ => inversion H; clear H; subst
  end; cbn; unfold zlen; cbn; lia.
Qed.

(** *** C31: false of the code.  The limit is whatever the uninitialised
    variable holds ([junk]), and it changes what is sent to the workers. *)
Definition s_args : list bytes := [b "archivefile=out.tar"; b "base"].
Definition s_plan (m : Z) : list (list order) :=
  match plan 9 s_fs isort (b "base") DEFAULT_BUCKET_SIZE m with Ok (Some bs) => bs | _ => [] end.
Example s_plan_ok m : match plan 9 s_fs isort (b "base") DEFAULT_BUCKET_SIZE m with Ok (Some bs) => true | _ => false end = true ->
  plan 9 s_fs isort (b "base") DEFAULT_BUCKET_SIZE m = Ok (Some (s_plan m)).
Proof. unfold s_plan. destruct (plan 9 s_fs isort (b "base") DEFAULT_BUCKET_SIZE m) as [[bs|]|]; try discriminate. reflexivity. Qed.
Theorem C31_refuted :
  never_given (b "maxorders") s_args /\
  exists bs1 bs2, bs1 <> bs2 /\
    In (APush bs1) (fst (boss_main 3 1 9 s_fs isort (fun _ => true) s_args)) /\
    In (APush bs2) (fst (boss_main 3 1000 9 s_fs isort (fun _ => true) s_args)).
Proof.
  split; [intros w [X|[X|[]]]; vm_compute in X; discriminate X|].
  exists (s_plan 1), (s_plan 1000). split.
  - intros E. assert (X : length (s_plan 1) = length (s_plan 1000)) by (rewrite E; reflexivity). vm_compute in X. discriminate X.
  - assert (Hp : forall j, parse_args {| op_bucket := DEFAULT_BUCKET_SIZE; op_maxo := j; op_archive := [] |} s_args =
      Ok (Some ({| op_bucket := DEFAULT_BUCKET_SIZE; op_maxo := j; op_archive := b "out.tar" |}, [b "base"]))) by (intros j; vm_compute; reflexivity).
    split; erewrite (boss_main_eq _ _ _ _ _ _ s_args); try apply Hp; try (vm_compute; discriminate); cbn [op_bucket op_maxo].
    + rewrite (s_plan_ok 1) by (vm_compute; reflexivity). cbn [fst]. apply in_or_app. right. apply in_or_app. right. apply in_or_app. right. left. reflexivity.
    + rewrite (s_plan_ok 1000) by (vm_compute; reflexivity). cbn [fst]. apply in_or_app. right. apply in_or_app. right. apply in_or_app. right. left. reflexivity.
Qed.
Print Assumptions C31_refuted.
(** Partial: whatever the variable holds, the planner accepts it and the orders
    describe the same archive bytes. *)
Theorem C31_any_limit_partial : forall fuel fs sort base t bucket dirs files m1 m2,
  (forall l, order_files l (sort l)) -> quiet_heap fs -> base <> [] -> is_dir_node t -> wf_node t -> shows fs base t ->
  short_paths base t -> 100000 <= bucket -> bucket mod 512 = 0 -> scan fuel fs base = Ok (dirs, files) ->
  exists bs1 bs2, plan fuel fs sort base bucket m1 = Ok (Some bs1) /\ plan fuel fs sort base bucket m2 = Ok (Some bs2) /\
    forall p, orders_at (concat bs1) p = orders_at (concat bs2) p.
Proof.
  intros fuel fs sort base t bucket dirs files m1 m2 Hs Hq H2 H3 H4 H5 Hsh Hb Hm H.
  destruct (plan_ok fuel fs sort base t bucket m1 Hs Hq H2 H3 H4 H5 Hsh Hb Hm dirs files H) as (d & f & bs1 & E & P1 & O1).
  destruct (plan_ok fuel fs sort base t bucket m2 Hs Hq H2 H3 H4 H5 Hsh Hb Hm dirs files H) as (d' & f' & bs2 & E' & P2 & O2).
  rewrite E in E'. assert (d' = d /\ f' = f) as [-> ->] by (split; congruence).
  exists bs1, bs2. split; auto. split; auto. intros p. rewrite O1, O2. reflexivity.
Qed.
Print Assumptions C31_any_limit_partial.
Example C31_witness : (forall l, order_files l (isort l)) /\ quiet_heap s_fs /\ short_paths (b "base") s_tree /\
  exists dirs files, scan 9 s_fs (b "base") = Ok (dirs, files).
Proof. split; [exact isort_order_files|]. split; [intros p; reflexivity|]. split; [exact s_short|]. do 2 eexists. vm_compute. reflexivity. Qed.

(** *** C32.  [dk] is the disk, with a file at [p].  The exclusive open asks
    the disk at its own time; [disks] are the states the worker's opens meet,
    in all of which the file is there. *)
Theorem C32_not_overwritten_partial : forall p cc,
  (* rank 0: the open it makes does not succeed, nothing is handed out *)
  (forall R junk fuel fs sort dk args acts e, dk p <> None ->
     boss_main R junk fuel fs sort (excl_ok dk cc) args = (acts, e) -> ~ In (AOpen p true) acts) /\
  (forall R junk fuel fs sort dk args o base, dk p <> None -> args <> [] ->
     parse_args {| op_bucket := DEFAULT_BUCKET_SIZE; op_maxo := junk; op_archive := [] |} args = Ok (Some (o, [base])) ->
     op_archive o = p -> p <> [] ->
     forall acts e, boss_main R junk fuel fs sort (excl_ok dk cc) args = (acts, e) ->
     e <> Finished /\ (forall bs, ~ In (APush bs) acts) /\
     (forall bs, plan fuel fs sort base (op_bucket o) (op_maxo o) = Ok (Some bs) -> e = Exited 1)) /\
  (* other ranks: any messages, any history *)
  (forall disks ev rank ms l r, (forall k : nat, disks k p <> None) ->
     worker_node (fun k => excl_ok (disks k) cc) ev rank ms = (l, r) ->
     forall dk : disk, fold_left on_disk l dk p = dk p).
Proof.
  intros p cc. assert (X : forall dk, dk p <> None -> excl_ok dk cc p = false) by (intros dk H; unfold excl_ok; destruct (dk p); congruence).
  split; [|split].
  - intros R junk fuel fs sort dk args acts e H E Hin. eapply boss_no_open; eauto.
  - intros R junk fuel fs sort dk args o base H Ha Hp Ho Hn acts e E. rewrite (boss_main_eq _ _ _ _ _ _ _ o base) in E by (auto; congruence).
    rewrite Ho, (X dk H) in E.
    destruct (plan fuel fs sort base (op_bucket o) (op_maxo o)) as [[bs|]|]; assert (Ea : acts = fst (acts, e)) by reflexivity;
      assert (Ee : e = snd (acts, e)) by reflexivity; rewrite <- E in Ea, Ee; cbn [fst snd app] in Ea, Ee; subst acts e.
    + split; [discriminate|]. split; [|reflexivity]. intros bs' Hin. repeat (destruct Hin as [Y|Hin]; [discriminate Y|]). destruct Hin.
    + split; [discriminate|]. split; [intros bs' []|discriminate].
    + split; [discriminate|]. split; [intros bs' []|discriminate].
  - intros disks ev rank ms l r H E. eapply C32_worker; [exact E|]. intros k. apply X, H.
Qed.
Print Assumptions C32_not_overwritten_partial.
(** Missing: the workers leave this path by freeing an object made with new;
    after that C++ promises nothing.  Exactly the messages rank 0 broadcasts. *)
Theorem C32_exit_undefined : forall ev rank p bucket, rank <> 0 -> 0 < bucket <= INT_MAX ->
  worker_node (fun _ _ => false) ev rank [b "U" ++ print_int bucket; b "A" ++ p; b "X" ++ b "bye"] =
  ([EvBucket bucket; EvOpen p false], Died EUB []).
Proof.
  intros ev rank p bucket Hr Hb. unfold worker_node. destruct (Z.eqb_spec rank 0); [congruence|]. unfold wstart.
  erewrite worker_from_cons by (apply on_U; unfold OrderCodecProofs.int31; lia).
  erewrite worker_from_cons by apply on_A.
  reflexivity.
Qed.
Print Assumptions C32_exit_undefined.
Example C32_witness :
  let dk : disk := fun q => if bytes_eqb q (b "out.tar") then Some empty_archive else None in
  dk (b "out.tar") <> None /\
  exists acts, boss_main 3 100 9 s_fs isort (excl_ok dk (fun _ => true)) s_args = (acts, Exited 1) /\ length acts = 5%nat.
Proof. cbv zeta. split; [vm_compute; discriminate|]. eexists. split; vm_compute; reflexivity. Qed.

(** *** C35: false of the code, for every bucket size the planner refuses: the
    program dies on a null pointer with no message to any worker. *)
Theorem C35_refuted : forall R junk fuel fs sort opens args o base, args <> [] ->
  parse_args {| op_bucket := DEFAULT_BUCKET_SIZE; op_maxo := junk; op_archive := [] |} args = Ok (Some (o, [base])) ->
  op_archive o <> [] -> op_bucket o < 100000 ->
  forall dirs files, scan fuel fs base = Ok (dirs, files) ->
  boss_main R junk fuel fs sort opens args = ([], BDied EUB).
Proof.
  intros R junk fuel fs sort opens args o base Ha Hp Hn Hb dirs files Hs. rewrite (boss_main_eq _ _ _ _ _ _ _ o base) by auto.
  assert (P : plan fuel fs sort base (op_bucket o) (op_maxo o) = Ok None).
  { unfold plan. rewrite Hs. cbn [bind]. destruct (set_offsets dirs (sort files)). unfold create_transfer_orders. destruct (Z.ltb_spec (op_bucket o) 100000); [reflexivity|lia]. }
  rewrite P. reflexivity.
Qed.
Print Assumptions C35_refuted.
Example C35_refuted_witness : boss_main 3 100 9 s_fs isort (fun _ => true) [b "archivefile=x"; b "bucketsize=99840"; b "base"] = ([], BDied EUB).
Proof. vm_compute. reflexivity. Qed.
(** Partial: the planner itself refuses exactly these sizes; all others are
    planned and the program runs to its end. *)
Theorem C35_accepted_partial : forall R junk fuel fs sort args o base t, args <> [] -> Forall short args ->
  parse_args {| op_bucket := DEFAULT_BUCKET_SIZE; op_maxo := junk; op_archive := [] |} args = Ok (Some (o, [base])) ->
  op_archive o <> [] -> 100000 <= op_bucket o ->
  (forall l, order_files l (sort l)) -> quiet_heap fs -> base <> [] -> is_dir_node t -> wf_node t -> shows fs base t -> short_paths base t ->
  forall dirs files, scan fuel fs base = Ok (dirs, files) ->
  exists acts, boss_main R junk fuel fs sort (fun _ => true) args = (acts, Finished).
Proof.
  intros R junk fuel fs sort args o base t Ha Hsh Hp Hn Hb Hs Hq H2 H3 H4 H5 Hpa dirs files H.
  assert (Hm : op_bucket o mod 512 = 0).
  { destruct (C30_lemma {| op_bucket := DEFAULT_BUCKET_SIZE; op_maxo := junk; op_archive := [] |} args Hsh) as (_ & L & _).
    specialize (L o [base] Hp). destruct L as (_ & _ & _ & _ & _ & L1 & L2).
    assert (never_given (b "bucketsize") args \/ exists v, last_value (b "bucketsize") args v) as [N|(v & V)].
    { clear. induction args as [|a args IH]; [left; intros w []|]. destruct IH as [N|(v & pre & post & -> & N)].
      - destruct (list_eq_dec Ascii.ascii_dec (firstn 11 a) (b "bucketsize" ++ [EQ])) as [E|E].
        + right. exists (skipn 11 a), [], args. split; [|exact N]. cbn [app]. f_equal. rewrite <- (firstn_skipn 11 a) at 1. rewrite E, <- app_assoc. reflexivity.
        + left. intros w [X|X]; [|exact (N w X)]. apply E. rewrite X. reflexivity.
      - right. exists v, (a :: pre), post. auto. }
    - rewrite (L2 N). reflexivity.
    - destruct (L1 v V) as (n & _ & _ & M & _). exact M. }
  destruct (plan_ok fuel fs sort base t (op_bucket o) (op_maxo o) Hs Hq H2 H3 H4 H5 Hpa Hb Hm dirs files H) as (d & f & bs & _ & P & _).
  rewrite (boss_main_eq _ _ _ _ _ _ _ o base) by auto. rewrite P. cbn iota. eauto.
Qed.
Print Assumptions C35_accepted_partial.
Example C35_witness : exists acts, boss_main 3 100 9 s_fs isort (fun _ => true) s_args = (acts, Finished) /\ length acts = 10%nat.
Proof. eexists. split; vm_compute; reflexivity. Qed.
