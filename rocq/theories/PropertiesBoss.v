(** Property theorems C20-C25 (boss/worker protocol, messages, worker). *)
From Coq Require Import Permutation.
From Verif Require Import Bytes Outcome TarModel Layout LayoutSpec LayoutProofs LayoutMore OrderCodec OrderCodecProofs OrderMore
  Mover MoverSpec MoverProofs Worker WorkerProofs Assemble AssembleProofs Boss BossProofs BossMore BossRuns Samples.

(** *** C20.  Two completed runs with any numbers of ranks, any schedules.
    Partial: names and link targets without a tab. *)
Theorem C20_schedule_independent_partial : forall ev path base idx bucket maxo dirs files d f bs,
  plannable bucket dirs files -> set_offsets dirs files = (d, f) ->
  create_transfer_orders idx bucket maxo d f = Ok (Some bs) ->
  Forall plain (dirs ++ files) -> INT_MIN <= idx <= INT_MAX ->
  let w := jobs ev bucket path base bs in
  let okb o := succeeds (w o) in
  forall R n s R' n' s', (1 <= R)%nat -> (1 <= R')%nat ->
  run (length bs) R okb n s -> boss s = BEnd -> run (length bs) R' okb n' s' -> boss s' = BEnd ->
  let a := assemble w (map snd (log s)) in let a' := assemble w (map snd (log s')) in
  ar_size a = ar_size a' /\ forall p, ar_cell a p = ar_cell a' p.
Proof.
  intros ev path base idx bucket maxo dirs files d f bs Hp Hso Hc Hpl Hi w okb R n s R' n' s' HR HR' H1 E1 H2 E2.
  destruct (final_state _ _ _ _ _ HR H1 E1) as (_ & P1 & _). destruct (final_state _ _ _ _ _ HR' H2 E2) as (_ & P2 & _).
  apply assemble_perm.
  - eapply Permutation_NoDup; [apply Permutation_sym; exact P1|apply seq_NoDup].
  - etransitivity; [exact P1|apply Permutation_sym; exact P2].
  - intros i j x y p Ii Ij Hij Wi Wj Cx Cy.
    eapply (Permutation_in _ P1) in Ii. eapply (Permutation_in _ P1) in Ij. apply in_seq in Ii, Ij.
    eapply (jobs_disjoint ev bucket path base idx maxo dirs files d f bs i j x y p); eauto; lia.
Qed.
Print Assumptions C20_schedule_independent_partial.

(** a tree with a file whose name contains tabs *)
Definition evil_name : bytes := b "a" ++ [TAB] ++ b "F" ++ [TAB] ++ [TAB] ++ b "1" ++ [TAB] ++ b "512" ++ [TAB] ++ b "0" ++ [TAB] ++ b "0".
Definition evil_dirs : list entry := [force (mk_entry TDir (b "base") [] [] 0)].
Definition evil_files : list entry := [force (mk_entry TFile (b "base") (b "a") [] 1); force (mk_entry TFile (b "base") evil_name [] 5)].
Definition evil_env : env :=
  {| e_names := a_names;
     e_lstat := fun p => if bytes_eqb p (b "base/") then Some (st_dir, []) else if bytes_eqb p (b "base/a") then Some (st_reg 1, [])
                         else if bytes_eqb p (b "base/" ++ evil_name) then Some (st_reg 5, []) else None;
     e_data := fun p => if bytes_eqb p (b "base/a") then Some (b "x") else if bytes_eqb p (b "base/" ++ evil_name) then Some (b "hello") else None |}.
Definition evil_bundles : list (list order) :=
  let '(d, f) := set_offsets evil_dirs evil_files in
  match create_transfer_orders 0 a_bucket 1 d f with Ok (Some bs) => bs | _ => [] end.

Lemma evil_unchanged : Forall (unchanged evil_env (b "base")) (evil_dirs ++ evil_files).
Proof.
  unfold evil_dirs, evil_files. cbn [app]. constructor; [|constructor; [|constructor; [|constructor]]].
  - split; [|left; vm_compute; reflexivity]. eexists. split; vm_compute; reflexivity.
  - split; [|right]; eexists; (split; [vm_compute; reflexivity|]); vm_compute; [reflexivity|discriminate].
  - split; [|right]; eexists; (split; [vm_compute; reflexivity|]); vm_compute; [reflexivity|discriminate].
Qed.
(** false with tabs: the order in which two workers finish decides what is in the archive *)
Theorem C20_refuted : exists ev base path dirs files d f bs R n s n' s' p,
  plannable a_bucket dirs files /\ Forall (unchanged ev base) (dirs ++ files) /\ order_files files files /\
  set_offsets dirs files = (d, f) /\ create_transfer_orders 0 a_bucket 1 d f = Ok (Some bs) /\
  let w := jobs ev a_bucket path base bs in
  let okb o := succeeds (w o) in
  run (length bs) R okb n s /\ boss s = BEnd /\ run (length bs) R okb n' s' /\ boss s' = BEnd /\
  ar_cell (assemble w (map snd (log s))) p <> ar_cell (assemble w (map snd (log s'))) p /\
  ar_cell (assemble w (map snd (log s))) p <> Undef /\ ar_cell (assemble w (map snd (log s'))) p <> Undef.
Proof.
  set (okb := fun o => succeeds (jobs evil_env a_bucket (b "arch") (b "base") evil_bundles o)).
  assert (K0 : okb 0%nat = true) by (vm_compute; reflexivity).
  assert (K1 : okb 1%nat = true) by (vm_compute; reflexivity).
  assert (K2 : okb 2%nat = true) by (vm_compute; reflexivity).
  destruct (run_ascending okb K0 K1 K2) as (n & s & R1 & E1 & L1).
  destruct (run_descending okb K0 K1 K2) as (n' & s' & R2 & E2 & L2).
  destruct (set_offsets evil_dirs evil_files) as [d f] eqn:Es.
  exists evil_env, (b "base"), (b "arch"), evil_dirs, evil_files, d, f, evil_bundles, 4%nat, n, s, n', s', 5.
  split. { unfold plannable. split; [vm_compute; discriminate|]. split; [vm_compute; reflexivity|]. split; [discriminate|].
    split; repeat constructor; vm_compute; try reflexivity; discriminate. }
  split; [exact evil_unchanged|].
  split; [exact (isort_order_files evil_files)|]. split; auto. split.
  { unfold evil_bundles. rewrite Es. vm_compute in Es. injection Es as <- <-. vm_compute. reflexivity. }
  cbv zeta. fold okb. change (length evil_bundles) with 3%nat.
  split; [exact R1|]. split; [exact E1|]. split; [exact R2|]. split; [exact E2|]. rewrite L1, L2.
  split; [vm_compute; discriminate|]. split; vm_compute; discriminate.
Qed.
Print Assumptions C20_refuted.
(** the hypotheses of C20 are met by the sample tree, and both runs complete *)
Definition t_bundles : list (list order) :=
  let '(d, f) := set_offsets a_dirs (firstn 3 a_files) in
  match create_transfer_orders 0 a_bucket 2 d f with Ok (Some bs) => bs | _ => [] end.
Example C20_witness : exists d f n s n' s',
  plannable a_bucket a_dirs (firstn 3 a_files) /\ set_offsets a_dirs (firstn 3 a_files) = (d, f) /\
  create_transfer_orders 0 a_bucket 2 d f = Ok (Some t_bundles) /\ Forall plain (a_dirs ++ firstn 3 a_files) /\
  let okb o := succeeds (jobs t_env a_bucket (b "arch") (b "base") t_bundles o) in
  run (length t_bundles) 4 okb n s /\ boss s = BEnd /\ run (length t_bundles) 4 okb n' s' /\ boss s' = BEnd /\ log s <> log s'.
Proof.
  set (okb := fun o => succeeds (jobs t_env a_bucket (b "arch") (b "base") t_bundles o)).
  assert (K0 : okb 0%nat = true) by (vm_compute; reflexivity).
  assert (K1 : okb 1%nat = true) by (vm_compute; reflexivity).
  assert (K2 : okb 2%nat = true) by (vm_compute; reflexivity).
  destruct (run_ascending okb K0 K1 K2) as (n & s & R1 & E1 & L1).
  destruct (run_descending okb K0 K1 K2) as (n' & s' & R2 & E2 & L2).
  destruct (set_offsets a_dirs (firstn 3 a_files)) as [d f] eqn:Es.
  exists d, f, n, s, n', s'. split.
  { unfold plannable. split; [vm_compute; discriminate|]. split; [vm_compute; reflexivity|]. split; [discriminate|].
    split; repeat constructor; vm_compute; try reflexivity; discriminate. }
  split; auto. split. { unfold t_bundles. rewrite Es. vm_compute in Es. injection Es as <- <-. vm_compute. reflexivity. }
  split. { repeat constructor; vm_compute; intuition discriminate. }
  cbv zeta. fold okb. change (length t_bundles) with 3%nat. split; auto. split; auto. split; auto. split; auto. intros X. rewrite X in L1. rewrite L1 in L2. discriminate.
Qed.

(** *** C21.  [given]: (rank, order) pairs in the order the boss sent them;
    [log]: pairs in the order the archive was written.  At every moment of every
    run: no order is sent twice; what was sent is either with exactly the
    worker it was sent to, or executed once by that worker; no worker has two.
    When the boss is through, all orders 0..N-1 were sent and executed once. *)
Theorem C21_exactly_once : forall N R okb n s, (1 <= R)%nat -> run N R okb n s ->
  NoDup (map snd (given s)) /\
  Permutation (given s) (flat_map (fun r => map (pair r) (inbox s r ++ match work s r with WBusy o | WDead o => [o] | _ => [] end)) (seq 1 (R - 1)) ++ log s) /\
  (forall r, (length (inbox s r ++ match work s r with WBusy o | WDead o => [o] | _ => [] end) <= 1)%nat) /\
  (boss s = BEnd -> map snd (given s) = seq 0 N /\ Permutation (given s) (log s)).
Proof.
  intros N R okb n s HR H. destruct (outstanding N R okb n s HR H) as (A & B & C). split; auto. split; [exact B|]. split; [exact C|].
  intros E. destruct (final_state N R okb n s HR H E) as (_ & _ & D1 & D2). auto.
Qed.
Print Assumptions C21_exactly_once.
Example C21_witness : exists n s, run 2 2 (fun _ => true) n s /\ boss s = BEnd /\ log s = [(1, 0); (1, 1)]%nat.
Proof. apply run_single; reflexivity. Qed.

(** *** C22.  Partial: at least one worker and every bundle can be moved.  No
    run is longer than 12N+2R+5 steps; as long as the boss is not through there
    is a step that does not depend on MPI buffering anything; and such steps
    lead from every state a run can be in to the end. *)
Theorem C22_terminates_partial : forall N R okb, (2 <= R)%nat -> (forall o, (o < N)%nat -> okb o = true) ->
  (forall n s, run N R okb n s -> (n <= 12 * N + 2 * R + 5)%nat) /\
  (forall n s, run N R okb n s -> boss s <> BEnd -> exists s', step N R okb True s s') /\
  (forall n s, run N R okb n s -> exists s', leads N R okb s s' /\ boss s' = BEnd).
Proof.
  intros N R okb HR Hok. split; [|split].
  - intros n s H. eapply run_bound; eauto. lia.
  - intros n s H E. eapply progress; eauto.
  - intros n s H. eapply finishes; eauto.
Qed.
Print Assumptions C22_terminates_partial.
(** false with a single rank, and whenever the worker of some bundle dies: all
    runs are finite and none of them ends with the boss through *)
Theorem C22_refuted : forall N R okb, (1 <= R)%nat ->
  (R = 1%nat /\ (1 <= N)%nat \/ exists o, (o < N)%nat /\ okb o = false) ->
  (forall n s, run N R okb n s -> (n <= 12 * N + 2 * R + 5)%nat) /\
  (forall n s, run N R okb n s -> boss s <> BEnd).
Proof.
  intros N R okb HR Hc. split; [intros; eapply run_bound; eauto|]. intros n s H. destruct Hc as [[-> HN]|(o & Ho & Hf)].
  - eapply no_worker; eauto.
  - eapply crash_hangs; eauto.
Qed.
Print Assumptions C22_refuted.
(** such a bundle exists: the planner's own oversized bundle (C13, C17) kills its worker *)
Example C22_dead_worker :
  let '(d, f) := set_offsets (firstn 1 a_dirs) c13_files in
  exists bs, create_transfer_orders 0 a_bucket 0 d f = Ok (Some bs) /\
    succeeds (jobs t_env a_bucket (b "arch") (b "base") bs 2) = false.
Proof. eexists. split; [vm_compute; reflexivity|]. vm_compute. reflexivity. Qed.

(** *** C23.  When push_out_all_orders has returned (only then main sends X):
    all orders are in the archive, and no worker has an order, moves data or
    has a reply under way. *)
Theorem C23_shutdown_after_data : forall N R okb n s, (1 <= R)%nat -> run N R okb n s -> boss s = BEnd ->
  Permutation (map snd (log s)) (seq 0 N) /\
  forall r, inbox s r = [] /\ rep s r = 0%nat /\ (work s r = WIdle \/ work s r = WWait).
Proof. intros N R okb n s HR H E. destruct (final_state N R okb n s HR H E) as (A & B & _). auto. Qed.
Print Assumptions C23_shutdown_after_data.
(** the reply text names the replying rank (stoi of to_string) *)
Theorem C23_reply_rank : forall rank, INT_MIN <= rank <= INT_MAX -> get_stoi (print_int rank) = Ok rank.
Proof. exact get_stoi_print. Qed.
Print Assumptions C23_reply_rank.

(** *** C56.  At every moment of every run at most one message between the
    boss and a worker is under way, in either direction; and once every worker
    has had its first order set, as long as unsent order sets remain each
    worker has one, or works, or its reply is on the way, or the boss is just
    about to send it the next one. *)
Theorem C56_no_starvation : forall N R okb n s, (1 <= R)%nat -> run N R okb n s ->
  (forall r, (length (inbox s r) + rep s r <= 1)%nat) /\
  (forall k, (boss s = BFeed k \/ exists x, boss s = BGive k x) -> (k < N)%nat -> forall r, (1 <= r < R)%nat ->
     inbox s r <> [] \/ (exists o, work s r = WBusy o \/ work s r = WDead o) \/ work s r = WPost \/ rep s r = 1%nat \/ boss s = BGive k r) /\
  (forall r o, work s r = WBusy o -> inbox s r = [] /\ rep s r = 0%nat).
Proof. exact no_starvation. Qed.
Print Assumptions C56_no_starvation.
(** such a moment: one worker, two order sets, the first one sent *)
Example C56_witness : exists n s, run 2 2 (fun _ => true) n s /\ boss s = BFeed 1 /\ work s 1%nat = WBusy 0.
Proof.
  pose proof (run_init 2 2 (fun _ => true)) as H.
  adv H ltac:(eapply (S_first 2 2 _ _ 0)).
  adv H ltac:(eapply (W_recv 2 2 _ _ 1 0 [])).
  adv H ltac:(eapply (S_first_more 2 2 _ _ 1)).
  do 2 eexists. split; [exact H|]. split; reflexivity.
Qed.

(** *** C24.  Partial: no NUL inside, and less than 2 GiB. *)
Theorem C24_framing_partial : forall letter text,
  no_byte NUL letter -> no_byte NUL text -> zlen letter + zlen text < INT_MAX ->
  deliver letter text = Ok (letter ++ text).
Proof. exact deliver_ok. Qed.
Print Assumptions C24_framing_partial.
Theorem C24_refuted : forall letter text rest, no_byte NUL letter -> no_byte NUL text ->
  (zlen letter + zlen (text ++ [NUL] ++ rest) < INT_MAX -> deliver letter (text ++ [NUL] ++ rest) = Ok (letter ++ text)) /\
  (INT_MAX <= zlen letter + zlen text -> deliver letter text = Err EUB).
Proof. intros. split; intros; [apply deliver_nul; auto|apply deliver_long; auto]. Qed.
Print Assumptions C24_refuted.
Example C24_witness : deliver (b "P") (b "/some/dir") = Ok (b "P/some/dir").
Proof. vm_compute. reflexivity. Qed.

(** *** C25.  For every history of messages, whatever the file system does. *)
Theorem C25_worker_safe_partial : forall opens ev rank ms l r, rank <> 0 -> worker_node opens ev rank ms = (l, r) ->
  (forall l1 p w l2, l = l1 ++ EvWrite p w :: l2 ->
     last_bucket l1 <> 0 /\ In (EvOpen p true) l1 /\
     exists j os, move_data_Create (ev j) (last_base l1) (last_bucket l1) os = Ok w) /\
  (forall c rest, r = Returned c rest -> exists pre m, ms = pre ++ m :: rest /\
     (c = 0 /\ firstn 1 m = b "X" \/ c = 7 /\ firstn 1 m = b "C" /\ last_bucket l = 0)).
Proof.
  intros opens ev rank ms l r Hr H. unfold worker_node in H. destruct (Z.eqb_spec rank 0); [contradiction|].
  destruct (worker_from_ok opens ev ms 0 [] wstart l r agrees_start H) as (A & B & _). split.
  - intros l1 p w l2 E. destruct (A l1 p w l2 E) as (j & W1 & W2 & os & W3). split; auto. split; auto. exists j, os. auto.
  - exact B.
Qed.
Print Assumptions C25_worker_safe_partial.
(** the history the boss produces is served from beginning to end *)
Theorem C25_boss_history : forall opens ev bucket path base Bs ws rank, rank <> 0 ->
  0 < bucket <= INT_MAX -> opens 1%nat path = true -> length ws = length Bs ->
  (forall k B w, nth_error Bs k = Some B -> nth_error ws k = Some w ->
     parse_bundle (print_bundle B) = Ok B /\ move_data_Create (ev (4 + k)%nat) base bucket B = Ok w) ->
  worker_node opens ev rank
    ((b "U" ++ print_int bucket) :: (b "A" ++ path) :: (b "N" ++ b "individual") :: (b "P" ++ base) ::
     map (fun B => b "C" ++ print_bundle B) Bs ++ [b "X" ++ b "shutdown"]) =
  ([EvBucket bucket; EvOpen path true; EvBase base] ++ flat_map (fun w => [EvWrite path w; EvDone]) ws, Returned 0 []).
Proof. exact boss_history. Qed.
Print Assumptions C25_boss_history.
(** the claim is false: data is moved without an open archive (null handle), a
    failed open is answered with "done" though nothing is written, and a bucket
    size message that is no int ends the worker with an exception *)
Definition one_order : bytes := print_order {| o_index := 0; o_rel := b "a"; o_type := "F"%char; o_target := []; o_size := 1; o_hdr := 512; o_pos := 0; o_fpos := 0 |}.
Theorem C25_refuted :
  let no := fun (_ : nat) (_ : bytes) => false in let ev := fun _ : nat => evil_env in
  worker_node no ev 1 [b "U102400"; b "N"; b "Pbase"; b "C" ++ one_order] = ([EvBucket 102400; EvBase (b "base")], Died EUB []) /\
  (exists l, worker_node no ev 1 [b "U102400"; b "Aarch"; b "N"; b "Pbase"; b "C" ++ one_order; b "X"] = (l ++ [EvNoWrite (b "arch"); EvDone], Returned 0 [])) /\
  worker_node no ev 1 [b "U2147483648"] = ([], Died EThrow []) /\
  worker_node no ev 1 [b "Aarch"; b "X"] = ([EvOpen (b "arch") false], Died EUB []).
Proof.
  cbv zeta. split; [vm_compute; reflexivity|]. split; [exists [EvBucket 102400; EvOpen (b "arch") false; EvBase (b "base")]; vm_compute; reflexivity|].
  split; vm_compute; reflexivity.
Qed.
Print Assumptions C25_refuted.
