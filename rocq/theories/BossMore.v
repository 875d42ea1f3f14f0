(** Termination, progress and final state of the boss/worker protocol. *)
From Coq Require Import List Arith Lia Permutation Bool.
Import ListNotations.
From Verif Require Import Boss BossProofs.

Lemma inv_run N R okb n s : 1 <= R -> run N R okb n s -> inv N R s.
Proof.
  intros HR H. induction H.
  - destruct R; [lia|apply inv_init].
  - eapply inv_step; eauto.
Qed.

(** ** only successful moves are logged, only failing ones kill a worker *)
Lemma logged_ok N R okb n s : run N R okb n s -> Forall (fun ro => okb (snd ro) = true) (log s).
Proof.
  intros H. induction H; cbn; [constructor|]. destruct H0; cbn; auto. apply Forall_app. split; auto.
Qed.
Lemma dead_failed N R okb n s : run N R okb n s -> forall r o, work s r = WDead o -> okb o = false.
Proof.
  intros H. induction H; cbn; [discriminate|]. destruct H0; cbn; auto; intros x y Hx; unfold upd in Hx;
    destruct (Nat.eqb x r); eauto; try discriminate. congruence.
Qed.

(** ** measure *)
Definition wb (N R : nat) (b : bphase) : nat :=
  match b with
  | BFirst k => (N - k) * 10 + 2 * (N + R) + 5
  | BFeed n => (N - n) * 10 + R + 3
  | BGive n _ => (N - n) * 10 + R + 2
  | BCollect i => N - i + 1
  | BDrain i => R - i + 1
  | BEnd => 0
  end.
Definition ww (w : wphase) : nat := match w with WIdle => 0 | WBusy _ => 4 | WPost => 3 | WWait => 1 | WDead _ => 0 end.
Definition wr_ (s : sys) (r : nat) : nat := 5 * length (inbox s r) + ww (work s r) + rep s r.
Definition measure (N R : nat) (s : sys) : nat :=
  wb N R (boss s) + (match blocked s with Some _ => 1 | None => 0 end) + tot (ranks R) (wr_ s).

Lemma tot_same_or R (s s' : sys) r : 1 <= r < R -> (forall x, x <> r -> wr_ s' x = wr_ s x) ->
  tot (ranks R) (wr_ s') + wr_ s r = tot (ranks R) (wr_ s) + wr_ s' r.
Proof. intros Hr H. apply tot_upd; auto. apply ranks_nodup. apply in_ranks. auto. Qed.

Lemma measure_step N R okb m s s' : inv N R s -> step N R okb m s s' -> measure N R s' < measure N R s.
Proof.
  intros I H. unfold measure. destruct H.
  - cbn [boss blocked send_boss]. rewrite H, H0. cbn [wb].
    pose proof (tot_same_or R s (send_boss s (BFirst (k + 1)) (k + 1) k) (k + 1) ltac:(lia)) as T.
    assert (forall x, x <> k + 1 -> wr_ (send_boss s (BFirst (k + 1)) (k + 1) k) x = wr_ s x) as Q.
    { intros x Hx. unfold wr_, send_boss, send. cbn [inbox work rep]. rewrite upd_other by auto. reflexivity. }
    specialize (T Q). unfold wr_ in T at 2 4. cbn [send_boss inbox work rep] in T. unfold send in T. rewrite upd_same, app_length in T. cbn [length] in T. lia.
  - cbn [boss blocked set_boss]. rewrite H, H0. cbn [wb]. change (wr_ (set_boss s (BCollect 0) None (inbox s) (rep s))) with (wr_ s). lia.
  - cbn [boss blocked set_boss]. rewrite H, H0. cbn [wb]. change (wr_ (set_boss s (BFeed k) None (inbox s) (rep s))) with (wr_ s). lia.
  - cbn [boss blocked set_boss]. rewrite H, H0. cbn [wb]. pose proof (tok_out_rep _ _ _ _ I H2) as Hr.
    pose proof (tot_same_or R s (set_boss s (BCollect (i + 1)) None (inbox s) (recv s r)) r Hr) as T.
    assert (forall x, x <> r -> wr_ (set_boss s (BCollect (i + 1)) None (inbox s) (recv s r)) x = wr_ s x) as Q.
    { intros x Hx. unfold wr_, set_boss, recv. cbn [inbox work rep]. rewrite upd_other by auto. reflexivity. }
    specialize (T Q). unfold wr_ in T at 2 4. cbn [set_boss inbox work rep] in T. unfold recv in T at 2. rewrite upd_same in T. lia.
  - cbn [boss blocked set_boss]. rewrite H, H0. cbn [wb]. change (wr_ (set_boss s BEnd None (inbox s) (rep s))) with (wr_ s). lia.
  - cbn [boss blocked set_boss]. rewrite H, H0. cbn [wb]. pose proof (tok_out_rep _ _ _ _ I H2) as Hr.
    pose proof (tot_same_or R s (set_boss s (BGive n r) None (inbox s) (recv s r)) r Hr) as T.
    assert (forall x, x <> r -> wr_ (set_boss s (BGive n r) None (inbox s) (recv s r)) x = wr_ s x) as Q.
    { intros x Hx. unfold wr_, set_boss, recv. cbn [inbox work rep]. rewrite upd_other by auto. reflexivity. }
    specialize (T Q). unfold wr_ in T at 2 4. cbn [set_boss inbox work rep] in T. unfold recv in T at 2. rewrite upd_same in T. lia.
  - cbn [boss blocked send_boss]. pose proof (i_phase _ _ _ I) as P. unfold phase_ok in P. rewrite H in P. destruct P as (P1 & P2 & _).
    rewrite H, H0. cbn [wb].
    pose proof (tot_same_or R s (send_boss s (BFeed (n + 1)) r n) r P2) as T.
    assert (forall x, x <> r -> wr_ (send_boss s (BFeed (n + 1)) r n) x = wr_ s x) as Q.
    { intros x Hx. unfold wr_, send_boss, send. cbn [inbox work rep]. rewrite upd_other by auto. reflexivity. }
    specialize (T Q). unfold wr_ in T at 2 4. cbn [send_boss inbox work rep] in T. unfold send in T. rewrite upd_same, app_length in T. cbn [length] in T. lia.
  - cbn [boss blocked set_boss]. rewrite H, H0. cbn [wb]. change (wr_ (set_boss s (BDrain 1) None (inbox s) (rep s))) with (wr_ s). lia.
  - cbn [boss blocked set_boss]. rewrite H, H0. cbn [wb]. pose proof (tok_out_rep _ _ _ _ I H2) as Hr.
    pose proof (tot_same_or R s (set_boss s (BDrain (i + 1)) None (inbox s) (recv s r)) r Hr) as T.
    assert (forall x, x <> r -> wr_ (set_boss s (BDrain (i + 1)) None (inbox s) (recv s r)) x = wr_ s x) as Q.
    { intros x Hx. unfold wr_, set_boss, recv. cbn [inbox work rep]. rewrite upd_other by auto. reflexivity. }
    specialize (T Q). unfold wr_ in T at 2 4. cbn [set_boss inbox work rep] in T. unfold recv in T at 2. rewrite upd_same in T. lia.
  - cbn [boss blocked set_boss]. rewrite H, H0. cbn [wb]. change (wr_ (set_boss s BEnd None (inbox s) (rep s))) with (wr_ s). lia.
  - cbn [boss blocked set_boss]. rewrite H. change (wr_ (set_boss s (boss s) None (inbox s) (rep s))) with (wr_ s). lia.
  - set (s' := {| boss := boss s; blocked := unblock (blocked s) r; inbox := _; work := _; rep := _; log := _; given := _ |}).
    pose proof (tot_same_or R s s' r H) as T.
    assert (forall x, x <> r -> wr_ s' x = wr_ s x) as Q by (intros x Hx; unfold wr_, s'; cbn [inbox work rep]; rewrite !upd_other by auto; reflexivity).
    specialize (T Q). unfold wr_ in T at 2 4. unfold s' in T at 2 3 4. cbn [inbox work rep] in T. rewrite !upd_same, H1, H0 in T. cbn [length ww] in T.
    cbn [boss s']. fold s'. unfold unblock. cbn [blocked s']. unfold unblock. destruct (blocked s) as [y|]; [destruct (Nat.eqb y r)|]; lia.
  - set (s' := {| boss := boss s; blocked := _; inbox := _; work := _; rep := _; log := _; given := _ |}).
    pose proof (tot_same_or R s s' r H) as T.
    assert (forall x, x <> r -> wr_ s' x = wr_ s x) as Q by (intros x Hx; unfold wr_, s'; cbn [inbox work rep]; rewrite !upd_other by auto; reflexivity).
    specialize (T Q). unfold wr_ in T at 2 4. unfold s' in T at 2 3 4. cbn [inbox work rep] in T. rewrite !upd_same, H0 in T. cbn [length ww] in T.
    change (boss s') with (boss s). change (blocked s') with (blocked s). lia.
  - set (s' := {| boss := boss s; blocked := _; inbox := _; work := _; rep := _; log := _; given := _ |}).
    pose proof (tot_same_or R s s' r H) as T.
    assert (forall x, x <> r -> wr_ s' x = wr_ s x) as Q by (intros x Hx; unfold wr_, s'; cbn [inbox work rep]; rewrite !upd_other by auto; reflexivity).
    specialize (T Q). unfold wr_ in T at 2 4. unfold s' in T at 2 3 4. cbn [inbox work rep] in T. rewrite !upd_same, H0 in T. cbn [length ww] in T.
    change (boss s') with (boss s). change (blocked s') with (blocked s). lia.
  - set (s' := {| boss := boss s; blocked := _; inbox := _; work := _; rep := _; log := _; given := _ |}).
    pose proof (tot_same_or R s s' r H) as T.
    assert (forall x, x <> r -> wr_ s' x = wr_ s x) as Q by (intros x Hx; unfold wr_, s'; cbn [inbox work rep]; rewrite !upd_other by auto; reflexivity).
    specialize (T Q). unfold wr_ in T at 2 4. unfold s' in T at 2 3 4. cbn [inbox work rep] in T. rewrite !upd_same, H0 in T. cbn [length ww] in T.
    change (boss s') with (boss s). change (blocked s') with (blocked s). lia.
  - set (s' := {| boss := boss s; blocked := _; inbox := _; work := _; rep := _; log := _; given := _ |}).
    pose proof (tot_same_or R s s' r H) as T.
    assert (forall x, x <> r -> wr_ s' x = wr_ s x) as Q by (intros x Hx; unfold wr_, s'; cbn [inbox work rep]; rewrite !upd_other by auto; reflexivity).
    specialize (T Q). unfold wr_ in T at 2 4. unfold s' in T at 2 3 4. cbn [inbox work rep] in T. rewrite !upd_same, H0 in T. cbn [length ww] in T.
    change (boss s') with (boss s). change (blocked s') with (blocked s). lia.
  - set (s' := {| boss := boss s; blocked := _; inbox := _; work := _; rep := _; log := _; given := _ |}).
    pose proof (tot_same_or R s s' r H) as T.
    assert (forall x, x <> r -> wr_ s' x = wr_ s x) as Q by (intros x Hx; unfold wr_, s'; cbn [inbox work rep]; rewrite !upd_other by auto; reflexivity).
    specialize (T Q). unfold wr_ in T at 2 4. unfold s' in T at 2 3 4. cbn [inbox work rep] in T. rewrite !upd_same, H0 in T. cbn [length ww] in T.
    change (boss s') with (boss s). change (blocked s') with (blocked s). lia.
Qed.

Lemma run_bound N R okb n s : 1 <= R -> run N R okb n s -> n <= 12 * N + 2 * R + 5.
Proof.
  intros HR H. assert (n + measure N R s <= 12 * N + 2 * R + 5); [|lia]. induction H.
  - unfold measure. cbn [boss init blocked wb]. assert (tot (ranks R) (wr_ init) = 0); [|lia].
    generalize (ranks R). induction l; cbn; auto.
  - pose proof (measure_step _ _ _ _ _ _ (inv_run _ _ _ _ _ HR H) H0). lia.
Qed.

(** ** progress *)
Definition quiet (s : sys) (r : nat) : Prop := inbox s r = [] /\ holds (work s r) = [] /\ work s r <> WPost.

Lemma worker_moves N R okb n s r : 1 <= R -> run N R okb n s -> (forall o, o < N -> okb o = true) -> 1 <= r < R ->
  (exists s', step N R okb True s s') \/ quiet s r.
Proof.
  intros HR H Hok Hr. pose proof (inv_run _ _ _ _ _ HR H) as I. pose proof (i_tok _ _ _ I r) as T. unfold tok, held in T. rewrite app_length in T.
  assert (Hlt : forall o, In o (held s r) -> o < N).
  { intros o Ho. assert (In (r, o) (given s)).
    { eapply Permutation_in; [apply Permutation_sym, (i_perm _ _ _ I)|]. apply in_or_app. left. apply in_flat_map. exists r. split; [apply in_ranks; auto|].
      unfold heldp. apply in_map. auto. }
    assert (In o (seq 0 (sent N s))) by (rewrite <- (i_seq _ _ _ I); apply (in_map snd) in H0; auto).
    apply in_seq in H1. pose proof (i_phase _ _ _ I) as P. unfold phase_ok in P. unfold sent in H1. destruct (boss s); lia. }
  destruct (work s r) eqn:Ew; cbn [holds length] in T.
  - destruct (inbox s r) as [|o q] eqn:Ei; [right; unfold quiet; rewrite Ei, Ew; repeat split; auto; discriminate|].
    left. eexists. eapply W_recv; eauto.
  - left. eexists. eapply W_exec; eauto. apply Hok, Hlt. unfold held. rewrite Ew. apply in_or_app. right. left. auto.
  - left. eexists. eapply W_reply; eauto.
  - destruct (inbox s r) as [|o q] eqn:Ei; [right; unfold quiet; rewrite Ei, Ew; repeat split; auto; discriminate|].
    left. eexists. eapply W_taken; eauto. cbn in T. lia.
  - assert (okb o = false) by (eapply dead_failed; eauto).
    rewrite Hok in H0; [discriminate|]. apply Hlt. unfold held. rewrite Ew. apply in_or_app. right. left. auto.
Qed.

Lemma all_or_one (l : list nat) (P : Prop) (Q : nat -> Prop) : (forall r, In r l -> P \/ Q r) -> P \/ forall r, In r l -> Q r.
Proof.
  induction l as [|a l IH]; intros H; [right; intros r []|]. destruct (H a (or_introl eq_refl)); auto.
  destruct IH; auto. { intros; apply H; right; auto. } right. intros r [<-|Hr]; auto.
Qed.

Lemma progress N R okb n s : 2 <= R -> run N R okb n s -> (forall o, o < N -> okb o = true) -> boss s <> BEnd ->
  exists s', step N R okb True s s'.
Proof.
  intros HR H Hok Hb. pose proof (inv_run N R okb n s ltac:(lia) H) as I.
  destruct (all_or_one (ranks R) (exists s', step N R okb True s s') (quiet s)) as [X|Q]; auto.
  { intros r Hr. apply in_ranks in Hr. eapply worker_moves; eauto. lia. }
  assert (Hbl : blocked s = None).
  { destruct (blocked s) as [r|] eqn:E; auto. destruct (i_blk _ _ _ I r E) as [X Hr]. exfalso. apply X. apply Q. apply in_ranks. auto. }
  assert (T : forall r, 1 <= r < R -> tok s r = rep s r + (match boss s with BGive _ x => if Nat.eqb x r then 1 else 0 | _ => 0 end)).
  { intros r Hr. destruct (Q r) as (Q1 & Q2 & Q3); [apply in_ranks; auto|]. unfold tok, held. rewrite Q1, Q2. cbn [app length].
    destruct (work s r); try congruence; lia. }
  pose proof (i_phase _ _ _ I) as P. unfold phase_ok in P. destruct (boss s) as [k|i|m|m x|i|] eqn:Eb.
  - destruct P as (P1 & P2 & P3). destruct (le_lt_dec N k).
    + eexists. eapply S_first_all; eauto. lia.
    + destruct (le_lt_dec R (k + 1)).
      * eexists. eapply S_first_more; eauto. lia.
      * eexists. eapply S_first; eauto.
  - destruct P as (P1 & P2). destruct (le_lt_dec N i); [eexists; eapply S_collect_end; eauto|].
    destruct (tot_pos (ranks R) (tok s)) as (r & Hr & Hp); [lia|]. apply in_ranks in Hr. rewrite (T r Hr) in Hp.
    exists (set_boss s (BCollect (i + 1)) None (inbox s) (recv s r)). apply S_collect; auto. lia.
  - destruct P as (P1 & P2). destruct (le_lt_dec N m); [eexists; eapply S_feed_end; eauto|].
    specialize (P2 1 ltac:(lia)). rewrite T in P2 by lia.
    exists (set_boss s (BGive m 1) None (inbox s) (recv s 1)). apply S_feed; auto. lia.
  - eexists. eapply S_give; eauto.
  - destruct P as (P1 & P2). destruct (le_lt_dec R i); [eexists; eapply S_drain_end; eauto|].
    destruct (tot_pos (ranks R) (tok s)) as (r & Hr & Hp); [lia|]. apply in_ranks in Hr. rewrite (T r Hr) in Hp.
    exists (set_boss s (BDrain (i + 1)) None (inbox s) (recv s r)). apply S_drain; auto. lia.
  - congruence.
Qed.

(** ** the final state *)
Lemma final_state N R okb n s : 1 <= R -> run N R okb n s -> boss s = BEnd ->
  (forall r, inbox s r = [] /\ rep s r = 0 /\ (work s r = WIdle \/ work s r = WWait)) /\
  Permutation (map snd (log s)) (seq 0 N) /\ map snd (given s) = seq 0 N /\ Permutation (given s) (log s).
Proof.
  intros HR H Hb. pose proof (inv_run _ _ _ _ _ HR H) as I.
  pose proof (i_phase _ _ _ I) as P. unfold phase_ok in P. rewrite Hb in P.
  assert (T : forall r, tok s r = 0).
  { intros r. destruct (in_dec Nat.eq_dec r (ranks R)) as [Hr|Hr]; [eapply tot_zero; eauto|]. apply (i_out _ _ _ I). rewrite <- in_ranks. auto. }
  assert (W : forall r, held s r = [] /\ inbox s r = [] /\ rep s r = 0 /\ (work s r = WIdle \/ work s r = WWait)).
  { intros r. specialize (T r). unfold tok in T. destruct (held s r) as [|? ?] eqn:E; [|cbn in T; lia]. split; auto.
    unfold held in E. apply app_eq_nil in E as [E1 E2]. split; auto. split; [lia|]. destruct (work s r); cbn in *; auto; discriminate || lia. }
  split; [intros r; destruct (W r) as (_ & X); exact X|].
  pose proof (i_perm _ _ _ I) as Pp. pose proof (i_seq _ _ _ I) as Sq. unfold sent in Sq. rewrite Hb in Sq.
  assert (flat_map (heldp s) (ranks R) = []) as E.
  { generalize (ranks R). induction l as [|a l IH]; cbn; auto. rewrite IH. unfold heldp at 1. destruct (W a) as (-> & _). reflexivity. }
  rewrite E in Pp. cbn [app] in Pp. split; auto. rewrite <- Sq. apply Permutation_map, Permutation_sym, Pp.
Qed.

(** at any moment: what was sent is with one worker or done *)
Lemma outstanding N R okb n s : 1 <= R -> run N R okb n s ->
  NoDup (map snd (given s)) /\
  Permutation (given s) (flat_map (fun r => map (pair r) (inbox s r ++ holds (work s r))) (ranks R) ++ log s) /\
  (forall r, length (inbox s r ++ holds (work s r)) <= 1).
Proof.
  intros HR H. pose proof (inv_run _ _ _ _ _ HR H) as I. split; [rewrite (i_seq _ _ _ I); apply seq_NoDup|]. split; [exact (i_perm _ _ _ I)|].
  intros r. pose proof (i_tok _ _ _ I r) as T. unfold tok, held in T. lia.
Qed.

(** ** hangs *)
Lemma no_worker N okb n s : 1 <= N -> run N 1 okb n s -> boss s <> BEnd.
Proof.
  intros HN H E. destruct (final_state N 1 okb n s ltac:(lia) H E) as (_ & P & _).
  pose proof (inv_run N 1 okb n s ltac:(lia) H) as I. pose proof (i_log _ _ _ I) as L.
  destruct (log s) as [|x l]; [|inversion L; subst; lia]. cbn in P. apply Permutation_length in P. rewrite seq_length in P. cbn in P. lia.
Qed.
Lemma crash_hangs N R okb n s o : 1 <= R -> o < N -> okb o = false -> run N R okb n s -> boss s <> BEnd.
Proof.
  intros HR Ho Hf H E. destruct (final_state N R okb n s HR H E) as (_ & P & _).
  assert (In o (map snd (log s))) by (eapply Permutation_in; [apply Permutation_sym; eauto|apply in_seq; lia]).
  pose proof (logged_ok _ _ _ _ _ H) as L. apply in_map_iff in H0 as ((r, o') & E1 & E2). cbn in E1. subst o'.
  rewrite Forall_forall in L. specialize (L _ E2). cbn in L. congruence.
Qed.

(** [s'] is reached from [s] by steps that MPI cannot refuse (no buffering needed) *)
Inductive leads (N R : nat) (okb : nat -> bool) : sys -> sys -> Prop :=
| leads_here s : leads N R okb s s
| leads_step s s' s'' : step N R okb True s s' -> leads N R okb s' s'' -> leads N R okb s s''.

(** from any reachable state the boss does return in some continuation *)
Lemma finishes N R okb : 2 <= R -> (forall o, o < N -> okb o = true) -> forall k n s, run N R okb n s ->
  k = measure N R s -> exists s', leads N R okb s s' /\ boss s' = BEnd.
Proof.
  intros HR Hok k. induction k as [k IH] using (well_founded_induction lt_wf). intros n s H Hk.
  assert (D : boss s = BEnd \/ boss s <> BEnd) by (destruct (boss s); auto; right; discriminate).
  destruct D as [E|E]; [exists s; split; [constructor|auto]|]. destruct (progress N R okb n s HR H Hok E) as (s' & S').
  destruct (IH (measure N R s')) with (n := S n) (s := s') as (s2 & L & E2); [|eapply run_step; eauto|reflexivity|].
  - subst k. eapply measure_step; eauto. eapply inv_run; eauto. lia.
  - exists s2. split; auto. econstructor; eauto.
Qed.
Lemma leads_run N R okb s s' : leads N R okb s s' -> forall n, run N R okb n s -> exists n', run N R okb n' s'.
Proof. induction 1 as [s|s s1 s2 H1 H2 IH]; intros n Hr; [eauto|]. eapply IH. econstructor; eauto. Qed.

(** C56 *)
Lemma no_starvation N R okb n s : 1 <= R -> run N R okb n s ->
  (forall r, length (inbox s r) + rep s r <= 1) /\
  (forall k, (boss s = BFeed k \/ exists x, boss s = BGive k x) -> k < N -> forall r, 1 <= r < R ->
     inbox s r <> [] \/ (exists o, work s r = WBusy o \/ work s r = WDead o) \/ work s r = WPost \/ rep s r = 1 \/ boss s = BGive k r) /\
  (forall r o, work s r = WBusy o -> inbox s r = [] /\ rep s r = 0).
Proof.
  intros HR H. pose proof (inv_run N R okb n s HR H) as I. split; [|split].
  - intros r. pose proof (i_tok _ _ _ I r) as T. unfold tok, held in T. rewrite app_length in T. lia.
  - intros k Hk Hn r Hr. assert (T : tok s r = 1).
    { pose proof (i_phase _ _ _ I) as P. unfold phase_ok in P. destruct Hk as [E|(x & E)]; rewrite E in P; apply P; auto. }
    unfold tok, held in T. rewrite app_length in T.
    destruct (inbox s r) as [|o q] eqn:Ei; [|left; discriminate].
    destruct (work s r) as [|o| | |o] eqn:Ew; cbn [holds length] in T; try (right; left; exists o; auto; fail); try (right; right; left; reflexivity);
      (destruct (rep s r) as [|[|m]]; [|right; right; right; left; reflexivity|lia]);
      right; right; right; right; destruct Hk as [E|(x & E)]; rewrite E in *; try lia; destruct (Nat.eqb_spec x r); [congruence|lia|congruence|lia].
  - intros r o E. pose proof (i_tok _ _ _ I r) as T. unfold tok, held in T. rewrite app_length, E in T. cbn [holds length] in T.
    destruct (inbox s r); cbn [length] in T; [split; auto; lia|lia].
Qed.
