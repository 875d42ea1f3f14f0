(** The archive cannot be opened: what the ranks do then (C83). *)
From Coq Require Import Lia.
From Verif Require Import Bytes Outcome TarSpec TarModel TarProofs Layout OrderCodec OrderCodecProofs OrderMore Mover Worker WorkerProofs Assemble AssembleProofs Boss BossProofs Spider Args Program ProgramProofs
  EndProofs EndMore Whole Mpi MpiProofs MpiSpec MpiEnd MpiMore.
Local Open Scope nat_scope.

Fixpoint of_list (l : list coll) (e : ending) : prog :=
  match l with
  | [] => PStop e
  | CCast p :: l' => PCast p (of_list l' e)
  | COpen p :: l' => POpen p (of_list l' e)
  | CFinal :: l' => PFinal (of_list l' e)
  end.
(** the program of main when the open fails *)
Definition refused (o : opts) : list act :=
  [ABcast (b "U") (print_int (op_bucket o)); ABcast (b "A") (op_archive o); AOpen (op_archive o) false; ABcast (b "X") (b "bye"); AFinalize].

Section Refuse.
Variables (R : nat) (opens : bytes -> bool) (ev : env) (bucket : Z) (path : bytes).
Hypothesis (HR : 2 <= R) (Hbk : (0 < bucket <= INT_MAX)%Z) (Hpath : no_byte NUL path) (Hopen : opens path = false).
Hypothesis (FU : (zlen (b "U" ++ print_int bucket) + 1 <= INT_MAX)%Z) (FA : (zlen (b "A" ++ path) + 1 <= INT_MAX)%Z).
Let tU := framed (b "U") (print_int bucket).
Let tA := framed (b "A") path.
Let tX := framed (b "X") (b "bye").
Definition L : list coll := [CCast (PLen (zlen tU)); CCast (PText tU); CCast (PLen (zlen tA)); CCast (PText tA); COpen path; CCast (PLen (zlen tX)); CCast (PText tX); CFinal].
Definition v1 : wstate := {| ws_mode := ModeB; ws_bucket := bucket; ws_handle := HNull; ws_base := [] |}.
Definition v2 : wstate := {| ws_mode := ModeB; ws_bucket := bucket; ws_handle := HFailed path; ws_base := [] |}.
Lemma refused_list o : op_bucket o = bucket -> op_archive o = path -> program R (refused o) (Exited 1) = of_list L (Exited 1).
Proof.
  intros E1 E2. unfold refused. rewrite E1, E2. cbn [program]. unfold cast_order. rewrite !frame_ok; auto. unfold framed. vm_compute. discriminate.
Qed.
Inductive at_stage : nat -> wpc -> wstate -> Prop :=
| T0 : at_stage 0 WB wstart
| T1 : at_stage 1 (WBt (zlen tU)) wstart
| T2 : at_stage 2 (WGot tU) wstart
| T2b : at_stage 2 WB v1
| T3 : at_stage 3 (WBt (zlen tA)) v1
| T4 : at_stage 4 (WGot tA) v1
| T4b : at_stage 4 (WOpen path false) v2
| T5 : at_stage 5 WB v2
| T6 : at_stage 6 (WBt (zlen tX)) v2
| T7 : at_stage 7 (WGot tX) v2
| T7b : at_stage 7 (WGone EUB) v2.
Lemma re_U : react opens ev wstart tU = ([EvBucket bucket], (v1, WB)).
Proof. unfold react, tU. rewrite cstr_framed; [|intros [E|[]]; discriminate E|apply print_int_nonul]. unfold wstart. rewrite on_U by (unfold int31; lia). reflexivity. Qed.
Lemma re_A : react opens ev v1 tA = ([], (v2, WOpen path false)).
Proof. unfold react, tA. rewrite cstr_framed; [|intros [E|[]]; discriminate E|exact Hpath]. unfold v1. rewrite on_A, Hopen. reflexivity. Qed.
Lemma re_X : react opens ev v2 tX = ([], (v2, WGone EUB)).
Proof. reflexivity. Qed.
Record Inv (s : msys) (done todo : list coll) : Prop := {
  i_all : done ++ todo = L;
  i_colls : m_colls s = done;
  i_prog : m_prog s = of_list todo (Exited 1);
  i_stat : (m_stat s = BReady /\ todo <> []) \/ exists d c, done = d ++ [c] /\ m_stat s = in_op c;
  i_queue : forall r, m_queue s r = [];
  i_reps : forall r, m_reps s r = [];
  i_seen : forall r, 1 <= r < R -> m_seen s r <= length done;
  i_at : forall r, 1 <= r < R -> at_stage (m_seen s r) (m_pc s r) (m_ws s r) }.
Lemma inv_start : Inv (mstart (of_list L (Exited 1))) [] L.
Proof.
  constructor; auto; cbn [mstart m_stat m_seen m_pc m_ws]; try (intros; cbn; lia).
  - left. split; [reflexivity|discriminate].
  - intros r _. constructor.
Qed.
Lemma len_all done todo : done ++ todo = L -> length done + length todo = 8.
Proof. intros E. rewrite <- app_length, E. reflexivity. Qed.
Lemma joined_7 s done todo r : Inv s done todo -> 1 <= r < R -> joined s r <= 7.
Proof. intros I Hr. pose proof (i_at _ _ _ I r Hr) as A. unfold joined. inversion A; cbn [joining]; lia. Qed.
Lemma in_L s done todo n c : Inv s done todo -> nth_error (m_colls s) n = Some c -> nth_error L n = Some c /\ n < length done.
Proof.
  intros I E. rewrite (i_colls _ _ _ I) in E. assert (n < length done) by (apply nth_error_Some; congruence). split; auto.
  rewrite <- (i_all _ _ _ I), nth_error_app1; auto.
Qed.
Ltac fold_in := cbn [on_coll on_boss on_send on_recv on_log on_seen on_pc on_take on_exec on_reply m_prog m_colls m_stat m_queue m_ws m_pc m_log m_seen m_reps].
Lemma inv_step m s s' done todo : Inv s done todo -> mstep R opens ev m s s' -> exists done' todo', Inv s' done' todo'.
Proof.
  intros I St.
  assert (Enter : forall c k, m_prog s = match c with CCast p => PCast p k | COpen p => POpen p k | CFinal => PFinal k end -> exists done' todo', Inv (on_coll s k (in_op c) c) done' todo').
  { intros c k E. rewrite (i_prog _ _ _ I) in E. destruct todo as [|c' todo]; [destruct c; discriminate E|].
    assert (c' = c /\ k = of_list todo (Exited 1)) as [-> ->] by (destruct c', c; cbn [of_list] in E; try discriminate E; injection E; intros; split; congruence).
    exists (done ++ [c]), todo. constructor; fold_in.
    - rewrite <- app_assoc. exact (i_all _ _ _ I).
    - rewrite (i_colls _ _ _ I). reflexivity.
    - reflexivity.
    - right. exists done, c. auto.
    - exact (i_queue _ _ _ I).
    - exact (i_reps _ _ _ I).
    - intros r Hr. rewrite app_length. pose proof (i_seen _ _ _ I r Hr). lia.
    - exact (i_at _ _ _ I). }
  assert (Back : forall st, m_stat s = st -> st <> BReady -> st <> BFin -> forall s1, s1 = on_boss s (m_prog s) BReady \/ (exists l, s1 = on_log s l) -> exists done' todo', Inv s1 done' todo').
  { intros st Es N1 N2 s1 Hs. exists done, todo. assert (Ht : todo <> []).
    { destruct (i_stat _ _ _ I) as [[E _]|(d & c & E & E2)]; [congruence|]. intros ->. pose proof (i_all _ _ _ I) as X. rewrite app_nil_r in X. rewrite X in E.
      assert (c = CFinal) as -> by (change L with ([CCast (PLen (zlen tU)); CCast (PText tU); CCast (PLen (zlen tA)); CCast (PText tA); COpen path; CCast (PLen (zlen tX)); CCast (PText tX)] ++ [CFinal]) in E; apply app_inj_tail in E; destruct E; congruence).
      cbn in E2. congruence. }
    destruct Hs as [->|(l & ->)]; constructor; fold_in; try apply I; left; auto. }
  assert (Move : forall r pc w n l, 1 <= r < R -> at_stage n pc w -> n <= length done -> n = m_seen s r -> Inv (on_exec s r pc w l) done todo).
  { intros r pc w n l Hr A Hn En. constructor; fold_in; try apply I. intros x Hx. rewrite !upd_get. destruct (Nat.eqb_spec x r) as [->|]; [congruence|apply I; auto]. }
  assert (See : forall r pc l, 1 <= r < R -> at_stage (S (m_seen s r)) pc (m_ws s r) -> S (m_seen s r) <= length done -> Inv (on_seen s r pc l) done todo).
  { intros r pc l Hr A Hn. constructor; fold_in; try apply I.
    - intros x Hx. rewrite upd_get. destruct (Nat.eqb_spec x r) as [->|]; [exact Hn|apply I; auto].
    - intros x Hx. rewrite !upd_get. destruct (Nat.eqb_spec x r) as [->|]; [exact A|apply I; auto]. }
  inversion St; subst.
  - apply (Enter (CCast p) k); auto.
  - apply (Enter (COpen p) k); auto.
  - apply (Enter CFinal k); auto.
  - exfalso. rewrite (i_prog _ _ _ I) in H. destruct todo as [|[]]; discriminate H.
  - exfalso. rewrite (i_reps _ _ _ I) in H1. discriminate H1.
  - exfalso. rewrite (i_reps _ _ _ I) in H1. discriminate H1.
  - apply (Back _ H); auto; discriminate.
  - apply (Back _ H); auto; discriminate.
  - apply (Back _ H); auto; discriminate.
  - apply (Back _ H); auto; discriminate.
  - apply (Back _ H); [discriminate|discriminate|]. right. eexists. reflexivity.
  - exfalso. pose proof (len_all _ _ (i_all _ _ _ I)) as Hl. destruct (i_stat _ _ _ I) as [[E _]|(d & c & E & E2)]; [congruence|]. destruct c; try (rewrite H in E2; discriminate E2).
    assert (todo = []) as ->.
    { pose proof (i_all _ _ _ I) as X. rewrite E in X. destruct d as [|d0 [|d1 [|d2 [|d3 [|d4 [|d5 [|d6 [|d7 d]]]]]]]]; cbn in X; injection X; intros; subst; try discriminate; auto.
      exfalso. destruct d; discriminate. }
    pose proof (H0 1 ltac:(lia)) as J. pose proof (joined_7 _ _ _ 1 I ltac:(lia)). rewrite (i_colls _ _ _ I) in J. cbn [length] in Hl. lia.
  - destruct (in_L _ _ _ _ _ I H1) as [X Hn]. exists done, todo. apply See; auto. pose proof (i_at _ _ _ I r H) as A. rewrite H0 in A.
    inversion A as [Q|Q|Q|Q|Q|Q|Q|Q|Q|Q|Q]; rewrite <- Q in X; cbn in X; assert (n = _) as -> by (injection X; intros Y; symmetry; exact Y); constructor.
  - destruct (in_L _ _ _ _ _ I H1) as [X Hn]. exists done, todo. apply See; auto. pose proof (i_at _ _ _ I r H) as A. rewrite H0 in A.
    inversion A as [Q|Q|Q|Q|Q|Q|Q|Q|Q|Q|Q]; rewrite <- Q in X; cbn in X; assert (t = _) as -> by (injection X; intros Y; symmetry; exact Y); constructor.
  - exfalso. destruct (in_L _ _ _ _ _ I H1) as [X Hn]. pose proof (i_at _ _ _ I r H) as A. rewrite H0 in A.
    inversion A as [Q|Q|Q|Q|Q|Q|Q|Q|Q|Q|Q]; rewrite <- Q in X; cbn in X; injection X as X; eapply H2; symmetry; exact X.
  - exfalso. destruct (in_L _ _ _ _ _ I H1) as [X Hn]. pose proof (i_at _ _ _ I r H) as A. rewrite H0 in A.
    inversion A as [Q|Q|Q|Q|Q|Q|Q|Q|Q|Q|Q]; rewrite <- Q in X; unfold L in X; cbn [nth_error] in X; injection X as X; first [apply (H2 tU); congruence|apply (H2 tA); congruence|apply (H2 tX); congruence].
  - exfalso. pose proof (i_at _ _ _ I r H) as A. rewrite H0 in A. inversion A.
  - exfalso. pose proof (i_at _ _ _ I r H) as A. rewrite H0 in A. inversion A.
  - exfalso. pose proof (i_at _ _ _ I r H) as A. rewrite H0 in A. inversion A.
  - exfalso. pose proof (i_at _ _ _ I r H) as A. rewrite H0 in A. inversion A.
  - exists done, todo. pose proof (i_at _ _ _ I r H) as A. pose proof (i_seen _ _ _ I r H) as Hs. rewrite H0 in A. inversion A as [Q|Q|Q Q1 Q2|Q|Q|Q Q1 Q2|Q|Q|Q|Q Q1 Q2|Q].
    + rewrite <- Q2, <- Q1, re_U in H1. injection H1 as <- <- <-. apply (Move r _ _ 2); auto; [constructor|lia].
    + rewrite <- Q2, <- Q1, re_A in H1. injection H1 as <- <- <-. apply (Move r _ _ 4); auto; [constructor|lia].
    + rewrite <- Q2, <- Q1, re_X in H1. injection H1 as <- <- <-. apply (Move r _ _ 7); auto; [constructor|lia].
  - destruct (in_L _ _ _ _ _ I H1) as [X Hn]. exists done, todo. apply See; auto. pose proof (i_at _ _ _ I r H) as A. rewrite H0 in A.
    inversion A as [Q|Q|Q|Q|Q|Q|Q Q1 Q2|Q|Q|Q|Q]. unfold v2, listen. cbn [ws_mode]. fold v2. constructor.
  - exfalso. destruct (in_L _ _ _ _ _ I H1) as [X Hn]. pose proof (i_at _ _ _ I r H) as A. rewrite H0 in A.
    inversion A as [Q|Q|Q|Q|Q|Q|Q Q1 Q2|Q|Q|Q|Q]. rewrite <- Q in X. cbn in X. injection X as X. apply H2. congruence.
  - exfalso. pose proof (i_at _ _ _ I r H) as A. rewrite H0 in A. inversion A.
  - exfalso. pose proof (i_at _ _ _ I r H) as A. rewrite H0 in A. inversion A.
  - exfalso. pose proof (i_at _ _ _ I r H) as A. rewrite H0 in A. inversion A.
  - exfalso. pose proof (i_at _ _ _ I r H) as A. rewrite H0 in A. inversion A.
  - exfalso. pose proof (i_at _ _ _ I r H) as A. rewrite H0 in A. inversion A.
Qed.
Lemma inv_run n s : mrun R opens ev (of_list L (Exited 1)) n s -> exists done todo, Inv s done todo.
Proof. induction 1 as [|n s s' m H (done & todo & I) St]; [exists [], L; apply inv_start|eapply inv_step; eauto]. Qed.

(** the rank that is behind *)
Lemma behind s : exists r, 1 <= r < R /\ forall x, 1 <= x < R -> joined s r <= joined s x.
Proof.
  assert (G : forall k, 2 <= k -> exists r, 1 <= r < k /\ forall x, 1 <= x < k -> joined s r <= joined s x).
  { induction k as [|k IH]; intros Hk; [lia|]. destruct (Nat.eq_dec k 1) as [->|].
    - exists 1. split; [lia|]. intros x Hx. assert (x = 1) as -> by lia. lia.
    - destruct IH as (r & Hr & Hm); [lia|]. destruct (Nat.le_gt_cases (joined s r) (joined s k)).
      + exists r. split; [lia|]. intros x Hx. destruct (Nat.eq_dec x k) as [->|]; auto. apply Hm. lia.
      + exists k. split; [lia|]. intros x Hx. destruct (Nat.eq_dec x k) as [->|]; auto. specialize (Hm x ltac:(lia)). lia. }
  exact (G R HR).
Qed.
Lemma nth_done s done todo k c : Inv s done todo -> k < length done -> nth_error L k = Some c -> nth_error (m_colls s) k = Some c.
Proof. intros I Hk E. rewrite (i_colls _ _ _ I). rewrite <- (i_all _ _ _ I), nth_error_app1 in E; auto. Qed.
Lemma last_at done todo d c : done ++ todo = L -> done = d ++ [c] -> nth_error L (length done - 1) = Some c.
Proof. intros E ->. rewrite <- E, <- app_assoc, nth_error_app2; rewrite app_length; cbn [length]; [|lia]. replace (_ - length d) with 0 by lia. reflexivity. Qed.
(** rank 0 has a step when every rank is where it is *)
Lemma boss_goes s done todo k : Inv s done todo -> length done = k -> k <= 7 -> (forall x, 1 <= x < R -> k <= joined s x) -> exists s', mstep R opens ev True s s'.
Proof.
  intros I Hk Hk7 Hj. pose proof (len_all _ _ (i_all _ _ _ I)) as Hl.
  destruct (i_stat _ _ _ I) as [[E Ht]|(d & c & Ed & E)].
  - pose proof (i_prog _ _ _ I) as Hp. destruct todo as [|c todo]; [congruence|]. destruct c; cbn [of_list] in Hp; eexists; [apply M_cast|apply M_open|apply M_final]; eauto.
  - pose proof (last_at _ _ _ _ (i_all _ _ _ I) Ed) as X.
    assert (Hc : (exists p, c = CCast p /\ k <> 5) \/ (c = COpen path /\ k = 5)).
    { rewrite Hk in X. assert (Hk1 : 1 <= k) by (rewrite <- Hk, Ed, app_length; cbn [length]; lia).
      destruct k as [|[|[|[|[|[|[|[|k]]]]]]]]; try lia; unfold L in X; cbn [Nat.sub nth_error] in X; injection X as X; subst c; first [right; split; [reflexivity|lia]|left; eexists; split; [reflexivity|lia]]. }
    destruct Hc as [(p & -> & H5)|[-> H5]].
    + exists (on_boss s (m_prog s) BReady). apply M_casted; auto. intros r Hr. rewrite (i_colls _ _ _ I), Hk. specialize (Hj r Hr). pose proof (i_at _ _ _ I r Hr) as A.
      unfold joined in Hj. inversion A; match goal with Q : _ = m_pc s r |- _ => rewrite <- Q in Hj end; cbn [joining] in Hj; lia.
    + eexists. apply (M_opened0 R opens ev s path); auto. intros r Hr. rewrite (i_colls _ _ _ I), Hk. apply Hj, Hr.
Qed.
Lemma refuse_goes s done todo : Inv s done todo -> (exists s', mstep R opens ev True s s') \/ (forall r, 1 <= r < R -> m_pc s r = WGone EUB).
Proof.
  intros I. destruct (behind s) as (r & Hr & Hmin). pose proof (i_at _ _ _ I r Hr) as A. pose proof (i_seen _ _ _ I r Hr) as Hs.
  assert (Got : forall x t, 1 <= x < R -> m_pc s x = WGot t -> exists s', mstep R opens ev True s s').
  { intros x t Hx E. destruct (react opens ev (m_ws s x) t) as [l [w pc]] eqn:Er. eexists. eapply M_exec; eauto. }
  assert (Wait : forall k, m_seen s r = k -> joined s r = k -> k <= 7 -> length done <= k -> exists s', mstep R opens ev True s s').
  { intros k Ek Ej Hk7 Hk. apply (boss_goes s done todo k I); auto; [lia|]. intros x Hx. rewrite <- Ej. apply Hmin, Hx. }
  assert (J : joining (m_pc s r) = false -> joined s r = m_seen s r) by (intros E; unfold joined; rewrite E; lia).
  inversion A as [Q Q1 Q2|Q Q1 Q2|Q Q1 Q2|Q Q1 Q2|Q Q1 Q2|Q Q1 Q2|Q Q1 Q2|Q Q1 Q2|Q Q1 Q2|Q Q1 Q2|Q Q1 Q2]; rewrite <- Q1 in J; cbn [joining] in J; try (specialize (J eq_refl)); symmetry in Q1.
  - left. destruct (Nat.le_gt_cases (length done) 0); [apply (Wait 0); lia|]. eexists. eapply M_blen; eauto. rewrite <- Q. eapply nth_done; [exact I|lia|reflexivity].
  - left. destruct (Nat.le_gt_cases (length done) 1); [apply (Wait 1); lia|]. eexists. eapply M_btext; eauto. rewrite <- Q. eapply nth_done; [exact I|lia|reflexivity].
  - left. eauto.
  - left. destruct (Nat.le_gt_cases (length done) 2); [apply (Wait 2); lia|]. eexists. eapply M_blen; eauto. rewrite <- Q. eapply nth_done; [exact I|lia|reflexivity].
  - left. destruct (Nat.le_gt_cases (length done) 3); [apply (Wait 3); lia|]. eexists. eapply M_btext; eauto. rewrite <- Q. eapply nth_done; [exact I|lia|reflexivity].
  - left. eauto.
  - left. assert (Ej : joined s r = 5) by (unfold joined; rewrite Q1; cbn [joining]; lia). destruct (Nat.le_gt_cases (length done) 4).
    + apply (boss_goes s done todo 4 I); [lia|lia|]. intros x Hx. specialize (Hmin x Hx). lia.
    + eexists. eapply M_opened; eauto; [rewrite <- Q; eapply nth_done; [exact I|lia|reflexivity]|]. intros x Hx. specialize (Hmin x Hx). lia.
  - left. destruct (Nat.le_gt_cases (length done) 5); [apply (Wait 5); lia|]. eexists. eapply M_blen; eauto. rewrite <- Q. eapply nth_done; [exact I|lia|reflexivity].
  - left. destruct (Nat.le_gt_cases (length done) 6); [apply (Wait 6); lia|]. eexists. eapply M_btext; eauto. rewrite <- Q. eapply nth_done; [exact I|lia|reflexivity].
  - left. eauto.
  - assert (Last : forall x, 1 <= x < R -> m_pc s x = WGot tX \/ m_pc s x = WGone EUB).
    { intros x Hx. specialize (Hmin x Hx). pose proof (i_at _ _ _ I x Hx) as B. unfold joined in Hmin at 2.
      inversion B as [P P1 P2|P P1 P2|P P1 P2|P P1 P2|P P1 P2|P P1 P2|P P1 P2|P P1 P2|P P1 P2|P P1 P2|P P1 P2]; rewrite <- P1 in Hmin; cbn [joining] in Hmin; try lia; auto. }
    assert (G : forall k, k <= R -> (exists s', mstep R opens ev True s s') \/ forall x, 1 <= x < k -> m_pc s x = WGone EUB).
    { induction k as [|k IH]; intros Hk; [right; lia|]. destruct IH as [X|X]; [lia|auto|]. destruct (Nat.eq_dec k 0) as [->|]; [right; lia|].
      destruct (Last k ltac:(lia)) as [Y|Y]; [left; eapply Got; [|exact Y]; lia|]. right. intros x Hx. destruct (Nat.eq_dec x k) as [->|]; auto. apply X. lia. }
    exact (G R (le_n R)).
Qed.
Lemma refuse_safe s done todo : Inv s done todo -> (forall r, 1 <= r < R -> m_pc s r <> WBad /\ m_pc s r <> WDone) /\ ~ (m_prog s = PStop (Exited 1) /\ m_stat s = BReady).
Proof.
  intros I. split.
  - intros r Hr. pose proof (i_at _ _ _ I r Hr) as A. inversion A; split; discriminate.
  - intros [E1 E2]. destruct (i_stat _ _ _ I) as [[_ Ht]|(d & c & _ & E)].
    + rewrite (i_prog _ _ _ I) in E1. destruct todo as [|[] todo]; [congruence|discriminate|discriminate|discriminate].
    + rewrite E2 in E. destruct c; discriminate E.
Qed.
End Refuse.

Lemma boss_refused R junk fuel fs sort opens args acts e p : boss_main R junk fuel fs sort opens args = (acts, e) -> In (AOpen p false) acts -> Forall usable args ->
  exists o base, parse_args {| op_bucket := DEFAULT_BUCKET_SIZE; op_maxo := junk; op_archive := [] |} args = Ok (Some (o, [base])) /\
    acts = refused o /\ e = Exited 1 /\ op_archive o = p /\ opens p = false /\ usable p /\ (100000 <= op_bucket o < 2 ^ 64)%Z.
Proof.
  intros H Hin Hu. pose proof (boss_open_eq _ _ _ _ _ _ _ _ _ _ _ H Hin) as Ho. unfold boss_main in H. destruct args as [|a args]; [injection H as <- <-; destruct Hin|].
  destruct (parse_args _ (a :: args)) as [[[o ts]|]|x] eqn:E.
  2:{ injection H as <- <-. destruct Hin as [X|[]]; discriminate X. } 2:{ injection H as <- <-. destruct Hin. }
  destruct (op_archive o) as [|c q] eqn:Eo; [injection H as <- <-; destruct Hin|]. destruct ts as [|base [|? ?]]; try (injection H as <- <-; destruct Hin).
  destruct (plan fuel fs sort base (op_bucket o) (op_maxo o)) as [[bs|]|x] eqn:Ep; try (injection H as <- <-; destruct Hin). rewrite <- Eo in *.
  destruct (opens (op_archive o)) eqn:Eop; injection H as <- <-.
  - exfalso. destruct Hin as [X|[X|[X|[X|Hin]]]]; try discriminate X.
    apply in_app_iff in Hin as [Hin|[X|Hin]]; [apply in_map_iff in Hin as (r & X & _); discriminate X|discriminate X|].
    apply in_app_iff in Hin as [Hin|[X|[]]]; [apply in_map_iff in Hin as (r & X & _); discriminate X|discriminate X].
  - exists o, base. split; auto. split; [reflexivity|]. split; auto. destruct (parse_good _ _ _ _ E) as (A & B & C); auto; [apply usable_nil|vm_compute; split; [discriminate|reflexivity]|].
    assert (op_archive o = p) as <- by (destruct Hin as [X|[X|[X|[X|[X|[]]]]]]; try discriminate X; injection X; auto). split; auto. split; auto. split; auto. split; [|lia].
    unfold plan in Ep. destruct (scan fuel fs base) as [[dirs files]|x]; cbn [bind] in Ep; [|discriminate]. destruct (set_offsets dirs (sort files)) as [d f].
    unfold create_transfer_orders in Ep. destruct (Z.ltb_spec (op_bucket o) 100000); [discriminate|lia].
Qed.
Lemma refuse_lemma R junk fuel fs sort opens args acts e p ev o base : boss_main R junk fuel fs sort opens args = (acts, e) -> In (AOpen p false) acts -> Forall usable args ->
  parse_args {| op_bucket := DEFAULT_BUCKET_SIZE; op_maxo := junk; op_archive := [] |} args = Ok (Some (o, [base])) -> (op_bucket o <= INT_MAX)%Z -> 2 <= R ->
  forall n s, mrun R opens ev (program R acts e) n s ->
  (forall r, 1 <= r < R -> m_pc s r <> WBad /\ m_pc s r <> WDone) /\ ~ (m_prog s = PStop e /\ m_stat s = BReady) /\
  ((exists s', mstep R opens ev True s s') \/ (forall r, 1 <= r < R -> m_pc s r = WGone EUB)).
Proof.
  intros H Hin Hu Hpa Hb HR n s Hrun. destruct (boss_refused _ _ _ _ _ _ _ _ _ _ H Hin Hu) as (o' & base' & Hp' & -> & -> & Ha & Ho & Hup & Hbk).
  assert (o' = o) as -> by congruence. assert (Hb' : (0 < op_bucket o <= INT_MAX)%Z) by lia.
  pose proof (fit_U _ Hbk) as F2. pose proof (fit_letter (b "A") _ eq_refl Hup) as F3. destruct Hup as [U1 _].
  rewrite (refused_list R (op_bucket o) p F2 F3 o eq_refl Ha) in Hrun.
  destruct (inv_run R opens ev (op_bucket o) p HR Hb' U1 Ho n s Hrun) as (done & todo & I).
  destruct (refuse_safe R (op_bucket o) p s done todo I) as [A B]. split; [exact A|]. split; [exact B|].
  exact (refuse_goes R opens ev (op_bucket o) p HR s done todo I).
Qed.
