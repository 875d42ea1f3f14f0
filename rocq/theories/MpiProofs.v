(** Lemmas behind C77-C79: the message-level program refines Boss.v. *)
From Coq Require Import Permutation Lia.
From Verif Require Import Bytes Outcome TarModel Layout OrderCodec OrderCodecProofs Mover Worker WorkerProofs Assemble AssembleProofs
  Boss BossProofs BossMore Spider Args Program TarProofs Mpi.
Local Open Scope nat_scope.

Definition framed (letter text : bytes) : bytes := letter ++ text ++ [NUL].
Definition short_text (t : bytes) : Prop := (zlen (b "C" ++ t) + 1 <= INT_MAX)%Z.
Lemma frame_ok letter text : (zlen (letter ++ text) + 1 <= INT_MAX)%Z -> frame letter text = Ok (zlen (framed letter text), framed letter text).
Proof.
  intros H. unfold frame. destruct (Z.leb_spec (zlen (letter ++ text) + 1) INT_MAX); [|lia]. unfold framed. rewrite !zlen_app in *. do 2 f_equal. change (zlen [NUL]) with 1%Z. lia.
Qed.
Lemma send_ok r letter text k : (zlen (letter ++ text) + 1 <= INT_MAX)%Z ->
  send_order r letter text k = PSend r (PLen (zlen (framed letter text))) (PSend r (PText (framed letter text)) k).
Proof. intros H. unfold send_order. rewrite frame_ok by auto. reflexivity. Qed.
Lemma cast_ok letter text k : (zlen (letter ++ text) + 1 <= INT_MAX)%Z ->
  cast_order letter text k = PCast (PLen (zlen (framed letter text))) (PCast (PText (framed letter text)) k).
Proof. intros H. unfold cast_order. rewrite frame_ok by auto. reflexivity. Qed.

Section Run.
Variables (R : nat) (opens : bytes -> bool) (ev : env) (bucket : Z) (path base : bytes) (bs : list (list order)).
Definition ts : list bytes := map print_bundle bs.
Definition N : nat := length bs.
Hypothesis HR : 1 <= R.
Hypothesis HRmax : (Z.of_nat R <= INT_MAX)%Z.
Hypothesis Hbk : (0 < bucket)%Z.
Hypothesis Hts : Forall short_text ts.
Hypothesis HfU : (zlen (b "U" ++ print_int bucket) + 1 <= INT_MAX)%Z.
Hypothesis HfA : (zlen (b "A" ++ path) + 1 <= INT_MAX)%Z.
Hypothesis HfP : (zlen (b "P" ++ base) + 1 <= INT_MAX)%Z.
Hypothesis Hpath : no_byte NUL path.
Hypothesis Hbase : no_byte NUL base.
Hypothesis Hopen : opens path = true.

Definition tU := framed (b "U") (print_int bucket).
Definition tA := framed (b "A") path.
Definition tN := framed (b "N") (b "individual").
Definition tP := framed (b "P") base.
Definition tX := framed (b "X") (b "shutdown").
Definition tC (o : nat) := framed (b "C") (nth o ts []).

(** ** the program *)
Definition acts_X (i : nat) : list act := map (fun r => ASend r (b "X") (b "shutdown")) (seq i (R - i)) ++ [AFinalize].
Definition acts_P (i : nat) : list act := map (fun r => ASend r (b "P") base) (seq i (R - i)) ++ [APush bs] ++ acts_X 1.
Definition acts_all : list act :=
  [ABcast (b "U") (print_int bucket); ABcast (b "A") path; AOpen path true] ++ [ABcast (b "N") (b "individual")] ++ acts_P 1.
Definition pX (i : nat) : prog := program R (acts_X i) Finished.
Definition pP (i : nat) : prog := program R (acts_P i) Finished.
Definition p_all : prog := program R acts_all Finished.

Lemma seq_head i : i < R -> seq i (R - i) = i :: seq (S i) (R - S i).
Proof. intros H. replace (R - i) with (S (R - S i)) by lia. reflexivity. Qed.
Lemma fit_X : (zlen (b "X" ++ b "shutdown") + 1 <= INT_MAX)%Z.
Proof. vm_compute. discriminate. Qed.
Lemma fit_N : (zlen (b "N" ++ b "individual") + 1 <= INT_MAX)%Z.
Proof. vm_compute. discriminate. Qed.
Lemma pX_next i : i < R -> pX i = PSend i (PLen (zlen tX)) (PSend i (PText tX) (pX (S i))).
Proof. intros H. unfold pX, acts_X. rewrite seq_head by auto. cbn [map app program]. rewrite send_ok by exact fit_X. reflexivity. Qed.
Lemma pX_end i : R <= i -> pX i = PFinal (PStop Finished).
Proof. intros H. unfold pX, acts_X. replace (R - i) with 0 by lia. reflexivity. Qed.
Lemma pP_next i : i < R -> pP i = PSend i (PLen (zlen tP)) (PSend i (PText tP) (pP (S i))).
Proof. intros H. unfold pP, acts_P. rewrite seq_head by auto. cbn [map app program]. rewrite send_ok by exact HfP. reflexivity. Qed.
Lemma pP_end i : R <= i -> pP i = first R N 1 ts (pX 1).
Proof. intros H. unfold pP, acts_P. replace (R - i) with 0 by lia. cbn [seq map app program]. unfold push_out, N, ts. rewrite map_length. reflexivity. Qed.

Definition ops : list coll := [CCast (PLen (zlen tU)); CCast (PText tU); CCast (PLen (zlen tA)); CCast (PText tA); COpen path;
  CCast (PLen (zlen tN)); CCast (PText tN)].
Fixpoint of_ops (l : list coll) (k : prog) : prog :=
  match l with
  | [] => k
  | CCast p :: l' => PCast p (of_ops l' k)
  | COpen p :: l' => POpen p (of_ops l' k)
  | CFinal :: l' => PFinal (of_ops l' k)
  end.
Lemma p_all_eq : p_all = of_ops ops (pP 1).
Proof.
  unfold p_all, acts_all. cbn [app program]. rewrite cast_ok by exact HfU. rewrite cast_ok by exact HfA. rewrite cast_ok by exact fit_N. reflexivity.
Qed.

(** what is left of the program when the boss of Boss.v is in phase [p] *)
Definition rest (p : bphase) : prog :=
  match p with
  | BFirst k => first R N (S k) (skipn k ts) (pX 1)
  | BCollect i => drain (N - i) (pX 1)
  | BFeed n => feed R (skipn n ts) (drain (R - 1) (pX 1))
  | BGive n r => send_order r (b "C") (nth n ts []) (feed R (skipn (S n) ts) (drain (R - 1) (pX 1)))
  | BDrain i => drain (R - i) (pX 1)
  | BEnd => pX 1
  end.
Lemma len_ts : length ts = N.
Proof. unfold ts, N. apply map_length. Qed.
Lemma skip_nth k : k < N -> skipn k ts = nth k ts [] :: skipn (S k) ts.
Proof.
  intros H. rewrite <- len_ts in H. clear -H. revert k H. induction ts as [|t l IH]; intros k H; cbn [length] in H; [lia|].
  destruct k as [|k]; [reflexivity|]. cbn [skipn nth]. rewrite IH by lia. destruct l; reflexivity.
Qed.
Lemma fit_C k : (zlen (b "C" ++ nth k ts []) + 1 <= INT_MAX)%Z.
Proof.
  destruct (Nat.lt_ge_cases k (length ts)) as [H|H].
  - rewrite Forall_forall in Hts. exact (Hts _ (nth_In ts [] H)).
  - rewrite nth_overflow by lia. vm_compute. discriminate.
Qed.
Lemma rest_first k : S k < R -> k < N -> rest (BFirst k) = PSend (S k) (PLen (zlen (tC k))) (PSend (S k) (PText (tC k)) (rest (BFirst (S k)))).
Proof.
  intros H1 H2. unfold rest. rewrite (skip_nth k) by auto. cbn [first]. destruct (Nat.ltb_spec (S k) R); [|lia]. rewrite send_ok by apply fit_C. reflexivity.
Qed.
Lemma rest_first_all k : N <= k -> rest (BFirst k) = rest (BCollect 0).
Proof. intros H. unfold rest. rewrite skipn_all2 by (rewrite len_ts; lia). rewrite Nat.sub_0_r. reflexivity. Qed.
Lemma rest_first_more k : k < N -> R <= S k -> rest (BFirst k) = rest (BFeed k).
Proof.
  intros H1 H2. unfold rest. rewrite (skip_nth k) by auto. cbn [first]. destruct (Nat.ltb_spec (S k) R); [lia|]. reflexivity.
Qed.
Lemma rest_feed_end n : N <= n -> rest (BFeed n) = rest (BDrain 1).
Proof. intros H. unfold rest. rewrite skipn_all2 by (rewrite len_ts; lia). reflexivity. Qed.
Lemma rest_collect_end i : N <= i -> rest (BCollect i) = rest BEnd.
Proof. intros H. unfold rest. replace (N - i) with 0 by lia. reflexivity. Qed.
Lemma rest_drain_end i : R <= i -> rest (BDrain i) = rest BEnd.
Proof. intros H. unfold rest. replace (R - i) with 0 by lia. reflexivity. Qed.
Lemma rest_give n r : rest (BGive n r) = PSend r (PLen (zlen (tC n))) (PSend r (PText (tC n)) (rest (BFeed (S n)))).
Proof. unfold rest at 1. rewrite send_ok by apply fit_C. reflexivity. Qed.
Lemma rest_collect i : i < N -> rest (BCollect i) = PRecv (fun _ => rest (BCollect (S i))).
Proof. intros H. unfold rest. replace (N - i) with (S (N - S i)) by lia. reflexivity. Qed.
Lemma rest_drain i : i < R -> rest (BDrain i) = PRecv (fun _ => rest (BDrain (S i))).
Proof. intros H. unfold rest. replace (R - i) with (S (R - S i)) by lia. reflexivity. Qed.
Lemma rest_feed n : n < N -> exists k, rest (BFeed n) = PRecv k /\ forall r, 1 <= r < R -> k (reply_of r) = rest (BGive n r).
Proof.
  intros H. unfold rest. rewrite (skip_nth n) by auto. cbn [feed]. eexists. split; [reflexivity|]. intros r Hr. cbv beta.
  unfold reply_of. replace (cstr (print_int (Z.of_nat r) ++ [NUL])) with (print_int (Z.of_nat r)) by (symmetry; apply cstr_app_nul, print_int_nonul).
  rewrite stoi_print_int by (unfold INT_MIN, INT_MAX in *; lia). destruct (Z.leb_spec 0 (Z.of_nat r)); [|lia]. destruct (Z.ltb_spec (Z.of_nat r) (Z.of_nat R)); [|lia].
  cbn [andb]. rewrite Nat2Z.id. reflexivity.
Qed.

(** ** workers *)
Definition w1 : wstate := {| ws_mode := ModeB; ws_bucket := bucket; ws_handle := HNull; ws_base := [] |}.
Definition w2 : wstate := {| ws_mode := ModeB; ws_bucket := bucket; ws_handle := HOpen path; ws_base := [] |}.
Definition w3 : wstate := {| ws_mode := ModeN; ws_bucket := bucket; ws_handle := HOpen path; ws_base := [] |}.
Definition w4 : wstate := ready bucket path base.

(** before the base path arrives: collective calls returned from, place, state *)
Inductive stage : nat -> wpc -> wstate -> Prop :=
| St0 : stage 0 WB wstart
| St1 : stage 1 (WBt (zlen tU)) wstart
| St2 : stage 2 (WGot tU) wstart
| St2d e : (INT_MAX < bucket)%Z -> stage 2 (WGone e) wstart
| St2' : stage 2 WB w1
| St3 : stage 3 (WBt (zlen tA)) w1
| St4 : stage 4 (WGot tA) w1
| St4o : stage 4 (WOpen path true) w2
| St5 : stage 5 WB w2
| St6 : stage 6 (WBt (zlen tN)) w2
| St7 : stage 7 (WGot tN) w2
| St8 : stage 7 WN w3
| St9 n : stage 7 (WNt n) w3.

Definition tail (c : sys) (r : nat) (sx : bool) : list bytes := map tC (inbox c r) ++ if sx then [tX] else [].
Definition reps_of (c : sys) (r : nat) : list bytes := repeat (reply_of r) (rep c r).

(** rank r against the rank of Boss.v; [sp], [sx]: the boss has begun to send it
    the base path, the shutdown; the last argument: the messages still to come
    to r of those the boss has begun to send *)
Inductive wrel (c : sys) (r : nat) (sp sx : bool) : wpc -> wstate -> nat -> list bytes -> list bytes -> Prop :=
| R_stage k pc w : stage k pc w -> work c r = WIdle -> rep c r = 0 ->
    wrel c r sp sx pc w k (reps_of c r) ((if sp then [tP] else []) ++ tail c r sx)
| R_gotP : sp = true -> work c r = WIdle -> rep c r = 0 -> wrel c r sp sx (WGot tP) w3 7 (reps_of c r) (tail c r sx)
| R_idle pc : sp = true -> (pc = WN \/ exists n, pc = WNt n) -> work c r = WIdle -> wrel c r sp sx pc w4 7 (reps_of c r) (tail c r sx)
| R_busy o : sp = true -> work c r = WBusy o -> wrel c r sp sx (WGot (tC o)) w4 7 (reps_of c r) (tail c r sx)
| R_ans : sp = true -> work c r = WPost -> wrel c r sp sx WAns w4 7 (reps_of c r) (tail c r sx)
| R_in : sp = true -> work c r = WWait -> wrel c r sp sx WIn w4 7 (reps_of c r) (tail c r sx)
| R_dead o e : sp = true -> work c r = WDead o -> wrel c r sp sx (WGone e) w4 7 (reps_of c r) (tail c r sx)
| R_gotX : sp = true -> sx = true -> inbox c r = [] -> wrel c r sp sx (WGot tX) w4 7 (reps_of c r) []
| R_fin : sp = true -> sx = true -> inbox c r = [] -> wrel c r sp sx WFin w4 7 (reps_of c r) []
| R_done : sp = true -> sx = true -> inbox c r = [] -> wrel c r sp sx WDone w4 8 (reps_of c r) [].

Ltac wr := first
  [ solve [apply R_stage; first [assumption | congruence]]
  | solve [apply R_gotP; first [assumption | congruence]]
  | solve [apply R_idle; first [assumption | congruence]]
  | solve [apply R_busy; first [assumption | congruence]]
  | solve [apply R_ans; first [assumption | congruence]]
  | solve [apply R_in; first [assumption | congruence]]
  | solve [eapply R_dead; first [eassumption | reflexivity | etransitivity; [eassumption|eassumption]]]
  | solve [apply R_gotX; first [assumption | congruence]]
  | solve [apply R_fin; first [assumption | congruence]]
  | solve [apply R_done; first [assumption | congruence]] ].
Definition agree_at (c c' : sys) (r : nat) : Prop := inbox c' r = inbox c r /\ work c' r = work c r /\ rep c' r = rep c r.
Lemma wrel_ext c c' r sp sx pc w k rp pd : agree_at c c' r -> wrel c r sp sx pc w k rp pd -> wrel c' r sp sx pc w k rp pd.
Proof.
  intros (E1 & E2 & E3) H.
  assert (Er : reps_of c r = reps_of c' r) by (unfold reps_of; rewrite E3; reflexivity).
  assert (Et : tail c r sx = tail c' r sx) by (unfold tail; rewrite E1; reflexivity).
  inversion H; subst; rewrite Er; try rewrite Et; wr.
Qed.
Lemma wrel_empty c r sp sx pc w k rp pd : wrel c r sp sx pc w k rp pd -> pd = [] -> inbox c r = [].
Proof.
  assert (T : tail c r sx = [] -> inbox c r = []).
  { unfold tail. intros H. apply app_eq_nil in H. destruct H as [H _]. destruct (inbox c r); [auto|discriminate]. }
  intros H. inversion H; subst; intros E; auto. apply app_eq_nil in E. apply T, E.
Qed.
Lemma wrel_reps c r sp sx pc w k rp pd : wrel c r sp sx pc w k rp pd -> rp = reps_of c r.
Proof. intros H. inversion H; auto. Qed.

(** a message begun: the base path, an order, the shutdown *)
Lemma wrel_P c r pc w k rp pd : wrel c r false false pc w k rp pd -> inbox c r = [] -> pd = [] /\ wrel c r true false pc w k rp (pd ++ [tP]).
Proof.
  intros H E. assert (T : tail c r false = []) by (unfold tail; rewrite E; reflexivity).
  inversion H; subst; try discriminate. rewrite T in *. split; [reflexivity|].
  cbn [app]. replace [tP] with ((if true then [tP] else []) ++ tail c r false) by (rewrite T; reflexivity). constructor; auto.
Qed.
Lemma wrel_C c c' r sp o pc w k rp pd : inbox c' r = inbox c r ++ [o] -> work c' r = work c r -> rep c' r = rep c r ->
  wrel c r sp false pc w k rp pd -> wrel c' r sp false pc w k rp (pd ++ [tC o]).
Proof.
  intros E1 E2 E3 H.
  assert (Er : reps_of c r = reps_of c' r) by (unfold reps_of; rewrite E3; reflexivity).
  assert (Et : tail c r false ++ [tC o] = tail c' r false).
  { unfold tail. rewrite E1, map_app, !app_nil_r. reflexivity. }
  inversion H; subst; try discriminate; rewrite Er; [rewrite <- app_assoc|..]; rewrite Et; wr.
Qed.
Lemma wrel_X c r pc w k rp pd : wrel c r true false pc w k rp pd -> wrel c r true true pc w k rp (pd ++ [tX]).
Proof.
  intros H. assert (Et : tail c r false ++ [tX] = tail c r true) by (unfold tail; rewrite app_nil_r; reflexivity).
  inversion H; subst; try discriminate; [rewrite <- app_assoc|..]; rewrite Et; wr.
Qed.
Lemma wrel_recv c c' r sp sx pc w k rp pd : inbox c' r = inbox c r -> work c' r = work c r -> rep c' r = rep c r - 1 -> 0 < rep c r ->
  wrel c r sp sx pc w k rp pd -> exists q, rp = reply_of r :: q /\ wrel c' r sp sx pc w k q pd.
Proof.
  intros E1 E2 E3 Hp H. assert (Er : reps_of c r = reply_of r :: reps_of c' r).
  { unfold reps_of. rewrite E3. destruct (rep c r) as [|x]; [lia|]. cbn [repeat]. rewrite Nat.sub_succ, Nat.sub_0_r. reflexivity. }
  assert (Et : tail c r sx = tail c' r sx) by (unfold tail; rewrite E1; reflexivity).
  exists (reps_of c' r). split; [rewrite <- Er; eapply wrel_reps; eauto|].
  inversion H; subst; try lia; try rewrite Et; wr.
Qed.

(** ** the messages on the way to a rank *)
Definition flat (l : list bytes) : list packet := flat_map (fun t => [PLen (zlen t); PText t]) l.
Definition pre (pc : wpc) : list packet := match pc with WNt n => [PLen n] | _ => [] end.
Definition post (p : prog) (r : nat) : list packet :=
  match p with PSend r' (PText t) _ => if Nat.eqb r' r then [PText t] else [] | _ => [] end.
Lemma flat_app x y : flat (x ++ y) = flat x ++ flat y.
Proof. apply flat_map_app. Qed.
Lemma flat_length l : length (flat l) = 2 * length l.
Proof. induction l as [|t l IH]; cbn [flat flat_map app length] in *; [reflexivity|]. unfold flat in IH. rewrite IH. lia. Qed.
Lemma flat_nil l : flat l = [] -> l = [].
Proof. destruct l; [auto|discriminate]. Qed.
Lemma pre_only pc l : pre pc = flat l -> l = [].
Proof. intros H. apply (f_equal (@length packet)) in H. rewrite flat_length in H. destruct l; auto. cbn [length] in H. destruct pc; cbn [pre length] in H; lia. Qed.

(** ** rank 0 *)
Definition sending (st : bstat) : Prop := st = BReady \/ exists r, 1 <= r < R /\ st = BSend r.
Definition in_op (c : coll) : bstat := match c with CCast _ => BCast | COpen p => BOpen p | CFinal => BFin end.
Definition fresh (c : sys) : Prop := boss c = BFirst 0 /\ blocked c = None.
Inductive bpos (c : sys) : prog -> bstat -> list coll -> nat -> nat -> Prop :=
| P_setup l l' st : ops = l ++ l' -> (st = BReady \/ exists x, st = in_op x /\ l <> [] /\ x = last l CFinal) -> fresh c ->
    bpos c (of_ops l' (pP 1)) st l 1 1
| P_P i st : 1 <= i <= R -> sending st -> fresh c -> bpos c (pP i) st ops i 1
| P_Pmid i st : 1 <= i < R -> sending st -> fresh c -> bpos c (PSend i (PText tP) (pP (S i))) st ops (S i) 1
| P_push st : (st = BReady /\ blocked c = None \/
      exists r, 1 <= r < R /\ st = BSend r /\ blocked c = match inbox c r with [] => None | _ => Some r end) ->
    bpos c (rest (boss c)) st ops R 1
| P_mid r o st : 1 <= r < R -> sending st -> blocked c = Some r -> inbox c r = [o] ->
    bpos c (PSend r (PText (tC o)) (rest (boss c))) st ops R 1
| P_X i st : 1 <= i <= R -> sending st -> boss c = BEnd -> blocked c = None -> bpos c (pX i) st ops R i
| P_Xmid i st : 1 <= i < R -> sending st -> boss c = BEnd -> blocked c = None -> bpos c (PSend i (PText tX) (pX (S i))) st ops R (S i)
| P_fin st : st = BFin \/ st = BReady -> boss c = BEnd -> blocked c = None -> bpos c (PStop Finished) st (ops ++ [CFinal]) R R.

Lemma bpos_colls c p st cs np nx : bpos c p st cs np nx -> exists x, cs ++ x = ops ++ [CFinal].
Proof.
  intros H. inversion H; subst; try (exists [CFinal]; reflexivity).
  - exists (l' ++ [CFinal]). rewrite app_assoc. congruence.
  - exists []. apply app_nil_r.
Qed.
Lemma bpos_nth c p st cs np nx i x : bpos c p st cs np nx -> nth_error cs i = Some x -> nth_error (ops ++ [CFinal]) i = Some x.
Proof.
  intros H E. destruct (bpos_colls _ _ _ _ _ _ H) as (y & <-). rewrite nth_error_app1; auto. apply nth_error_Some. congruence.
Qed.
Lemma bpos_ext c c' p st cs np nx : boss c' = boss c -> blocked c' = blocked c -> (forall r, inbox c' r = inbox c r) ->
  bpos c p st cs np nx -> bpos c' p st cs np nx.
Proof.
  intros E1 E2 E3 H. assert (Hf : fresh c -> fresh c') by (unfold fresh; rewrite E1, E2; auto).
  inversion H; subst; try (constructor; auto; congruence).
  - rewrite <- E1. constructor. destruct H0 as [[A B]|(r & A & B & C)]; [left; split; congruence|right; exists r; split; auto; split; auto; rewrite E3, E2; auto].
  - rewrite <- E1. constructor; auto; congruence.
Qed.
(** an order was received at [r] *)
Lemma bpos_taken c c' r o p st cs np nx : boss c' = boss c -> blocked c' = unblock (blocked c) r -> inbox c r = [o] -> inbox c' r = [] ->
  (forall x, x <> r -> inbox c' x = inbox c x) -> (forall t k, p <> PSend r (PText t) k) ->
  ~ fresh c -> bpos c p st cs np nx -> bpos c' p st cs np nx.
Proof.
  intros E1 E2 E3 E4 E5 Hm Hnf H.
  inversion H; subst; try (exfalso; auto; fail).
  - rewrite <- E1. constructor. destruct H0 as [[A B]|(x & A & B & C)].
    + left. split; auto. rewrite E2, B. reflexivity.
    + right. exists x. split; auto. split; auto. rewrite E2. destruct (Nat.eq_dec x r) as [->|Hx].
      * rewrite C, E3, E4. cbn [unblock]. rewrite Nat.eqb_refl. reflexivity.
      * rewrite C, E5 by auto. destruct (inbox c x); cbn [unblock]; auto. destruct (Nat.eqb_spec x r); [contradiction|reflexivity].
  - assert (r0 <> r) by (intros ->; eapply Hm; reflexivity).
    rewrite <- E1. constructor; auto; [|rewrite E5; auto]. rewrite E2, H2. cbn [unblock]. destruct (Nat.eqb_spec r0 r); [contradiction|reflexivity].
  - constructor; auto; try congruence. rewrite E2, H3. reflexivity.
  - constructor; auto; try congruence. rewrite E2, H3. reflexivity.
  - constructor; auto; try congruence. rewrite E2, H2. reflexivity.
Qed.

(** ** phases of Boss.v that need no message are passed *)
Definition jobw (o : nat) : option wr := jobs ev bucket path base bs o.
Definition okb (o : nat) : bool := succeeds (jobw o).
Definition like (c c' : sys) : Prop := (forall r, agree_at c c' r) /\ log c' = log c.
Lemma like_refl c : like c c.
Proof. split; auto. intros r. repeat split. Qed.
Lemma like_trans c c1 c2 : like c c1 -> like c1 c2 -> like c c2.
Proof.
  intros [A B] [C D]. split; [|congruence]. intros r. destruct (A r) as (A1 & A2 & A3), (C r) as (C1 & C2 & C3). repeat split; congruence.
Qed.
Definition normal (p : bphase) : Prop :=
  match p with
  | BFirst k => S k < R /\ k < N | BCollect i => i < N | BFeed n => n < N | BGive _ _ => True | BDrain i => i < R | BEnd => False
  end.
Definition moved (c c' : sys) (ph : bphase) : Prop :=
  boss c' = ph /\ blocked c' = None /\ like c c' /\ rest ph = rest (boss c).
Lemma hop c n ph m : run N R okb n c -> blocked c = None -> step N R okb m c (set_boss c ph None (inbox c) (rep c)) -> rest ph = rest (boss c) ->
  exists n' c', run N R okb n' c' /\ moved c c' ph.
Proof.
  intros Hr Hb Hs He. exists (S n), (set_boss c ph None (inbox c) (rep c)). split; [econstructor; eauto|].
  unfold moved. split; [reflexivity|]. split; [reflexivity|]. split; auto. split; [|reflexivity]. intros r. repeat split.
Qed.
Lemma moved_on c c' ph c2 ph2 : moved c c' ph -> moved c' c2 ph2 -> moved c c2 ph2.
Proof. intros (A & B & C & D) (A2 & B2 & C2 & D2). repeat split; auto; try (apply (like_trans _ _ _ C C2)). congruence. Qed.
Lemma norm_collect c n i : run N R okb n c -> blocked c = None -> boss c = BCollect i ->
  exists n' c', run N R okb n' c' /\ moved c c' (boss c') /\ (normal (boss c') \/ boss c' = BEnd).
Proof.
  intros Hr Hb E. destruct (Nat.lt_ge_cases i N) as [Hi|Hi].
  - exists n, c. split; auto. split; [repeat split; auto|]. left. rewrite E. exact Hi.
  - destruct (hop c n BEnd True Hr Hb) as (n' & c' & H1 & H2); [apply S_collect_end with (i := i); auto|rewrite E; symmetry; apply rest_collect_end; auto|].
    exists n', c'. destruct H2 as (A & B & C & D). split; auto. rewrite A. split; [repeat split; auto; apply C|auto].
Qed.
Lemma norm_drain c n i : run N R okb n c -> blocked c = None -> boss c = BDrain i ->
  exists n' c', run N R okb n' c' /\ moved c c' (boss c') /\ (normal (boss c') \/ boss c' = BEnd).
Proof.
  intros Hr Hb E. destruct (Nat.lt_ge_cases i R) as [Hi|Hi].
  - exists n, c. split; auto. split; [repeat split; auto|]. left. rewrite E. exact Hi.
  - destruct (hop c n BEnd True Hr Hb) as (n' & c' & H1 & H2); [apply S_drain_end with (i := i); auto|rewrite E; symmetry; apply rest_drain_end; auto|].
    exists n', c'. destruct H2 as (A & B & C & D). split; auto. rewrite A. split; [repeat split; auto; apply C|auto].
Qed.
Lemma norm_feed c n i : run N R okb n c -> blocked c = None -> boss c = BFeed i ->
  exists n' c', run N R okb n' c' /\ moved c c' (boss c') /\ (normal (boss c') \/ boss c' = BEnd).
Proof.
  intros Hr Hb E. destruct (Nat.lt_ge_cases i N) as [Hi|Hi].
  - exists n, c. split; auto. split; [repeat split; auto|]. left. rewrite E. exact Hi.
  - destruct (hop c n (BDrain 1) True Hr Hb) as (n' & c' & H1 & H2); [apply S_feed_end with (n := i); auto|rewrite E; symmetry; apply rest_feed_end; auto|].
    destruct (norm_drain c' n' 1 H1) as (n2 & c2 & H3 & H4 & H5); [apply H2|apply H2|]. exists n2, c2. split; auto. split; auto. eapply moved_on; eauto.
Qed.
Lemma norm c n : run N R okb n c -> blocked c = None ->
  exists n' c', run N R okb n' c' /\ moved c c' (boss c') /\ (normal (boss c') \/ boss c' = BEnd).
Proof.
  intros Hr Hb. destruct (boss c) as [k|i|i|i r|i|] eqn:E.
  - destruct (Nat.lt_ge_cases k N) as [Hk|Hk].
    + destruct (Nat.lt_ge_cases (S k) R) as [Hk'|Hk'].
      * exists n, c. split; auto. split; [repeat split; auto|]. left. rewrite E. split; auto.
      * destruct (hop c n (BFeed k) True Hr Hb) as (n' & c' & H1 & H2); [apply S_first_more with (k := k); auto; lia|rewrite E; symmetry; apply rest_first_more; auto|].
        destruct (norm_feed c' n' k H1) as (n2 & c2 & H3 & H4 & H5); [apply H2|apply H2|]. exists n2, c2. split; auto. split; auto. eapply moved_on; eauto.
    + destruct (hop c n (BCollect 0) True Hr Hb) as (n' & c' & H1 & H2); [apply S_first_all with (k := k); auto; lia|rewrite E; symmetry; apply rest_first_all; auto|].
      destruct (norm_collect c' n' 0 H1) as (n2 & c2 & H3 & H4 & H5); [apply H2|apply H2|]. exists n2, c2. split; auto. split; auto. eapply moved_on; eauto.
  - eapply norm_collect; eauto.
  - eapply norm_feed; eauto.
  - exists n, c. split; auto. split; [repeat split; auto|]. left. rewrite E. exact I.
  - eapply norm_drain; eauto.
  - exists n, c. split; auto. split; [repeat split; auto|]. auto.
Qed.

(** where rank 0 is when it is about to enter a send, a receive or Finalize *)
Definition busy_prog (p : prog) : Prop := match p with PSend _ (PLen _) _ | PRecv _ | PFinal _ => True | _ => False end.
Lemma rest_busy ph : busy_prog (rest ph).
Proof.
  assert (X : busy_prog (pX 1)).
  { destruct (Nat.lt_ge_cases 1 R); [rewrite pX_next by auto|rewrite pX_end by auto]; exact I. }
  assert (D : forall k, busy_prog (drain k (pX 1))) by (intros [|k]; [exact X|exact I]).
  assert (F : forall l k, busy_prog k -> busy_prog (feed R l k)) by (intros [|t l] k Hk; [exact Hk|exact I]).
  destruct ph as [k|i|i|i r|i|]; auto.
  - destruct (Nat.lt_ge_cases k N) as [H|H]; [|rewrite rest_first_all by auto; apply D].
    destruct (Nat.lt_ge_cases (S k) R); [rewrite rest_first by auto; exact I|rewrite rest_first_more by auto; apply F, D].
  - apply D.
  - apply F, D.
  - rewrite rest_give. exact I.
  - apply D.
Qed.
Lemma pX_busy i : busy_prog (pX i).
Proof. destruct (Nat.lt_ge_cases i R); [rewrite pX_next by auto|rewrite pX_end by auto]; exact I. Qed.
Lemma pP_busy i : busy_prog (pP i).
Proof. destruct (Nat.lt_ge_cases i R); [rewrite pP_next by auto; exact I|rewrite pP_end by auto]. exact (rest_busy (BFirst 0)). Qed.
Lemma busy_post p r : busy_prog p -> post p r = [].
Proof. destruct p as [| |x [n|t] k| | |]; cbn; tauto. Qed.

Definition settled (c : sys) (p : prog) (np nx : nat) : Prop :=
  (exists i, 1 <= i < R /\ p = pP i /\ fresh c /\ np = i /\ nx = 1) \/
  (p = rest (boss c) /\ normal (boss c) /\ np = R /\ nx = 1) \/
  (exists i, 1 <= i <= R /\ p = pX i /\ boss c = BEnd /\ np = R /\ nx = i).
Lemma settle c n p cs np nx : run N R okb n c -> bpos c p BReady cs np nx -> busy_prog p ->
  exists n' c', run N R okb n' c' /\ like c c' /\ blocked c' = None /\ cs = ops /\ settled c' p np nx.
Proof.
  intros Hr Hp Hk.
  assert (Push : blocked c = None -> exists n' c', run N R okb n' c' /\ like c c' /\ blocked c' = None /\ settled c' (rest (boss c)) R 1).
  { intros Hb. destruct (norm c n Hr Hb) as (n' & c' & H1 & (_ & H3 & H4 & H5) & H6). exists n', c'. split; auto. split; auto. split; auto.
    rewrite <- H5. destruct H6 as [H6|H6]; [right; left; auto|right; right]. exists 1. rewrite H6. repeat split; auto. }
  assert (Pth : forall i, 1 <= i <= R -> fresh c -> exists n' c', run N R okb n' c' /\ like c c' /\ blocked c' = None /\ settled c' (pP i) i 1).
  { intros i Hi [F1 F2]. destruct (Nat.eq_dec i R) as [->|Hne].
    - destruct (Push F2) as (n' & c' & H1 & H2 & H3 & H4). exists n', c'. split; auto. split; auto. split; auto.
      rewrite pP_end by auto. rewrite F1 in H4. exact H4.
    - exists n, c. split; auto. split; [apply like_refl|]. split; auto. left. exists i. repeat split; auto; lia. }
  inversion Hp as [l l' st E1 E2 E3|i st E1 E2 E3|i st E1 E2 E3|st E1|r o st E1 E2 E3 E4|i st E1 E2 E3 E4|i st E1 E2 E3 E4|st E1 E2 E3]; subst; try contradiction.
  - destruct l' as [|x l']; [|destruct x; [contradiction|contradiction|]].
    + cbn [of_ops]. destruct (Pth 1) as (n' & c' & H1 & H2 & H3 & H4); auto. exists n', c'. rewrite app_nil_r in E1. auto.
    + exfalso. assert (I : In CFinal ops) by (rewrite E1; apply in_app_iff; right; left; reflexivity). unfold ops in I. cbn [In] in I. intuition discriminate.
  - destruct (Pth np) as (n' & c' & H1 & H2 & H3 & H4); auto. exists n', c'. auto.
  - destruct Push as (n' & c' & H1 & H2 & H3 & H4); [destruct E1 as [[_ E]|(r & _ & E & _)]; [auto|discriminate]|]. exists n', c'. auto.
  - exists n, c. split; auto. split; [apply like_refl|]. split; auto. split; auto. right. right. exists nx. repeat split; auto; lia.
Qed.

(** ** what a worker does with each message *)
Lemma cstr_framed l t : no_byte NUL l -> no_byte NUL t -> cstr (framed l t) = l ++ t.
Proof. intros Hl Ht. unfold framed. rewrite app_assoc. apply cstr_app_nul. apply no_byte_app. auto. Qed.
Ltac nonul := let H := fresh in intros H; cbn in H; intuition discriminate.
Lemma react_U : (bucket <= INT_MAX)%Z -> react opens ev wstart tU = ([EvBucket bucket], (w1, WB)).
Proof.
  intros H. unfold react, tU. rewrite cstr_framed; [|nonul|apply print_int_nonul]. unfold wstart. rewrite on_U by (unfold int31; lia). reflexivity.
Qed.
Lemma react_U_over : (INT_MAX < bucket)%Z -> react opens ev wstart tU = ([], (wstart, WGone EThrow)).
Proof.
  intros H. unfold react, tU. rewrite cstr_framed; [|nonul|apply print_int_nonul]. unfold on_message, wstart. cbn [ws_mode]. unfold on_broadcast.
  change (letter_of (b "U" ++ print_int bucket)) with (b "U"). change (rest_of (b "U" ++ print_int bucket)) with (print_int bucket).
  change (bytes_eqb (b "U") (b "A")) with false. change (bytes_eqb (b "U") (b "U")) with true. cbn match.
  rewrite get_stoi_over by lia. reflexivity.
Qed.
Lemma react_A : react opens ev w1 tA = ([], (w2, WOpen path true)).
Proof. unfold react, tA. rewrite cstr_framed; [|nonul|exact Hpath]. unfold w1. rewrite on_A, Hopen. reflexivity. Qed.
Lemma react_N : react opens ev w2 tN = ([], (w3, WN)).
Proof. unfold react, tN. rewrite cstr_framed; [|nonul|nonul]. unfold w2. rewrite on_N. reflexivity. Qed.
Lemma react_P : react opens ev w3 tP = ([EvBase base], (w4, WN)).
Proof. unfold react, tP. rewrite cstr_framed; [|nonul|exact Hbase]. unfold w3. rewrite on_P. reflexivity. Qed.
Lemma react_X : react opens ev w4 tX = ([], (w4, WFin)).
Proof. unfold react, tX. rewrite cstr_framed; [|nonul|nonul]. unfold w4, ready. rewrite on_X. reflexivity. Qed.
Lemma nth_ts o : nth o ts [] = print_bundle (nth o bs []).
Proof. unfold ts. exact (map_nth print_bundle bs [] o). Qed.
Lemma jobw_eq o : jobw o = job ev w4 (cstr (tC o)).
Proof.
  unfold jobw. rewrite jobs_eq. unfold tC. pose proof (fit_C o) as H. rewrite nth_ts in *.
  unfold deliver. rewrite frame_ok by exact H. reflexivity.
Qed.
Lemma react_C o : (exists w, jobw o = Some w /\ react opens ev w4 (tC o) = ([EvWrite path w], (w4, WAns))) \/
  (jobw o = None /\ exists e, react opens ev w4 (tC o) = ([], (w4, WGone e))).
Proof.
  rewrite jobw_eq. unfold react, job. assert (E : exists t, cstr (tC o) = b "C" ++ t) by (eexists; reflexivity). destruct E as (t & ->).
  unfold w4. rewrite !on_C_eq. destruct (Z.eqb_spec bucket 0); [lia|]. destruct (parse_bundle t) as [os|e]; cbn [bind]; [|right; eauto].
  destruct (total_size os) as [z|e]; cbn [bind]; [|right; eauto]. destruct (order_n_filename os 0) as [z'|e]; cbn [bind]; [|right; eauto].
  destruct (move_data_Create ev base bucket os) as [w|e]; cbn [bind]; [|right; eauto]. left. exists w. split; reflexivity.
Qed.
Lemma okb_some o w : jobw o = Some w -> okb o = true.
Proof. unfold okb. intros ->. reflexivity. Qed.
Lemma okb_none o : jobw o = None -> okb o = false.
Proof. unfold okb. intros ->. reflexivity. Qed.

(** ** the relation *)
Definition is_write (e : event) : bool := match e with EvWrite _ _ => true | _ => false end.
Definition wlog (l : list (nat * nat)) : list (nat * event) :=
  flat_map (fun ro => match jobw (snd ro) with Some w => [(fst ro, EvWrite path w)] | None => [] end) l.
Definition mild (re : nat * event) : Prop :=
  match snd re with EvOpen p ok => p = path /\ ok = true | EvWrite p _ => p = path | EvBucket _ | EvBase _ => True | _ => False end.
Definition wside (s : msys) (c : sys) (np nx : nat) (pend : nat -> list bytes) : Prop :=
  (forall r, 1 <= r < R -> wrel c r (Nat.ltb r np) (Nat.ltb r nx) (m_pc s r) (m_ws s r) (m_seen s r) (m_reps s r) (pend r)) /\
  (forall r, 1 <= r < R -> pre (m_pc s r) ++ m_queue s r ++ post (m_prog s) r = flat (pend r)) /\
  (forall r, ~ (1 <= r < R) -> m_reps s r = []).
Definition lside (s : msys) (c : sys) : Prop := filter (fun re => is_write (snd re)) (m_log s) = wlog (log c) /\ Forall mild (m_log s).
Definition Rel (s : msys) : Prop := exists c n np nx pend,
  run N R okb n c /\ bpos c (m_prog s) (m_stat s) (m_colls s) np nx /\ wside s c np nx pend /\ lside s c.

Lemma wside_like s c c' np nx pend : like c c' -> wside s c np nx pend -> wside s c' np nx pend.
Proof. intros [L _] (A & B & C). split; [|split; auto]. intros r Hr. eapply wrel_ext; [apply L|auto]. Qed.
Lemma lside_like s c c' : like c c' -> lside s c -> lside s c'.
Proof. intros [_ L] [A B]. split; auto. rewrite L. exact A. Qed.

(** ** steps of rank 0 *)
(** the worker side when only rank 0's program and status change *)
Lemma wside_boss s s' c np nx pend : m_queue s' = m_queue s -> m_pc s' = m_pc s -> m_ws s' = m_ws s -> m_seen s' = m_seen s -> m_reps s' = m_reps s ->
  (forall r, post (m_prog s') r = post (m_prog s) r) -> wside s c np nx pend -> wside s' c np nx pend.
Proof.
  intros E1 E2 E3 E4 E5 E6 (A & B & C). split; [|split].
  - intros r Hr. rewrite E2, E3, E4, E5. auto.
  - intros r Hr. rewrite E1, E2, E6. auto.
  - intros r Hr. rewrite E5. auto.
Qed.
Lemma of_ops_post l r : post (of_ops l (pP 1)) r = [].
Proof. destruct l as [|[p|p|] l]; try reflexivity. cbn [of_ops]. apply busy_post, pP_busy. Qed.
Lemma of_ops_next s c np nx x k : bpos c (m_prog s) BReady (m_colls s) np nx ->
  (m_prog s = match x with CCast p => PCast p k | COpen p => POpen p k | CFinal => PFinal k end) -> (x <> CFinal) ->
  bpos c k (in_op x) (m_colls s ++ [x]) np nx /\ np = 1 /\ nx = 1 /\ fresh c /\ (forall r, post k r = []) /\ In x ops.
Proof.
  intros H E Hx. inversion H as [l l' st E1 E2 E3 Ep|i st E1 E2 E3 Ep|i st E1 E2 E3 Ep|st E1 Ep|r o st E1 E2 E3 E4 Ep|i st E1 E2 E3 E4 Ep|i st E1 E2 E3 E4 Ep|st E1 E2 E3 Ep];
    rewrite E in Ep.
  2: { exfalso. pose proof (pP_busy np) as K. subst. rewrite Ep in K. destruct x; auto. }
  2: { destruct x; discriminate. }
  2: { exfalso. pose proof (rest_busy (boss c)) as K. rewrite Ep in K. destruct x; auto. }
  2: { destruct x; discriminate. }
  2: { exfalso. pose proof (pX_busy nx) as K. subst. rewrite Ep in K. destruct x; auto. }
  2: { destruct x; discriminate. }
  2: { destruct x; discriminate. }
  destruct l' as [|y l'].
  { exfalso. cbn [of_ops] in Ep. pose proof (pP_busy 1) as K. rewrite Ep in K. destruct x; auto. }
  assert (Hxy : y = x /\ of_ops l' (pP 1) = k).
  { destruct x, y; cbn [of_ops] in Ep; try discriminate; try congruence; injection Ep as <- <-; auto. }
  destruct Hxy as [-> <-]. split; [|split; [auto|split; [auto|split; [auto|split; [intros r; apply of_ops_post|]]]]].
  - constructor; auto; [rewrite <- app_assoc; auto|]. right. exists x. split; auto. rewrite last_last. split; auto. destruct (m_colls s); discriminate.
  - rewrite E1. apply in_app_iff. right. left. reflexivity.
Qed.
Lemma fresh_inbox c n r : run N R okb n c -> fresh c -> inbox c r = [].
Proof.
  intros Hr [F _]. pose proof (i_phase _ _ _ (inv_run N R okb n c HR Hr)) as P. unfold phase_ok in P. rewrite F in P. destruct P as (_ & _ & P).
  specialize (P r). destruct (Nat.leb_spec 1 r), (Nat.leb_spec r 0); cbn [andb] in P; try lia; unfold tok, held in P; rewrite app_length in P; destruct (inbox c r); auto; cbn [length] in P; lia.
Qed.
Lemma one_order c n r o q : run N R okb n c -> inbox c r = q ++ [o] -> q = [].
Proof.
  intros Hr E. pose proof (i_tok _ _ _ (inv_run N R okb n c HR Hr) r) as T. unfold tok, held in T. rewrite E, !app_length in T. cbn [length] in T. destruct q; auto. cbn [length] in T. lia.
Qed.
Lemma upd_at {A} (f : nat -> A) r v x : upd f r v x = if Nat.eqb x r then v else f x.
Proof. reflexivity. Qed.

(** rank 0 sends a length: the next text is begun *)
Lemma wside_len s c c' np nx np' nx' pend r t k : wside s c np nx pend -> busy_prog (m_prog s) -> post (PSend r (PText t) k) r = [PText t] ->
  (forall x, 1 <= x < R -> x <> r -> agree_at c c' x /\ Nat.ltb x np' = Nat.ltb x np /\ Nat.ltb x nx' = Nat.ltb x nx) ->
  (1 <= r < R -> wrel c' r (Nat.ltb r np') (Nat.ltb r nx') (m_pc s r) (m_ws s r) (m_seen s r) (m_reps s r) (pend r ++ [t])) ->
  wside (on_send s (PSend r (PText t) k) r (PLen (zlen t))) c' np' nx' (upd pend r (pend r ++ [t])).
Proof.
  intros (A & B & C) Hb Hp Ho Hr. unfold wside, on_send. cbn [m_pc m_ws m_seen m_reps m_queue m_prog]. split; [|split; auto].
  - intros x Hx. rewrite upd_at. destruct (Nat.eqb_spec x r) as [->|Hne]; [auto|]. destruct (Ho x Hx Hne) as (O1 & -> & ->). eapply wrel_ext; eauto.
  - intros x Hx. specialize (B x Hx). rewrite (busy_post _ x Hb), app_nil_r in B. rewrite !upd_at. destruct (Nat.eqb_spec x r) as [->|Hne].
    + rewrite Hp, flat_app, <- B, <- !app_assoc. reflexivity.
    + cbn [post]. destruct (Nat.eqb_spec r x); [congruence|]. rewrite app_nil_r. exact B.
Qed.
(** ... and its text *)
Lemma wside_text s c np nx pend r t k : wside s c np nx pend -> m_prog s = PSend r (PText t) k -> busy_prog k ->
  wside (on_send s k r (PText t)) c np nx pend.
Proof.
  intros (A & B & C) E Hk. unfold wside, on_send. cbn [m_pc m_ws m_seen m_reps m_queue m_prog]. split; [|split]; auto.
  intros x Hx. specialize (B x Hx). rewrite E in B. cbn [post] in B. rewrite upd_at, (busy_post _ x Hk), app_nil_r. rewrite (Nat.eqb_sym r x) in B.
  destruct (Nat.eqb_spec x r) as [Heq|Hne]; [subst x; exact B|]. rewrite app_nil_r in B. exact B.
Qed.
Lemma post_self r t k : post (PSend r (PText t) k) r = [PText t].
Proof. cbn [post]. rewrite Nat.eqb_refl. reflexivity. Qed.
Lemma ltb_step x i : x <> i -> Nat.ltb x (S i) = Nat.ltb x i.
Proof. intros H. destruct (Nat.ltb_spec x (S i)), (Nat.ltb_spec x i); auto; lia. Qed.
Lemma ltb_same i : Nat.ltb i i = false.
Proof. destruct (Nat.ltb_spec i i); auto; lia. Qed.
Lemma ltb_up i : Nat.ltb i (S i) = true.
Proof. destruct (Nat.ltb_spec i (S i)); auto; lia. Qed.
Lemma ltb_true i j : i < j -> Nat.ltb i j = true.
Proof. destruct (Nat.ltb_spec i j); auto; lia. Qed.
Lemma ltb_false i j : j <= i -> Nat.ltb i j = false.
Proof. destruct (Nat.ltb_spec i j); auto; lia. Qed.
Lemma same_at c r : agree_at c c r.
Proof. repeat split. Qed.

Lemma rel_len s r l k : Rel s -> m_prog s = PSend r (PLen l) k -> m_stat s = BReady -> Rel (on_send s k r (PLen l)).
Proof.
  intros (c0 & n0 & np & nx & pend & Hrun & Hpos & Hw & Hl) E Est. rewrite Est in Hpos.
  destruct (settle c0 n0 _ _ _ _ Hrun Hpos) as (n & c & H1 & H2 & H3 & H4 & H5); [rewrite E; exact I|].
  apply (wside_like _ _ _ _ _ _ H2) in Hw. apply (lside_like _ _ _ H2) in Hl.
  assert (Hb : busy_prog (m_prog s)) by (rewrite E; exact I).
  destruct H5 as [(i & Hi & Ep & F & -> & ->)|[(Ep & Hn & -> & ->)|(i & Hi & Ep & F & -> & ->)]].
  - rewrite pP_next in Ep by lia. assert (X : PSend r (PLen l) k = PSend i (PLen (zlen tP)) (PSend i (PText tP) (pP (S i)))) by congruence.
    injection X as -> -> ->. exists c, n, (S i), 1, (upd pend i (pend i ++ [tP])). split; auto. split; [|split; auto].
    + unfold on_send. cbn [m_prog m_stat m_colls]. rewrite H4. constructor; auto. right. exists i. auto.
    + apply (wside_len s c c i 1); auto using post_self.
      * intros x Hx Hne. split; [apply same_at|]. split; auto. apply ltb_step. auto.
      * intros _. pose proof (proj1 Hw i Hi) as W. rewrite ltb_up. rewrite ltb_same, (ltb_false i 1) in W by lia. rewrite (ltb_false i 1) by lia.
        apply wrel_P; auto. eapply fresh_inbox; eauto.
  - assert (Give : forall o ph, 1 <= r < R -> PSend r (PLen l) k = PSend r (PLen (zlen (tC o))) (PSend r (PText (tC o)) (rest ph)) ->
      step N R okb True c (send_boss c ph r o) -> Rel (on_send s k r (PLen l))).
    { intros o ph Hr X St. injection X as -> ->. set (c' := send_boss c ph r o) in *.
      assert (Hr' : run N R okb (S n) c') by (econstructor; eauto).
      assert (Hib : inbox c' r = inbox c r ++ [o]) by (unfold c', send_boss, send; cbn [inbox]; apply upd_same).
      exists c', (S n), R, 1, (upd pend r (pend r ++ [tC o])). split; auto. split; [|split; auto].
      - unfold on_send. cbn [m_prog m_stat m_colls]. rewrite H4. change ph with (boss c'). constructor; auto; [right; exists r; auto|].
        rewrite Hib. rewrite (one_order c' (S n) r o _ Hr' Hib). reflexivity.
      - apply (wside_len s c c' R 1); auto using post_self.
        + intros x Hx Hne. split; [|auto]. unfold c', send_boss, send. repeat split. cbn [inbox]. apply upd_other. auto.
        + intros _. pose proof (proj1 Hw r Hr) as W. rewrite (ltb_false r 1) in * by lia. eapply wrel_C; [exact Hib|reflexivity|reflexivity|auto]. }
    destruct (boss c) as [f|i|i|i r'|i|] eqn:Eb; cbn [normal] in Hn.
    + destruct Hn as [Hn1 Hn2]. rewrite rest_first in Ep by auto. assert (r = S f) as -> by congruence.
      apply (Give f (BFirst (S f))); [lia|congruence|]. replace (S f) with (f + 1) by lia. constructor; auto; lia.
    + rewrite rest_collect in Ep by auto. congruence.
    + destruct (rest_feed i Hn) as (k' & X & _). congruence.
    + rewrite rest_give in Ep. assert (r' = r) as -> by congruence. pose proof (i_phase _ _ _ (inv_run N R okb n c HR H1)) as P. unfold phase_ok in P. rewrite Eb in P.
      apply (Give i (BFeed (S i))); [lia|congruence|]. replace (S i) with (i + 1) by lia. constructor; auto.
    + rewrite rest_drain in Ep by auto. congruence.
    + contradiction.
  - destruct (Nat.eq_dec i R) as [->|Hne]; [rewrite pX_end in Ep by lia; congruence|].
    rewrite pX_next in Ep by lia. assert (X : PSend r (PLen l) k = PSend i (PLen (zlen tX)) (PSend i (PText tX) (pX (S i)))) by congruence.
    injection X as -> -> ->. exists c, n, R, (S i), (upd pend i (pend i ++ [tX])). split; auto. split; [|split; auto].
    + unfold on_send. cbn [m_prog m_stat m_colls]. rewrite H4. constructor; auto; [lia|]. right. exists i. split; auto. lia.
    + apply (wside_len s c c R i); auto using post_self.
      * intros x Hx Hne'. split; [apply same_at|]. split; auto. apply ltb_step. auto.
      * intros Hr. pose proof (proj1 Hw i Hr) as W. rewrite ltb_up. rewrite ltb_same in W. rewrite (ltb_true i R) in * by lia. apply wrel_X; auto.
Qed.
Lemma rel_text s r t k : Rel s -> m_prog s = PSend r (PText t) k -> m_stat s = BReady -> Rel (on_send s k r (PText t)).
Proof.
  intros (c & n & np & nx & pend & Hrun & Hpos & Hw & Hl) E Est. rewrite Est, E in Hpos. exists c, n, np, nx, pend. split; auto.
  assert (K : forall p, busy_prog p -> p <> PSend r (PText t) k) by (intros p Hp ->; exact Hp).
  inversion Hpos as [l l' st E1 E2 E3 Ep|i st E1 E2 E3 Ep|i st E1 E2 E3 Ep|st E1 Ep|r' o st E1 E2 E3 E4 Ep|i st E1 E2 E3 E4 Ep|i st E1 E2 E3 E4 Ep|st E1 E2 E3 Ep]; subst.
  - exfalso. destruct l' as [|[p|p|] l']; try discriminate. eapply K; [|exact Ep]. apply pP_busy.
  - exfalso. eapply K; [|exact Ep]. apply pP_busy.
  - split; [|split; auto; eapply wside_text; eauto; apply pP_busy]. unfold on_send. cbn [m_prog m_stat m_colls]. match goal with X : ops = m_colls s |- _ => rewrite <- X end. apply P_P; auto; [lia|].
    right. exists r. auto.
  - exfalso. eapply K; [|exact Ep]. apply rest_busy.
  - split; [|split; auto; eapply wside_text; eauto; apply rest_busy]. unfold on_send. cbn [m_prog m_stat m_colls]. match goal with X : ops = m_colls s |- _ => rewrite <- X end. apply P_push.
    right. exists r. rewrite E4. auto.
  - exfalso. eapply K; [|exact Ep]. apply pX_busy.
  - split; [|split; auto; eapply wside_text; eauto; apply pX_busy]. unfold on_send. cbn [m_prog m_stat m_colls]. match goal with X : ops = m_colls s |- _ => rewrite <- X end. apply P_X; auto; [lia|].
    right. exists r. auto.
Qed.
Lemma rel_recv s r t q k : Rel s -> m_prog s = PRecv k -> m_stat s = BReady -> m_reps s r = t :: q ->
  1 <= r < R /\ t = reply_of r /\ Rel (on_recv s (k t) r q).
Proof.
  intros (c0 & n0 & np & nx & pend & Hrun & Hpos & Hw & Hl) E Est Er. rewrite Est in Hpos.
  destruct (settle c0 n0 _ _ _ _ Hrun Hpos) as (n & c & H1 & H2 & H3 & H4 & H5); [rewrite E; exact I|].
  apply (wside_like _ _ _ _ _ _ H2) in Hw. apply (lside_like _ _ _ H2) in Hl.
  assert (Hb : busy_prog (m_prog s)) by (rewrite E; exact I).
  destruct Hw as (A & B & C).
  assert (Hr : 1 <= r < R).
  { destruct (Nat.lt_ge_cases r 1); [rewrite C in Er by lia; discriminate|]. destruct (Nat.lt_ge_cases r R); [lia|rewrite C in Er by lia; discriminate]. }
  assert (Hrp : 0 < rep c r /\ t = reply_of r).
  { pose proof (wrel_reps _ _ _ _ _ _ _ _ _ (A r Hr)) as X. rewrite Er in X. unfold reps_of in X. destruct (rep c r); [discriminate|]. cbn [repeat] in X.
    split; [lia|]. congruence. }
  destruct Hrp as [Hrp ->]. split; auto. split; auto.
  assert (Take : forall ph, step N R okb True c (set_boss c ph None (inbox c) (recv c r)) -> k (reply_of r) = rest ph -> np = R -> nx = 1 -> Rel (on_recv s (k (reply_of r)) r q)).
  { intros ph St Ek -> ->. set (c' := set_boss c ph None (inbox c) (recv c r)) in *. exists c', (S n), R, 1, pend.
    split; [econstructor; eauto|]. split; [|split; auto].
    - unfold on_recv. cbn [m_prog m_stat m_colls]. rewrite H4, Ek. change ph with (boss c'). apply P_push. left. auto.
    - unfold on_recv, wside. cbn [m_pc m_ws m_seen m_reps m_queue m_prog]. split; [|split].
      + intros x Hx. rewrite upd_at. destruct (Nat.eqb_spec x r) as [->|Hne].
        * destruct (wrel_recv c c' r _ _ _ _ _ _ _ eq_refl eq_refl ltac:(unfold c', set_boss, recv; cbn [rep]; apply upd_same) Hrp (A r Hx)) as (q' & Eq & W).
          rewrite Er in Eq. injection Eq as <-. exact W.
        * eapply wrel_ext; [|apply A; auto]. unfold c', set_boss, recv. repeat split. cbn [rep]. apply upd_other. auto.
      + intros x Hx. specialize (B x Hx). rewrite (busy_post _ x Hb) in B. rewrite Ek, (busy_post _ x (rest_busy ph)). exact B.
      + intros x Hx. rewrite upd_other by (intros ->; lia). auto. }
  destruct H5 as [(i & Hi & Ep & F & _)|[(Ep & Hn & -> & ->)|(i & Hi & Ep & F & _)]].
  - rewrite pP_next in Ep by lia. congruence.
  - destruct (boss c) as [f|i|i|i r'|i|] eqn:Eb; cbn [normal] in Hn.
    + destruct Hn. rewrite rest_first in Ep by auto. congruence.
    + rewrite rest_collect in Ep by auto. apply (Take (BCollect (S i))); auto; [replace (S i) with (i + 1) by lia; constructor; auto|].
      assert (X : PRecv k = PRecv (fun _ => rest (BCollect (S i)))) by congruence. injection X as ->. reflexivity.
    + destruct (rest_feed i Hn) as (k' & X & Y). apply (Take (BGive i r)); auto; [constructor; auto|]. assert (k = k') as -> by congruence. auto.
    + rewrite rest_give in Ep. congruence.
    + rewrite rest_drain in Ep by auto. apply (Take (BDrain (S i))); auto; [replace (S i) with (i + 1) by lia; constructor; auto|].
      assert (X : PRecv k = PRecv (fun _ => rest (BDrain (S i)))) by congruence. injection X as ->. reflexivity.
    + contradiction.
  - destruct (Nat.eq_dec i R) as [->|Hne]; [rewrite pX_end in Ep by lia; congruence|]. rewrite pX_next in Ep by lia. congruence.
Qed.

(** rank 0's send returns *)
Lemma rel_sent s r : Rel s -> m_stat s = BSend r -> Rel (on_boss s (m_prog s) BReady).
Proof.
  intros (c & n & np & nx & pend & Hrun & Hpos & Hw & Hl) Est. rewrite Est in Hpos.
  assert (W : forall x c', like c c' -> (x = BReady -> bpos c' (m_prog s) BReady (m_colls s) np nx) -> x = BReady -> (exists n', run N R okb n' c') -> Rel (on_boss s (m_prog s) BReady)).
  { intros x c' L Hp Hx (n' & Hr'). exists c', n', np, nx, pend. split; auto. split; [apply Hp; auto|]. split.
    - apply (wside_boss s); auto. eapply wside_like; eauto.
    - eapply lside_like; eauto. }
  assert (Same : bpos c (m_prog s) BReady (m_colls s) np nx -> Rel (on_boss s (m_prog s) BReady)).
  { intros Hp. apply (W BReady c); eauto using like_refl. }
  assert (Hs : sending BReady) by (left; auto).
  inversion Hpos as [l l' st E1 E2 E3 Ep|i st E1 E2 E3 Ep|i st E1 E2 E3 Ep|st E1 Ep|r' o st E1 E2 E3 E4 Ep|i st E1 E2 E3 E4 Ep|i st E1 E2 E3 E4 Ep|st E1 E2 E3 Ep].
  - exfalso. destruct E2 as [E2|(x & E2 & _)]; [discriminate|]. destruct x; discriminate.
  - subst. rewrite ?Ep. apply Same. rewrite <- Ep. match goal with X : ops = m_colls s |- _ => rewrite <- X end. apply P_P; auto.
  - subst. rewrite ?Ep. apply Same. rewrite <- Ep. match goal with X : ops = m_colls s |- _ => rewrite <- X end. apply P_Pmid; auto.
  - subst np nx. destruct E1 as [[E1 _]|(x & Hx & E1 & Eb)]; [discriminate|]. assert (x = r) as -> by congruence.
    destruct (inbox c r) as [|o q] eqn:Ei.
    + rewrite ?Ep. apply Same. rewrite <- Ep. match goal with X : ops = m_colls s |- _ => rewrite <- X end. apply P_push. left. auto.
    + set (c' := set_boss c (boss c) None (inbox c) (rep c)). rewrite ?Ep. apply (W BReady c'); auto.
      * split; [intros y; repeat split|reflexivity].
      * intros _. rewrite <- Ep. match goal with X : ops = m_colls s |- _ => rewrite <- X end. change (boss c) with (boss c'). apply P_push. left. auto.
      * exists (S n). econstructor; eauto. eapply S_buffer; eauto.
  - subst. rewrite ?Ep. apply Same. rewrite <- Ep. match goal with X : ops = m_colls s |- _ => rewrite <- X end. apply P_mid; auto.
  - subst. rewrite ?Ep. apply Same. rewrite <- Ep. match goal with X : ops = m_colls s |- _ => rewrite <- X end. apply P_X; auto.
  - subst. rewrite ?Ep. apply Same. rewrite <- Ep. match goal with X : ops = m_colls s |- _ => rewrite <- X end. apply P_Xmid; auto.
  - exfalso. destruct E1; discriminate.
Qed.

(** rank 0 enters a collective call *)
Lemma rel_coll s x k : Rel s -> m_prog s = match x with CCast p => PCast p k | COpen p => POpen p k | CFinal => PFinal k end -> x <> CFinal ->
  m_stat s = BReady -> Rel (on_coll s k (in_op x) x).
Proof.
  intros (c & n & np & nx & pend & Hrun & Hpos & Hw & Hl) E Hx Est. rewrite Est in Hpos.
  destruct (of_ops_next s c np nx x k Hpos E Hx) as (P1 & -> & -> & F & P2 & _).
  exists c, n, 1, 1, pend. split; auto. split; [exact P1|]. split; auto.
  apply (wside_boss s); auto. cbn [m_prog on_coll]. intros r. rewrite P2, E. destruct x; reflexivity.
Qed.
Lemma rel_final s k : Rel s -> m_prog s = PFinal k -> m_stat s = BReady -> Rel (on_coll s k BFin CFinal).
Proof.
  intros (c0 & n0 & np & nx & pend & Hrun & Hpos & Hw & Hl) E Est. rewrite Est in Hpos.
  destruct (settle c0 n0 _ _ _ _ Hrun Hpos) as (n & c & H1 & H2 & H3 & H4 & H5); [rewrite E; exact I|].
  apply (wside_like _ _ _ _ _ _ H2) in Hw. apply (lside_like _ _ _ H2) in Hl.
  destruct H5 as [(i & Hi & Ep & F & _)|[(Ep & Hn & -> & ->)|(i & Hi & Ep & F & -> & ->)]].
  - rewrite pP_next in Ep by lia. congruence.
  - exfalso. destruct (boss c) as [f|i|i|i r'|i|] eqn:Eb; cbn [normal] in Hn.
    + destruct Hn. rewrite rest_first in Ep by auto. congruence.
    + rewrite rest_collect in Ep by auto. congruence.
    + destruct (rest_feed i Hn) as (k' & X & Y). congruence.
    + rewrite rest_give in Ep. congruence.
    + rewrite rest_drain in Ep by auto. congruence.
    + contradiction.
  - destruct (Nat.eq_dec i R) as [->|Hne]; [|rewrite pX_next in Ep by lia; congruence].
    rewrite pX_end in Ep by lia. assert (k = PStop Finished) as -> by congruence.
    exists c, n, R, R, pend. split; auto. split; [|split; auto].
    + unfold on_coll. cbn [m_prog m_stat m_colls]. rewrite H4. apply P_fin; auto.
    + apply (wside_boss s); auto. cbn [m_prog on_coll]. intros r. rewrite E. reflexivity.
Qed.
(** a collective call returns at rank 0 *)
Lemma rel_coll_done s l : Rel s -> m_stat s = BCast \/ m_stat s = BFin \/ (exists p, m_stat s = BOpen p) ->
  Forall mild l -> filter (fun re => is_write (snd re)) l = [] -> Rel (on_log s l).
Proof.
  intros (c & n & np & nx & pend & Hrun & Hpos & Hw & [Hl1 Hl2]) Est Hm Hf. exists c, n, np, nx, pend. split; auto.
  split; [|split; [apply (wside_boss s); auto|]].
  - unfold on_log. cbn [m_prog m_stat m_colls].
    inversion Hpos as [l0 l' st E1 E2 E3 Ep|i st E1 E2 E3 Ep|i st E1 E2 E3 Ep|st E1 Ep|r' o st E1 E2 E3 E4 Ep|i st E1 E2 E3 E4 Ep|i st E1 E2 E3 E4 Ep|st E1 E2 E3 Ep]; subst;
      try (exfalso; destruct E2 as [E2|(? & _ & E2)]; rewrite E2 in Est; destruct Est as [Est|[Est|(? & Est)]]; discriminate).
    + apply P_setup; auto.
    + exfalso. destruct E1 as [[E1 _]|(? & _ & E1 & _)]; rewrite E1 in Est; destruct Est as [Est|[Est|(? & Est)]]; discriminate.
    + apply P_fin; auto.
  - split; unfold on_log; cbn [m_log]; [rewrite filter_app, Hf, app_nil_r; auto|apply Forall_app; auto].
Qed.
Lemma open_path s p : Rel s -> m_stat s = BOpen p -> p = path.
Proof.
  intros (c & n & np & nx & pend & Hrun & Hpos & Hw & Hl) Est. rewrite Est in Hpos.
  inversion Hpos as [l0 l' st E1 E2 E3 Ep|i st E1 E2 E3 Ep|i st E1 E2 E3 Ep|st E1 Ep|r' o st E1 E2 E3 E4 Ep|i st E1 E2 E3 E4 Ep|i st E1 E2 E3 E4 Ep|st E1 E2 E3 Ep]; subst;
      try (exfalso; destruct E2 as [E2|(? & _ & E2)]; discriminate).
  - destruct E2 as [E2|(x & E2 & Hne & Hx)]; [discriminate|]. assert (I : In x ops).
    { rewrite E1. apply in_app_iff. left. rewrite Hx. destruct (exists_last Hne) as (a & b0 & Ea). rewrite Ea, last_last. apply in_app_iff. right. left. reflexivity. }
    destruct x as [|q|]; cbn [in_op] in E2; try discriminate. injection E2 as <-. unfold ops in I. cbn [In] in I. intuition congruence.
  - exfalso. destruct E1 as [[E1 _]|(? & _ & E1 & _)]; discriminate.
  - exfalso. destruct E1; discriminate.
Qed.
Lemma reply_len r : r < R -> (zlen (reply_of r) <= REPLY_MAX)%Z.
Proof.
  intros H. unfold reply_of. rewrite zlen_app. change (zlen [NUL]) with 1%Z.
  enough (zlen (print_int (Z.of_nat r)) <= 12)%Z by (unfold REPLY_MAX; lia).
  rewrite print_int_zlen by lia. apply ndig_le; [lia| |lia]. unfold INT_MAX in HRmax. change (10 ^ 12)%Z with 1000000000000%Z. lia.
Qed.
Lemma rel_casted s : Rel s -> m_stat s = BCast -> Rel (on_boss s (m_prog s) BReady).
Proof.
  intros H E. destruct (rel_coll_done s [] H (or_introl E) ltac:(constructor) eq_refl) as (c & n & np & nx & pend & A & B & C & [D1 D2]).
  exists c, n, np, nx, pend. split; auto. split; auto. split; auto. unfold on_log in D1, D2. cbn [m_log] in D1, D2. rewrite app_nil_r in *. split; auto.
Qed.

(** ** steps of the workers *)
Definition same_but (s s' : msys) (r : nat) : Prop :=
  m_prog s' = m_prog s /\ m_stat s' = m_stat s /\ m_colls s' = m_colls s /\
  forall x, x <> r -> m_pc s' x = m_pc s x /\ m_ws s' x = m_ws s x /\ m_seen s' x = m_seen s x /\ m_reps s' x = m_reps s x /\ m_queue s' x = m_queue s x.
Lemma worker_rel s s' c c' n np nx pend r pd : run N R okb n c' -> bpos c' (m_prog s) (m_stat s) (m_colls s) np nx -> wside s c np nx pend -> 1 <= r < R ->
  same_but s s' r -> (forall x, x <> r -> agree_at c c' x) ->
  wrel c' r (Nat.ltb r np) (Nat.ltb r nx) (m_pc s' r) (m_ws s' r) (m_seen s' r) (m_reps s' r) pd ->
  pre (m_pc s' r) ++ m_queue s' r ++ post (m_prog s) r = flat pd -> lside s' c' -> Rel s'.
Proof.
  intros Hrun Hpos (A & B & C) Hr (S1 & S2 & S3 & S4) Ha Hw Hq Hl. exists c', n, np, nx, (upd pend r pd). rewrite S1, S2, S3. split; auto. split; auto. split; auto.
  split; [|split].
  - intros x Hx. rewrite upd_at. destruct (Nat.eqb_spec x r) as [Heq|Hne]; [subst x; auto|]. destruct (S4 x Hne) as (-> & -> & -> & -> & _). eapply wrel_ext; eauto.
  - intros x Hx. rewrite upd_at, S1. destruct (Nat.eqb_spec x r) as [Heq|Hne]; [subst x; auto|]. destruct (S4 x Hne) as (-> & _ & _ & _ & ->). auto.
  - intros x Hx. assert (x <> r) by (intros ->; lia). destruct (S4 x H) as (_ & _ & _ & -> & _). auto.
Qed.
(** the rank of Boss.v does not move *)
Lemma worker_still s s' c n np nx pend r : run N R okb n c -> bpos c (m_prog s) (m_stat s) (m_colls s) np nx -> wside s c np nx pend -> 1 <= r < R ->
  same_but s s' r ->
  wrel c r (Nat.ltb r np) (Nat.ltb r nx) (m_pc s' r) (m_ws s' r) (m_seen s' r) (m_reps s' r) (pend r) ->
  pre (m_pc s' r) ++ m_queue s' r = pre (m_pc s r) ++ m_queue s r -> lside s' c -> Rel s'.
Proof.
  intros Hrun Hpos Hw Hr Hs Hwr Hq Hl. apply (worker_rel s s' c c n np nx pend r (pend r)); auto.
  - intros x _. apply same_at.
  - destruct Hw as (_ & B & _). rewrite <- (B r Hr), !app_assoc, Hq. reflexivity.
Qed.
Lemma lside_add s s' c l : lside s c -> m_log s' = m_log s ++ l -> Forall mild l -> filter (fun re => is_write (snd re)) l = [] -> lside s' c.
Proof. intros [A B] E Hm Hf. split; rewrite E; [rewrite filter_app, Hf, app_nil_r; auto|apply Forall_app; auto]. Qed.
Lemma lside_same s s' c : lside s c -> m_log s' = m_log s -> lside s' c.
Proof. intros [A B] E. split; rewrite E; auto. Qed.

Ltac there r := repeat first [rewrite upd_same | rewrite upd_other by auto].
Ltac samebut := unfold same_but; cbn [m_prog m_stat m_colls m_pc m_ws m_seen m_reps m_queue on_pc on_seen on_take on_exec on_reply];
  split; [reflexivity|split; [reflexivity|split; [reflexivity|]]]; intros ?x ?Hx; rewrite ?upd_other by auto; auto.

Definition early (pc : wpc) : Prop := match pc with WB | WBt _ | WOpen _ _ => True | _ => False end.
Lemma wrel_early c r sp sx pc w k rp pd : wrel c r sp sx pc w k rp pd -> early pc ->
  stage k pc w /\ forall k' pc' w', stage k' pc' w' -> wrel c r sp sx pc' w' k' rp pd.
Proof.
  intros W E. inversion W as [k0 pc0 w0 S1 S2 S3|S1 S2 S3|pc0 S1 S2 S3|o S1 S2|S1 S2|S1 S2|o e S1 S2|S1 S2 S3|S1 S2 S3|S1 S2 S3]; subst; try contradiction.
  - split; auto. intros. apply R_stage; auto.
  - destruct S2 as [->|(n & ->)]; contradiction.
Qed.
Lemma rel_seen s r pc l : Rel s -> 1 <= r < R -> early (m_pc s r) -> pre pc = [] ->
  (stage (m_seen s r) (m_pc s r) (m_ws s r) -> (forall i x, nth_error (m_colls s) i = Some x -> nth_error (ops ++ [CFinal]) i = Some x) ->
   stage (S (m_seen s r)) pc (m_ws s r)) ->
  Forall mild l -> filter (fun re => is_write (snd re)) l = [] -> Rel (on_seen s r pc l).
Proof.
  intros (c & n & np & nx & pend & Hrun & Hpos & Hw & Hl) Hr He Hp Hs Hm Hf.
  assert (W := proj1 Hw r Hr). destruct (wrel_early _ _ _ _ _ _ _ _ _ W He) as (St & Cl).
  apply (worker_still s _ c n np nx pend r); auto.
  - samebut.
  - cbn [m_pc m_ws m_seen m_reps on_seen]. rewrite !upd_same. apply Cl, Hs; auto. intros i x. eapply bpos_nth; eauto.
  - cbn [m_pc m_queue on_seen]. rewrite upd_same, Hp. destruct (m_pc s r); try contradiction; reflexivity.
  - eapply lside_add; eauto. reflexivity.
Qed.
Lemma rel_at s r : Rel s -> 1 <= r < R -> early (m_pc s r) ->
  stage (m_seen s r) (m_pc s r) (m_ws s r) /\ (forall i x, nth_error (m_colls s) i = Some x -> nth_error (ops ++ [CFinal]) i = Some x).
Proof.
  intros (c & n & np & nx & pend & Hrun & Hpos & Hw & Hl) Hr He. split; [apply (wrel_early _ _ _ _ _ _ _ _ _ (proj1 Hw r Hr) He)|].
  intros i x. eapply bpos_nth; eauto.
Qed.
Lemma stage_B k w x : stage k WB w -> nth_error (ops ++ [CFinal]) k = Some x -> exists n, x = CCast (PLen n) /\ stage (S k) (WBt n) w.
Proof. intros H E. inversion H; subst; cbn in E; injection E as <-; eexists; (split; [reflexivity|constructor]). Qed.
Lemma stage_Bt k n w x : stage k (WBt n) w -> nth_error (ops ++ [CFinal]) k = Some x -> exists t, x = CCast (PText t) /\ zlen t = n /\ stage (S k) (WGot t) w.
Proof. intros H E. inversion H; subst; cbn in E; injection E as <-; eexists; (split; [reflexivity|split; [reflexivity|constructor]]). Qed.
Lemma stage_O k p ok w x : stage k (WOpen p ok) w -> nth_error (ops ++ [CFinal]) k = Some x -> x = COpen p /\ p = path /\ ok = true /\ stage (S k) (listen w) w.
Proof. intros H E. inversion H; subst; cbn in E; injection E as <-; split; [reflexivity|split; [reflexivity|split; [reflexivity|constructor]]]. Qed.

Ltac idx := try match goal with H : reps_of _ _ = m_reps _ _ |- _ => rewrite <- H end;
  try match goal with H : _ = m_seen _ _ |- _ => rewrite <- H end; try match goal with H : _ = m_ws _ _ |- _ => rewrite <- H end;
  try match goal with W : wside _ _ _ _ ?p, H : _ = ?p _ |- _ => rewrite <- H end.
(** rank r holds a message *)
Lemma wlog_app l1 l2 : wlog (l1 ++ l2) = wlog l1 ++ wlog l2.
Proof. apply flat_map_app. Qed.
Lemma rel_exec s r t l w pc : Rel s -> 1 <= r < R -> m_pc s r = WGot t -> react opens ev (m_ws s r) t = (l, (w, pc)) ->
  pc <> WBad /\ Rel (on_exec s r pc w (map (pair r) l)).
Proof.
  intros (c & n & np & nx & pend & Hrun & Hpos & Hw & Hl) Hr Epc Ere. assert (W := proj1 Hw r Hr). rewrite Epc in W.
  assert (Still : forall l' w' pc', react opens ev (m_ws s r) t = (l', (w', pc')) -> pre pc' = [] ->
    wrel c r (Nat.ltb r np) (Nat.ltb r nx) pc' w' (m_seen s r) (m_reps s r) (pend r) ->
    Forall (fun e => is_write e = false /\ mild (r, e)) l' -> pc' <> WBad -> pc <> WBad /\ Rel (on_exec s r pc w (map (pair r) l))).
  { intros l' w' pc' E Hp Hwr Hm Hpc. assert (X : (l', (w', pc')) = (l, (w, pc))) by congruence. injection X as -> -> ->. split; auto.
    apply (worker_still s _ c n np nx pend r); auto.
    - samebut.
    - cbn [m_pc m_ws m_seen m_reps on_exec]. rewrite !upd_same. auto.
    - cbn [m_pc m_queue on_exec]. rewrite upd_same, Hp, Epc. reflexivity.
    - eapply lside_add; [eauto|reflexivity| |]; clear -Hm; induction Hm as [|e l [H1 H2] Hm IH]; cbn [map filter snd]; auto. rewrite H1. exact IH. }
  inversion W as [k0 pc0 w0 S1 S2 S3 E1 E2 E3|S1 S2 S3 E1 E2|pc0 S1 S2 S3 E1 E2|o S1 S2 E1 E2|S1 S2 E1|S1 S2 E1|o e S1 S2 E1|S1 S2 S3 E1 E2|S1 S2 S3 E1|S1 S2 S3 E1]; try discriminate.
  - inversion S1 as [| |F1 F2|e F0 F1 F2| | |F1 F2| | | |F1 F2| |]; try discriminate.
    + assert (m_ws s r = wstart) as Ew by congruence. assert (t = tU) as -> by congruence. rewrite Ew in *.
      destruct (Z.le_gt_cases bucket INT_MAX) as [Hb|Hb].
      * eapply Still; [apply react_U; auto|reflexivity| |repeat constructor|discriminate]. idx. apply R_stage; auto. constructor.
      * eapply Still; [apply react_U_over; lia|reflexivity| |constructor|discriminate]. idx. apply R_stage; auto. constructor. lia.
    + assert (m_ws s r = w1) as Ew by congruence. assert (t = tA) as -> by congruence. rewrite Ew in *.
      eapply Still; [apply react_A; auto|reflexivity| |constructor|discriminate]. idx. apply R_stage; auto. constructor.
    + assert (m_ws s r = w2) as Ew by congruence. assert (t = tN) as -> by congruence. rewrite Ew in *.
      eapply Still; [apply react_N; auto|reflexivity| |constructor|discriminate]. idx. apply R_stage; auto. constructor.
  - assert (t = tP) as -> by congruence. match goal with H : _ = m_ws s r |- _ => symmetry in H; rewrite H in * end.
    eapply Still; [apply react_P; auto|reflexivity| |repeat constructor|discriminate]. idx. apply R_idle; auto.
  - destruct S2 as [S2|(? & S2)]; congruence.
  - assert (t = tC o) as -> by congruence. match goal with H : _ = m_ws s r |- _ => symmetry in H; rewrite H in * end. destruct (react_C o) as [(x & J & Re)|(J & e & Re)].
    + assert (X : ([EvWrite path x], (w4, WAns)) = (l, (w, pc))) by congruence. injection X as <- <- <-. split; [discriminate|].
      set (c' := {| boss := boss c; blocked := blocked c; inbox := inbox c; work := upd (work c) r WPost; rep := rep c; log := log c ++ [(r, o)]; given := given c |}).
      apply (worker_rel s _ c c' (S n) np nx pend r (tail c r (Nat.ltb r nx))); auto.
      * econstructor; [eauto|]. apply W_exec; auto. eapply okb_some; eauto.
      * eapply bpos_ext; [..|exact Hpos]; reflexivity.
      * samebut.
      * intros y Hy. repeat split. unfold c'. cbn [work]. apply upd_other. auto.
      * cbn [m_pc m_ws m_seen m_reps on_exec]. rewrite !upd_same.
        change (tail c r (r <? nx)) with (tail c' r (r <? nx)). idx. change (reps_of c r) with (reps_of c' r). apply R_ans; auto. unfold c'. cbn [work]. apply upd_same.
      * cbn [m_pc m_queue on_exec]. rewrite upd_same. destruct Hw as (_ & B & _). specialize (B r Hr). rewrite Epc in B. match goal with H : _ = pend r |- _ => rewrite <- H in B end. exact B.
      * destruct Hl as [L1 L2]. split; cbn [m_log on_exec]; unfold c'; cbn [log].
        { rewrite filter_app, L1, wlog_app. cbn [map filter snd is_write wlog flat_map]. rewrite J. reflexivity. }
        { apply Forall_app. split; auto. repeat constructor. }
    + assert (X : ([], (w4, WGone e)) = (l, (w, pc))) by congruence. injection X as <- <- <-. split; [discriminate|].
      set (c' := {| boss := boss c; blocked := blocked c; inbox := inbox c; work := upd (work c) r (WDead o); rep := rep c; log := log c; given := given c |}).
      apply (worker_rel s _ c c' (S n) np nx pend r (tail c r (Nat.ltb r nx))); auto.
      * econstructor; [eauto|]. apply W_crash; auto. eapply okb_none; eauto.
      * eapply bpos_ext; [..|exact Hpos]; reflexivity.
      * samebut.
      * intros y Hy. repeat split. unfold c'. cbn [work]. apply upd_other. auto.
      * cbn [m_pc m_ws m_seen m_reps on_exec]. rewrite !upd_same.
        change (tail c r (r <? nx)) with (tail c' r (r <? nx)). idx. change (reps_of c r) with (reps_of c' r). apply (R_dead c' r _ _ o); auto. unfold c'. cbn [work]. apply upd_same.
      * cbn [m_pc m_queue on_exec]. rewrite upd_same. destruct Hw as (_ & B & _). specialize (B r Hr). rewrite Epc in B. match goal with H : _ = pend r |- _ => rewrite <- H in B end. exact B.
      * destruct Hl as [L1 L2]. split; cbn [m_log on_exec map]; rewrite app_nil_r; auto.
  - assert (t = tX) as -> by congruence. match goal with H : _ = m_ws s r |- _ => symmetry in H; rewrite H in * end.
    eapply Still; [apply react_X; auto|reflexivity| |constructor|discriminate]. idx. apply R_fin; auto.
Qed.
(** messages to one rank *)
Lemma flat_head l p q : flat l = p :: q -> exists t l', l = t :: l' /\ p = PLen (zlen t) /\ q = PText t :: flat l'.
Proof. destruct l as [|t l]; intros H; [discriminate|]. exists t, l. split; auto. cbn [flat flat_map app] in H. injection H as <- <-. split; reflexivity. Qed.
Lemma rel_take_len s r p q : Rel s -> 1 <= r < R -> m_pc s r = WN -> m_queue s r = p :: q -> exists n, p = PLen n /\ Rel (on_take s r (WNt n) q).
Proof.
  intros (c & n & np & nx & pend & Hrun & Hpos & Hw & Hl) Hr Epc Eq. assert (W := proj1 Hw r Hr). assert (B := proj1 (proj2 Hw) r Hr).
  rewrite Epc, Eq in B. cbn [pre app] in B. destruct (flat_head _ _ _ (eq_sym B)) as (t & l & E1 & -> & E2). exists (zlen t). split; auto.
  apply (worker_still s _ c n np nx pend r); auto.
  - samebut.
  - cbn [m_pc m_ws m_seen m_reps on_take]. rewrite !upd_same. rewrite Epc in W.
    inversion W as [k0 pc0 w0 S1 S2 S3|S1 S2 S3|pc0 S1 S2 S3|o S1 S2|S1 S2|S1 S2|o e S1 S2|S1 S2 S3|S1 S2 S3|S1 S2 S3]; try discriminate.
    + apply R_stage; auto. inversion S1; constructor.
    + apply R_idle; eauto.
  - cbn [m_pc m_queue on_take]. rewrite !upd_same, Epc, Eq. reflexivity.
Qed.
Lemma before_P c n p st cs np nx r : run N R okb n c -> bpos c p st cs np nx -> r < R -> Nat.ltb r np = false -> nx = 1 /\ fresh c.
Proof. intros Hrun H Hr Hl. apply Nat.ltb_ge in Hl. inversion H; subst; auto; lia. Qed.
Lemma end_inbox c n r : run N R okb n c -> boss c = BEnd -> inbox c r = [].
Proof. intros Hrun E. destruct (final_state N R okb n c HR Hrun E) as (F & _). apply F. Qed.
(** a text was received, so all of it was sent *)
Lemma not_mid c n p st cs np nx r o t k q : run N R okb n c -> bpos c p st cs np nx -> 1 <= r < R -> inbox c r = [o] ->
  PLen (zlen (tC o)) :: PText (tC o) :: q ++ post p r = flat (tail c r (Nat.ltb r nx)) -> p <> PSend r (PText t) k.
Proof.
  intros Hrun H Hr Ei Ef Ep. subst p. rewrite post_self in Ef.
  assert (K : forall p, busy_prog p -> p <> PSend r (PText t) k) by (intros p Hp ->; exact Hp).
  inversion H as [l l' st' E1 E2 E3 Ep|i st' E1 E2 E3 Ep|i st' E1 E2 E3 Ep|st' E1 Ep|r' o' st' E1 E2 E3 E4 Ep|i st' E1 E2 E3 E4 Ep|i st' E1 E2 E3 E4 Ep|st' E1 E2 E3 Ep]; subst.
  - rewrite (fresh_inbox c n r Hrun E3) in Ei. discriminate.
  - eapply K; [|exact Ep]. apply pP_busy.
  - rewrite (fresh_inbox c n r Hrun E3) in Ei. discriminate.
  - eapply K; [|exact Ep]. apply rest_busy.
  - rewrite (ltb_false r 1) in Ef by lia. apply (f_equal (@length packet)) in Ef. unfold tail in Ef. rewrite Ei in Ef.
    rewrite flat_length in Ef. cbn [map app length] in Ef. rewrite app_length in Ef. cbn [length] in Ef. lia.
  - eapply K; [|exact Ep]. apply pX_busy.
  - rewrite (end_inbox c n r Hrun E3) in Ei. discriminate.
Qed.
Lemma rel_take_text s r n p q : Rel s -> 1 <= r < R -> m_pc s r = WNt n -> m_queue s r = p :: q ->
  exists t, p = PText t /\ zlen t = n /\ Rel (on_take s r (WGot t) q).
Proof.
  intros (c & i & np & nx & pend & Hrun & Hpos & Hw & Hl) Hr Epc Eq. assert (W := proj1 Hw r Hr). assert (B := proj1 (proj2 Hw) r Hr).
  rewrite Epc, Eq in B. cbn [pre app] in B. destruct (flat_head _ _ _ (eq_sym B)) as (t & l & E1 & E2 & E3). injection E2 as ->. injection E3 as -> E3.
  exists t. split; auto. split; auto. rewrite Epc in W.
  assert (Still : forall pc w, wrel c r (Nat.ltb r np) (Nat.ltb r nx) (WGot t) (m_ws s r) (m_seen s r) (m_reps s r) l -> (pc, w) = (WGot t, m_ws s r) -> Rel (on_take s r (WGot t) q)).
  { intros pc w Hwr _. apply (worker_rel s _ c c i np nx pend r l); auto.
    - samebut.
    - intros x _. apply same_at.
    - cbn [m_pc m_ws m_seen m_reps on_take]. rewrite !upd_same. exact Hwr.
    - cbn [m_pc m_queue on_take]. rewrite !upd_same. exact E3. }
  inversion W as [k0 pc0 w0 S1 S2 S3 F1 F2 F3 F4 F5|S1 S2 S3|pc0 S1 S2 S3 F1 F2 F3 F4 F5|o S1 S2|S1 S2|S1 S2|o e S1 S2|S1 S2 S3|S1 S2 S3|S1 S2 S3]; try discriminate.
  - destruct (Nat.ltb r np) eqn:Enp.
    + rewrite E1 in F5. cbn [app] in F5. injection F5 as F5 F6. subst t l.
      eapply Still; [|reflexivity]. inversion S1; subst. idx. apply R_gotP; auto.
    + exfalso. destruct (before_P c i _ _ _ _ _ r Hrun Hpos ltac:(lia) Enp) as [-> F]. rewrite (ltb_false r 1) in F5 by lia.
      unfold tail in F5. rewrite (fresh_inbox c i r Hrun F), E1 in F5. discriminate.
  - unfold tail in F5. destruct (inbox c r) as [|o ib] eqn:Ei.
    + destruct (Nat.ltb r nx) eqn:Enx; cbn [map app] in F5; rewrite E1 in F5; [|discriminate]. injection F5 as <- <-.
      eapply Still; [|reflexivity]. idx. apply R_gotX; auto.
    + assert (ib = []) as ->.
      { pose proof (i_tok _ _ _ (inv_run N R okb i c HR Hrun) r) as T. unfold tok, held in T. rewrite Ei, app_length in T. cbn [length] in T. destruct ib; auto. cbn [length] in T. lia. }
      cbn [map app] in F5. rewrite E1 in F5. injection F5 as <- F6.
      set (c' := {| boss := boss c; blocked := unblock (blocked c) r; inbox := upd (inbox c) r []; work := upd (work c) r (WBusy o); rep := rep c; log := log c; given := given c |}).
      assert (Hi' : inbox c' r = []) by (unfold c'; cbn [inbox]; apply upd_same).
      apply (worker_rel s _ c c' (S i) np nx pend r l); auto.
      * econstructor; [eauto|]. eapply W_recv; eauto.
      * eapply (bpos_taken c c' r o); auto; [intros x Hx; unfold c'; cbn [inbox]; apply upd_other; auto| |].
        { intros t' k'. apply (not_mid c i _ (m_stat s) (m_colls s) np nx r o t' k' q); auto. unfold tail. rewrite Ei. cbn [map app]. rewrite F6, <- E1. exact B. }
        { intros F. rewrite (fresh_inbox c i r Hrun F) in Ei. discriminate. }
      * samebut.
      * intros x Hx. unfold c'. repeat split; cbn [inbox work]; apply upd_other; auto.
      * cbn [m_pc m_ws m_seen m_reps on_take]. rewrite !upd_same. idx. change (reps_of c r) with (reps_of c' r).
        replace l with (tail c' r (Nat.ltb r nx)) by (unfold tail; rewrite Hi'; exact F6). apply R_busy; auto. unfold c'. cbn [work]. apply upd_same.
      * cbn [m_pc m_queue on_take]. rewrite !upd_same. exact E3.
Qed.

(** replies *)
Lemma repeat_snoc {A} (x : A) n : repeat x n ++ [x] = repeat x (n + 1).
Proof. induction n as [|n IH]; cbn; [reflexivity|]. rewrite IH. reflexivity. Qed.
Lemma rel_reply s r : Rel s -> 1 <= r < R -> m_pc s r = WAns -> Rel (on_reply s r (reply_of r)).
Proof.
  intros (c & i & np & nx & pend & Hrun & Hpos & Hw & Hl) Hr Epc. assert (W := proj1 Hw r Hr). assert (B := proj1 (proj2 Hw) r Hr). rewrite Epc in *.
  inversion W as [k0 pc0 w0 S1 S2 S3 F1 F2 F3 F4 F5|S1 S2 S3|pc0 S1 S2 S3 F1 F2 F3 F4 F5|o S1 S2|S1 S2|S1 S2|o e S1 S2|S1 S2 S3|S1 S2 S3|S1 S2 S3]; try discriminate; [inversion S1; congruence|destruct S2 as [S2|(? & S2)]; congruence|].
  set (c' := {| boss := boss c; blocked := blocked c; inbox := inbox c; work := upd (work c) r WWait; rep := upd (rep c) r (rep c r + 1); log := log c; given := given c |}).
  apply (worker_rel s _ c c' (S i) np nx pend r (pend r)); auto.
  - econstructor; [eauto|]. apply W_reply; auto.
  - eapply bpos_ext; [..|exact Hpos]; reflexivity.
  - samebut.
  - intros x Hx. unfold c'. repeat split; cbn [work rep]; apply upd_other; auto.
  - cbn [m_pc m_ws m_seen m_reps on_reply]. rewrite !upd_same. idx. unfold reps_of. rewrite repeat_snoc.
    replace (repeat (reply_of r) (rep c r + 1)) with (reps_of c' r) by (unfold reps_of, c'; cbn [rep]; rewrite upd_same; reflexivity).
    change (tail c r (r <? nx)) with (tail c' r (r <? nx)). apply R_in; auto. unfold c'. cbn [work]. apply upd_same.
  - cbn [m_pc m_queue on_reply]. rewrite upd_same. exact B.
Qed.
Lemma rel_replied s r : Rel s -> 1 <= r < R -> m_pc s r = WIn -> Rel (on_pc s r (listen (m_ws s r))).
Proof.
  intros (c & i & np & nx & pend & Hrun & Hpos & Hw & Hl) Hr Epc. assert (W := proj1 Hw r Hr). assert (B := proj1 (proj2 Hw) r Hr). rewrite Epc in *.
  inversion W as [k0 pc0 w0 S1 S2 S3 F1 F2 F3 F4 F5|S1 S2 S3|pc0 S1 S2 S3 F1 F2 F3 F4 F5|o S1 S2|S1 S2|S1 S2 F1 F2|o e S1 S2|S1 S2 S3|S1 S2 S3|S1 S2 S3]; try discriminate; [inversion S1; congruence|destruct S2 as [S2|(? & S2)]; congruence|].
  set (c' := {| boss := boss c; blocked := blocked c; inbox := inbox c; work := upd (work c) r WIdle; rep := rep c; log := log c; given := given c |}).
  apply (worker_rel s _ c c' (S i) np nx pend r (pend r)); auto.
  - econstructor; [eauto|]. eapply W_buffer; eauto.
  - eapply bpos_ext; [..|exact Hpos]; reflexivity.
  - samebut.
  - intros x Hx. unfold c'. repeat split; cbn [work]; apply upd_other; auto.
  - cbn [m_pc m_ws m_seen m_reps on_pc]. rewrite !upd_same. change (listen w4) with WN. idx. change (reps_of c r) with (reps_of c' r).
    change (tail c r (r <? nx)) with (tail c' r (r <? nx)). apply R_idle; auto. unfold c'. cbn [work]. apply upd_same.
  - cbn [m_pc m_queue on_pc]. rewrite upd_same. exact B.
Qed.
Lemma rel_done s r : Rel s -> 1 <= r < R -> m_pc s r = WFin -> m_seen s r = 7 /\ Rel (on_seen s r WDone []).
Proof.
  intros (c & i & np & nx & pend & Hrun & Hpos & Hw & Hl) Hr Epc. assert (W := proj1 Hw r Hr). rewrite Epc in W.
  inversion W as [k0 pc0 w0 S1 S2 S3 F1 F2 F3 F4 F5|S1 S2 S3|pc0 S1 S2 S3 F1 F2 F3 F4 F5|o S1 S2|S1 S2|S1 S2 F1 F2|o e S1 S2|S1 S2 S3|S1 S2 S3|S1 S2 S3]; try discriminate; [inversion S1; congruence|destruct S2 as [S2|(? & S2)]; congruence|].
  split; [congruence|]. apply (worker_still s _ c i np nx pend r); auto.
  - samebut.
  - cbn [m_pc m_ws m_seen m_reps on_seen]. rewrite !upd_same. idx. apply R_done; auto.
  - cbn [m_pc m_queue on_seen]. rewrite upd_same, Epc. reflexivity.
  - eapply lside_add; [eauto|reflexivity|constructor|reflexivity].
Qed.

(** ** every step *)
Theorem rel_step m s s' : Rel s -> mstep R opens ev m s s' -> Rel s'.
Proof.
  intros HRel H.
  assert (Er : forall r, 1 <= r < R -> early (m_pc s r) -> stage (m_seen s r) (m_pc s r) (m_ws s r) /\
    (forall i x, nth_error (m_colls s) i = Some x -> nth_error (ops ++ [CFinal]) i = Some x)) by (intros; apply rel_at; auto).
  inversion H; subst.
  - apply (rel_coll s (CCast p)); auto. discriminate.
  - apply (rel_coll s (COpen p)); auto. discriminate.
  - apply rel_final; auto.
  - destruct p; [apply rel_len|apply rel_text]; auto.
  - apply rel_recv; auto.
  - exfalso. destruct (rel_recv s r t q k HRel H0 H1 H2) as (X & -> & _). pose proof (reply_len r (proj2 X)). lia.
  - apply (rel_sent s r); auto.
  - apply (rel_sent s r); auto.
  - apply rel_casted; auto.
  - apply rel_casted; auto.
  - assert (p = path) as -> by (eapply open_path; eauto). rewrite Hopen. apply rel_coll_done; auto; [right; right; eauto|repeat constructor].
  - apply rel_coll_done; auto.
  - pose proof (Er r H0) as Y; rewrite H1 in Y; destruct (Y I) as [S1 S2]. destruct (stage_B _ _ _ S1 (S2 _ _ H2)) as (n' & E & S3). injection E as <-.
    apply rel_seen; auto; rewrite H1; auto; exact I.
  - pose proof (Er r H0) as Y; rewrite H1 in Y; destruct (Y I) as [S1 S2]. destruct (stage_Bt _ _ _ _ S1 (S2 _ _ H2)) as (t' & E & _ & S3). injection E as <-.
    apply rel_seen; auto; rewrite H1; auto; exact I.
  - exfalso. pose proof (Er r H0) as Y; rewrite H1 in Y; destruct (Y I) as [S1 S2]. destruct (stage_B _ _ _ S1 (S2 _ _ H2)) as (n' & -> & _). eapply H3; reflexivity.
  - exfalso. pose proof (Er r H0) as Y; rewrite H1 in Y; destruct (Y I) as [S1 S2]. destruct (stage_Bt _ _ _ _ S1 (S2 _ _ H2)) as (t' & -> & E & _). eapply H3; eauto.
  - destruct (rel_take_len s r _ q HRel H0 H1 H2) as (n' & E & X). injection E as ->. exact X.
  - destruct (rel_take_text s r n _ q HRel H0 H1 H2) as (t' & E & _ & X). injection E as ->. exact X.
  - exfalso. destruct (rel_take_len s r _ q HRel H0 H1 H2) as (n' & E & X). discriminate.
  - exfalso. destruct (rel_take_text s r n _ q HRel H0 H1 H2) as (t' & E & E' & X). eapply (H3 t'); [lia|auto].
  - apply (rel_exec s r t l w pc HRel H0 H1 H2).
  - pose proof (Er r H0) as Y; rewrite H1 in Y; destruct (Y I) as [S1 S2]. destruct (stage_O _ _ _ _ _ S1 (S2 _ _ H2)) as (_ & -> & -> & S3).
    apply rel_seen; auto; [rewrite H1; exact I|inversion S1; subst; reflexivity|repeat constructor].
  - exfalso. pose proof (Er r H0) as Y; rewrite H1 in Y; destruct (Y I) as [S1 S2]. destruct (stage_O _ _ _ _ _ S1 (S2 _ _ H2)) as (-> & _). apply H3. reflexivity.
  - apply rel_reply; auto.
  - apply rel_replied; auto.
  - apply rel_replied; auto.
  - apply rel_done; auto.
  - exfalso. destruct (rel_done s r HRel H0 H1) as (E & _). destruct HRel as (c0 & i & np & nx & pend & Hrun & Hpos & Hw & Hl).
    pose proof (bpos_nth _ _ _ _ _ _ _ _ Hpos H2) as X. rewrite E in X. cbn in X. congruence.
Qed.
Lemma rel_start : Rel (mstart p_all).
Proof.
  exists init, 0, 1, 1, (fun _ => []). split; [constructor|]. split; [|split].
  - unfold mstart. cbn [m_prog m_stat m_colls]. rewrite p_all_eq. apply P_setup; auto. split; reflexivity.
  - unfold wside, mstart. cbn [m_pc m_ws m_seen m_reps m_queue m_prog]. split; [|split]; auto.
    + intros r Hr. rewrite (ltb_false r 1) by lia. change [] with (reps_of init r) at 1. apply R_stage; auto. constructor.
    + intros r Hr. cbn [pre app]. rewrite p_all_eq. apply of_ops_post.
  - split; [reflexivity|constructor].
Qed.
Lemma rel_run n s : mrun R opens ev p_all n s -> Rel s.
Proof. induction 1; [apply rel_start|eapply rel_step; eauto]. Qed.

(** ** it goes on *)
Definition goes (s : msys) : Prop := exists s', mstep R opens ev True s s'.
Lemma all_or (P : Prop) (Q : nat -> Prop) : (forall r, 1 <= r < R -> P \/ Q r) -> P \/ forall r, 1 <= r < R -> Q r.
Proof.
  intros H. destruct (all_or_one (ranks R) P Q) as [X|X]; auto.
  - intros r Hr. apply H, in_ranks, Hr.
  - right. intros r Hr. apply X, in_ranks, Hr.
Qed.
Lemma all_joined_or s m (P : Prop) : (forall r, 1 <= r < R -> joined s r < m -> P) -> P \/ all_joined R s m.
Proof. intros H. apply all_or. intros r Hr. destruct (Nat.lt_ge_cases (joined s r) m); eauto. Qed.
Lemma held_lt c n r o : run N R okb n c -> 1 <= r < R -> In o (held c r) -> o < N.
Proof.
  intros Hrun Hr Ho. pose proof (inv_run N R okb n c HR Hrun) as I. assert (G : In (r, o) (given c)).
  { eapply Permutation_in; [apply Permutation_sym, (i_perm _ _ _ I)|]. apply in_or_app. left. apply in_flat_map. exists r. split; [apply in_ranks; auto|].
    unfold heldp. apply in_map. auto. }
  assert (S : In o (seq 0 (sent N c))) by (rewrite <- (i_seq _ _ _ I); apply (in_map snd) in G; auto).
  apply in_seq in S. pose proof (i_phase _ _ _ I) as P. unfold phase_ok in P. unfold sent in S. destruct (boss c); lia.
Qed.
Definition fine_all : Prop := (bucket <= INT_MAX)%Z /\ forall o, o < N -> okb o = true.
Lemma not_dead c n r o : fine_all -> run N R okb n c -> 1 <= r < R -> work c r <> WDead o.
Proof.
  intros [_ Hok] Hrun Hr E. pose proof (dead_failed _ _ _ _ _ Hrun r o E) as F. rewrite Hok in F; [discriminate|].
  apply (held_lt c n r); auto. unfold held. rewrite E. apply in_or_app. right. left. auto.
Qed.
Lemma goes_got s r t : 1 <= r < R -> m_pc s r = WGot t -> goes s.
Proof. intros Hr E. destruct (react opens ev (m_ws s r) t) as (l & w & pc) eqn:Ee. eexists. eapply M_exec; eauto. Qed.

(** a rank that has not yet entered a collective call rank 0 has *)
Lemma goes_seen s c n np nx pend r : fine_all -> run N R okb n c -> bpos c (m_prog s) (m_stat s) (m_colls s) np nx -> wside s c np nx pend ->
  1 <= r < R -> m_seen s r < length (m_colls s) -> m_seen s r < 7 -> (forall p ok, m_pc s r <> WOpen p ok) -> goes s.
Proof.
  intros Hf Hrun Hpos Hw Hr H1 H2 H3. assert (W := proj1 Hw r Hr).
  assert (Hx : exists x, nth_error (m_colls s) (m_seen s r) = Some x).
  { destruct (nth_error (m_colls s) (m_seen s r)) eqn:E; eauto. apply nth_error_None in E. lia. }
  destruct Hx as (x & Hx). pose proof (bpos_nth _ _ _ _ _ _ _ _ Hpos Hx) as Hx'.
  assert (St : stage (m_seen s r) (m_pc s r) (m_ws s r)).
  { inversion W as [k0 pc0 w0 S1 S2 S3|S1 S2 S3|pc0 S1 S2 S3|o S1 S2|S1 S2|S1 S2|o e S1 S2|S1 S2 S3|S1 S2 S3|S1 S2 S3]; auto; lia. }
  destruct (m_pc s r) as [|m| |m|t|p ok| | | | |e|] eqn:Epc; try (exfalso; inversion St; lia).
  - destruct (stage_B _ _ _ St Hx') as (m & -> & _). eexists. eapply M_blen; eauto.
  - destruct (stage_Bt _ _ _ _ St Hx') as (t & -> & E & _). eexists. eapply M_btext; eauto.
  - eapply goes_got; eauto.
  - exfalso. eapply H3; eauto.
  - exfalso. destruct Hf as [Hf _]. inversion St; lia.
Qed.
Lemma goes_early s c n np nx pend r m : fine_all -> run N R okb n c -> bpos c (m_prog s) (m_stat s) (m_colls s) np nx -> wside s c np nx pend ->
  1 <= r < R -> joined s r < m -> m <= length (m_colls s) -> m <= 7 -> goes s.
Proof.
  intros Hf Hrun Hpos Hw Hr H1 H2 H3.
  assert (Base : forall r m, 1 <= r < R -> joined s r < m -> m <= length (m_colls s) -> m <= 5 -> goes s).
  { intros r' m' Hr' J1 J2 J3. unfold joined in J1. eapply (goes_seen s c n np nx pend r'); eauto; try lia. intros p ok E. rewrite E in J1. cbn [joining] in J1.
    assert (W := proj1 Hw r' Hr'). rewrite E in W. destruct (wrel_early _ _ _ _ _ _ _ _ _ W I) as (St & _). inversion St; lia. }
  destruct (m_pc s r) as [|x| |x|t|p ok| | | | |e|] eqn:Epc;
    try (eapply (goes_seen s c n np nx pend r); eauto; unfold joined in H1; rewrite ?Epc in *; cbn [joining] in H1; try lia; intros; discriminate).
  assert (W := proj1 Hw r Hr). rewrite Epc in W. destruct (wrel_early _ _ _ _ _ _ _ _ _ W I) as (St & _).
  unfold joined in H1. rewrite Epc in H1. cbn [joining] in H1. assert (E4 : m_seen s r = 4) by (inversion St; auto). rewrite E4 in *.
  destruct (all_joined_or s 5 (goes s)) as [G|G]; auto.
  { intros y Hy Jy. eapply (Base y 5); eauto. lia. }
  assert (Hx : exists x, nth_error (m_colls s) 4 = Some x).
  { destruct (nth_error (m_colls s) 4) eqn:E; eauto. apply nth_error_None in E. lia. }
  destruct Hx as (x & Hx). pose proof (bpos_nth _ _ _ _ _ _ _ _ Hpos Hx) as Hx'. destruct (stage_O _ _ _ _ _ St Hx') as (-> & _).
  eexists. eapply (M_opened R opens ev s r p ok); eauto; rewrite E4; auto.
Qed.
(** a rank with a message on the way *)
Lemma reps_none s c np nx pend r : wside s c np nx pend -> 1 <= r < R -> rep c r = 0 -> m_reps s r = [].
Proof. intros Hw Hr E. rewrite (wrel_reps _ _ _ _ _ _ _ _ _ (proj1 Hw r Hr)). unfold reps_of. rewrite E. reflexivity. Qed.
Lemma end_rep c n r : run N R okb n c -> boss c = BEnd -> rep c r = 0.
Proof. intros Hrun E. destruct (final_state N R okb n c HR Hrun E) as (F & _). apply F. Qed.
Lemma goes_queue s c n np nx pend r : fine_all -> run N R okb n c -> bpos c (m_prog s) (m_stat s) (m_colls s) np nx -> wside s c np nx pend ->
  1 <= r < R -> 7 <= length (m_colls s) -> m_queue s r <> [] -> goes s.
Proof.
  intros Hf Hrun Hpos Hw Hr H1 H2. destruct (Nat.lt_ge_cases (joined s r) 7) as [Hj|Hj]; [eapply goes_early; eauto|].
  assert (W := proj1 Hw r Hr). assert (B := proj1 (proj2 Hw) r Hr).
  destruct (m_queue s r) as [|p q] eqn:Eq; [congruence|].
  assert (HN : m_pc s r = WN -> goes s).
  { intros E. rewrite E in B. cbn [pre app] in B. destruct (flat_head _ _ _ (eq_sym B)) as (t & l & _ & -> & _). eexists. eapply M_len; eauto. }
  assert (HNt : forall m, m_pc s r = WNt m -> goes s).
  { intros m E. rewrite E in B. cbn [pre app] in B. destruct (flat_head _ _ _ (eq_sym B)) as (t & l & _ & E1 & E2). injection E1 as ->. injection E2 as -> _.
    eexists. eapply M_text; eauto. lia. }
  assert (Hp : pend r <> []).
  { intros E. rewrite E in B. destruct (pre (m_pc s r)); discriminate. }
  assert (Hrep : rep c r = 0 -> m_pc s r = WIn -> goes s).
  { intros E Epc. eexists. eapply M_taken; eauto. eapply reps_none; eauto. }
  inversion W as [k0 pc0 w0 S1 S2 S3 E1 E2 E3|S1 S2 S3 E1|pc0 S1 S2 S3 E1|o S1 S2 E1|S1 S2 E1|S1 S2 E1 E2 E3 E4|o e S1 S2 E1|S1 S2 S3 E1|S1 S2 S3 E1|S1 S2 S3 E1]; try (exfalso; congruence).
  - rewrite ?E1, ?E2, ?E3 in S1. unfold joined in Hj. destruct (m_pc s r) as [|x| |x|t|p' ok| | | | |e|] eqn:Epc; cbn [joining] in Hj;
      try (exfalso; inversion S1; lia); eauto. eapply goes_got; eauto.
  - eapply goes_got; [|symmetry]; eauto.
  - destruct S2 as [S2|(? & S2)]; [apply HN; congruence|eapply HNt; rewrite <- S2; congruence].
  - eapply goes_got; [|symmetry]; eauto.
  - eexists. eapply M_reply; eauto.
  - apply Hrep; auto. match goal with X : _ = pend r |- _ => unfold tail in X; rewrite <- X in Hp end. destruct (inbox c r) as [|o ib] eqn:Ei.
    + destruct (Nat.ltb_spec r nx); cbn [map app] in Hp; [|congruence]. apply (end_rep c n); auto. inversion Hpos; subst; auto; lia.
    + pose proof (i_tok _ _ _ (inv_run N R okb n c HR Hrun) r) as T. unfold tok, held in T. rewrite Ei, app_length in T. cbn [length] in T. lia.
  - exfalso. eapply not_dead; eauto.
Qed.
Lemma goes_last s c n pend r : fine_all -> run N R okb n c -> bpos c (PStop Finished) (m_stat s) (m_colls s) R R -> m_prog s = PStop Finished -> wside s c R R pend ->
  boss c = BEnd -> length (m_colls s) = 8 -> 1 <= r < R -> joined s r < 8 -> goes s.
Proof.
  intros Hf Hrun Hpos Ep Hw Eb Hc Hr Hj. rewrite <- Ep in Hpos. destruct (Nat.lt_ge_cases (joined s r) 7) as [Hj'|Hj']; [eapply (goes_early s c n R R pend r 7); eauto; lia|].
  assert (W := proj1 Hw r Hr). assert (B := proj1 (proj2 Hw) r Hr). rewrite Ep in B. cbn [post] in B. rewrite app_nil_r in B.
  rewrite (ltb_true r R) in W by lia.
  assert (Q : pend r <> [] -> goes s).
  { intros Hp. eapply (goes_queue s c n R R pend r); eauto; [lia|]. intros E. rewrite E, app_nil_r in B. apply Hp. eapply pre_only; eauto. }
  assert (T : forall x, x ++ tail c r true <> []) by (intros x; unfold tail; destruct x, (map tC (inbox c r)); discriminate).
  inversion W as [k0 pc0 w0 S1 S2 S3 E1 E2 E3|S1 S2 S3 E1|pc0 S1 S2 S3 E1|o S1 S2 E1|S1 S2 E1|S1 S2 E1 E2 E3 E4|o e S1 S2 E1|S1 S2 S3 E1|S1 S2 S3 E1|S1 S2 S3 E1].
  - apply Q. match goal with X : _ = pend r |- _ => rewrite <- X end; first [discriminate | apply T].
  - eapply goes_got; [|symmetry]; eauto.
  - apply Q. match goal with X : _ = pend r |- _ => rewrite <- X end. apply (T []).
  - eapply goes_got; [|symmetry]; eauto.
  - eexists. eapply M_reply; eauto.
  - eexists. eapply M_taken; eauto. eapply reps_none; eauto. eapply end_rep; eauto.
  - exfalso. eapply not_dead; eauto.
  - eapply goes_got; [|symmetry]; eauto.
  - exfalso. unfold joined in Hj. rewrite <- E1 in Hj. cbn [joining] in Hj. lia.
  - exfalso. unfold joined in Hj. rewrite <- E1 in Hj. cbn [joining] in Hj. lia.
Qed.
Lemma goes_recv s c n pend k : 2 <= R -> fine_all -> run N R okb n c -> bpos c (m_prog s) (m_stat s) (m_colls s) R 1 -> wside s c R 1 pend ->
  m_prog s = PRecv k -> m_stat s = BReady -> m_colls s = ops -> m_prog s = rest (boss c) -> blocked c = None -> normal (boss c) -> goes s.
Proof.
  intros HR2 Hf Hrun Hpos Hw Ep Est Hc Er Hb Hn.
  assert (Q : forall r, 1 <= r < R -> pend r <> [] -> goes s).
  { intros r Hr Hp. eapply (goes_queue s c n R 1 pend r); eauto; [rewrite Hc; cbn; lia|]. intros E. assert (B := proj1 (proj2 Hw) r Hr).
    rewrite E, Ep in B. cbn [post app] in B. rewrite app_nil_r in B. apply Hp. eapply pre_only; eauto. }
  assert (Early : forall r, 1 <= r < R -> joined s r < 7 -> goes s).
  { intros r Hr Hj. eapply (goes_early s c n R 1 pend r 7); eauto. rewrite Hc. cbn. lia. }
  assert (Take : forall r, 0 < rep c r -> goes s).
  { intros r Hrep. assert (Hr : 1 <= r < R) by (eapply tok_out_rep; eauto using inv_run).
    pose proof (wrel_reps _ _ _ _ _ _ _ _ _ (proj1 Hw r Hr)) as X. unfold reps_of in X. destruct (rep c r) as [|y]; [lia|]. cbn [repeat] in X.
    eexists. eapply M_recv; eauto. apply reply_len. lia. }
  destruct (progress N R okb n c HR2 Hrun (proj2 Hf)) as (c' & St); [intros E; rewrite E in Hn; exact Hn|].
  assert (Ep' : PRecv k = rest (boss c)) by congruence.
  inversion St as [z i E1 E2 E3 E4|z i E1 E2 E3 E4|z i E1 E2 E3 E4|z i r E1 E2 E3 E4|z i E1 E2 E3|z i r E1 E2 E3 E4|z i r E1 E2|z i E1 E2 E3|z i r E1 E2 E3 E4|z i E1 E2 E3|z r E1|z r o q E1 E2 E3|z r o E1 E2 E3|z r o E1 E2 E3|z r E1 E2|z r E1 E2 E3|z r E1 E2]; subst;
    try (rewrite E1 in Ep', Hn).
  - rewrite rest_first in Ep' by (cbn [normal] in Hn; lia). discriminate.
  - exfalso. cbn [normal] in Hn. lia.
  - exfalso. cbn [normal] in Hn. lia.
  - eauto.
  - exfalso. cbn [normal] in Hn. lia.
  - eauto.
  - rewrite rest_give in Ep'. discriminate.
  - exfalso. cbn [normal] in Hn. lia.
  - eauto.
  - exfalso. cbn [normal] in Hn. lia.
  - exfalso. congruence.
  - destruct (Nat.lt_ge_cases (joined s r) 7) as [Hj|Hj]; [eauto|]. assert (W := proj1 Hw r E1).
    assert (T : forall x y, x ++ tail c r y <> []) by (intros x y; unfold tail; rewrite E3; destruct x; discriminate).
    inversion W as [k0 pc0 w0 S1 S2 S3 F1 F2 F3|S1 S2 S3 F1|pc0 S1 S2 S3 F1|o' S1 S2 F1|S1 S2 F1|S1 S2 F1 F2 F3 F4|o' e S1 S2 F1|S1 S2 S3 F1|S1 S2 S3 F1|S1 S2 S3 F1]; try congruence.
    + apply (Q r); auto. match goal with X : _ = pend r |- _ => rewrite <- X end. apply T.
    + eapply goes_got; [|symmetry]; eauto.
    + apply (Q r); auto. match goal with X : _ = pend r |- _ => rewrite <- X end. apply (T []).
  - assert (W := proj1 Hw r E1).
    inversion W as [k0 pc0 w0 S1 S2 S3 F1 F2 F3|S1 S2 S3 F1|pc0 S1 S2 S3 F1|o' S1 S2 F1|S1 S2 F1|S1 S2 F1 F2 F3 F4|o' e S1 S2 F1|S1 S2 S3 F1|S1 S2 S3 F1|S1 S2 S3 F1]; try congruence.
    + eapply goes_got; [|symmetry]; eauto.
    + rewrite (ltb_false r 1) in S2 by lia. discriminate.
    + rewrite (ltb_false r 1) in S2 by lia. discriminate.
    + rewrite (ltb_false r 1) in S2 by lia. discriminate.
  - exfalso. pose proof (held_lt c n r o Hrun E1) as L. unfold held in L. rewrite E2 in L. rewrite (proj2 Hf o) in E3; [discriminate|]. apply L. apply in_or_app. right. left. auto.
  - assert (W := proj1 Hw r E1).
    inversion W as [k0 pc0 w0 S1 S2 S3 F1 F2 F3|S1 S2 S3 F1|pc0 S1 S2 S3 F1|o' S1 S2 F1|S1 S2 F1|S1 S2 F1 F2 F3 F4|o' e S1 S2 F1|S1 S2 S3 F1|S1 S2 S3 F1|S1 S2 S3 F1]; try congruence.
    + eexists. eapply M_reply; eauto.
    + rewrite (ltb_false r 1) in S2 by lia. discriminate.
    + rewrite (ltb_false r 1) in S2 by lia. discriminate.
    + rewrite (ltb_false r 1) in S2 by lia. discriminate.
  - assert (W := proj1 Hw r E1).
    inversion W as [k0 pc0 w0 S1 S2 S3 F1 F2 F3|S1 S2 S3 F1|pc0 S1 S2 S3 F1|o' S1 S2 F1|S1 S2 F1|S1 S2 F1 F2 F3 F4|o' e S1 S2 F1|S1 S2 S3 F1|S1 S2 S3 F1|S1 S2 S3 F1]; try congruence.
    + eexists. eapply M_taken; eauto. eapply reps_none; eauto.
    + rewrite (ltb_false r 1) in S2 by lia. discriminate.
    + rewrite (ltb_false r 1) in S2 by lia. discriminate.
    + rewrite (ltb_false r 1) in S2 by lia. discriminate.
  - exfalso. assert (X : False) by (match goal with Y : False = True |- _ => rewrite Y; exact I end). exact X.
Qed.
Definition finished (s : msys) : Prop := m_prog s = PStop Finished /\ m_stat s = BReady /\ forall r, 1 <= r < R -> m_pc s r = WDone.
Lemma goes_sending s c n np nx pend r : fine_all -> run N R okb n c -> bpos c (m_prog s) (m_stat s) (m_colls s) np nx -> wside s c np nx pend ->
  m_stat s = BSend r -> 1 <= r < R -> m_colls s = ops -> goes s.
Proof.
  intros Hf Hrun Hpos Hw Est Hr Hc. destruct (m_queue s r) as [|p q] eqn:Eq.
  - eexists. eapply M_sent; eauto.
  - eapply (goes_queue s c n np nx pend r); eauto; [rewrite Hc; cbn; lia|congruence].
Qed.
Lemma goes_ready s : 2 <= R -> fine_all -> Rel s -> m_stat s = BReady -> busy_prog (m_prog s) -> goes s.
Proof.
  intros HR2 Hf HRel Est Hb. destruct (m_prog s) as [p k|p k|r p k|k|k|e] eqn:Ep; try contradiction.
  - eexists. eapply M_send; eauto.
  - destruct HRel as (c0 & n0 & np & nx & pend & Hrun & Hpos & Hw & Hl). rewrite Est in Hpos.
    destruct (settle c0 n0 _ _ _ _ Hrun Hpos) as (n & c & H1 & H2 & H3 & H4 & H5); [rewrite Ep; exact I|].
    apply (wside_like _ _ _ _ _ _ H2) in Hw.
    destruct H5 as [(i & Hi & Eq & F & _)|[(Eq & Hn & -> & ->)|(i & Hi & Eq & F & -> & ->)]].
    + rewrite pP_next in Eq by lia. congruence.
    + eapply (goes_recv s c n pend k); eauto. rewrite Est, H4, Eq. apply P_push. auto.
    + exfalso. destruct (Nat.eq_dec i R) as [->|Hne]; [rewrite pX_end in Eq by lia|rewrite pX_next in Eq by lia]; congruence.
  - eexists. eapply M_final; eauto.
Qed.
Theorem goes_on s : 2 <= R -> fine_all -> Rel s -> finished s \/ goes s.
Proof.
  intros HR2 Hf HRel. destruct HRel as (c & n & np & nx & pend & Hrun & Hpos & Hw & Hl).
  assert (Busy : m_stat s = BReady -> busy_prog (m_prog s) -> goes s).
  { intros E1 E2. apply goes_ready; auto. exists c, n, np, nx, pend. auto. }
  assert (Ready : sending (m_stat s) -> m_colls s = ops -> busy_prog (m_prog s) \/ (exists r p k, m_prog s = PSend r p k) -> goes s).
  { intros [Es|(r & Hr & Es)] Ec Ep; [|eapply goes_sending; eauto]. destruct Ep as [Ep|(r & p & k & Ep)]; [auto|]. eexists. eapply M_send; eauto. }
  inversion Hpos as [l l' st E1 E2 E3 Ep|i st E1 E2 E3 Ep|i st E1 E2 E3 Ep|st E1 Ep|r' o st E1 E2 E3 E4 Ep|i st E1 E2 E3 E4 Ep|i st E1 E2 E3 E4 Ep|st E1 E2 E3 Ep].
  - right. subst st l. destruct E2 as [E2|(x & E2 & Hne & Hx)].
    + destruct l' as [|y l']; [apply Busy; auto; rewrite <- Ep; apply pP_busy|].
      destruct y as [p|p|]; cbn [of_ops] in Ep; eexists; [eapply M_cast|eapply M_open|eapply M_final]; eauto.
    + assert (L7 : length (m_colls s) <= 7).
      { change 7 with (length ops). rewrite E1, app_length. lia. }
      destruct (all_joined_or s (length (m_colls s)) (goes s)) as [G|G]; auto.
      { intros r Hr Hj. eapply (goes_early s c n np nx pend r (length (m_colls s))); eauto. }
      destruct x as [p|p|]; cbn [in_op] in E2.
      * destruct (all_or (goes s) (fun r => length (m_colls s) <= m_seen s r)) as [G'|G']; auto; [|eexists; eapply M_casted; eauto].
        intros r Hr. destruct (Nat.lt_ge_cases (m_seen s r) (length (m_colls s))) as [Hs|Hs]; auto. left.
        pose proof (G r Hr) as Gr. unfold joined in Gr. destruct (m_pc s r) as [|z| |z|t|p' ok| | | | |e|] eqn:Epc; cbn [joining] in Gr; try lia.
        { assert (W := proj1 Hw r Hr). rewrite Epc in W. destruct (wrel_early _ _ _ _ _ _ _ _ _ W I) as (St & _).
          assert (Hy : exists y, nth_error (m_colls s) (m_seen s r) = Some y).
          { destruct (nth_error (m_colls s) (m_seen s r)) eqn:E; eauto. apply nth_error_None in E. lia. }
          destruct Hy as (y & Hy). pose proof (bpos_nth _ _ _ _ _ _ _ _ Hpos Hy) as Hy'. destruct (stage_O _ _ _ _ _ St Hy') as (-> & _).
          eexists. eapply (M_opened R opens ev s r p' ok); eauto. replace (S (m_seen s r)) with (length (m_colls s)) by lia. exact G. }
        { assert (W := proj1 Hw r Hr). rewrite Epc in W. exfalso. inversion W as [k0 pc0 w0 S1| |pc0 S1 [S2|(? & S2)]| | | | | | |]; try discriminate; try lia. inversion S1. }
      * eexists. eapply M_opened0; eauto.
      * eexists. eapply M_done0; eauto.
  - right. apply Ready; auto. left. rewrite <- Ep. subst. apply pP_busy.
  - right. apply Ready; auto. right. eauto.
  - right. destruct E1 as [[E1 E1']|(r & Hr & E1 & E1')].
    + apply Busy; [congruence|rewrite <- Ep; apply rest_busy].
    + eapply goes_sending; eauto. congruence.
  - right. apply Ready; auto. right. eauto.
  - right. apply Ready; auto. left. rewrite <- Ep. subst. apply pX_busy.
  - right. apply Ready; auto. right. eauto.
  - assert (L8 : length (m_colls s) = 8) by (match goal with X : _ = m_colls s |- _ => rewrite <- X end; reflexivity).
    assert (np = R /\ nx = R) as [-> ->] by (split; congruence).
    destruct (all_joined_or s 8 (goes s)) as [G|G]; auto.
    { intros r Hr Hj. eapply (goes_last s c n pend r); eauto. rewrite Ep. exact Hpos. }
    destruct E1 as [E1|E1].
    + right. eexists. eapply M_done0; [congruence|]. rewrite L8. exact G.
    + destruct (all_or (goes s) (fun r => m_pc s r = WDone)) as [G'|G']; auto; [|left; repeat split; auto; congruence].
      intros r Hr. assert (W := proj1 Hw r Hr). pose proof (G r Hr) as Gr. unfold joined in Gr.
      inversion W as [k0 pc0 w0 S1 S2 S3 F1 F2 F3|S1 S2 S3 F1 F2 F3|pc0 S1 S2 S3 F1 F2 F3|o' S1 S2 F1 F2 F3|S1 S2 F1 F2 F3|S1 S2 F1 F2 F3|o' e S1 S2 F1 F2 F3|S1 S2 S3 F1 F2 F3|S1 S2 S3 F1 F2 F3|S1 S2 S3 F1 F2 F3]; auto.
      * exfalso. rewrite ?F1, ?F2, ?F3 in S1. clear -S1 Gr. destruct (m_pc s r); cbn [joining] in Gr; inversion S1; lia.
      * exfalso. rewrite <- F1, <- F3 in Gr. cbn [joining] in Gr. lia.
      * exfalso. destruct S2 as [S2|(? & S2)]; rewrite ?F1 in S2; rewrite S2 in Gr; cbn [joining] in Gr; lia.
      * exfalso. rewrite <- F1, <- F3 in Gr. cbn [joining] in Gr. lia.
      * exfalso. rewrite <- F1, <- F3 in Gr. cbn [joining] in Gr. lia.
      * exfalso. rewrite <- F1, <- F3 in Gr. cbn [joining] in Gr. lia.
      * exfalso. rewrite <- F1, <- F3 in Gr. cbn [joining] in Gr. lia.
      * exfalso. rewrite <- F1, <- F3 in Gr. cbn [joining] in Gr. lia.
      * left. assert (E7 : m_seen s r = 7) by congruence. eexists. eapply (M_done R opens ev s r); eauto; rewrite E7; [|exact G].
        match goal with X : _ = m_colls s |- _ => rewrite <- X end. reflexivity.
Qed.

(** ** the disk *)
Lemma disk_app dk l1 l2 : disk_after dk (l1 ++ l2) = disk_after (disk_after dk l1) l2.
Proof. apply fold_left_app. Qed.
Lemma disk_other dk l q : Forall mild l -> q <> path -> disk_after dk l q = dk q.
Proof.
  intros H Hq. revert dk. induction H as [|[r e] l Hm H IH]; intros dk; [reflexivity|]. cbn [disk_after fold_left snd]. fold (disk_after (on_disk dk e) l). rewrite IH.
  assert (X : forall a, set_file dk path a q = dk q) by (intros a; unfold set_file; rewrite (bytes_eqb_neq q path Hq); reflexivity).
  unfold mild in Hm. cbn [snd] in Hm. destruct e; try contradiction; cbn [on_disk]; auto.
  - destruct Hm as [-> ->]. apply X.
  - rewrite Hm. apply X.
Qed.
Definition content (dk : disk) : archive := match dk path with Some a => a | None => empty_archive end.
Fixpoint writes (l : list (nat * event)) (a : archive) : archive :=
  match l with [] => a | (_, EvWrite _ x) :: l' => writes l' (write_at a x) | _ :: l' => writes l' a end.
Lemma disk_content dk l : Forall mild l -> content (disk_after dk l) = writes (filter (fun re => is_write (snd re)) l) (content dk) /\
  ((exists r, In (r, EvOpen path true) l) \/ dk path <> None -> disk_after dk l path = Some (content (disk_after dk l))).
Proof.
  assert (S : forall dk a, set_file dk path a path = Some a).
  { intros d a. unfold set_file. rewrite bytes_eqb_refl. reflexivity. }
  intros H. revert dk. induction H as [|[r e] l Hm H IH]; intros dk.
  - split; [reflexivity|]. intros [(r & [])|Hd]. cbn. unfold content. destruct (dk path); [reflexivity|congruence].
  - change (disk_after dk ((r, e) :: l)) with (disk_after (on_disk dk e) l). destruct (IH (on_disk dk e)) as [IH1 IH2].
    unfold mild in Hm. cbn [snd] in Hm. destruct e; try contradiction; cbn [filter snd is_write writes].
    + destruct Hm as [-> ->]. cbn [on_disk] in *. split.
      * rewrite IH1. f_equal. unfold content at 1. rewrite S. reflexivity.
      * intros _. apply IH2. right. rewrite S. discriminate.
    + split; auto. intros [(y & [E|E])|Hd]; [discriminate|apply IH2; eauto|apply IH2; auto].
    + split; auto. intros [(y & [E|E])|Hd]; [discriminate|apply IH2; eauto|apply IH2; auto].
    + rewrite Hm in *. cbn [on_disk] in *. split.
      * rewrite IH1. f_equal. unfold content at 1. rewrite S. reflexivity.
      * intros _. apply IH2. right. rewrite S. discriminate.
Qed.
Lemma writes_wlog l a : writes (wlog l) a = fold_left (fun a o => match jobw o with Some x => write_at a x | None => a end) (map snd l) a.
Proof.
  unfold wlog. generalize jobw as jw. intros jw. revert a. induction l as [|[r o] l IH]; intros a; [reflexivity|]. cbn [flat_map map fold_left snd fst].
  destruct (jw o); cbn [app writes]; apply IH.
Qed.

(** the archive is opened before a rank goes on *)
Lemma opened_logged n s r : mrun R opens ev p_all n s -> 1 <= r < R -> 5 <= m_seen s r -> In (r, EvOpen path true) (m_log s).
Proof.
  intros H Hr. induction H as [|n s s' m H IH St]; [cbn; lia|]. pose proof (rel_run n s H) as HRel. intros H5.
  assert (Early : early (m_pc s r) -> m_seen s r = 4 -> stage 4 (m_pc s r) (m_ws s r)).
  { intros He E. destruct (rel_at s r HRel Hr He) as (S1 & _). rewrite E in S1. exact S1. }
  assert (Up : forall x pc l, s' = on_seen s x pc l -> (x = r -> m_seen s r = 4 -> In (r, EvOpen path true) l) -> In (r, EvOpen path true) (m_log s')).
  { intros x pc l -> Hx. unfold on_seen in *. cbn [m_seen m_log] in *. rewrite upd_at in H5. apply in_app_iff. destruct (Nat.eqb_spec r x) as [->|]; [|auto].
    destruct (Nat.eq_dec (m_seen s x) 4); [right; auto|left; apply IH; lia]. }
  inversion St; subst; try (apply IH; exact H5); try (unfold on_log, on_exec in *; cbn [m_log m_seen] in *; apply in_app_iff; left; apply IH; exact H5);
    (eapply Up; [reflexivity|]); intros -> E4.
  - exfalso. match goal with X : m_pc s r = _ |- _ => rewrite X in Early; pose proof (Early I E4) as S1 end. inversion S1.
  - exfalso. match goal with X : m_pc s r = _ |- _ => rewrite X in Early; pose proof (Early I E4) as S1 end. inversion S1.
  - match goal with X : m_pc s r = _ |- _ => rewrite X in Early; pose proof (Early I E4) as S1 end. inversion S1; subst. left. reflexivity.
  - exfalso. destruct (rel_done s r HRel Hr) as (E & _); [assumption|]. lia.
Qed.

(** ** what a finished run leaves *)
Lemma finished_end s : Rel s -> m_prog s = PStop Finished -> exists c n, run N R okb n c /\ boss c = BEnd /\ lside s c.
Proof.
  intros (c & n & np & nx & pend & Hrun & Hpos & Hw & Hl) E. exists c, n. split; auto. split; auto.
  assert (K : forall p, busy_prog p -> p <> m_prog s) by (intros p Hp ->; rewrite E in Hp; exact Hp).
  inversion Hpos as [l l' st E1 E2 E3 Ep|i st E1 E2 E3 Ep|i st E1 E2 E3 Ep|st E1 Ep|r' o st E1 E2 E3 E4 Ep|i st E1 E2 E3 E4 Ep|i st E1 E2 E3 E4 Ep|st E1 E2 E3 Ep]; auto.
  - exfalso. destruct l' as [|[p|p|] l']; cbn [of_ops] in Ep; try congruence. eapply K; [|exact Ep]. apply pP_busy.
  - exfalso. eapply K; [|exact Ep]. apply pP_busy.
  - exfalso. congruence.
  - exfalso. eapply K; [|exact Ep]. apply rest_busy.
  - exfalso. congruence.
Qed.
Lemma finished_disk n s dk : 2 <= R -> mrun R opens ev p_all n s -> finished s -> dk path = None ->
  exists c k, run N R okb k c /\ boss c = BEnd /\ disk_after dk (m_log s) path = Some (assemble jobw (map snd (log c))) /\
  forall q, q <> path -> disk_after dk (m_log s) q = dk q.
Proof.
  intros HR2 H (F1 & F2 & F3) Hd. pose proof (rel_run n s H) as HRel. destruct (finished_end s HRel F1) as (c & k & H1 & H2 & [L1 L2]).
  exists c, k. split; auto. split; auto. split; [|intros q; apply disk_other; auto].
  assert (Ho : In (1, EvOpen path true) (m_log s)).
  { apply (opened_logged n); auto. destruct HRel as (c' & n' & np & nx & pend & _ & _ & Hw & _). assert (W := proj1 Hw 1 ltac:(lia)). rewrite F3 in W by lia.
    inversion W as [k0 pc0 w0 S1| |pc0 S1 [S2|(? & S2)]| | | | | | |]; try discriminate; try lia. inversion S1. }
  destruct (disk_content dk (m_log s) L2) as [D1 D2]. rewrite D2 by eauto. f_equal. rewrite D1, L1, writes_wlog. unfold content. rewrite Hd. reflexivity.
Qed.
(** at any moment: only the archive is touched *)
Lemma only_archive n s dk q : mrun R opens ev p_all n s -> q <> path -> disk_after dk (m_log s) q = dk q.
Proof. intros H Hq. destruct (rel_run n s H) as (c & k & np & nx & pend & _ & _ & _ & [_ L]). apply disk_other; auto. Qed.
(** nobody is ever in error *)
Lemma no_error n s : mrun R opens ev p_all n s -> (forall r, 1 <= r < R -> m_pc s r <> WBad) /\ (forall e, m_prog s = PStop e -> e = Finished).
Proof.
  intros H. pose proof (rel_run n s H) as (c & k & np & nx & pend & _ & Hpos & Hw & _). split.
  - intros r Hr E. assert (W := proj1 Hw r Hr). rewrite E in W. inversion W as [k0 pc0 w0 S1| |pc0 S1 [S2|(? & S2)]| | | | | | |]; try discriminate. inversion S1.
  - intros e E. assert (K : forall p, busy_prog p -> p <> m_prog s) by (intros p Hp ->; rewrite E in Hp; exact Hp).
    inversion Hpos as [l l' st E1 E2 E3 Ep|i st E1 E2 E3 Ep|i st E1 E2 E3 Ep|st E1 Ep|r' o st E1 E2 E3 E4 Ep|i st E1 E2 E3 E4 Ep|i st E1 E2 E3 E4 Ep|st E1 E2 E3 Ep]; try congruence; exfalso.
    + destruct l' as [|[p|p|] l']; cbn [of_ops] in Ep; try congruence. eapply K; [|exact Ep]. apply pP_busy.
    + eapply K; [|exact Ep]. apply pP_busy.
    + eapply K; [|exact Ep]. apply rest_busy.
    + eapply K; [|exact Ep]. apply pX_busy.
Qed.
(** a job that fails is never survived *)
Lemma failed_hangs n s o : mrun R opens ev p_all n s -> o < N -> okb o = false -> m_prog s <> PStop Finished.
Proof.
  intros H Ho Hf E. destruct (finished_end s (rel_run n s H) E) as (c & k & H1 & H2 & _). eapply crash_hangs; eauto.
Qed.

(** a bucket size that is no int *)
Lemma over_stuck n s r : mrun R opens ev p_all n s -> (INT_MAX < bucket)%Z -> 1 <= r < R ->
  m_seen s r <= 2 /\ (m_seen s r = 2 -> m_pc s r = WGot tU \/ exists e, m_pc s r = WGone e).
Proof.
  intros H Hb Hr. induction H as [|n s s' m H [IH1 IH2] St]; [cbn; split; lia|]. pose proof (rel_run n s H) as HRel.
  pose proof (rel_step m s s' HRel St) as HRel'.
  assert (Up : forall x pc l, s' = on_seen s x pc l -> (x = r -> m_seen s r <= 1 /\ (m_seen s r = 1 -> m_pc s' r = WGot tU \/ exists e, m_pc s' r = WGone e)) ->
    m_seen s' r <= 2 /\ (m_seen s' r = 2 -> m_pc s' r = WGot tU \/ exists e, m_pc s' r = WGone e)).
  { intros x pc l -> Hx. unfold on_seen in *. cbn [m_seen m_pc] in *. rewrite !upd_at in *. destruct (Nat.eqb_spec r x) as [->|]; auto.
    destruct (Hx eq_refl) as [A B]. split; [lia|]. intros E. apply B. lia. }
  assert (Pc : forall x, m_seen s' r = m_seen s r -> (r = x -> m_seen s r = 2 -> m_pc s' r = WGot tU \/ exists e, m_pc s' r = WGone e) -> (r <> x -> m_pc s' r = m_pc s r) ->
    m_seen s' r <= 2 /\ (m_seen s' r = 2 -> m_pc s' r = WGot tU \/ exists e, m_pc s' r = WGone e)).
  { intros x E A B. rewrite E. split; auto. destruct (Nat.eq_dec r x) as [D|D]; auto. rewrite (B D). auto. }
  assert (Two : early (m_pc s r) -> m_seen s r <= 1).
  { intros E. destruct (Nat.eq_dec (m_seen s r) 2) as [E2|]; [|lia]. destruct (IH2 E2) as [X|(e & X)]; rewrite X in E; contradiction. }
  inversion St; subst; auto.
  - eapply Up; [reflexivity|]. intros ->. rewrite H1 in Two. specialize (Two I). split; auto. intros E1.
    pose proof (rel_at s r HRel Hr) as A. rewrite H1 in A. destruct (A I) as (S1 & _). rewrite E1 in S1. inversion S1.
  - eapply Up; [reflexivity|]. intros ->. rewrite H1 in Two. specialize (Two I). split; auto. intros E1. left.
    pose proof (rel_at s r HRel Hr) as A. rewrite H1 in A. destruct (A I) as (S1 & S2). rewrite E1 in *. pose proof (S2 _ _ H2) as X. cbn in X. injection X as <-.
    cbn [on_seen m_pc]. apply upd_same.
  - apply (Pc r0); [reflexivity| |intros D; cbn [on_pc m_pc]; apply upd_other; auto]. intros -> E2. destruct (IH2 E2) as [X|(e & X)]; congruence.
  - apply (Pc r0); [reflexivity| |intros D; cbn [on_pc m_pc]; apply upd_other; auto]. intros -> E2. destruct (IH2 E2) as [X|(e & X)]; congruence.
  - apply (Pc r0); [reflexivity| |intros D; cbn [on_take m_pc]; apply upd_other; auto]. intros -> E2. destruct (IH2 E2) as [X|(e & X)]; congruence.
  - apply (Pc r0); [reflexivity| |intros D; cbn [on_take m_pc]; apply upd_other; auto]. intros -> E2. destruct (IH2 E2) as [X|(e & X)]; congruence.
  - apply (Pc r0); [reflexivity| |intros D; cbn [on_take m_pc]; apply upd_other; auto]. intros -> E2. destruct (IH2 E2) as [X|(e & X)]; congruence.
  - apply (Pc r0); [reflexivity| |intros D; cbn [on_take m_pc]; apply upd_other; auto]. intros -> E2. destruct (IH2 E2) as [X|(e & X)]; congruence.
  - apply (Pc r0); [reflexivity| |intros D; cbn [on_exec m_pc]; apply upd_other; auto]. intros -> E2. destruct (IH2 E2) as [X|(e & X)]; [|congruence].
    assert (t = tU) as -> by congruence. assert (Ew : m_ws s r0 = wstart).
    { destruct HRel as (c & k & np & nx & pend & _ & _ & Hw & _). assert (W := proj1 Hw r0 Hr). rewrite E2 in W. inversion W as [k0 pc0 w0 S1| | | | | | | | |]; auto. inversion S1; congruence. }
    rewrite Ew, react_U_over in H2 by auto. right. exists EThrow. cbn [on_exec m_pc]. rewrite upd_same. congruence.
  - eapply Up; [reflexivity|]. intros ->. rewrite H1 in Two. specialize (Two I). split; auto. intros E1.
    pose proof (rel_at s r HRel Hr) as A. rewrite H1 in A. destruct (A I) as (S1 & _). rewrite E1 in S1. inversion S1.
  - apply (Pc r0); [reflexivity| |intros D; cbn [on_pc m_pc]; apply upd_other; auto]. intros -> E2. destruct (IH2 E2) as [X|(e & X)]; congruence.
  - apply (Pc r0); [reflexivity| |intros D; cbn [on_reply m_pc]; apply upd_other; auto]. intros -> E2. destruct (IH2 E2) as [X|(e & X)]; congruence.
  - apply (Pc r0); [reflexivity| |intros D; cbn [on_pc m_pc]; apply upd_other; auto]. intros -> E2. destruct (IH2 E2) as [X|(e & X)]; congruence.
  - apply (Pc r0); [reflexivity| |intros D; cbn [on_pc m_pc]; apply upd_other; auto]. intros -> E2. destruct (IH2 E2) as [X|(e & X)]; congruence.
  - eapply Up; [reflexivity|]. intros ->. destruct (rel_done s r HRel Hr H1) as (E & _). lia.
  - apply (Pc r0); [reflexivity| |intros D; cbn [on_pc m_pc]; apply upd_other; auto]. intros -> E2. destruct (IH2 E2) as [X|(e & X)]; congruence.
Qed.

Lemma nobody_dies s r e : fine_all -> Rel s -> 1 <= r < R -> m_pc s r <> WGone e.
Proof.
  intros Hf (c & k & np & nx & pend & Hrun & Hpos & Hw & _) Hr E. assert (W := proj1 Hw r Hr). rewrite E in W.
  inversion W as [k0 pc0 w0 S1| |pc0 S1 [S2|(? & S2)]| | | |o e' S1 S2| | |]; try discriminate.
  - destruct Hf as [Hf _]. inversion S1; lia.
  - eapply not_dead; eauto.
Qed.
(** every order was written, once *)
Lemma wlog_events l : map snd (wlog l) = flat_map (fun o => match jobw o with Some w => [EvWrite path w] | None => [] end) (map snd l).
Proof.
  unfold wlog. generalize jobw as jw. intros jw. induction l as [|[r o] l IH]; [reflexivity|]. cbn [flat_map map snd fst].
  rewrite map_app, IH. destruct (jw o); reflexivity.
Qed.
Lemma perm_flat_map {A B} (f : A -> list B) l l' : Permutation l l' -> Permutation (flat_map f l) (flat_map f l').
Proof. apply Permutation_flat_map. Qed.
Lemma all_jobs (jw : nat -> option wr) l : Forall (fun o => succeeds (jw o) = true) l ->
  exists ws, flat_map (fun o => match jw o with Some w => [EvWrite path w] | None => [] end) l = map (EvWrite path) ws /\ Forall2 (fun o w => jw o = Some w) l ws.
Proof.
  induction 1 as [|o l H Hl (ws & E & F)]; [exists []; split; [reflexivity|constructor]|]. cbn [flat_map]. destruct (jw o) as [w|] eqn:Ew; [|discriminate].
  exists (w :: ws). rewrite E. split; [reflexivity|constructor; auto].
Qed.
Lemma filter_snd (l : list (nat * event)) : map snd (filter (fun re => is_write (snd re)) l) = filter is_write (map snd l).
Proof. induction l as [|[r e] l IH]; [reflexivity|]. cbn [filter map snd]. destruct (is_write e); cbn [map snd]; rewrite IH; reflexivity. Qed.
Opaque jobw.
Lemma finished_writes n s : mrun R opens ev p_all n s -> m_prog s = PStop Finished ->
  exists ws, Permutation (filter is_write (map snd (m_log s))) (map (EvWrite path) ws) /\ Forall2 (fun o w => jobw o = Some w) (seq 0 N) ws.
Proof.
  intros H E. destruct (finished_end s (rel_run n s H) E) as (c & k & H1 & H2 & [L1 _]).
  destruct (final_state N R okb k c HR H1 H2) as (_ & P & _).
  pose proof (logged_ok _ _ _ _ _ H1) as Lg.
  assert (F : Forall (fun o => succeeds (jobw o) = true) (seq 0 N)).
  { rewrite Forall_forall. intros o Ho. eapply Permutation_in in Ho; [|apply Permutation_sym, P]. apply in_map_iff in Ho as ((r & o') & <- & Ho). rewrite Forall_forall in Lg. specialize (Lg _ Ho). unfold okb in Lg. cbn [snd] in *. exact Lg. }
  destruct (all_jobs jobw (seq 0 N) F) as (ws & W1 & W2). exists ws. split; auto. rewrite <- W1, <- filter_snd, L1, wlog_events. apply perm_flat_map, P.
Qed.

(** with a bucket size that is no int nothing is ever written *)
Lemma over_log n s : 2 <= R -> mrun R opens ev p_all n s -> (INT_MAX < bucket)%Z -> m_log s = [] /\ length (m_colls s) <= 5.
Proof.
  intros HR2 H Hb. assert (O : forall n s r, mrun R opens ev p_all n s -> 1 <= r < R -> joined s r <= 3).
  { intros n' s' r H' Hr. destruct (over_stuck n' s' r H' Hb Hr). unfold joined. destruct (joining (m_pc s' r)); lia. }
  enough (m_log s = [] /\ length (m_colls s) <= 5 /\ (length (m_colls s) = 5 -> m_stat s = BOpen path)) by tauto.
  induction H as [|n s s' m H (IH1 & IH2 & IH3) St]; [cbn; repeat split; auto; lia|]. pose proof (rel_run n s H) as HRel.
  assert (Enter : forall k st x, s' = on_coll s k st x -> m_stat s = BReady ->
     (m_prog s = match x with CCast p => PCast p k | COpen p => POpen p k | CFinal => PFinal k end) -> st = in_op x -> (x <> CFinal) ->
     m_log s' = [] /\ length (m_colls s') <= 5 /\ (length (m_colls s') = 5 -> m_stat s' = BOpen path)).
  { intros k st x -> Es Ep -> Hx. unfold on_coll. cbn [m_log m_colls m_stat]. rewrite app_length. cbn [length].
    assert (L4 : length (m_colls s) <> 5) by (intros L5; rewrite (IH3 L5) in Es; discriminate). split; auto. split; [lia|]. intros L5.
    destruct HRel as (c & i & np & nx & pend & Hrun & Hpos & _ & _). rewrite Es in Hpos. destruct (of_ops_next s c np nx x k Hpos Ep Hx) as (P1 & _).
    destruct (bpos_colls _ _ _ _ _ _ P1) as (y & Ey). assert (X : nth_error (ops ++ [CFinal]) 4 = Some x).
    { rewrite <- Ey, nth_error_app1 by (rewrite app_length; cbn [length]; lia). rewrite nth_error_app2 by lia. replace (4 - length (m_colls s)) with 0 by lia. reflexivity. }
    cbn in X. injection X as <-. reflexivity. }
  assert (Same : forall z, z = s' -> m_log z = m_log s -> m_colls z = m_colls s -> (m_stat z = m_stat s \/ forall p, m_stat s <> BOpen p) ->
     m_log z = [] /\ length (m_colls z) <= 5 /\ (length (m_colls z) = 5 -> m_stat z = BOpen path)).
  { intros z _ -> -> [->|Hs]; auto. split; auto. split; auto. intros L. exfalso. eapply Hs. apply IH3, L. }
  inversion St; subst;
    try (apply Same; auto; match goal with X : m_stat s = _ |- _ => right; intros ?p; rewrite X; discriminate end);
    try (eapply Enter; [reflexivity|assumption|eassumption|reflexivity|discriminate]).
  - exfalso. destruct HRel as (c & i & np & nx & pend & Hrun & Hpos & _ & _). rewrite H1 in Hpos.
    destruct (settle c i _ _ _ _ Hrun Hpos) as (n' & c' & _ & _ & _ & E & _); [rewrite H0; exact I|]. rewrite E in IH2. cbn in IH2. lia.
  - exfalso. destruct HRel as (c & i & np & nx & pend & Hrun & Hpos & Hw & Hl).
    assert (p = path) as -> by (eapply open_path; eauto; exists c, i, np, nx, pend; auto).
    assert (L : length (m_colls s) = 5).
    { rewrite H0 in Hpos. inversion Hpos as [l l' st E1 E2 E3 Ep Ec|i' st E1 E2 E3 Ep Ec|i' st E1 E2 E3 Ep Ec|st E1 Ep Ec|r' o st E1 E2 E3 E4 Ep Ec|i' st E1 E2 E3 E4 Ep Ec|i' st E1 E2 E3 E4 Ep Ec|st E1 E2 E3 Ep Ec];
        try (exfalso; destruct E2 as [E2|(? & _ & E2)]; discriminate); [|exfalso; destruct E1 as [[E1 _]|(? & _ & E1 & _)]; discriminate|exfalso; destruct E1; discriminate].
      destruct E2 as [E2|(x & E2 & Hne & Hx)]; [discriminate|]. destruct x as [|q|]; try discriminate.
      destruct (exists_last Hne) as (a & y & Ea). rewrite Ea, last_last in Hx. subst y.
      assert (X : nth_error ops (length a) = Some (COpen q)).
      { rewrite E1, Ea, <- app_assoc, nth_error_app2 by lia. rewrite Nat.sub_diag. reflexivity. }
      rewrite Ea, app_length. cbn [length].
      destruct (length a) as [|[|[|[|[|[|[|z]]]]]]]; cbn in X; try discriminate; try lia. destruct z; discriminate. }
    pose proof (H1 1 ltac:(lia)) as J. pose proof (O n s 1 H ltac:(lia)). lia.
  - apply Same; auto; [cbn [on_log m_log]; apply app_nil_r|]. right. intros p. rewrite H0. discriminate.
  - apply Same; auto; cbn [on_seen m_log]. apply app_nil_r.
  - apply Same; auto; cbn [on_seen m_log]. apply app_nil_r.
  - apply Same; auto; cbn [on_exec m_log]. destruct (over_stuck n s r H Hb H0) as [S1 S2].
    destruct HRel as (c & k & np & nx & pend & _ & _ & Hw & _). assert (W := proj1 Hw r H0). rewrite H1 in W.
    assert (Stg : stage (m_seen s r) (WGot t) (m_ws s r)) by (inversion W; subst; auto; lia).
    assert (m_seen s r = 2 /\ m_ws s r = wstart /\ t = tU) as (E1 & E2 & E3) by (inversion Stg; subst; try lia; auto).
    rewrite E2, E3, react_U_over in H2 by auto. assert (l = []) as -> by congruence. apply app_nil_r.
  - exfalso. assert (S1 : stage (m_seen s r) (WOpen p ok) (m_ws s r)) by (pose proof (rel_at s r HRel H0) as A; rewrite H1 in A; apply (A I)).
    destruct (over_stuck n s r H Hb H0) as [S2 _]. inversion S1; lia.
  - exfalso. destruct (rel_done s r HRel H0 H1) as (E & _). destruct (over_stuck n s r H Hb H0) as [S2 _]. lia.
Qed.
End Run.
