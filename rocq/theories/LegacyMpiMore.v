(** Runs of matched ranks: length, progress, order of the writes (LegacyMpi.v). *)
From Coq Require Import Lia.
From Verif Require Import Bytes Outcome TarModel Layout Mover Worker Boss Spider Program Legacy LegacyLayout LegacyScan LegacyCodec LegacyWrite LegacyCreate Mpi LegacyMpi LegacyMpiProofs.
Local Open Scope nat_scope.

Lemma search (P : nat -> Prop) : (forall n, {P n} + {~ P n}) -> forall R, (exists r, r < R /\ P r) \/ (forall r, r < R -> ~ P r).
Proof.
  intros D. induction R as [|R IH]; [right; lia|]. destruct IH as [(r & H1 & H2)|IH]; [left; exists r; split; [lia|auto]|].
  destruct (D R) as [Y|N]; [left; exists R; split; [lia|auto]|]. right. intros r Hr. destruct (Nat.eq_dec r R) as [->|X]; auto. apply IH. lia.
Qed.
Lemma least (f : nat -> nat) R : 1 <= R -> exists r, r < R /\ forall q, q < R -> f r <= f q.
Proof.
  induction R as [|R IH]; [lia|]. intros _. destruct (Nat.eq_dec R 0) as [->|N]; [exists 0; split; [lia|]; intros q Hq; assert (q = 0) by lia; subst; lia|].
  destruct IH as (r & H1 & H2); [lia|]. destruct (Nat.le_gt_cases (f r) (f R)) as [L|L].
  - exists r. split; [lia|]. intros q Hq. destruct (Nat.eq_dec q R) as [->|X]; auto. apply H2. lia.
  - exists R. split; [lia|]. intros q Hq. destruct (Nat.eq_dec q R) as [->|X]; [lia|]. specialize (H2 q ltac:(lia)). lia.
Qed.
Definition total (f : nat -> nat) (R : nat) : nat := list_sum (map f (seq 0 R)).
Lemma total_S f R : total f (S R) = total f R + f R.
Proof. unfold total. rewrite seq_S, map_app, list_sum_app. cbn. lia. Qed.
Lemma total_drop f g R r : r < R -> g r < f r -> (forall q, q <> r -> g q = f q) -> total g R < total f R.
Proof.
  intros Hr H E. induction R as [|R IH]; [lia|]. rewrite !total_S. destruct (Nat.eq_dec r R) as [->|N].
  - assert (G : total g R = total f R); [|lia]. clear -E. unfold total. f_equal. apply map_ext_in. intros q Hq. apply in_seq in Hq. apply E. lia.
  - specialize (IH ltac:(lia)). rewrite (E R) by lia. lia.
Qed.

Section Run.
Context (R : nat) (opens : bytes -> bool) (p : nat -> lprog) (H : list lcall) (HM : matched R opens p H).

(** *** how long a run can be *)
Definition left_of (s : lsys) (r : nat) : nat := 2 * length (items opens (skipn (l_seen s r) H) (l_prog s r)) - (if l_in s r then 1 else 0).
Lemma step_drops s s' m : good R opens p H s -> lstep R opens m s s' -> total (left_of s') R < total (left_of s) R.
Proof.
  intros G St. pose proof (mt_R _ _ _ _ HM) as HR.
  assert (Ent : forall s r h, l_in s r = false -> (exists c, first_call (l_prog s r) = Some c) -> r < R -> total (left_of (enter s r h)) R < total (left_of s) R).
  { intros s0 r h Hin (c & Hf) Hr. apply total_drop with (r := r); auto.
    - unfold left_of, enter. cbn [l_seen l_prog l_in]. rewrite upd_same, Hin, (items_call opens _ _ _ Hf). cbn [length]. lia.
    - intros q Hq. unfold left_of, enter. cbn [l_seen l_prog l_in]. rewrite upd_other by auto. reflexivity. }
  assert (Lea : forall s r k l c t, items opens (skipn (l_seen s r) H) (l_prog s r) = c :: t -> t = items opens (skipn (S (l_seen s r)) H) k -> r < R ->
    total (left_of (leave s r k l)) R < total (left_of s) R).
  { intros s0 r k l c t E1 E2 Hr. apply total_drop with (r := r); auto.
    - unfold left_of, leave. cbn [l_seen l_prog l_in]. rewrite !upd_same, E1, <- E2. cbn [length]. destruct (l_in s0 r); lia.
    - intros q Hq. unfold left_of, leave. cbn [l_seen l_prog l_in]. rewrite !upd_other by auto. reflexivity. }
  assert (Cast : forall x k, l_prog s 0 = LBcast x k -> l_in s 0 = true -> total (left_of (leave s 0 k [])) R < total (left_of s) R).
  { intros x k Hp Hin. assert (F : first_call (l_prog s 0) = Some (KBcast x)) by (rewrite Hp; reflexivity). pose proof (next_call R opens p H HM s _ G F) as Hn.
    eapply Lea; [|reflexivity|lia]. rewrite Hp, (skipn_nth _ _ _ Hn). reflexivity. }
  destruct St as [s c Hf Hin|s r c Hr Hj Hin|s x k Hp Hin _|s x k Hp Hin|s r w k x Hr Hp Hn Hx|s r w k c Hr Hp Hn Hx|s r c Hr Hj Hin Hn Hall|s r c c' Hr Hj Hin Hn Hne|s r path w k Hr Hp].
  - apply Ent; eauto.
  - apply Ent; [auto|exists c; apply joint_first, Hj|lia].
  - eauto.
  - eauto.
  - assert (HnH : nth_error H (l_seen s r) = Some (KBcast x)) by (rewrite (g_hist _ _ _ _ _ G) in Hn; apply nth_firstn in Hn; tauto).
    eapply Lea; [|reflexivity|lia]. rewrite Hp, (skipn_nth _ _ _ HnH). reflexivity.
  - exfalso. assert (HnH : nth_error H (l_seen s r) = Some c) by (rewrite (g_hist _ _ _ _ _ G) in Hn; apply nth_firstn in Hn; tauto).
    pose proof (skipn_nth _ _ _ HnH) as Hs. pose proof (g_ok _ _ _ _ _ G r ltac:(lia)) as O. rewrite Hp, Hs in O. destruct c as [x| | |]; try exact O. destruct O as [O _]. rewrite (Hx x eq_refl) in O. discriminate O.
  - assert (HnH : nth_error H (l_seen s r) = Some c) by (rewrite (g_hist _ _ _ _ _ G) in Hn; apply nth_firstn in Hn; tauto).
    eapply Lea; [|reflexivity|lia]. rewrite (items_call opens _ _ _ (joint_first _ _ Hj)), (skipn_nth _ _ _ HnH). reflexivity.
  - exfalso. assert (HnH : nth_error H (l_seen s r) = Some c') by (rewrite (g_hist _ _ _ _ _ G) in Hn; apply nth_firstn in Hn; tauto).
    pose proof (okay_call opens _ _ _ (joint_first _ _ Hj) (g_ok _ _ _ _ _ G r Hr)) as O. rewrite (skipn_nth _ _ _ HnH) in O. destruct O as [O _]. contradiction.
  - apply total_drop with (r := r); auto.
    + unfold left_of, local. cbn [l_seen l_prog l_in]. rewrite !upd_same, Hp. cbn [items length]. destruct (l_in s r); lia.
    + intros q Hq. unfold left_of, local. cbn [l_seen l_prog l_in]. rewrite !upd_other by auto. reflexivity.
Qed.
Lemma run_length n s : lrun R opens p n s -> n + total (left_of s) R <= total (fun r => 2 * length (items opens H (p r))) R.
Proof.
  induction 1 as [|n s s' m Hr IH St].
  - apply Nat.eq_le_incl. cbn [Nat.add]. unfold total. f_equal. apply map_ext. intros r. unfold left_of. cbn [lstart l_seen l_prog l_in skipn]. lia.
  - pose proof (step_drops s s' m (good_run R opens p H HM n s Hr) St). lia.
Qed.

(** *** what a rank has done, at most *)
Lemma entered_most s r : good R opens p H s -> r < R -> entered s r <= length (calls (items opens H (p r))).
Proof.
  intros G Hr. destruct (g_split _ _ _ _ _ G r Hr) as (d & E & L & _). rewrite E, calls_app, app_length, L. unfold entered. destruct (l_in s r) eqn:Ei; [|lia].
  destruct (g_in _ _ _ _ _ G r Hr Ei) as (c & F & _). rewrite (items_call opens _ _ _ F). cbn [calls flat_map app length]. lia.
Qed.

(** *** progress *)
Definition even : Prop := forall r, r < R -> length (calls (items opens H (p r))) = length H /\ endp opens H (p r) = LReturn 0.
Lemma progress s : good R opens p H s -> even -> (forall r, r < R -> l_prog s r = LReturn 0) \/ exists s', lstep R opens True s s'.
Proof.
  intros G He. pose proof (mt_R _ _ _ _ HM) as HR.
  destruct (search (fun r => exists path w k, l_prog s r = LWrite path w k)) with (R := R) as [(r & Hr & path & w & k & Hp)|NW].
  { intros r. destruct (l_prog s r); try (left; eauto; fail); right; intros (? & ? & ? & X); discriminate X. }
  { right. eexists. apply L_write; eauto. }
  destruct (least (l_seen s) R HR) as (r0 & Hr0 & Hmin).
  assert (Rest : forall q, q < R -> l_seen s q + length (calls (items opens (skipn (l_seen s q) H) (l_prog s q))) = length H).
  { intros q Hq. destruct (g_split _ _ _ _ _ G q Hq) as (d & E & L & _). destruct (He q Hq) as [E1 _]. rewrite E, calls_app, app_length in E1. lia. }
  destruct (nth_error H (l_seen s r0)) as [c|] eqn:Hc.
  2:{ left. apply nth_error_None in Hc. intros q Hq. pose proof (Hmin q Hq) as M. pose proof (Rest q Hq) as Z. assert (Zl : length (calls (items opens (skipn (l_seen s q) H) (l_prog s q))) = 0) by lia.
      pose proof (g_end _ _ _ _ _ G q Hq) as Q. rewrite (proj2 (He q Hq)) in Q. rewrite skipn_all2 in * by lia.
      destruct (l_prog s q) eqn:Ep; cbn in Q, Zl; try discriminate; auto. exfalso. eapply (NW q Hq); eauto. }
  right. assert (Hlt : l_seen s r0 < length H) by (apply nth_error_Some; rewrite Hc; discriminate).
  pose proof (skipn_nth _ _ _ Hc) as Hs. remember (l_seen s r0) as m eqn:Em.
  assert (At : forall q, q < R -> l_seen s q = m -> (exists w k x, l_prog s q = LFetch w k /\ c = KBcast x /\ fits w x = true) \/ first_call (l_prog s q) = Some c).
  { intros q Hq Eq. pose proof (g_ok _ _ _ _ _ G q Hq) as O. pose proof (Rest q Hq) as Z. rewrite Eq, Hs in O, Z.
    destruct (l_prog s q) as [x k|w k|k|path k|path w k|k|cd|e|] eqn:Ep; cbn in O, Z; try (right; cbn; destruct O as [-> _]; reflexivity); try (exfalso; lia).
    - left. destruct c as [x| | |]; try contradiction. destruct O as [O _]. eauto 6.
    - exfalso. eapply NW; eauto. }
  destruct (Nat.eq_dec (entered s 0) m) as [E0|N0].
  { assert (Ei : l_in s 0 = false /\ l_seen s 0 = m). { unfold entered in E0. pose proof (Hmin 0 HR). destruct (l_in s 0); split; auto; lia. }
    destruct Ei as [Ei Es]. destruct (At 0 HR Es) as [(w & k & x & X & _)|F]; [pose proof (g_own _ _ _ _ _ G) as O; rewrite X in O; destruct O|].
    eexists. apply (L_enter0 R opens s c); auto. }
  assert (Hh : nth_error (l_hist s) m = Some c).
  { rewrite (g_hist _ _ _ _ _ G). assert (m < entered s 0) by (unfold entered in *; pose proof (Hmin 0 HR); destruct (l_in s 0); lia).
    rewrite <- (firstn_skipn (entered s 0) H), nth_error_app1 in Hc; auto. rewrite firstn_length_le; [auto|apply (g_most _ _ _ _ _ G)]. }
  destruct (waits c) eqn:Hw.
  - destruct (search (fun q => l_seen s q = m /\ l_in s q = false)) with (R := R) as [(q & Hq & Eq & Ei)|All].
    { intros q. destruct (Nat.eq_dec (l_seen s q) m), (l_in s q); try (right; intros [? ?]; congruence); left; auto. }
    + destruct (Nat.eq_dec q 0) as [->|Nq]; [exfalso; unfold entered in N0; rewrite Ei in N0; lia|].
      destruct (At q Hq Eq) as [(w & k & x & X & -> & _)|F]; [discriminate Hw|]. eexists. apply (L_enter R opens s q c); auto; [lia|].
      destruct (l_prog s q); cbn in *; auto. injection F as <-. discriminate Hw.
    + assert (Ei : l_in s r0 = true) by (destruct (l_in s r0) eqn:X; auto; exfalso; apply (All r0 Hr0); auto).
      destruct (At r0 Hr0 (eq_sym Em)) as [(w & k & x & X & -> & _)|F]; [discriminate Hw|]. eexists. apply (L_join R opens s r0 c); auto.
      * destruct (l_prog s r0); cbn in *; auto. injection F as <-. discriminate Hw.
      * rewrite <- Em. exact Hh.
      * intros q Hq. rewrite <- Em. pose proof (Hmin q Hq) as M. unfold entered. destruct (Nat.eq_dec (l_seen s q) m) as [Eq|Nq]; [|lia].
        destruct (l_in s q) eqn:X; [lia|]. exfalso. apply (All q Hq); auto.
  - destruct c as [x| | |]; try discriminate Hw.
    destruct (search (fun q => 1 <= q /\ l_seen s q = m)) with (R := R) as [(q & Hq & Hq1 & Eq)|All].
    { intros q. destruct (Nat.eq_dec (l_seen s q) m), (le_dec 1 q); try (right; intros [? ?]; lia); left; auto. }
    + destruct (At q Hq Eq) as [(w & k & x' & X & Ex & Hf)|F].
      * injection Ex as <-. eexists. apply (L_fetch R opens s q w k x); auto. rewrite Eq. exact Hh.
      * exfalso. pose proof (g_cast _ _ _ _ _ G q ltac:(lia)) as C. destruct (l_prog s q); cbn in F, C; try discriminate F; destruct C.
    + assert (r0 = 0) by (destruct (Nat.eq_dec r0 0); auto; exfalso; apply (All r0 Hr0); split; [lia|auto]). subst r0.
      destruct (At 0 HR (eq_sym Em)) as [(w & k & x' & X & _)|F]; [pose proof (g_own _ _ _ _ _ G) as O; rewrite X in O; destruct O|].
      destruct (l_prog s 0) as [x' k| | | | | | | |] eqn:Ep; cbn in F; try discriminate F. eexists. apply (L_casted R opens s x' k); auto.
      * unfold entered in N0. destruct (l_in s 0); auto. lia.
      * intros r Hr. pose proof (Hmin r ltac:(lia)). destruct (Nat.eq_dec (l_seen s r) m) as [E|N]; [|lia]. exfalso. apply (All r ltac:(lia)). split; [lia|auto].
Qed.
Lemma leads_done n s : lrun R opens p n s -> even -> exists s', lleads R opens s s' /\ forall r, r < R -> l_prog s' r = LReturn 0.
Proof.
  intros Hrun He. remember (total (left_of s) R) as mu eqn:Emu. revert n s Hrun Emu. induction mu as [mu IH] using (well_founded_induction Wf_nat.lt_wf). intros n s Hrun ->.
  pose proof (good_run R opens p H HM n s Hrun) as G. destruct (progress s G He) as [D|(s' & St)]; [exists s; split; [constructor|exact D]|].
  destruct (IH _ (step_drops s s' True G St) (S n) s' (lrun_step _ _ _ _ _ _ _ Hrun St) eq_refl) as (s'' & L & D). exists s''. split; [econstructor; eauto|exact D].
Qed.

(** *** nobody gets past MPI_Finalize before everybody called it *)
Lemma past_final n s r i q : lrun R opens p n s -> r < R -> i < l_seen s r -> nth_error H i = Some KFinal -> q < R -> i < length (calls (items opens H (p q))).
Proof.
  intros Hrun Hr Hi Hf Hq. pose proof (good_run R opens p H HM n s Hrun) as G. eapply Nat.lt_le_trans; [|apply (entered_most s q G Hq)].
  exact (g_sync _ _ _ _ _ G r i KFinal q Hr Hi Hf eq_refl Hq).
Qed.

(** *** the order of the writes *)
Lemma items_split a b t c u : a ++ ICall b :: t = c ++ u -> length (calls a) < length (calls c) -> exists m, c = a ++ ICall b :: m.
Proof.
  unfold calls. revert c. induction a as [|x a IH]; intros [|y c] E L; cbn in E, L; try lia.
  - injection E as <- E. exists c. reflexivity.
  - injection E as <- E. destruct (IH c E) as (m & ->); [destruct x; cbn in L; lia|]. exists m. reflexivity.
Qed.
Lemma items_unique a b t c d u : a ++ ICall b :: t = c ++ ICall d :: u -> length (calls a) = length (calls c) -> a = c.
Proof.
  unfold calls. revert c. induction a as [|x a IH]; intros [|y c] E L; cbn in E, L; auto; injection E as E1 E2; subst.
  - cbn in L. lia.
  - cbn in L. lia.
  - f_equal. apply IH with (1 := E2). destruct y; cbn in L; lia.
Qed.
(** a rank that is inside its k-th call or past it has done all its writes before that call *)
Lemma before_call s q pre c post : good R opens p H s -> q < R -> items opens H (p q) = pre ++ ICall c :: post -> length (calls pre) < entered s q ->
  exists m, mine q (l_log s) = puts pre ++ m.
Proof.
  intros G Hq Hpre He. destruct (g_split _ _ _ _ _ G q Hq) as (d & E & L & P). rewrite <- P. rewrite Hpre in E.
  destruct (Nat.lt_ge_cases (length (calls pre)) (length (calls d))) as [X|X].
  - destruct (items_split _ _ _ _ _ E X) as (m & ->). rewrite puts_app. cbn. eauto.
  - unfold entered in He. destruct (l_in s q) eqn:Ei; [|lia]. destruct (g_in _ _ _ _ _ G q Hq Ei) as (c' & F & _). rewrite (items_call opens _ _ _ F) in E.
    assert (pre = d) by (eapply items_unique; [exact E|lia]). subst. exists []. now rewrite app_nil_r.
Qed.
Lemma mine_some s q : good R opens p H s -> q < R -> exists m, puts (items opens H (p q)) = mine q (l_log s) ++ m.
Proof. intros G Hq. destruct (g_split _ _ _ _ _ G q Hq) as (d & E & L & P). exists (puts (items opens (skipn (l_seen s q) H) (l_prog s q))). rewrite E, puts_app, P. reflexivity. Qed.
(** what is in the log *)
Lemma log_kinds n s : lrun R opens p n s -> forall r e, In (r, e) (l_log s) ->
  (exists path, e = EvOpen path (opens path) /\ In (KOpen path) H) \/ (exists path w, e = EvWrite path w /\ In (path, w) (puts (items opens H (p r)))).
Proof.
  intros Hrun r e He. assert (D : (exists path w, e = EvWrite path w) \/ forall path w, e <> EvWrite path w) by (destruct e; try (right; discriminate); left; eauto).
  destruct D as [(path & w & ->)|Nw].
  - right. exists path, w. split; [reflexivity|]. pose proof (good_run R opens p H HM n s Hrun) as G.
    destruct (mine_some s r G (g_log _ _ _ _ _ G r _ He)) as (m & ->). apply in_or_app. left. unfold mine. apply in_flat_map. exists (r, EvWrite path w). split; [exact He|].
    cbn. rewrite Nat.eqb_refl. left. reflexivity.
  - left. revert r He. induction Hrun as [|n s s' m Hrun IH St]; intros r He; [destruct He|].
    pose proof (good_run R opens p H HM n s Hrun) as G.
    destruct St as [s c Hf Hin|s r0 c Hr Hj Hin|s x k Hp Hin _|s x k Hp Hin|s r0 w k x Hr Hp Hn Hx|s r0 w k c Hr Hp Hn Hx|s r0 c Hr Hj Hin Hn Hall|s r0 c c' Hr Hj Hin Hn Hne|s r0 path0 w k Hr Hp];
      cbn [enter leave local l_log] in He; try (exact (IH r He)); apply in_app_or in He as [He|He]; try (exact (IH r He)); try (destruct He; fail).
    + destruct (l_prog s r0) as [| | |q0 k0| | | | |]; cbn in Hj, He; try contradiction. destruct He as [He|[]]. injection He as _ <-. injection Hj as <-.
      eexists. split; [reflexivity|]. rewrite (g_hist _ _ _ _ _ G) in Hn. apply nth_firstn in Hn as [Hn _]. eapply nth_error_In; eauto.
    + destruct He as [He|[]]. injection He as _ He. exfalso. exact (Nw _ _ (eq_sym He)).
Qed.
Context (pre : list item) (c0 : lcall) (post : list item) (Hpre : items opens H (p 0) = pre ++ ICall c0 :: post) (Hc0 : waits c0 = true)
  (Hlate : forall r d path w t, 1 <= r < R -> items opens H (p r) = d ++ IPut path w :: t -> length (calls pre) < length (calls d)).
Lemma at_pre : nth_error H (length (calls pre)) = Some c0.
Proof.
  rewrite (mt_H _ _ _ _ HM). rewrite (items_own opens (p 0) (mt_own _ _ _ _ HM) [] H), Hpre, calls_app, nth_error_app2 by lia. rewrite Nat.sub_diag. reflexivity.
Qed.
Lemma write_order n s : lrun R opens p n s -> forall l1 r path w l2, l_log s = l1 ++ (r, EvWrite path w) :: l2 -> 1 <= r -> exists m, mine 0 l1 = puts pre ++ m.
Proof.
  assert (Snoc : forall s0 r0 l, (forall l1 r path w l2, l_log s0 = l1 ++ (r, EvWrite path w) :: l2 -> 1 <= r -> exists m, mine 0 l1 = puts pre ++ m) ->
    (forall path w, ~ In (EvWrite path w) l) ->
    forall l1 r path w l2, l_log s0 ++ map (pair r0) l = l1 ++ (r, EvWrite path w) :: l2 -> 1 <= r -> exists m, mine 0 l1 = puts pre ++ m).
  { intros s0 r0 l IH Hl l1 r path w l2 E Hr. destruct (app_eq_app _ _ _ _ E) as (x & [[E1 E2]|[E1 E2]]).
    - destruct x as [|y x]; cbn in E2.
      + exfalso. destruct l; cbn in E2; [discriminate E2|]. injection E2 as _ E3 _. eapply Hl. left. symmetry; exact E3.
      + injection E2 as <- E2. eapply IH; eauto.
    - exfalso. destruct l as [|e l]; [destruct x; discriminate E2|]. assert (I : In (r, EvWrite path w) (map (pair r0) (e :: l))) by (rewrite E2; apply in_or_app; right; left; reflexivity).
      apply in_map_iff in I as (z & Ez & I). injection Ez as _ ->. exact (Hl _ _ I). }
  induction 1 as [|n s s' m Hrun IH St]; [intros [|? ?]; discriminate|].
  pose proof (good_run R opens p H HM n s Hrun) as G.
  destruct St as [s c Hf Hin|s r c Hr Hj Hin|s x k Hp Hin _|s x k Hp Hin|s r w k x Hr Hp Hn Hx|s r w k c Hr Hp Hn Hx|s r c Hr Hj Hin Hn Hall|s r c c' Hr Hj Hin Hn Hne|s r path w k Hr Hp];
    cbn [enter leave local l_log]; auto; try (apply Snoc; auto; intros ? ? []; fail).
  - apply Snoc; auto. intros path w I. destruct (l_prog s r); cbn in I; try contradiction. destruct I as [I|[]]. discriminate I.
  - intros l1 r' path' w' l2 E Hr'. cbn [map] in E. destruct l2 as [|z l2] using rev_ind.
    + apply app_inj_tail in E as [E1 E2]. injection E2 as <- <- <-. subst l1.
      apply (before_call s 0 pre c0 post G (mt_R _ _ _ _ HM) Hpre). apply (g_sync _ _ _ _ _ G r (length (calls pre)) c0 0); auto; [|apply at_pre|apply (mt_R _ _ _ _ HM)].
      destruct (g_split _ _ _ _ _ G r Hr) as (d & D1 & D2 & _). rewrite Hp in D1. cbn [items] in D1. rewrite <- D2. eapply Hlate; eauto.
    + rewrite app_comm_cons, app_assoc in E. apply app_inj_tail in E as [E1 _]. eapply IH; eauto.
Qed.
End Run.

(** *** from the log to an interleaving *)
Definition proj {A} (r : nat) (T : list (nat * A)) : list A := flat_map (fun x => if Nat.eqb (fst x) r then [snd x] else []) T.
Lemma replace_map {A} (f g : nat -> A) R r : r < R -> (forall q, q <> r -> f q = g q) -> replace r (g r) (map f (seq 0 R)) = map g (seq 0 R).
Proof.
  intros Hr E. assert (G : forall n a q, r = a + q -> q < n -> replace q (g r) (map f (seq a n)) = map g (seq a n)).
  { induction n as [|n IH]; intros a q Eq Hq; [lia|]. cbn [seq map]. destruct q as [|q].
    - cbn [replace]. rewrite Nat.add_0_r in Eq. subst a. f_equal. apply map_ext_in. intros x Hx. apply in_seq in Hx. apply E. lia.
    - cbn [replace]. f_equal; [apply E; lia|]. apply IH; lia. }
  apply (G R 0 r); lia.
Qed.
Lemma proj_interleave {A} R (T : list (nat * A)) : (forall r x, In (r, x) T -> r < R) -> interleave (map (fun r => proj r T) (seq 0 R)) (map snd T).
Proof.
  induction T as [|[r x] T IH]; intros HT.
  - apply Il_done. apply Forall_forall. intros l Hl. apply in_map_iff in Hl as (r & <- & _). reflexivity.
  - cbn [map snd]. assert (Hr : r < R) by (eapply HT; left; reflexivity). apply Il_step with (r := r) (t := proj r T).
    + rewrite (map_nth_error (fun q => proj q ((r, x) :: T)) r (seq 0 R) (d := r)). 2:{ rewrite (nth_error_nth' _ 0) by (rewrite seq_length; lia). rewrite seq_nth by lia. reflexivity. }
      cbn. rewrite Nat.eqb_refl. reflexivity.
    + rewrite (replace_map (fun q => proj q ((r, x) :: T)) (fun q => proj q T) R r Hr).
      * apply IH. intros q y Hq. eapply HT. right. exact Hq.
      * intros q Hq. cbn. destruct (Nat.eqb_spec r q); [congruence|reflexivity].
Qed.
Lemma head_own {A} n (T : list (nat * A)) : n <= length (proj 0 T) -> (forall l1 r x l2, T = l1 ++ (r, x) :: l2 -> 1 <= r -> n <= length (proj 0 l1)) ->
  map snd (firstn n T) = firstn n (proj 0 T) /\ (forall r, proj r (skipn n T) = if Nat.eqb r 0 then skipn n (proj 0 T) else proj r T).
Proof.
  unfold proj. revert T. induction n as [|n IH]; intros T Hn HT; [split; [reflexivity|]; intros [|r]; reflexivity|].
  destruct T as [|[r x] T]; [cbn in Hn; lia|]. destruct r as [|r]; [|specialize (HT [] (S r) x T eq_refl ltac:(lia)); cbn in HT; lia].
  destruct (IH T) as [A1 A2].
  - cbn in Hn. lia.
  - intros l1 r y l2 E Hr. subst T. specialize (HT ((0, x) :: l1) r y l2 eq_refl Hr). cbn in HT. lia.
  - split; [cbn; f_equal; exact A1|]. intros r. cbn [skipn]. rewrite A2. destruct r; reflexivity.
Qed.
