(** Every run of the message-level program is short: a bound that holds for any program of rank 0. *)
From Coq Require Import Lia.
From Verif Require Import Bytes Outcome TarModel Layout OrderCodec Mover Worker Boss BossProofs Spider Args Program Mpi MpiProofs.
Local Open Scope nat_scope.

(** at most [d] calls on every path *)
Inductive within : nat -> prog -> Prop :=
| Wi_cast d p k : within d k -> within (S d) (PCast p k)
| Wi_open d p k : within d k -> within (S d) (POpen p k)
| Wi_send d r p k : within d k -> within (S d) (PSend r p k)
| Wi_recv d k : (forall t, within d (k t)) -> within (S d) (PRecv k)
| Wi_final d k : within d k -> within (S d) (PFinal k)
| Wi_stop d e : within d (PStop e).

Definition pcw (pc : wpc) : nat :=
  match pc with WGot _ => 4 | WAns => 3 | WIn => 2 | WDone | WGone _ | WBad => 0 | _ => 1 end.
Definition ofrank (s : msys) (r : nat) : nat := 4 * length (m_queue s r) + 4 * (length (m_colls s) - m_seen s r) + pcw (m_pc s r).
Definition statw (st : bstat) : nat := match st with BReady => 0 | _ => 1 end.
Definition weigh (R d : nat) (s : msys) : nat := d * (4 * R + 2) + statw (m_stat s) + tot (ranks R) (ofrank s).

Lemma tot_le l f g : (forall x, In x l -> f x <= g x) -> tot l f <= tot l g.
Proof.
  unfold tot. induction l as [|a l IH]; intros H; cbn; [lia|]. pose proof (H a (or_introl eq_refl)). specialize (IH (fun x Hx => H x (or_intror Hx))). lia.
Qed.
Lemma tot_plus l f c : tot l (fun x => f x + c) = tot l f + length l * c.
Proof. unfold tot. induction l as [|a l IH]; cbn [map list_sum fold_right length] in *; [reflexivity|]. unfold list_sum in IH. rewrite IH. lia. Qed.
Lemma ranks_len R : length (ranks R) = R - 1.
Proof. apply seq_length. Qed.
Lemma down R f g r : 1 <= r < R -> (forall x, x <> r -> g x = f x) -> g r < f r -> tot (ranks R) g < tot (ranks R) f.
Proof. intros Hr H Hl. pose proof (tot_upd (ranks R) f g r (ranks_nodup R) (proj2 (in_ranks R r) Hr) H). lia. Qed.
Lemma up_one R f g r c : (forall x, x <> r -> g x = f x) -> g r <= f r + c -> tot (ranks R) g <= tot (ranks R) f + c.
Proof.
  intros H Hl. destruct (in_dec Nat.eq_dec r (ranks R)) as [Hr|Hr].
  - pose proof (tot_upd (ranks R) f g r (ranks_nodup R) Hr H). lia.
  - rewrite (tot_ext (ranks R) g f); [lia|]. intros x Hx. apply H. intros ->. contradiction.
Qed.
Lemma react_pc opens ev w t l w' pc : react opens ev w t = (l, (w', pc)) -> pcw pc <= 3.
Proof.
  unfold react. assert (L : forall z, pcw (listen z) <= 3) by (intros z; unfold listen; destruct (ws_mode z); cbn; lia).
  intros H. repeat match type of H with (match ?x with _ => _ end) = _ => destruct x end; inversion H; subst; try apply L; cbn [pcw]; lia.
Qed.

Lemma weigh_step R opens ev m s s' d : 1 <= R -> within d (m_prog s) -> mstep R opens ev m s s' ->
  exists d', within d' (m_prog s') /\ weigh R d' s' < weigh R d s.
Proof.
  intros HR Hd St.
  assert (Coll : forall k st c, within d (m_prog s) -> m_stat s = BReady -> (exists d', d = S d' /\ within d' k) -> statw st <= 1 ->
    exists d', within d' (m_prog (on_coll s k st c)) /\ weigh R d' (on_coll s k st c) < weigh R d s).
  { intros k st c _ Es (d' & -> & Hk) Hst. exists d'. split; auto. unfold weigh. cbn [m_stat on_coll]. rewrite Es. cbn [statw].
    assert (T : tot (ranks R) (ofrank (on_coll s k st c)) <= tot (ranks R) (fun x => ofrank s x + 4)).
    { apply tot_le. intros x _. unfold ofrank, on_coll. cbn [m_queue m_colls m_seen m_pc]. rewrite app_length. cbn [length]. lia. }
    rewrite tot_plus, ranks_len in T. nia. }
  assert (Same : forall s', m_prog s' = m_prog s -> statw (m_stat s') < statw (m_stat s) -> m_queue s' = m_queue s -> m_colls s' = m_colls s -> m_seen s' = m_seen s -> m_pc s' = m_pc s ->
    exists d', within d' (m_prog s') /\ weigh R d' s' < weigh R d s).
  { intros z E1 E2 E3 E4 E5 E6. exists d. rewrite E1. split; auto. unfold weigh. rewrite (tot_ext (ranks R) (ofrank z) (ofrank s)); [lia|].
    intros x _. unfold ofrank. rewrite E3, E4, E5, E6. reflexivity. }
  assert (Work : forall z r, 1 <= r < R -> m_prog z = m_prog s -> m_stat z = m_stat s -> (forall x, x <> r -> ofrank z x = ofrank s x) -> ofrank z r < ofrank s r ->
    exists d', within d' (m_prog z) /\ weigh R d' z < weigh R d s).
  { intros z r Hr E1 E2 E3 E4. exists d. rewrite E1. split; auto. unfold weigh. rewrite E2. pose proof (down R (ofrank s) (ofrank z) r Hr E3 E4). lia. }
  assert (Nth : forall r c, nth_error (m_colls s) (m_seen s r) = Some c -> m_seen s r < length (m_colls s)).
  { intros r c E. apply nth_error_Some. congruence. }
  assert (Lw : forall w, pcw (listen w) = 1) by (intros w; unfold listen; destruct (ws_mode w); reflexivity).
  destruct St;
    try (match goal with E : m_prog s = _ |- _ => rewrite E in Hd; inversion Hd; subst end);
    try (apply Coll; cbn [statw]; eauto; match goal with E : m_prog s = _ |- _ => rewrite E; constructor; assumption end);
    try (apply Same; unfold on_boss, on_log; cbn [m_prog m_stat m_queue m_colls m_seen m_pc]; auto; match goal with E : m_stat s = _ |- _ => rewrite E end; cbn [statw]; lia);
    try (match goal with Hr : 1 <= ?r < R |- _ => apply (Work _ r Hr) end;
      unfold on_pc, on_seen, on_take, on_exec, on_reply; cbn [m_prog m_stat]; auto; [intros ?x ?Hx|]; unfold ofrank; cbn [m_queue m_colls m_seen m_pc];
      [rewrite ?upd_other by auto; reflexivity|rewrite ?upd_same];
      repeat match goal with E : m_pc s _ = _ |- _ => rewrite E; clear E end;
      repeat match goal with E : m_queue s _ = _ |- _ => rewrite E; clear E end;
      repeat match goal with E : nth_error _ _ = Some _ |- _ => apply Nth in E end;
      repeat match goal with E : react _ _ _ _ = _ |- _ => apply react_pc in E end;
      cbn [length pcw]; rewrite ?Lw; lia).
  - match goal with Hk : within ?d' k |- _ => exists d' end. split; auto. unfold weigh. cbn [m_stat on_send statw].
    assert (T : tot (ranks R) (ofrank (on_send s k r p)) <= tot (ranks R) (ofrank s) + 4).
    { apply (up_one R _ _ r); [intros x Hx|]; unfold ofrank, on_send; cbn [m_queue m_colls m_seen m_pc]; rewrite ?upd_other by auto; [reflexivity|].
      rewrite upd_same, app_length. cbn [length]. lia. }
    nia.
  - match goal with Hk : forall t, within ?d' (k t) |- _ => exists d' end. split; cbn [m_prog on_recv]; auto. unfold weigh. cbn [m_stat on_recv statw].
    rewrite (tot_ext (ranks R) (ofrank (on_recv s (k t) r q)) (ofrank s)) by (intros; reflexivity). nia.
  - exists 0. split; [constructor|]. unfold weigh. cbn [m_stat on_recv statw].
    rewrite (tot_ext (ranks R) (ofrank (on_recv s (PStop (BDied EAbort)) r q)) (ofrank s)) by (intros; reflexivity). nia.
Qed.
Theorem steps_bound R opens ev p d n s : 1 <= R -> within d p -> mrun R opens ev p n s -> n <= d * (4 * R + 2) + R.
Proof.
  intros HR Hd H. enough (X : exists d', within d' (m_prog s) /\ n + weigh R d' s <= d * (4 * R + 2) + (R - 1)) by (destruct X as (d' & _ & X); lia).
  induction H as [|n s s' m H IH St].
  - exists d. split; auto. unfold weigh, mstart. cbn [m_stat statw]. rewrite (tot_ext (ranks R) _ (fun x => 0 + 1)) by (intros; reflexivity).
    rewrite tot_plus, ranks_len. assert (tot (ranks R) (fun _ => 0) = 0) by (unfold tot; induction (ranks R); cbn; auto). lia.
  - destruct IH as (d' & I1 & I2). destruct (weigh_step R opens ev m s s' d' HR I1 St) as (d2 & J1 & J2). exists d2. split; auto. lia.
Qed.

(** *** how many calls the create program makes *)
Lemma within_more d d' p : within d p -> d <= d' -> within d' p.
Proof.
  intros H. revert d'. induction H; intros d' Hd; try (destruct d' as [|d']; [lia|]; constructor; auto; apply IHwithin; lia).
  - destruct d' as [|d']; [lia|]. constructor. intros t. apply H0. lia.
  - constructor.
Qed.
Lemma within_cast l t d k : within d k -> within (2 + d) (cast_order l t k).
Proof. intros H. unfold cast_order. destruct (frame l t) as [[n x]|e]; [do 2 constructor; auto|constructor]. Qed.
Lemma within_send r l t d k : within d k -> within (2 + d) (send_order r l t k).
Proof. intros H. unfold send_order. destruct (frame l t) as [[n x]|e]; [do 2 constructor; auto|constructor]. Qed.
Lemma within_drain n d k : within d k -> within (n + d) (drain n k).
Proof. intros H. induction n; cbn [drain plus]; [auto|]. constructor. auto. Qed.
Lemma within_feed R ts d k : within d k -> within (3 * length ts + d) (feed R ts k).
Proof.
  intros H. induction ts as [|t ts IH]; cbn [feed length]; [exact H|]. replace (3 * S (length ts) + d) with (S (2 + (3 * length ts + d))) by lia. constructor. intros x.
  destruct (stoi (cstr x)); [|constructor]. destruct ((0 <=? z)%Z && (z <? Z.of_nat R)%Z); [|constructor]. apply within_send. exact IH.
Qed.
Lemma within_first R ts : forall N r d k, within d k -> within (3 * length ts + N + R + d) (first R N r ts k).
Proof.
  induction ts as [|t ts IH]; intros N r d k H; cbn [first].
  - apply (within_more (N + d)); [apply within_drain; auto|cbn [length]; lia].
  - destruct (Nat.ltb r R).
    + apply (within_more (2 + (3 * length ts + N + R + d))); [apply within_send, IH, H|cbn [length]; lia].
    + apply (within_more (3 * length (t :: ts) + (R - 1 + d))); [apply within_feed, within_drain, H|lia].
Qed.
Lemma within_push R ts d k : within d k -> within (4 * length ts + R + d) (push_out R ts k).
Proof. intros H. unfold push_out. eapply within_more; [apply within_first; eauto|lia]. Qed.
Lemma within_program R acts e : within (list_sum (map (fun a => match a with APush bs => 4 * length bs + R | _ => 2 end) acts)) (program R acts e).
Proof.
  induction acts as [|a acts IH]; [constructor|]. cbn [map list_sum fold_right program]. unfold list_sum in IH. destruct a.
  - apply within_cast, IH.
  - eapply within_more; [constructor; exact IH|lia].
  - apply within_send, IH.
  - rewrite <- (map_length print_bundle bs). apply within_push, IH.
  - eapply within_more; [constructor; exact IH|lia].
Qed.
