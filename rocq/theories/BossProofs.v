(** Invariant, progress and termination of the boss/worker protocol. *)
From Coq Require Import List Arith Lia Permutation Bool.
Import ListNotations.
From Verif Require Import Boss.

Lemma upd_same {A} (f : nat -> A) r v : upd f r v r = v.
Proof. unfold upd. rewrite Nat.eqb_refl. reflexivity. Qed.
Lemma upd_other {A} (f : nat -> A) r v x : x <> r -> upd f r v x = f x.
Proof. intros H. unfold upd. destruct (Nat.eqb_spec x r); congruence. Qed.

(** ** sums over the worker ranks *)
Definition ranks (R : nat) : list nat := seq 1 (R - 1).
Fixpoint tot (l : list nat) (f : nat -> nat) : nat := match l with [] => 0 | x :: l' => f x + tot l' f end.
Lemma in_ranks R r : In r (ranks R) <-> 1 <= r < R.
Proof. unfold ranks. rewrite in_seq. lia. Qed.
Lemma ranks_nodup R : NoDup (ranks R).
Proof. apply seq_NoDup. Qed.
Lemma tot_ext l f g : (forall x, In x l -> f x = g x) -> tot l f = tot l g.
Proof.
  induction l as [|a l IH]; intros H; cbn; auto. rewrite (H a) by (left; auto). rewrite IH; auto.
  intros; apply H; right; auto.
Qed.
Lemma tot_pos l f : 0 < tot l f -> exists x, In x l /\ 0 < f x.
Proof.
  induction l as [|a l IH]; cbn; intros H; [lia|]. destruct (f a) eqn:E.
  - destruct IH as (x & I & P); [lia|]. exists x; auto.
  - exists a. split; [left; auto|lia].
Qed.
Lemma tot_zero l f : tot l f = 0 -> forall x, In x l -> f x = 0.
Proof. induction l as [|a l IH]; cbn; intros H x Hx; [destruct Hx|]. destruct Hx as [->|Hx]; [lia|apply IH; auto; lia]. Qed.
Lemma tot_upd l f g r : NoDup l -> In r l -> (forall x, x <> r -> g x = f x) -> tot l g + f r = tot l f + g r.
Proof.
  induction l as [|a l IH]; intros Hn Hi H; [destruct Hi|]. inversion Hn; subst. cbn. destruct Hi as [->|Hi].
  - rewrite (tot_ext l g f); [lia|]. intros x Hx. apply H. intros ->. contradiction.
  - assert (a <> r) by (intros ->; contradiction). rewrite (H a) by auto. specialize (IH H3 Hi H). lia.
Qed.

(** ** what a rank holds *)
Definition holds (w : wphase) : list nat := match w with WBusy o | WDead o => [o] | _ => [] end.
Definition held (s : sys) (r : nat) : list nat := inbox s r ++ holds (work s r).
Definition heldp (s : sys) (r : nat) : list (nat * nat) := map (pair r) (held s r).
Definition tok (s : sys) (r : nat) : nat :=
  length (held s r) + (match work s r with WPost => 1 | _ => 0 end) + rep s r
  + (match boss s with BGive _ x => if Nat.eqb x r then 1 else 0 | _ => 0 end).
Definition sent (N : nat) (s : sys) : nat :=
  match boss s with BFirst k => k | BFeed n | BGive n _ => n | _ => N end.

Definition phase_ok (N R : nat) (s : sys) : Prop :=
  match boss s with
  | BFirst k => k <= N /\ k + 1 <= R /\ forall r, tok s r = if (1 <=? r) && (r <=? k) then 1 else 0
  | BFeed n => R - 1 <= n <= N /\ forall r, 1 <= r < R -> tok s r = 1
  | BGive n x => R - 1 <= n < N /\ 1 <= x < R /\ forall r, 1 <= r < R -> tok s r = 1
  | BCollect i => i <= N /\ tot (ranks R) (tok s) = N - i
  | BDrain i => 1 <= i <= R /\ tot (ranks R) (tok s) = R - i
  | BEnd => tot (ranks R) (tok s) = 0
  end.

Record inv (N R : nat) (s : sys) : Prop := {
  i_tok : forall r, tok s r <= 1;
  i_out : forall r, ~ (1 <= r < R) -> tok s r = 0 /\ work s r = WIdle;
  i_phase : phase_ok N R s;
  i_seq : map snd (given s) = seq 0 (sent N s);
  i_perm : Permutation (given s) (flat_map (heldp s) (ranks R) ++ log s);
  i_blk : forall r, blocked s = Some r -> inbox s r <> [] /\ 1 <= r < R;
  i_log : Forall (fun ro => 1 <= fst ro < R) (log s);
}.

Lemma flat_map_ext' {A} (l : list nat) (f g : nat -> list A) : (forall x, In x l -> f x = g x) -> flat_map f l = flat_map g l.
Proof.
  induction l as [|a l IH]; intros H; cbn; auto. rewrite (H a) by (left; auto). rewrite IH; auto.
  intros; apply H; right; auto.
Qed.

(** changing what one rank holds *)
Lemma flat_map_upd {T} (l : list nat) (f g : nat -> list T) r : NoDup l -> In r l -> (forall x, x <> r -> g x = f x) ->
  exists A B : list T, flat_map f l = A ++ f r ++ B /\ flat_map g l = A ++ g r ++ B.
Proof.
  induction l as [|a l IH]; intros Hn Hi H; [destruct Hi|]. inversion Hn; subst. destruct Hi as [->|Hi].
  - exists [], (flat_map f l). cbn. split; auto. f_equal. apply flat_map_ext'. intros x Hx. apply H. intros ->. contradiction.
  - assert (a <> r) by (intros ->; contradiction). destruct (IH H3 Hi H) as (A & B & E1 & E2).
    exists (f a ++ A), B. cbn. rewrite E1, E2, (H a) by auto. rewrite <- !app_assoc. auto.
Qed.

Lemma inv_init N R : inv N (S R) init.
Proof.
  constructor; cbn.
  - intros. unfold tok. cbn. lia.
  - intros. unfold tok. cbn. auto.
  - unfold phase_ok. cbn. split; [lia|]. split; [lia|]. intros r. unfold tok. cbn. destruct r; auto.
  - reflexivity.
  - rewrite app_nil_r. unfold ranks. cbn. rewrite Nat.sub_0_r. clear. generalize 1. induction R; intros; cbn; auto.
  - discriminate.
  - constructor.
Qed.

(** a step of the boss that neither sends nor receives *)
Lemma tot_eq_phase R s s' : (forall r, tok s' r = tok s r) -> tot (ranks R) (tok s') = tot (ranks R) (tok s).
Proof. intros H. apply tot_ext. auto. Qed.

Lemma sum_first R k f : k + 1 <= R -> (forall r, f r = if (1 <=? r) && (r <=? k) then 1 else 0) -> tot (ranks R) f = k.
Proof.
  intros Hk H. unfold ranks.
  assert (G : forall n a, (forall r, a <= r < a + n -> f r = if r <=? k then 1 else 0) -> tot (seq a n) f = min n (k + 1 - a)).
  { clear -Hk. induction n as [|n IH]; intros a Ha; cbn [seq tot]; [lia|]. rewrite IH by (intros; apply Ha; lia).
    rewrite Ha by lia. destruct (Nat.leb_spec a k); lia. }
  rewrite G.
  - lia.
  - intros r Hr. rewrite H. destruct (Nat.leb_spec 1 r); [|lia]. reflexivity.
Qed.
Lemma sum_ones R f : (forall r, 1 <= r < R -> f r = 1) -> tot (ranks R) f = R - 1.
Proof.
  intros H. unfold ranks.
  assert (G : forall n a, (forall r, a <= r < a + n -> f r = 1) -> tot (seq a n) f = n).
  { clear. induction n as [|n IH]; intros a Ha; cbn; auto. rewrite Ha, IH by (intros; try apply Ha; lia). lia. }
  apply G. intros. apply H. lia.
Qed.

Lemma tok_out_rep N R s r : inv N R s -> 0 < rep s r -> 1 <= r < R.
Proof.
  intros I H. destruct (le_lt_dec 1 r), (le_lt_dec R r); try lia; destruct (i_out _ _ _ I r) as [T _]; try lia; unfold tok in T; lia.
Qed.

Ltac ph s E := unfold phase_ok in *; rewrite ?E in *; cbn [boss set_boss] in *.

Lemma inv_step N R okb m s s' : 1 <= R -> inv N R s -> step N R okb m s s' -> inv N R s'.
Proof.
  intros HR I H. pose proof I as [I1 I2 I3 I0 I4 I5 I6]. destruct H.
  - (* first *) unfold phase_ok in I3. rewrite H in I3. destruct I3 as (P1 & P2 & P3).
    assert (Hi : inbox s (k + 1) = []).
    { specialize (P3 (k + 1)). destruct (Nat.leb_spec 1 (k + 1)), (Nat.leb_spec (k + 1) k); cbn [andb] in P3; try lia.
      unfold tok, held in P3. rewrite app_length in P3. destruct (inbox s (k + 1)); cbn in P3; [auto|lia]. }
    set (s' := send_boss s (BFirst (k + 1)) (k + 1) k).
    assert (Hh : forall r, held s' r = if Nat.eqb r (k + 1) then k :: held s r else held s r).
    { intros r. unfold held, s', send_boss, send. cbn [inbox work]. unfold upd. destruct (Nat.eqb_spec r (k + 1)); auto. subst. rewrite Hi. reflexivity. }
    assert (T : forall r, tok s' r = (if Nat.eqb r (k + 1) then 1 else 0) + tok s r).
    { intros r. unfold tok. rewrite Hh. unfold s', send_boss. cbn [work rep boss]. rewrite H. destruct (Nat.eqb_spec r (k + 1)); cbn [length]; lia. }
    constructor.
    + intros r. rewrite T, P3. destruct (Nat.eqb_spec r (k + 1)), (Nat.leb_spec 1 r), (Nat.leb_spec r k); cbn; lia.
    + intros r Hr. destruct (I2 r Hr) as [T0 W0]. rewrite T. destruct (Nat.eqb_spec r (k + 1)); [lia|]. split; [lia|exact W0].
    + unfold phase_ok. cbn [boss s' send_boss]. split; [lia|]. split; [lia|]. intros r. rewrite T, P3.
      destruct (Nat.eqb_spec r (k + 1)), (Nat.leb_spec 1 r), (Nat.leb_spec r k), (Nat.leb_spec r (k + 1)); cbn; lia.
    + unfold sent in *. cbn [boss s' send_boss given]. rewrite H in I0. rewrite map_app, I0, seq_app. reflexivity.
    + cbn [s' send_boss log given]. fold s'.
      destruct (flat_map_upd (ranks R) (heldp s) (heldp s') (k + 1)) as (A & B & E1 & E2).
      { apply ranks_nodup. } { apply in_ranks. lia. } { intros x Hx. unfold heldp. rewrite Hh. destruct (Nat.eqb_spec x (k + 1)); congruence. }
      assert (Hp : heldp s' (k + 1) = (k + 1, k) :: heldp s (k + 1)) by (unfold heldp; rewrite Hh, Nat.eqb_refl; reflexivity).
      rewrite E2, Hp. rewrite E1 in I4. rewrite <- Permutation_cons_append. rewrite I4. rewrite <- !app_assoc. cbn [app]. apply Permutation_middle.
    + cbn. intros r Hr. injection Hr as <-. unfold send. rewrite upd_same. split; [destruct (inbox s (k + 1)); discriminate|lia].
    + exact I6.
  - (* first_all *) unfold phase_ok in I3. rewrite H in I3. destruct I3 as (P1 & P2 & P3).
    assert (T : forall r, tok (set_boss s (BCollect 0) None (inbox s) (rep s)) r = tok s r).
    { intros r. unfold tok, held. cbn. rewrite H. reflexivity. }
    constructor.
    + intros y. rewrite T. apply I1.
    + intros y Hy. rewrite T. exact (I2 y Hy).
    + unfold phase_ok. cbn [boss set_boss]. split; [lia|]. rewrite (tot_eq_phase R s _ T). rewrite (sum_first R k (tok s)) by auto. lia.
    + unfold sent in *. cbn. rewrite H in I0. replace N with k by lia. exact I0.
    + exact I4.
    + discriminate.
    + exact I6.
  - (* first_more *) unfold phase_ok in I3. rewrite H in I3. destruct I3 as (P1 & P2 & P3).
    assert (T : forall r, tok (set_boss s (BFeed k) None (inbox s) (rep s)) r = tok s r).
    { intros r. unfold tok, held. cbn. rewrite H. reflexivity. }
    constructor.
    + intros y. rewrite T. apply I1.
    + intros y Hy. rewrite T. exact (I2 y Hy).
    + unfold phase_ok. cbn [boss set_boss]. split; [lia|]. intros r Hr. rewrite T, P3. destruct (Nat.leb_spec 1 r), (Nat.leb_spec r k); cbn; lia.
    + unfold sent in *. cbn. rewrite H in I0. exact I0.
    + exact I4.
    + discriminate.
    + exact I6.
  - (* collect *) pose proof (tok_out_rep _ _ _ _ I H2) as Hr.
    unfold phase_ok in I3. rewrite H in I3. destruct I3 as (P1 & P2).
    set (s' := set_boss s (BCollect (i + 1)) None (inbox s) (recv s r)).
    assert (T : forall x, tok s' x = if Nat.eqb x r then tok s x - 1 else tok s x).
    { intros x. unfold tok, held, s', set_boss, recv. cbn. rewrite H. unfold upd. destruct (Nat.eqb_spec x r); subst; lia. }
    pose proof (tot_upd (ranks R) (tok s) (tok s') r (ranks_nodup R) (proj2 (in_ranks R r) Hr)) as TU.
    rewrite T, Nat.eqb_refl in TU.
    assert (T1 : 1 <= tok s r) by (unfold tok; lia).
    constructor.
    + intros x. rewrite T. specialize (I1 x). destruct (Nat.eqb x r); lia.
    + intros x Hx. rewrite T. destruct (I2 x Hx) as [T0 W0]. destruct (Nat.eqb x r); split; auto; lia.
    + unfold phase_ok. cbn [boss s' set_boss]. fold s'. split; [lia|]. specialize (I1 r).
      assert (forall x, x <> r -> tok s' x = tok s x) as Q by (intros x Hx; rewrite T; destruct (Nat.eqb_spec x r); congruence).
      specialize (TU Q). lia.
    + unfold sent in *. cbn. rewrite H in I0. exact I0.
    + exact I4.
    + discriminate.
    + exact I6.
  - (* collect_end *) unfold phase_ok in I3. rewrite H in I3. destruct I3 as (P1 & P2).
    assert (T : forall r, tok (set_boss s BEnd None (inbox s) (rep s)) r = tok s r).
    { intros r. unfold tok, held. cbn. rewrite H. reflexivity. }
    constructor.
    + intros y. rewrite T. apply I1.
    + intros y Hy. rewrite T. exact (I2 y Hy).
    + unfold phase_ok. cbn [boss set_boss]. rewrite (tot_eq_phase R s _ T). lia.
    + unfold sent in *. cbn. rewrite H in I0. exact I0.
    + exact I4.
    + discriminate.
    + exact I6.
  - (* feed *) pose proof (tok_out_rep _ _ _ _ I H2) as Hr.
    unfold phase_ok in I3. rewrite H in I3. destruct I3 as (P1 & P2).
    set (s' := set_boss s (BGive n r) None (inbox s) (recv s r)).
    assert (T : forall x, tok s' x = tok s x).
    { intros x. unfold tok, held, s', set_boss, recv. cbn. rewrite H. unfold upd. rewrite (Nat.eqb_sym r x). destruct (Nat.eqb_spec x r); subst; lia. }
    constructor.
    + intros x. rewrite T. apply I1.
    + intros x Hx. rewrite T. exact (I2 x Hx).
    + unfold phase_ok. cbn [boss s' set_boss]. fold s'. split; [lia|]. split; auto. intros x Hx. rewrite T. auto.
    + unfold sent in *. cbn. rewrite H in I0. exact I0.
    + exact I4.
    + discriminate.
    + exact I6.
  - (* give *) unfold phase_ok in I3. rewrite H in I3. destruct I3 as (P1 & P2 & P3).
    assert (T1 : tok s r = 1) by auto. unfold tok in T1. rewrite H, Nat.eqb_refl in T1. unfold held in T1. rewrite app_length in T1.
    assert (Hi : inbox s r = []) by (destruct (inbox s r); cbn in T1; [auto|lia]).
    assert (Hw : holds (work s r) = []) by (destruct (holds (work s r)); cbn in T1; [auto|lia]).
    set (s' := send_boss s (BFeed (n + 1)) r n).
    assert (Hh : forall x, held s' x = if Nat.eqb x r then [n] else held s x).
    { intros x. unfold held, s', send_boss, send. cbn [inbox work]. unfold upd. destruct (Nat.eqb_spec x r); auto. subst. rewrite Hi, Hw. reflexivity. }
    assert (T : forall x, tok s' x = tok s x).
    { intros x. unfold tok. rewrite Hh. unfold s', send_boss. cbn [work rep boss]. rewrite H. rewrite (Nat.eqb_sym r x). destruct (Nat.eqb_spec x r); cbn [length]; [|lia].
      subst. unfold held. rewrite Hi, Hw. cbn. lia. }
    constructor.
    + intros x. rewrite T. apply I1.
    + intros x Hx. rewrite T. exact (I2 x Hx).
    + unfold phase_ok. cbn [boss s' send_boss]. fold s'. split; [lia|]. intros x Hx. rewrite T. auto.
    + unfold sent in *. cbn [boss s' send_boss given]. rewrite H in I0. rewrite map_app, I0, seq_app. reflexivity.
    + cbn [s' send_boss log given]. fold s'.
      destruct (flat_map_upd (ranks R) (heldp s) (heldp s') r) as (A & B & E1 & E2).
      { apply ranks_nodup. } { apply in_ranks. lia. } { intros x Hx. unfold heldp. rewrite Hh. destruct (Nat.eqb_spec x r); congruence. }
      assert (Hp : heldp s' r = (r, n) :: heldp s r) by (unfold heldp; rewrite Hh, Nat.eqb_refl; unfold held; rewrite Hi, Hw; reflexivity).
      rewrite E2, Hp. rewrite E1 in I4. rewrite <- Permutation_cons_append. rewrite I4. rewrite <- !app_assoc. cbn [app]. apply Permutation_middle.
    + cbn. intros x Hx. injection Hx as <-. unfold send. rewrite upd_same. split; [destruct (inbox s r); discriminate|lia].
    + exact I6.
  - (* feed_end *) unfold phase_ok in I3. rewrite H in I3. destruct I3 as (P1 & P2).
    assert (T : forall r, tok (set_boss s (BDrain 1) None (inbox s) (rep s)) r = tok s r).
    { intros r. unfold tok, held. cbn. rewrite H. reflexivity. }
    constructor.
    + intros y. rewrite T. apply I1.
    + intros y Hy. rewrite T. exact (I2 y Hy).
    + unfold phase_ok. cbn [boss set_boss]. split; [lia|]. rewrite (tot_eq_phase R s _ T). rewrite (sum_ones R (tok s)) by auto. lia.
    + unfold sent in *. cbn. rewrite H in I0. replace N with n by lia. exact I0.
    + exact I4.
    + discriminate.
    + exact I6.
  - (* drain *) pose proof (tok_out_rep _ _ _ _ I H2) as Hr.
    unfold phase_ok in I3. rewrite H in I3. destruct I3 as (P1 & P2).
    set (s' := set_boss s (BDrain (i + 1)) None (inbox s) (recv s r)).
    assert (T : forall x, tok s' x = if Nat.eqb x r then tok s x - 1 else tok s x).
    { intros x. unfold tok, held, s', set_boss, recv. cbn. rewrite H. unfold upd. destruct (Nat.eqb_spec x r); subst; lia. }
    pose proof (tot_upd (ranks R) (tok s) (tok s') r (ranks_nodup R) (proj2 (in_ranks R r) Hr)) as TU.
    rewrite T, Nat.eqb_refl in TU.
    assert (T1 : 1 <= tok s r) by (unfold tok; lia).
    constructor.
    + intros x. rewrite T. specialize (I1 x). destruct (Nat.eqb x r); lia.
    + intros x Hx. rewrite T. destruct (I2 x Hx) as [T0 W0]. destruct (Nat.eqb x r); split; auto; lia.
    + unfold phase_ok. cbn [boss s' set_boss]. fold s'. split; [lia|]. specialize (I1 r).
      assert (forall x, x <> r -> tok s' x = tok s x) as Q by (intros x Hx; rewrite T; destruct (Nat.eqb_spec x r); congruence).
      specialize (TU Q). lia.
    + unfold sent in *. cbn. rewrite H in I0. exact I0.
    + exact I4.
    + discriminate.
    + exact I6.
  - (* drain_end *) unfold phase_ok in I3. rewrite H in I3. destruct I3 as (P1 & P2).
    assert (T : forall r, tok (set_boss s BEnd None (inbox s) (rep s)) r = tok s r).
    { intros r. unfold tok, held. cbn. rewrite H. reflexivity. }
    constructor.
    + intros y. rewrite T. apply I1.
    + intros y Hy. rewrite T. exact (I2 y Hy).
    + unfold phase_ok. cbn [boss set_boss]. rewrite (tot_eq_phase R s _ T). lia.
    + unfold sent in *. cbn. rewrite H in I0. exact I0.
    + exact I4.
    + discriminate.
    + exact I6.
  - (* buffer *)
    assert (T : forall x, tok (set_boss s (boss s) None (inbox s) (rep s)) x = tok s x) by reflexivity.
    constructor; cbn; auto; try discriminate.
  - (* recv *)
    set (s' := {| boss := boss s; blocked := unblock (blocked s) r; inbox := upd (inbox s) r q; work := upd (work s) r (WBusy o); rep := rep s; log := log s; given := given s |}).
    assert (T1 : tok s r <= 1) by auto. unfold tok, held in T1. rewrite H1 in T1. cbn [app length] in T1. rewrite app_length in T1.
    assert (Hq : q = []) by (destruct q; cbn in T1; [auto|lia]). subst q.
    assert (Hh : forall x, held s' x = held s x).
    { intros x. unfold held, s'. cbn. unfold upd. destruct (Nat.eqb_spec x r); auto. subst. rewrite H0, H1. reflexivity. }
    assert (T : forall x, tok s' x = tok s x).
    { intros x. unfold tok. rewrite Hh. unfold s'. cbn [work rep boss]. unfold upd. destruct (Nat.eqb_spec x r); auto. subst. rewrite H0. reflexivity. }
    constructor.
    + intros x. rewrite T. apply I1.
    + intros x Hx. rewrite T. split; [apply I2; auto|]. cbn. rewrite upd_other by (intros ->; contradiction). apply I2; auto.
    + unfold phase_ok in *. cbn [boss s']. fold s'. rewrite (tot_eq_phase R s s' T).
      destruct (boss s); auto.
      * destruct I3 as (? & ? & X). repeat split; auto. intros; rewrite T; auto.
      * destruct I3 as (? & X). repeat split; auto; try lia. intros; rewrite T; auto.
      * destruct I3 as (? & ? & X). repeat split; auto; try lia. intros; rewrite T; auto.
    + exact I0.
    + cbn [s' log given]. fold s'. rewrite (flat_map_ext' _ (heldp s') (heldp s)); auto. intros x _. unfold heldp. rewrite Hh. reflexivity.
    + intros x Hx. cbn in *. unfold unblock in Hx. destruct (blocked s) as [y|] eqn:Eb; [|discriminate]. destruct (Nat.eqb_spec y r); [discriminate|].
      injection Hx as <-. rewrite upd_other by auto. auto.
    + exact I6.
  - (* exec *)
    set (s' := {| boss := boss s; blocked := blocked s; inbox := inbox s; work := upd (work s) r WPost; rep := rep s; log := log s ++ [(r, o)]; given := given s |}).
    assert (T1 : tok s r <= 1) by auto. unfold tok, held in T1. rewrite H0 in T1. rewrite app_length in T1. cbn [holds length] in T1.
    assert (Hi : inbox s r = []) by (destruct (inbox s r); cbn in T1; [auto|lia]).
    assert (Hh : forall x, held s' x = if Nat.eqb x r then [] else held s x).
    { intros x. unfold held, s'. cbn. unfold upd. destruct (Nat.eqb_spec x r); auto. subst. rewrite Hi. reflexivity. }
    assert (T : forall x, tok s' x = tok s x).
    { intros x. unfold tok. rewrite Hh. unfold s'. cbn [work rep boss]. unfold upd. destruct (Nat.eqb_spec x r); auto. subst. unfold held. rewrite H0, Hi. cbn. lia. }
    constructor.
    + intros x. rewrite T. apply I1.
    + intros x Hx. rewrite T. split; [apply I2; auto|]. cbn. rewrite upd_other by (intros ->; contradiction). apply I2; auto.
    + unfold phase_ok in *. cbn [boss s']. fold s'. rewrite (tot_eq_phase R s s' T).
      destruct (boss s); auto.
      * destruct I3 as (? & ? & X). repeat split; auto. intros; rewrite T; auto.
      * destruct I3 as (? & X). repeat split; auto; try lia. intros; rewrite T; auto.
      * destruct I3 as (? & ? & X). repeat split; auto; try lia. intros; rewrite T; auto.
    + exact I0.
    + cbn [s' log given]. fold s'.
      destruct (flat_map_upd (ranks R) (heldp s) (heldp s') r) as (A & B & E1 & E2).
      { apply ranks_nodup. } { apply in_ranks. lia. } { intros x Hx. unfold heldp. rewrite Hh. destruct (Nat.eqb_spec x r); congruence. }
      assert (Hp : heldp s' r = []) by (unfold heldp; rewrite Hh, Nat.eqb_refl; reflexivity).
      assert (Hp0 : heldp s r = [(r, o)]) by (unfold heldp, held; rewrite Hi, H0; reflexivity).
      rewrite E2, Hp. rewrite E1, Hp0 in I4. rewrite I4. rewrite <- !app_assoc. cbn [app]. rewrite <- Permutation_middle.
      rewrite (Permutation_cons_append (A ++ B ++ log s) (r, o)). rewrite <- !app_assoc. reflexivity.
    + exact I5.
    + cbn. apply Forall_app. split; auto.
  - (* crash *)
    set (s' := {| boss := boss s; blocked := blocked s; inbox := inbox s; work := upd (work s) r (WDead o); rep := rep s; log := log s; given := given s |}).
    assert (Hh : forall x, held s' x = held s x).
    { intros x. unfold held, s'. cbn. unfold upd. destruct (Nat.eqb_spec x r); auto. subst. rewrite H0. reflexivity. }
    assert (T : forall x, tok s' x = tok s x).
    { intros x. unfold tok. rewrite Hh. unfold s'. cbn [work rep boss]. unfold upd. destruct (Nat.eqb_spec x r); auto. subst. rewrite H0. reflexivity. }
    constructor.
    + intros x. rewrite T. apply I1.
    + intros x Hx. rewrite T. split; [apply I2; auto|]. cbn. rewrite upd_other by (intros ->; contradiction). apply I2; auto.
    + unfold phase_ok in *. cbn [boss s']. fold s'. rewrite (tot_eq_phase R s s' T).
      destruct (boss s); auto.
      * destruct I3 as (? & ? & X). repeat split; auto. intros; rewrite T; auto.
      * destruct I3 as (? & X). repeat split; auto; try lia. intros; rewrite T; auto.
      * destruct I3 as (? & ? & X). repeat split; auto; try lia. intros; rewrite T; auto.
    + exact I0.
    + cbn [s' log given]. fold s'. rewrite (flat_map_ext' _ (heldp s') (heldp s)); auto. intros x _. unfold heldp. rewrite Hh. reflexivity.
    + exact I5.
    + exact I6.
  - (* reply *)
    set (s' := {| boss := boss s; blocked := blocked s; inbox := inbox s; work := upd (work s) r WWait; rep := upd (rep s) r (rep s r + 1); log := log s; given := given s |}).
    assert (Hh : forall x, held s' x = held s x).
    { intros x. unfold held, s'. cbn. unfold upd. destruct (Nat.eqb_spec x r); auto. subst. rewrite H0. reflexivity. }
    assert (T : forall x, tok s' x = tok s x).
    { intros x. unfold tok. rewrite Hh. unfold s'. cbn [work rep boss]. unfold upd. destruct (Nat.eqb_spec x r); auto. subst. rewrite H0. lia. }
    constructor.
    + intros x. rewrite T. apply I1.
    + intros x Hx. rewrite T. split; [apply I2; auto|]. cbn. rewrite upd_other by (intros ->; contradiction). apply I2; auto.
    + unfold phase_ok in *. cbn [boss s']. fold s'. rewrite (tot_eq_phase R s s' T).
      destruct (boss s); auto.
      * destruct I3 as (? & ? & X). repeat split; auto. intros; rewrite T; auto.
      * destruct I3 as (? & X). repeat split; auto; try lia. intros; rewrite T; auto.
      * destruct I3 as (? & ? & X). repeat split; auto; try lia. intros; rewrite T; auto.
    + exact I0.
    + cbn [s' log given]. fold s'. rewrite (flat_map_ext' _ (heldp s') (heldp s)); auto. intros x _. unfold heldp. rewrite Hh. reflexivity.
    + exact I5.
    + exact I6.
  - (* taken *)
    set (s' := {| boss := boss s; blocked := blocked s; inbox := inbox s; work := upd (work s) r WIdle; rep := rep s; log := log s; given := given s |}).
    assert (Hh : forall x, held s' x = held s x).
    { intros x. unfold held, s'. cbn. unfold upd. destruct (Nat.eqb_spec x r); auto. subst. rewrite H0. reflexivity. }
    assert (T : forall x, tok s' x = tok s x).
    { intros x. unfold tok. rewrite Hh. unfold s'. cbn [work rep boss]. unfold upd. destruct (Nat.eqb_spec x r); auto. subst. rewrite H0. lia. }
    constructor.
    + intros x. rewrite T. apply I1.
    + intros x Hx. rewrite T. split; [apply I2; auto|]. cbn. rewrite upd_other by (intros ->; contradiction). apply I2; auto.
    + unfold phase_ok in *. cbn [boss s']. fold s'. rewrite (tot_eq_phase R s s' T).
      destruct (boss s); auto.
      * destruct I3 as (? & ? & X). repeat split; auto. intros; rewrite T; auto.
      * destruct I3 as (? & X). repeat split; auto; try lia. intros; rewrite T; auto.
      * destruct I3 as (? & ? & X). repeat split; auto; try lia. intros; rewrite T; auto.
    + exact I0.
    + cbn [s' log given]. fold s'. rewrite (flat_map_ext' _ (heldp s') (heldp s)); auto. intros x _. unfold heldp. rewrite Hh. reflexivity.
    + exact I5.
    + exact I6.
  - (* buffered reply *)
    set (s' := {| boss := boss s; blocked := blocked s; inbox := inbox s; work := upd (work s) r WIdle; rep := rep s; log := log s; given := given s |}).
    assert (Hh : forall x, held s' x = held s x).
    { intros x. unfold held, s'. cbn. unfold upd. destruct (Nat.eqb_spec x r); auto. subst. rewrite H0. reflexivity. }
    assert (T : forall x, tok s' x = tok s x).
    { intros x. unfold tok. rewrite Hh. unfold s'. cbn [work rep boss]. unfold upd. destruct (Nat.eqb_spec x r); auto. subst. rewrite H0. lia. }
    constructor.
    + intros x. rewrite T. apply I1.
    + intros x Hx. rewrite T. split; [apply I2; auto|]. cbn. rewrite upd_other by (intros ->; contradiction). apply I2; auto.
    + unfold phase_ok in *. cbn [boss s']. fold s'. rewrite (tot_eq_phase R s s' T).
      destruct (boss s); auto.
      * destruct I3 as (? & ? & X). repeat split; auto. intros; rewrite T; auto.
      * destruct I3 as (? & X). repeat split; auto; try lia. intros; rewrite T; auto.
      * destruct I3 as (? & ? & X). repeat split; auto; try lia. intros; rewrite T; auto.
    + exact I0.
    + cbn [s' log given]. fold s'. rewrite (flat_map_ext' _ (heldp s') (heldp s)); auto. intros x _. unfold heldp. rewrite Hh. reflexivity.
    + exact I5.
    + exact I6.
Qed.
