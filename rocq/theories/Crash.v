(** Lemmas behind C52: the archive at every crash point. *)
From Coq Require Import Permutation.
From Verif Require Import Bytes Outcome TarModel Layout LayoutSpec LayoutProofs LayoutMore OrderCodec OrderCodecProofs OrderMore
  Mover MoverSpec MoverProofs MoverMore Worker WorkerProofs Assemble AssembleProofs Boss BossProofs BossMore EndSpec EndProofs CrashSpec.

(** what is being moved is an order that was sent, and not yet done *)
Lemma given_lt N R okb n s r o : (1 <= R)%nat -> run N R okb n s -> In (r, o) (given s) -> (o < N)%nat.
Proof.
  intros HR H Hin. pose proof (inv_run _ _ _ _ _ HR H) as I.
  assert (X : In o (seq 0 (sent N s))) by (rewrite <- (i_seq _ _ _ I); apply (in_map snd) in Hin; auto).
  apply in_seq in X. pose proof (i_phase _ _ _ I) as P. unfold phase_ok in P. unfold sent in X. destruct (boss s); lia.
Qed.
Lemma busy_given N R okb n s r o : (1 <= R)%nat -> run N R okb n s -> work s r = WBusy o -> In (r, o) (given s) /\ ~ In o (map snd (log s)).
Proof.
  intros HR H W. pose proof (inv_run _ _ _ _ _ HR H) as I.
  assert (Hr : (1 <= r < R)%nat).
  { destruct (Nat.lt_ge_cases r R) as [L|L]; [destruct (Nat.le_gt_cases 1 r); [lia|]|];
      (destruct (i_out _ _ _ I r ltac:(lia)) as [_ X]; congruence). }
  assert (F : In (r, o) (flat_map (heldp s) (ranks R))).
  { apply in_flat_map. exists r. split; [apply in_ranks; auto|]. unfold heldp. apply in_map. unfold held. rewrite W. apply in_or_app. right. left. auto. }
  pose proof (i_perm _ _ _ I) as P. split.
  - eapply Permutation_in; [apply Permutation_sym, P|]. apply in_or_app. left. exact F.
  - intros L. assert (D : NoDup (map snd (given s))) by (rewrite (i_seq _ _ _ I); apply seq_NoDup).
    apply (Permutation_map snd) in P. eapply Permutation_NoDup in D; [|exact P]. rewrite map_app in D.
    apply (in_map snd) in F. cbn [snd] in F. clear -F L D. induction (map snd (flat_map (heldp s) (ranks R))) as [|a l IH]; [destruct F|].
    cbn [app] in D. inversion D; subst. destruct F as [->|F]; [|auto]. apply H1. apply in_or_app. auto.
Qed.
Lemma log_given N R okb n s r o : (1 <= R)%nat -> run N R okb n s -> In (r, o) (log s) -> In (r, o) (given s).
Proof.
  intros HR H L. pose proof (inv_run _ _ _ _ _ HR H) as I. eapply Permutation_in; [apply Permutation_sym, (i_perm _ _ _ I)|]. apply in_or_app. auto.
Qed.
Lemma log_nodup N R okb n s : (1 <= R)%nat -> run N R okb n s -> NoDup (map snd (log s)).
Proof.
  intros HR H. pose proof (inv_run _ _ _ _ _ HR H) as I.
  assert (D : NoDup (map snd (given s))) by (rewrite (i_seq _ _ _ I); apply seq_NoDup).
  pose proof (i_perm _ _ _ I) as P. apply (Permutation_map snd) in P. eapply Permutation_NoDup in D; [|exact P]. rewrite map_app in D.
  clear -D. induction (map snd (flat_map (heldp s) (ranks R))); auto. inversion D; auto.
Qed.

Lemma tiles_pos bs : forall a z o B, tiles a bs z -> nth_error bs o = Some B -> 0 <= bundle_end B - bundle_start B.
Proof.
  induction bs as [|C bs IH]; intros a z o B H Ho; [destruct o; discriminate|]. cbn [tiles] in H. destruct H as (_ & E & L & H).
  destruct o as [|o]; cbn [nth_error] in Ho; [injection Ho as ->; lia|]. eapply IH; eauto.
Qed.
Lemma crash_lemma ev path base idx bucket maxo dirs files d f bs R n s disk :
  plannable bucket dirs files -> set_offsets dirs files = (d, f) ->
  create_transfer_orders idx bucket maxo d f = Ok (Some bs) ->
  Forall plain (dirs ++ files) -> INT_MIN <= idx <= INT_MAX ->
  Forall (unchanged ev base) (dirs ++ files) -> (1 <= R)%nat ->
  run (length bs) R (fun o => succeeds (jobs ev bucket path base bs o)) n s ->
  forall going, (forall o, In o going -> exists r, work s r = WBusy o) ->
  crash_image (jobs ev bucket path base bs) (map snd (log s)) going disk ->
  exists z, laid 0 (d ++ f) z /\
  ar_size disk <= z /\
  (forall p c l, layout_at (d ++ f) p = c :: l -> ar_cell disk p = Byte NUL \/ exists x, meant ev base c = Some x /\ ar_cell disk p = Byte x) /\
  (forall o B p, In o (map snd (log s)) -> nth_error bs o = Some B -> bundle_start B <= p < bundle_end B ->
     forall c l, layout_at (d ++ f) p = c :: l -> exists x, meant ev base c = Some x /\ ar_cell disk p = Byte x).
Proof.
  intros Hp Hso Hc Hpl Hi Hu HR Hrun going Hg (Hsize & Hdisk).
  assert (JI : forall o x, jobs ev bucket path base bs o = Some x -> (o < length bs)%nat ->
    exists B, nth_error bs o = Some B /\ move_data_Create ev base bucket B = Ok x).
  { intros o x Hx Lo. exact (jobs_inv ev bucket path base idx maxo dirs files d f bs o x Hp Hso Hc Hpl Hi Hx Lo). }
  assert (JD : forall i j x y p, (i < length bs)%nat -> (j < length bs)%nat -> i <> j ->
    jobs ev bucket path base bs i = Some x -> jobs ev bucket path base bs j = Some y -> covers x p -> covers y p -> False).
  { intros i j x y p. exact (jobs_disjoint ev bucket path base idx maxo dirs files d f bs i j x y p Hp Hso Hc Hpl Hi). }
  generalize dependent (jobs ev bucket path base bs). intros w Hrun Hsize Hdisk JI JD.
  destruct (plannable_ok idx bucket maxo _ _ _ _ Hp Hso) as (bs' & z & E & L & C & N & O & _).
  rewrite Hc in E. assert (bs' = bs) as -> by congruence. clear E.
  pose proof (chain_tiles bs 0 z eq_refl C N) as T.
  assert (Lt : forall o, In o (map snd (log s)) \/ In o going -> (o < length bs)%nat).
  { intros o [H|H].
    - apply in_map_iff in H as ((r & o') & <- & H). eapply given_lt; eauto. eapply log_given; eauto.
    - destruct (Hg o H) as (r & W). eapply given_lt; eauto. eapply busy_given; eauto. }
  assert (Im : forall o x p, (o < length bs)%nat -> w o = Some x -> w_pos x <= p < w_pos x + w_len x ->
     0 <= p < z /\ (exists B, nth_error bs o = Some B /\ w_pos x = bundle_start B /\ w_len x = up512 (bundle_end B - bundle_start B)) /\
     forall c l, layout_at (d ++ f) p = c :: l -> exists y, meant ev base c = Some y /\ w_mem x (p - w_pos x) = Byte y).
  { intros o x p Lo Hx Hpx. destruct (JI o x Hx Lo) as (B & HB & HM).
    destruct (move_data_place _ _ _ _ _ HM) as [P1 P2].
    assert (HBin : In B bs) by (eapply nth_error_In; eauto).
    destruct (bundle_image ev base idx bucket maxo dirs files d f bs B) as (x' & E1 & E2 & E3 & _ & E4); auto.
    { eapply move_data_fits; eauto. }
    rewrite HM in E1. assert (x' = x) as -> by congruence.
    pose proof (tiles_below bs 0 z o B T HB). assert (0 <= bundle_start B).
    { clear -T HB. revert T HB. generalize 0. revert o. induction bs as [|C0 l IH]; intros o a T HB; [destruct o; discriminate|].
      cbn [tiles] in T. destruct T as (_ & E & L & T). destruct o; cbn [nth_error] in HB; [injection HB as ->; lia|].
      specialize (IH o _ T HB). pose proof (up512_bounds (bundle_end C0 - bundle_start C0)). lia. }
    split; [lia|]. split; [exists B; auto|]. intros c l Hl. specialize (E4 p ltac:(lia)). rewrite Hl in E4. rewrite P1. exact E4. }
  assert (Cell : forall p, ar_cell (assemble w (map snd (log s))) p = Byte NUL \/
     exists o x, In o (map snd (log s)) /\ w o = Some x /\ w_pos x <= p < w_pos x + w_len x /\ ar_cell (assemble w (map snd (log s))) p = w_mem x (p - w_pos x)).
  { intros p. rewrite assemble_eq. generalize (map snd (log s)). intros os.
    assert (G : forall os a, ar_cell (fold_left (apply_one w) os a) p = ar_cell a p \/
       exists o x, In o os /\ w o = Some x /\ covers x p /\ ar_cell (fold_left (apply_one w) os a) p = w_mem x (p - w_pos x)).
    { clear. induction os as [|o os IH]; intros a; cbn [fold_left]; auto.
      destruct (IH (apply_one w a o)) as [E|(o' & x & I & W & C & E)]; [|right; exists o', x; split; [right; auto|auto]].
      rewrite E. unfold apply_one. destruct (w o) as [x|] eqn:Ew; auto. destruct (covers_dec x p) as [Cx|Cx].
      - right. exists o, x. rewrite write_in by auto. repeat split; auto; try (left; auto); apply Cx.
      - left. apply write_out. auto. }
    destruct (G os empty_archive) as [E|X]; [left; rewrite E; reflexivity|right; exact X]. }
  exists z. split; auto. split; [|split].
  - destruct Hsize as [Hsize|(o & x & Ho & Hx & Hlen & Hsize)].
    + etransitivity; [exact Hsize|]. rewrite assemble_eq. apply fold_size; [cbn; lia|]. split; [cbn; pose proof (tiles_le _ _ _ T); lia|].
      intros o Ho. unfold reach. destruct (w o) as [x|] eqn:Hx; [|right; lia]. destruct (Z.eqb_spec (w_len x) 0); [right; lia|].
      destruct (Z.lt_ge_cases 0 (w_len x)) as [Hl|Hl].
      * left. destruct (Im o x (w_pos x + w_len x - 1) ltac:(auto) Hx ltac:(lia)) as (Q & _). lia.
      * exfalso. destruct (JI o x Hx ltac:(auto)) as (B & HB & HM).
        destruct (move_data_place _ _ _ _ _ HM) as [P1 P2]. pose proof (up512_bounds (bundle_end B - bundle_start B)).
        pose proof (tiles_pos _ _ _ _ _ T HB). lia.
    + destruct (Im o x (w_pos x + w_len x - 1) ltac:(auto) Hx ltac:(lia)) as (Q & _). lia.
  - intros p c l Hl. destruct (Hdisk p) as [E|(o & x & Ho & Hx & Hpx & E)].
    + destruct (Cell p) as [E'|(o & x & Ho & Hx & Hpx & E')]; [left; congruence|]. right.
      destruct (Im o x p ltac:(auto) Hx Hpx) as (_ & _ & M). destruct (M c l Hl) as (y & My & Ey). exists y. split; auto. congruence.
    + right. destruct (Im o x p ltac:(auto) Hx Hpx) as (_ & _ & M). destruct (M c l Hl) as (y & My & Ey). exists y. split; auto. congruence.
  - intros o B p Ho HB Hpp c l Hl.
    pose proof (log_ok _ _ _ _ _ Hrun o Ho) as K. cbn beta in K.  destruct (w o) as [x|] eqn:Hx; [|discriminate]. clear K.
    assert (Lo : (o < length bs)%nat) by auto.
    destruct (JI o x Hx Lo) as (B0 & HB0 & HM). assert (B0 = B) as -> by congruence.
    destruct (move_data_place _ _ _ _ _ HM) as [P1 P2]. pose proof (up512_bounds (bundle_end B - bundle_start B)) as U.
    assert (Hpx : w_pos x <= p < w_pos x + w_len x) by lia.
    destruct (Im o x p Lo Hx Hpx) as (_ & _ & M). destruct (M c l Hl) as (y & My & Ey). exists y. split; auto.
    assert (Dj : forall o' x', (o' < length bs)%nat -> o' <> o -> w o' = Some x' -> w_pos x' <= p < w_pos x' + w_len x' -> False).
    { intros o' x' Lo' Ne Hx' Hpx'. apply (JD o' o x' x p); auto. }
    destruct (Hdisk p) as [E|(o' & x' & Ho' & Hx' & Hpx' & E)].
    + rewrite E, assemble_eq. rewrite (fold_cell_in w _ _ p o x); auto; [eapply log_nodup; eauto|].
      intros o' x' I' Ne W' C'. exact (Dj o' x' ltac:(auto) Ne W' C').
    + exfalso. destruct (Hg o' Ho') as (r & W). apply (Dj o' x'); auto. intros ->. apply (proj2 (busy_given _ _ _ _ _ _ _ HR Hrun W)). exact Ho.
Qed.
