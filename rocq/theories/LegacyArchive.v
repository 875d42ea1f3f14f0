(** The archive file after a run of the 0.5.1 writer. *)
From Verif Require Import Bytes Outcome TarSpec TarModel TarProofs Layout Mover MoverSpec MoverProofs AssembleProofs
  Legacy LegacyProofs LegacyLayout LegacySpec LegacyLayoutProofs LegacyRanks LegacyCodec LegacyCodecProofs LegacyWrite LegacySeats LegacyImage.
From Coq Require Import Lia.

(** *** many writes *)
Lemma fold_same ws : forall a p v, ar_cell a p = v -> (forall w, In w ws -> covers w p -> w_mem w (p - w_pos w) = v) -> ar_cell (fold_left write_at ws a) p = v.
Proof.
  induction ws as [|w ws IH]; intros a p v Ha H; cbn [fold_left]; auto. apply IH; [|intros w' I; apply H; right; auto].
  destruct (covers_dec w p) as [C|C]; [rewrite write_in by auto; apply H; auto; left; auto|rewrite write_out by auto; exact Ha].
Qed.
Lemma fold_cell ws : forall a p v, (exists w, In w ws /\ covers w p) -> (forall w, In w ws -> covers w p -> w_mem w (p - w_pos w) = v) -> ar_cell (fold_left write_at ws a) p = v.
Proof.
  induction ws as [|w ws IH]; intros a p v (x & I & C) H; [destruct I|]. cbn [fold_left].
  destruct I as [->|I]; [|apply IH; [eauto|intros w' I'; apply H; right; auto]].
  apply fold_same; [rewrite write_in by auto; apply H; auto; left; auto|intros w' I'; apply H; right; auto].
Qed.
Lemma size_mono ws : forall a, ar_size a <= ar_size (fold_left write_at ws a).
Proof. induction ws as [|w ws IH]; intros a; cbn [fold_left]; [lia|]. specialize (IH (write_at a w)). cbn [write_at ar_size] in IH. destruct (w_len w =? 0); lia. Qed.
Lemma size_in ws : forall a w, In w ws -> 0 < w_len w -> w_pos w + w_len w <= ar_size (fold_left write_at ws a).
Proof.
  induction ws as [|x ws IH]; intros a w I Hw; [destruct I|]. cbn [fold_left]. destruct I as [->|I]; [|auto].
  pose proof (size_mono ws (write_at a w)) as M. cbn [write_at ar_size] in M. destruct (Z.eqb_spec (w_len w) 0); lia.
Qed.

(** *** interleavings *)
Lemma replace_in {A} r : forall (t : A) l x, In x (replace r t l) -> x = t \/ In x l.
Proof. induction r as [|r IH]; intros t [|y l] x; cbn; auto; intros [<-|I]; auto. apply IH in I as [->|I]; auto. Qed.
Lemma replace_keeps {A} r : forall (t : A) l n y, nth_error l n = Some y -> n <> r -> nth_error (replace r t l) n = Some y.
Proof. induction r as [|r IH]; intros t [|z l] [|n] y; cbn; try congruence; auto. Qed.
Lemma replace_at {A} r : forall (t : A) l y, nth_error l r = Some y -> nth_error (replace r t l) r = Some t.
Proof. induction r as [|r IH]; intros t [|z l] y; cbn; try congruence; eauto. Qed.
Lemma interleave_in {A} (ls : list (list A)) out : interleave ls out -> forall x, In x out <-> exists l, In l ls /\ In x l.
Proof.
  induction 1 as [ls F|ls r x t out Hr _ IH]; intros y.
  - split; [intros []|]. intros (l & I & J). rewrite Forall_forall in F. rewrite (F l I) in J. exact J.
  - cbn [In]. rewrite IH. split.
    + intros [<-|(l & I & J)]; [exists (x :: t); split; [eapply nth_error_In; eauto|left; auto]|].
      apply replace_in in I as [->|I]; [|eauto]. exists (x :: t). split; [eapply nth_error_In; eauto|right; auto].
    + intros (l & I & J). apply In_nth_error in I as (n & En). destruct (Nat.eq_dec n r) as [->|Nr].
      * assert (l = x :: t) as -> by congruence. destruct J as [->|J]; auto. right. exists t. split; auto. eapply nth_error_In. eapply replace_at; eauto.
      * right. exists l. split; auto. eapply nth_error_In. eapply replace_keeps; eauto.
Qed.

(** *** one bucket *)
Lemma filter_all (p : lent -> bool) l : zlen (filter p l) = zlen l <-> Forall (fun x => p x = true) l.
Proof.
  unfold zlen. induction l as [|x l IH]; cbn [filter length]; [split; auto|].
  assert (L : (length (filter p l) <= length l)%nat) by (clear; induction l as [|y l IH]; cbn [filter length]; [lia|destruct (p y); cbn [length]; lia]).
  destruct (p x) eqn:E; cbn [length].
  - rewrite Forall_cons_iff. rewrite E. rewrite <- IH. split; [intros; split; auto; lia|intros (_ & H); lia].
  - split; [lia|]. intros F. inversion F; congruence.
Qed.

Lemma bucket_data l starts j : rank_call_list l = Ok (Some starts) -> check_calls l 0 starts = Ok true -> 0 <= j < zlen starts ->
  exists k e0, nth_error starts (Z.to_nat j) = Some k /\ nth_error l (Z.to_nat k) = Some e0 /\ l_bucket e0 = j /\
    take_bucket (l_bucket e0) (skipn (Z.to_nat k) l) = bucket_of j l /\ (k + zlen (bucket_of j l) = zlen l <-> j = zlen starts - 1).
Proof.
  intros Hrank Hcheck Hj. destruct (visited_lemma l starts Hrank Hcheck) as (V1 & _).
  pose proof Hrank as Hr. pose proof Hcheck as Hc. unfold rank_call_list in Hr. destruct l as [|e0 l0] eqn:El; [discriminate|].
  destruct (Z.eqb_spec (l_bucket e0) 0) as [E0|]; [|discriminate]. rewrite <- El in *.
  assert (starts = run_starts (-1) 0 l) by congruence. subst starts.
  assert (S : steps (-1) l) by (apply (check_steps l [] (-1)); exact Hc).
  destruct (nth_error (run_starts (-1) 0 l) (Z.to_nat j)) as [k|] eqn:En; [|apply nth_error_None in En; unfold zlen in Hj; lia].
  destruct (run_starts_nth _ _ _ _ _ S En) as (l1 & x & l2 & E & -> & B & F & G).
  exists (0 + zlen l1), x. split; auto. rewrite E at 1 2. replace (Z.to_nat (0 + zlen l1)) with (length l1) by (unfold zlen; lia).
  split; [rewrite nth_error_app2, Nat.sub_diag by lia; reflexivity|]. split; [lia|].
  assert (Bo : bucket_of j l = filter (fun e => l_bucket e =? j) (x :: l2)).
  { unfold bucket_of. rewrite E, filter_app, (filter_none _ l1); [reflexivity|]. eapply Forall_impl; [|exact F]. cbn. intros; lia. }
  split.
  - rewrite Bo. rewrite skipn_app, skipn_all, Nat.sub_diag. cbn [skipn app]. replace j with (l_bucket x) by lia. apply take_filter. cbn [steps]. auto.
  - destruct (run_starts_len l (-1) 0 S) as (_ & Ub). 
    assert (Hz : zlen l = zlen l1 + zlen (x :: l2)) by (rewrite E, zlen_app; reflexivity).
    rewrite Bo, Hz. 
    assert (Q : zlen (filter (fun e => l_bucket e =? j) (x :: l2)) = zlen (x :: l2) <-> Forall (fun e => (l_bucket e =? j) = true) (x :: l2)) by apply filter_all.
    split.
    + intros H. assert (A : Forall (fun e => (l_bucket e =? j) = true) (x :: l2)) by (apply Q; lia).
      (* every bucket up to the last start is inhabited *)
      destruct (Z.eq_dec j (zlen (run_starts (-1) 0 l) - 1)) as [|N]; auto. exfalso.
      destruct (nth_error (run_starts (-1) 0 l) (Z.to_nat (j + 1))) as [k'|] eqn:En'; [|apply nth_error_None in En'; unfold zlen in *; lia].
      destruct (run_starts_nth _ _ _ _ _ S En') as (l1' & x' & l2' & E' & _ & B' & _).
      assert (I : In x' l) by (rewrite E'; apply in_or_app; right; left; auto). rewrite E in I. apply in_app_or in I as [I|I].
      * rewrite Forall_forall in F. specialize (F x' I). cbv beta in F. lia.
      * rewrite Forall_forall in A. specialize (A x' I). cbv beta in A. lia.
    + intros H. assert (A : Forall (fun e => (l_bucket e =? j) = true) (x :: l2)); [|apply Q in A; lia].
      assert (S2 : steps (l_bucket x) (x :: l2)) by (cbn [steps]; auto). apply steps_ge in S2. rewrite Forall_forall in *. intros y Hy.
      specialize (S2 y Hy). specialize (V1 y). cbv beta in *. assert (I : In y l) by (rewrite E; apply in_or_app; auto). specialize (V1 I). lia.
Qed.


Lemma shows_all ev base m m' es : forall w, 0 <= w -> packed 512 base w es -> Forall (served ev) es -> Forall (shows_frag ev base m) es ->
  (forall p, p < w + sumb 512 es -> m' p = m p) -> Forall (shows_frag ev base m') es.
Proof.
  induction es as [|f es IH]; intros w H0 B1 Fs S1 Hall; [constructor|]. cbn [packed sumb] in *. destruct B1 as (B1 & B2).
  inversion S1 as [|? ? S11 S12]; subst. inversion Fs as [|? ? F1 F2]; subst.
  pose proof (sumb_nonneg ev es F2) as N1. assert (N2 : 0 <= bsz 512 f) by (pose proof (sumb_nonneg ev [f] ltac:(auto)) as X; cbn [sumb] in X; lia).
  constructor.
  - apply (shows_same ev base m m' f w); auto. intros p Hp. apply Hall. lia.
  - apply (IH (w + bsz 512 f)); auto; [lia|]. intros p Hp. apply Hall. lia.
Qed.

Section archive.
Variables (P D : Z) (clock : Z -> Z) (ev : env) (l : list lent) (starts : list Z).
Hypothesis HP : 10000 <= P < 2147483648.
Hypothesis HPb : P mod 512 = 0.
Hypothesis Hrank : rank_call_list l = Ok (Some starts).
Hypothesis Hcheck : check_calls l 0 starts = Ok true.
Hypothesis Hserved : Forall (served ev) l.
Hypothesis Hpack : forall j, 0 <= j -> packed 512 (j * P) 0 (bucket_of j l) /\ sumb 512 (bucket_of j l) <= P.

Definition used (j : Z) : Z := sumb 512 (bucket_of j l).
Definition is_last (j : Z) : Prop := j = zlen starts - 1.

(** what the write of bucket [j] holds *)
Definition bucket_write (j : Z) (w : wr) : Prop :=
  w_pos w = D + j * P /\ w_len w = (if used j <? P then used j + 512 else P) /\
  Forall (shows_frag ev (j * P) (w_mem w)) (bucket_of j l) /\
  (used j < P -> at_mem (w_mem w) (used j) (space_header (P - used j - 512) (clock j))).
Definition end_write (j : Z) (w : wr) : Prop :=
  is_last j /\ w_pos w = D + (j + 1) * P /\ w_len w = 1024 /\ forall p, 0 <= p < 1024 -> w_mem w p = Byte NUL.

Lemma used_facts j : 0 <= j -> 0 <= used j <= P /\ used j mod 512 = 0 /\ (used j < P -> used j + 512 <= P).
Proof.
  intros Hj. destruct (Hpack j Hj) as (_ & H). unfold used in *.
  assert (0 <= sumb 512 (bucket_of j l)).
  { apply (sumb_nonneg ev). unfold bucket_of. rewrite Forall_forall in *. intros x Hx. apply filter_In in Hx as (Hx & _). auto. }
  pose proof (sumb_mod (bucket_of j l)) as M. split; [lia|]. split; auto. intros L.
  set (s := sumb 512 (bucket_of j l)) in *. clearbody s.
  pose proof (Z.div_mod s 512 ltac:(lia)). pose proof (Z.div_mod P 512 ltac:(lia)). lia.
Qed.
Lemma spacer_len j : 0 <= j -> used j < P -> zlen (space_header (P - used j - 512) (clock j)) = 512.
Proof.
  intros Hj Hu. destruct (used_facts j Hj) as (U1 & _ & U3). unfold space_header, zlen.
  assert (Hw : wrap32 (P - used j - 512) = P - used j - 512) by (apply wrap32_id; unfold is_int; change (2 ^ 31) with 2147483648; lia).
  rewrite Hw. destruct (fixed_header_read (b ".parfu_spacer ") (P - used j - 512) (clock j)) as (L & _).
  - cbn. intros H. repeat destruct H as [H|H]; try discriminate; contradiction.
  - cbn; lia.
  - change (8 ^ 11) with 8589934592. lia.
  - rewrite L. reflexivity.
Qed.

Lemma one_image m j : 0 <= j < zlen starts ->
  exists m' w tail, one_bucket 512 P D (clock j) ev l starts m j = Ok (Some (m', w :: tail)) /\ bucket_write j w /\
    ((tail = [] /\ ~ is_last j) \/ exists w2, tail = [w2] /\ end_write j w2).
Proof.
  intros Hj. destruct (bucket_data l starts j Hrank Hcheck Hj) as (k & e0 & A1 & A2 & A3 & A4 & A5). fold (is_last j) in A5. unfold one_bucket.
  destruct (Z.ltb_spec P 10000); [lia|]. rewrite A1, A2. rewrite A3, Z.eqb_refl. cbn [negb].
  rewrite A3 in A4. rewrite A4. cbv zeta. destruct (Hpack j ltac:(lia)) as (B1 & B2).
  assert (Fs : Forall (served ev) (bucket_of j l)).
  { unfold bucket_of. rewrite Forall_forall in *. intros x Hx. apply filter_In in Hx as (Hx & _). auto. }
  replace (P * j) with (j * P) by lia.
  destruct (entries_image P ev (j * P) (bucket_of j l) m 0) as (m1 & E1 & _ & S1); auto; try lia.
  rewrite E1. cbn [bind]. rewrite Z.add_0_l. fold (used j).
  destruct (used_facts j ltac:(lia)) as (U1 & U2 & U3).
  assert (X : exists m2, (if 0 <=? P - used j - 512 then m2 <- store P m1 (used j) (space_header (P - used j - 512) (clock j)) ;; Ok (m2, used j + 512) else Ok (m1, used j))
      = Ok (m2, if used j <? P then used j + 512 else P) /\ Forall (shows_frag ev (j * P) m2) (bucket_of j l) /\
      (used j < P -> at_mem m2 (used j) (space_header (P - used j - 512) (clock j)))).
  { destruct (Z.ltb_spec (used j) P) as [L|L].
    - pose proof (spacer_len j ltac:(lia) L) as Ls. destruct (Z.leb_spec 0 (P - used j - 512)); [|lia].
      destruct (store_at P m1 (used j) (space_header (P - used j - 512) (clock j))) as (m2 & F1 & F2 & F3); [lia|lia|].
      exists m2. rewrite F1. cbn [bind]. split; [reflexivity|]. split; [|auto].
      assert (Hall : forall p, p < used j -> m2 p = m1 p) by (intros p Hp; apply F3; lia).
      apply (shows_all ev (j * P) m1 m2 (bucket_of j l) 0); auto; try lia.
    - assert (used j = P) by lia. destruct (Z.leb_spec 0 (P - used j - 512)); [lia|]. exists m1. rewrite H0. split; [reflexivity|]. split; [exact S1|lia]. }
  destruct X as (m2 & -> & X2 & X3). cbn [bind].
  destruct (Z.ltb_spec P (if used j <? P then used j + 512 else P)) as [Hbad|_]; [destruct (Z.ltb_spec (used j) P); lia|].
  assert (BW : bucket_write j (put (D + j * P) (if used j <? P then used j + 512 else P) m2)) by (unfold bucket_write; cbn; auto).
  destruct (Z.eqb_spec (k + zlen (bucket_of j l)) (zlen l)) as [El|El].
  - eexists _, _, _. split; [reflexivity|]. split; [exact BW|]. right. eexists. split; [reflexivity|]. unfold end_write. split; [apply A5; exact El|].
    cbn [put w_pos w_len w_mem]. split; [lia|]. split; [reflexivity|]. intros p Hp.
    destruct (poke_in m2 0 (repeat NUL 1025) p) as (c & C1 & C2); [lia|change (zlen (repeat NUL 1025)) with 1025; lia|]. rewrite C2.
    apply nth_error_In in C1. apply repeat_spec in C1. rewrite C1. reflexivity.
  - eexists _, _, _. split; [reflexivity|]. split; [exact BW|]. left. split; auto. intros HL. apply El. apply A5. exact HL.
Qed.

Lemma all_image is : forall m, Forall (fun j => 0 <= j < zlen starts) is ->
  exists ws, all_buckets 512 P D clock ev l starts m is = Ok (Some ws) /\
    Forall (fun w => exists j, In j is /\ (bucket_write j w \/ end_write j w)) ws /\
    forall j, In j is -> (exists w, In w ws /\ bucket_write j w) /\ (is_last j -> exists w, In w ws /\ end_write j w).
Proof.
  induction is as [|j is IH]; intros m F; cbn [all_buckets].
  - exists []. split; [reflexivity|]. split; [constructor|intros j []].
  - inversion F as [|? ? F1 F2]; subst. destruct (one_image m j F1) as (m' & w & tail & E & BW & T). rewrite E. cbn [bind].
    destruct (IH m' F2) as (ws & E2 & G1 & G2). rewrite E2. cbn [bind]. eexists. split; [reflexivity|]. split.
    + cbn [app]. constructor; [exists j; split; [left; auto|auto]|]. apply Forall_app. split.
      * destruct T as [(-> & _)|(w2 & -> & T)]; [constructor|]. constructor; [exists j; split; [left; auto|auto]|constructor].
      * eapply Forall_impl; [|exact G1]. intros x (i & I & X). exists i. split; [right; auto|auto].
    + intros i [<-|I].
      * split; [exists w; split; [left; auto|auto]|]. intros L. destruct T as [(-> & N)|(w2 & -> & T)]; [destruct (N L)|].
        exists w2. split; auto. right. left. auto.
      * destruct (G2 i I) as ((w1 & J1 & J2) & K). split; [exists w1; split; auto; right; apply in_or_app; auto|].
        intros L. destruct (K L) as (w3 & K1 & K2). exists w3. split; auto. right. apply in_or_app. auto.
Qed.
End archive.
