(** Proofs for C93, C94: the write benchmark. *)
From Coq Require Import Permutation Lia.
From Verif Require Import Bytes Outcome LegacyCodec Behavior WriteTest WriteTestSpec.

Lemma as_int_ok z : 0 <= z <= INT_MAX -> as_int z = Ok z.
Proof. intros H. unfold as_int. rewrite (proj2 (Z.ltb_ge _ _)) by lia. rewrite (proj2 (Z.ltb_ge _ _)) by lia. reflexivity. Qed.
Lemma as_long_ok z : 0 <= z <= LONG_MAX -> as_long z = Ok z.
Proof. intros H. unfold as_long, LONG_MAX in *. rewrite (proj2 (Z.ltb_ge _ _)) by lia. rewrite (proj2 (Z.ltb_ge _ _)) by lia. reflexivity. Qed.

(** filling the buffer *)
Lemma int_bytes_pattern i p : 0 <= i -> 4 * i <= p < 4 * i + 4 -> nth (Z.to_nat (p - 4 * i)) (int_bytes (i * 22 + 7)) None = Some (pattern p).
Proof.
  intros Hi Hp. unfold pattern.
  assert (D : p / 4 = i) by (symmetry; apply (Z.div_unique p 4 i (p - 4 * i)); lia).
  assert (M : p mod 4 = p - 4 * i) by (symmetry; apply (Z.mod_unique p 4 i (p - 4 * i)); lia).
  rewrite D, M. replace (22 * i + 7) with (i * 22 + 7) by lia.
  assert (C : p - 4 * i = 0 \/ p - 4 * i = 1 \/ p - 4 * i = 2 \/ p - 4 * i = 3) by lia.
  destruct C as [->|[->|[->| ->]]]; reflexivity.
Qed.

Lemma fill_loop_ok buf n : forall i m, 0 <= i -> 4 * (i + Z.of_nat n) <= buf -> 22 * (i + Z.of_nat n) <= INT_MAX - 7 ->
  exists m', fill_loop n i buf m = Ok m' /\ forall p, m' p = if (4 * i <=? p) && (p <? 4 * (i + Z.of_nat n)) then Some (pattern p) else m p.
Proof.
  induction n as [|n IH]; intros i m Hi Hb Ho.
  - exists m. split; [reflexivity|]. intros p. destruct (Z.leb_spec (4 * i) p), (Z.ltb_spec p (4 * (i + Z.of_nat 0))); cbn [andb]; auto; lia.
  - cbn [fill_loop]. rewrite (proj2 (Z.ltb_ge _ _)) by lia. rewrite (proj2 (Z.ltb_ge _ _)) by lia.
    destruct (IH (i + 1) (store m (4 * i) (int_bytes (i * 22 + 7))) ltac:(lia) ltac:(lia) ltac:(lia)) as (m' & E & P).
    exists m'. split; [exact E|]. intros p. rewrite P. unfold store. change (zlen (int_bytes (i * 22 + 7))) with 4.
    destruct (Z.leb_spec (4 * i) p), (Z.ltb_spec p (4 * (i + Z.of_nat (S n)))), (Z.leb_spec (4 * (i + 1)) p), (Z.ltb_spec p (4 * (i + 1 + Z.of_nat n))), (Z.ltb_spec p (4 * i + 4));
      cbn [andb]; try lia; auto. apply int_bytes_pattern; lia.
Qed.
Lemma fill_loop_bad buf n : forall i m, 0 <= i -> 0 <= buf -> buf < 4 * (i + Z.of_nat n) -> 4 * i <= buf -> fill_loop n i buf m = Err EUB.
Proof.
  induction n as [|n IH]; intros i m Hi H0 Hb Hl; [lia|]. cbn [fill_loop].
  destruct (Z.ltb_spec buf (4 * i + 4)); [reflexivity|]. destruct (_ <? _); [reflexivity|]. apply IH; lia.
Qed.

(** the groups *)
Lemma last_rank_cases j i : 1 <= j_files j -> 0 <= i < j_files j -> i < j_ranks j ->
  i <= last_rank j i < j_ranks j /\ last_rank j i = (j_ranks j / j_files j + (if i <? j_ranks j mod j_files j then 1 else 0) - 1) * j_files j + i.
Proof.
  intros F I N. unfold last_rank. pose proof (Z.div_mod (j_ranks j) (j_files j) ltac:(lia)) as D.
  pose proof (Z.mod_pos_bound (j_ranks j) (j_files j) ltac:(lia)) as M.
  set (q := j_ranks j / j_files j) in *. set (t := j_ranks j mod j_files j) in *. set (f := j_files j) in *.
  assert (0 <= q) by (apply Z.div_pos; lia).
  destruct (Z.leb_spec (j_ranks j) (q * f + i)), (Z.ltb_spec i t); try lia.
  all: first [split; nia | assert (1 <= q) by nia; split; nia].
Qed.
Lemma group_ok_true j i : 1 <= j_files j -> 0 <= i < j_files j -> i < j_ranks j -> group_ok j i = true.
Proof.
  intros F I N. destruct (last_rank_cases j i F I N) as [L _]. unfold group_ok.
  rewrite !andb_true_iff, !Z.leb_le, !Z.ltb_lt. lia.
Qed.
Lemma in_file_val j i : 1 <= j_files j -> 0 <= i < j_files j -> i < j_ranks j ->
  in_file j i = j_ranks j / j_files j + (if i <? j_ranks j mod j_files j then 1 else 0).
Proof.
  intros F I N. destruct (last_rank_cases j i F I N) as [_ L]. unfold in_file. rewrite L.
  replace (_ - i) with ((j_ranks j / j_files j + (if i <? j_ranks j mod j_files j then 1 else 0) - 1) * j_files j) by lia.
  rewrite Z.quot_mul by lia. lia.
Qed.
Lemma groups_ok j n : forall i, 1 <= j_files j -> 0 <= i -> i + Z.of_nat n <= 10 -> i + Z.of_nat n <= j_files j -> i + Z.of_nat n <= j_ranks j ->
  exists l, groups j n i = Ok l /\ forall k, (k < n)%nat -> nth k l 0 = in_file j (i + Z.of_nat k).
Proof.
  induction n as [|n IH]; intros i F I A B C.
  - exists []. split; [reflexivity|]. intros k K. lia.
  - destruct (IH (i + 1) F ltac:(lia) ltac:(lia) ltac:(lia) ltac:(lia)) as (l & E & P).
    exists (in_file j i :: l). cbn [groups]. unfold MAX_FILES. rewrite (proj2 (Z.leb_gt _ _)) by lia.
    rewrite group_ok_true by lia. cbn [negb]. rewrite E. split; [reflexivity|].
    intros [|k] K; cbn [nth]; [f_equal; lia|]. rewrite P by lia. f_equal. lia.
Qed.
Lemma groups_many j n : forall i, 0 <= i <= 10 -> 10 < i + Z.of_nat n -> 10 < j_files j -> 10 < j_ranks j -> groups j n i = Err EUB.
Proof.
  induction n as [|n IH]; intros i I A B C; [lia|]. cbn [groups]. unfold MAX_FILES. destruct (Z.leb_spec 10 i); [reflexivity|].
  rewrite group_ok_true by lia. cbn [negb]. rewrite IH by lia. reflexivity.
Qed.
Lemma groups_few j n : forall i, 0 <= i <= j_ranks j -> j_ranks j < i + Z.of_nat n -> i + Z.of_nat n <= 10 -> i + Z.of_nat n <= j_files j -> groups j n i = Err EAbort.
Proof.
  induction n as [|n IH]; intros i I A B C; [lia|]. cbn [groups]. unfold MAX_FILES. rewrite (proj2 (Z.leb_gt _ _)) by lia.
  destruct (Z.ltb_spec i (j_ranks j)).
  - rewrite group_ok_true by lia. cbn [negb]. rewrite IH by lia. reflexivity.
  - unfold group_ok. rewrite (proj2 (Z.ltb_ge _ _)) by lia. rewrite andb_false_r. reflexivity.
Qed.

(** the number of ranks of a file *)
Lemma count_mod f i n : 1 <= f -> 0 <= i < f ->
  Z.of_nat (length (filter (fun r => Z.of_nat r mod f =? i) (seq 0 n))) = (Z.of_nat n + f - 1 - i) / f.
Proof.
  intros F I. induction n as [|n IH].
  - cbn [seq filter length]. symmetry. apply Z.div_small. lia.
  - rewrite seq_S, filter_app, app_length, Nat2Z.inj_add, IH. cbn [filter Nat.add].
    pose proof (Z.div_mod (Z.of_nat n) f ltac:(lia)) as D. pose proof (Z.mod_pos_bound (Z.of_nat n) f ltac:(lia)) as M.
    set (q := Z.of_nat n / f) in *. set (t := Z.of_nat n mod f) in *. rewrite Nat2Z.inj_succ.
    destruct (Z.eqb_spec t i) as [E|E]; cbn [length].
    + rewrite <- (Z.div_unique (Z.of_nat n + f - 1 - i) f q (f - 1)) by lia.
      rewrite <- (Z.div_unique (Z.succ (Z.of_nat n) + f - 1 - i) f (q + 1) 0) by lia. lia.
    + destruct (Z.lt_ge_cases t i).
      * rewrite <- (Z.div_unique (Z.of_nat n + f - 1 - i) f q (t + f - 1 - i)) by lia.
        rewrite <- (Z.div_unique (Z.succ (Z.of_nat n) + f - 1 - i) f q (t + f - i)) by lia. lia.
      * rewrite <- (Z.div_unique (Z.of_nat n + f - 1 - i) f (q + 1) (t - 1 - i)) by lia.
        rewrite <- (Z.div_unique (Z.succ (Z.of_nat n) + f - 1 - i) f (q + 1) (t - i)) by lia. lia.
Qed.
Lemma ranks_of_val j i : 1 <= j_files j -> 0 <= i < j_files j -> 0 <= j_ranks j ->
  ranks_of j i = j_ranks j / j_files j + (if i <? j_ranks j mod j_files j then 1 else 0).
Proof.
  intros F I N. unfold ranks_of. rewrite count_mod by assumption. rewrite Z2Nat.id by lia.
  pose proof (Z.div_mod (j_ranks j) (j_files j) ltac:(lia)) as D. pose proof (Z.mod_pos_bound (j_ranks j) (j_files j) ltac:(lia)) as M.
  set (q := j_ranks j / j_files j) in *. set (t := j_ranks j mod j_files j) in *.
  destruct (Z.ltb_spec i t).
  - symmetry. apply (Z.div_unique _ _ (q + 1) (t - 1 - i)); lia.
  - symmetry. apply (Z.div_unique _ _ (q + 0) (t + j_files j - 1 - i)); lia.
Qed.

(** the writes *)
Definition slot_put (j : job) (data : list (option byte)) (r i : Z) : put :=
  {| p_file := r mod j_files j; p_off := (i * (j_ranks j / j_files j) + r / j_files j) * j_buf j; p_bytes := data |}.
Definition puts (j : job) (data : list (option byte)) (r : Z) : list put := map (fun k => slot_put j data r (Z.of_nat k)) (seq 0 (Z.to_nat (j_iters j))).

Lemma write_loop_ok j data r n : usable j -> holds j -> 0 <= r < j_ranks j ->
  forall k, Z.of_nat (k + n) <= j_iters j -> write_loop j r data n (Z.of_nat k) = Ok (map (fun k => slot_put j data r (Z.of_nat k)) (seq k n)).
Proof.
  intros (F & N & T & D & B & _) (H1 & _ & H3) R. induction n as [|n IH]; intros k K; [reflexivity|]. cbn [write_loop seq map].
  assert (Q : 0 <= j_ranks j / j_files j) by (apply Z.div_pos; lia).
  assert (A : 0 <= r / j_files j <= j_ranks j / j_files j) by (split; [apply Z.div_pos; lia|apply Z.div_le_mono; lia]).
  assert (O : offset j r (Z.of_nat k) = Ok ((Z.of_nat k * (j_ranks j / j_files j) + r / j_files j) * j_buf j)).
  { unfold offset. set (q := j_ranks j / j_files j) in *. set (a := r / j_files j) in *. unfold LONG_MAX in *.
    assert (Z.of_nat k * q * j_buf j <= (j_iters j - 1) * q * j_buf j) by nia.
    assert (a * j_buf j <= q * j_buf j) by nia. assert (0 <= a * j_buf j) by nia. assert (0 <= Z.of_nat k * q * j_buf j) by (apply Z.mul_nonneg_nonneg; [apply Z.mul_nonneg_nonneg|]; lia).
    assert (0 <= j_iters j * j_buf j) by (apply Z.mul_nonneg_nonneg; lia).
    assert ((q + 1) * j_iters j * j_buf j = (j_iters j - 1) * q * j_buf j + q * j_buf j + j_iters j * j_buf j) by lia.
    rewrite as_long_ok by (unfold LONG_MAX; lia). cbn [bind]. rewrite as_int_ok by lia. cbn [bind].
    rewrite as_long_ok by (unfold LONG_MAX; lia). f_equal. lia. }
  rewrite O. cbn [bind]. replace (Z.of_nat k + 1) with (Z.of_nat (S k)) by lia. rewrite IH by lia. reflexivity.
Qed.

Lemma fill_ok j : usable j -> holds j -> exists m, fill j = Ok m /\
  map (fun k => m (Z.of_nat k)) (seq 0 (Z.to_nat (j_data j))) = map (fun k => Some (pattern (Z.of_nat k))) (seq 0 (Z.to_nat (j_data j))).
Proof.
  intros (F & N & T & D & B & M4) (_ & H2 & _). unfold fill. rewrite (proj2 (Z.ltb_ge _ _)) by lia.
  pose proof (Z.div_mod (j_data j) 4 ltac:(lia)) as DM. rewrite M4 in DM.
  assert (0 <= j_data j / 4) by (apply Z.div_pos; lia).
  destruct (fill_loop_ok (j_buf j) (Z.to_nat (j_data j / 4)) 0 (fun _ => None)) as (m & E & P); rewrite ?Z2Nat.id by lia; try lia.
  exists m. split; [exact E|]. apply map_ext_in. intros k K. apply in_seq in K. rewrite P. rewrite Z2Nat.id by lia.
  rewrite (proj2 (Z.leb_le _ _)) by lia. rewrite (proj2 (Z.ltb_lt _ _)) by lia. reflexivity.
Qed.

Definition the_data (j : job) : list (option byte) := map (fun k => Some (pattern (Z.of_nat k))) (seq 0 (Z.to_nat (j_data j))).

Lemma rank_main_ok j r : usable j -> holds j -> 0 <= r < j_ranks j ->
  rank_main j r = Ok (0, ranks_of j (r mod j_files j) * j_iters j * j_buf j, puts j (the_data j) r).
Proof.
  intros U H R. pose proof U as (F & N & T & D & B & M4). pose proof H as (H1 & H2 & H3).
  destruct (groups_ok j (Z.to_nat (j_files j)) 0) as (l & E & P); try lia.
  destruct (fill_ok j U H) as (m & E' & P').
  pose proof (Z.mod_pos_bound r (j_files j) ltac:(lia)) as MB.
  unfold rank_main. rewrite E. cbn [bind]. rewrite (proj2 (Z.eqb_neq _ _)) by lia. rewrite (proj2 (Z.ltb_ge _ _)) by lia.
  rewrite E'. cbn [bind]. rewrite (proj2 (Z.ltb_ge _ _)) by lia. rewrite P by lia. rewrite Z2Nat.id, Z.add_0_l by lia.
  rewrite in_file_val, <- ranks_of_val by lia.
  assert (K : 0 <= ranks_of j (r mod j_files j) <= j_ranks j / j_files j + 1).
  { rewrite ranks_of_val by lia. assert (0 <= j_ranks j / j_files j) by (apply Z.div_pos; lia). destruct (_ <? _); lia. }
  set (c := ranks_of j (r mod j_files j)) in *. unfold LONG_MAX in *.
  assert (0 <= c * j_iters j <= (j_ranks j / j_files j + 1) * j_iters j) by (split; [apply Z.mul_nonneg_nonneg|apply Z.mul_le_mono_nonneg_r]; lia).
  assert (0 <= c * j_iters j * j_buf j <= (j_ranks j / j_files j + 1) * j_iters j * j_buf j) by (split; [apply Z.mul_nonneg_nonneg|apply Z.mul_le_mono_nonneg_r]; lia).
  assert (c * j_iters j <= c * j_iters j * j_buf j) by (rewrite <- (Z.mul_1_r (c * j_iters j)) at 1; apply Z.mul_le_mono_nonneg_l; lia).
  rewrite as_long_ok by (unfold LONG_MAX; lia). cbn [bind]. rewrite as_long_ok by (unfold LONG_MAX; lia). cbn [bind].
  rewrite (proj2 (Z.ltb_ge _ _)) by lia. rewrite (proj2 (Z.ltb_ge (j_buf j) _)) by lia. cbn [andb].
  rewrite P'. change 0 with (Z.of_nat 0) at 1. rewrite write_loop_ok by (auto; lia). reflexivity.
Qed.

(** the contents *)
Lemma slot_eq B k s p L : 0 <= p < B -> L <= B -> k * B <= s * B + p < k * B + L -> k = s.
Proof.
  intros P HL H. destruct (Z.lt_trichotomy k s) as [C|[C|C]]; auto; exfalso.
  - assert ((k + 1) * B <= s * B) by (apply Z.mul_le_mono_nonneg_r; lia). lia.
  - assert ((s + 1) * B <= k * B) by (apply Z.mul_le_mono_nonneg_r; lia). lia.
Qed.
Lemma after_slots j data i s p : forall ws m,
  (forall w, In w ws -> p_file w = i -> exists k, p_off w = k * j_buf j /\ p_bytes w = data) ->
  zlen data <= j_buf j -> 0 <= p < j_buf j ->
  after m i ws (s * j_buf j + p) =
    if (p <? zlen data) && existsb (fun w => (p_file w =? i) && (p_off w =? s * j_buf j)) ws then nth (Z.to_nat p) data None else m (s * j_buf j + p).
Proof.
  induction ws as [|w ws IH]; intros m W D P; cbn [after fold_left existsb].
  - rewrite andb_false_r. reflexivity.
  - fold (after (if p_file w =? i then store m (p_off w) (p_bytes w) else m) i ws). rewrite (IH _ (fun w' I => W w' (or_intror I)) D P).
    destruct (existsb _ ws) eqn:X; rewrite ?orb_true_r, ?orb_false_r, ?andb_true_r, ?andb_false_r.
    + destruct (p <? zlen data) eqn:L; [reflexivity|].
      destruct (Z.eqb_spec (p_file w) i) as [F|F]; [|reflexivity]. destruct (W w (or_introl eq_refl) F) as (k & O & Dd).
      unfold store. rewrite O, Dd. apply Z.ltb_ge in L.
      destruct (Z.leb_spec (k * j_buf j) (s * j_buf j + p)), (Z.ltb_spec (s * j_buf j + p) (k * j_buf j + zlen data)); cbn [andb]; auto. exfalso.
      assert (k = s) by (apply (slot_eq (j_buf j) k s p (zlen data)); lia). subst k. lia.
    + destruct (Z.eqb_spec (p_file w) i) as [F|F]; cbn [andb]; [|rewrite andb_false_r; reflexivity].
      destruct (W w (or_introl eq_refl) F) as (k & O & Dd). unfold store. rewrite O, Dd.
      destruct (Z.leb_spec (k * j_buf j) (s * j_buf j + p)), (Z.ltb_spec (s * j_buf j + p) (k * j_buf j + zlen data)), (Z.eqb_spec (k * j_buf j) (s * j_buf j)), (Z.ltb_spec p (zlen data));
        cbn [andb]; auto; try (f_equal; f_equal; lia);
        try (exfalso; assert (k = s) by (apply (slot_eq (j_buf j) k s p (zlen data)); lia); subst k; lia).
Qed.

Lemma the_data_len j : 0 <= j_data j -> zlen (the_data j) = j_data j.
Proof. intros H. unfold zlen, the_data. rewrite map_length, seq_length. lia. Qed.
Lemma the_data_nth j p : 0 <= p < j_data j -> nth (Z.to_nat p) (the_data j) None = Some (pattern p).
Proof.
  intros H. unfold the_data. rewrite nth_indep with (d' := Some (pattern (Z.of_nat 0))) by (rewrite map_length, seq_length; lia).
  rewrite (map_nth (fun k => Some (pattern (Z.of_nat k)))). rewrite seq_nth by lia. cbn [Nat.add]. rewrite Z2Nat.id by lia. reflexivity.
Qed.

Definition the_out (j : job) : Z -> Z * list put := fun r => (ranks_of j (r mod j_files j) * j_iters j * j_buf j, puts j (the_data j) r).
Lemma the_out_ok j : usable j -> holds j -> all_end j (the_out j).
Proof. intros U H r R. apply rank_main_ok; assumption. Qed.
Lemma all_end_unique j out : usable j -> holds j -> all_end j out -> forall r, 0 <= r < j_ranks j -> out r = the_out j r.
Proof.
  intros U H A r R. pose proof (A r R) as E. rewrite (rank_main_ok j r U H R) in E. destruct (out r) as [a l]. cbn in E.
  injection E as <- <-. reflexivity.
Qed.

Lemma in_puts j ws w : 0 <= j_iters j -> in_some_order j (the_out j) ws -> In w ws <->
  exists r i, 0 <= r < j_ranks j /\ 0 <= i < j_iters j /\ w = slot_put j (the_data j) r i.
Proof.
  intros T O. split.
  - intros W. apply (Permutation_in _ O) in W. apply in_flat_map in W. destruct W as (r & Rr & W). apply in_seq in Rr.
    cbn in W. apply in_map_iff in W. destruct W as (i & <- & I). apply in_seq in I.
    exists (Z.of_nat r), (Z.of_nat i). repeat split; lia.
  - intros (r & i & R & I & ->). apply (Permutation_in _ (Permutation_sym O)). apply in_flat_map. exists (Z.to_nat r).
    split; [apply in_seq; lia|]. rewrite Z2Nat.id by lia. cbn. apply in_map_iff. exists (Z.to_nat i). rewrite Z2Nat.id by lia.
    split; [reflexivity|]. apply in_seq. lia.
Qed.

Lemma existsb_slot j ws i s : usable j -> in_some_order j (the_out j) ws ->
  existsb (fun w => (p_file w =? i) && (p_off w =? s * j_buf j)) ws = true <->
  exists r t, 0 <= r < j_ranks j /\ 0 <= t < j_iters j /\ r mod j_files j = i /\ t * (j_ranks j / j_files j) + r / j_files j = s.
Proof.
  intros (F & N & T & D & B & M4) O. rewrite existsb_exists. split.
  - intros (w & W & E). apply andb_true_iff in E. rewrite !Z.eqb_eq in E. apply (in_puts j ws w ltac:(lia) O) in W.
    destruct W as (r & t & R & I & ->). cbn in E. exists r, t. repeat split; try lia. nia.
  - intros (r & t & R & I & E1 & E2). exists (slot_put j (the_data j) r t). split; [apply (in_puts j ws _ ltac:(lia) O); eauto|].
    cbn. rewrite E1, E2, !Z.eqb_refl. reflexivity.
Qed.

Lemma contents j ws i s p old size : usable j -> in_some_order j (the_out j) ws -> 0 <= p < j_buf j ->
  (exists r t, 0 <= r < j_ranks j /\ 0 <= t < j_iters j /\ r mod j_files j = i /\ t * (j_ranks j / j_files j) + r / j_files j = s) ->
  after (sized old size) i ws (s * j_buf j + p) = if p <? j_data j then Some (pattern p) else sized old size (s * j_buf j + p).
Proof.
  intros U O P X. pose proof U as (F & N & T & D & B & M4).
  rewrite (after_slots j (the_data j)); try lia.
  - rewrite (proj2 (existsb_slot j ws i s U O) X), andb_true_r, the_data_len by lia.
    destruct (Z.ltb_spec p (j_data j)); [|reflexivity]. apply the_data_nth. lia.
  - intros w W E. apply (in_puts j ws w ltac:(lia) O) in W. destruct W as (r & t & _ & _ & ->). cbn. eauto.
  - rewrite the_data_len by lia. lia.
Qed.
Lemma untouched j ws i s p m : usable j -> in_some_order j (the_out j) ws -> 0 <= p < j_buf j ->
  ~ (exists r t, 0 <= r < j_ranks j /\ 0 <= t < j_iters j /\ r mod j_files j = i /\ t * (j_ranks j / j_files j) + r / j_files j = s) ->
  after m i ws (s * j_buf j + p) = m (s * j_buf j + p).
Proof.
  intros U O P X. pose proof U as (F & N & T & D & B & M4).
  rewrite (after_slots j (the_data j)); try lia.
  - destruct (existsb _ ws) eqn:E; [exfalso; apply X; apply (existsb_slot j ws i s U O); exact E|]. rewrite andb_false_r. reflexivity.
  - intros w W E. apply (in_puts j ws w ltac:(lia) O) in W. destruct W as (r & t & _ & _ & ->). cbn. eauto.
  - rewrite the_data_len by lia. lia.
Qed.

(** nothing twice *)
Lemma NoDup_flat_map {A B} (f : A -> list B) l : NoDup l -> (forall x, In x l -> NoDup (f x)) ->
  (forall x y z, In x l -> In y l -> In z (f x) -> In z (f y) -> x = y) -> NoDup (flat_map f l).
Proof.
  induction l as [|a l IH]; intros N F S; [constructor|]. cbn. inversion N as [|? ? Na Nl]. subst.
  assert (G : NoDup (flat_map f l)) by (apply IH; auto with datatypes; intros x y z X Y; apply S; right; assumption).
  assert (K : forall z, In z (f a) -> ~ In z (flat_map f l)).
  { intros z Z W. apply in_flat_map in W. destruct W as (y & Y & W). apply Na. rewrite (S a y z); auto with datatypes. }
  specialize (F a (or_introl eq_refl)). clear - F G K. induction (f a) as [|z t IH]; [exact G|]. cbn. inversion F as [|? ? F1 F2]. subst. constructor.
  - intros W. apply in_app_or in W. destruct W as [W|W]; [exact (F1 W)|exact (K z (or_introl eq_refl) W)].
  - apply IH; auto. intros z' Z'. apply K. right. exact Z'.
Qed.

Lemma keys_nodup j ws : usable j -> j_ranks j mod j_files j = 0 -> in_some_order j (the_out j) ws -> NoDup (map (fun w => (p_file w, p_off w)) ws).
Proof.
  intros (F & N & T & D & B & M4) M O. apply (Permutation_map (fun w => (p_file w, p_off w))) in O.
  apply (Permutation_NoDup (Permutation_sym O)). clear O.
  rewrite flat_map_concat_map, concat_map, map_map, <- flat_map_concat_map.
  set (q := j_ranks j / j_files j) in *. pose proof (Z.div_mod (j_ranks j) (j_files j) ltac:(lia)) as DM. fold q in DM.
  assert (S : forall r r' t t', 0 <= r < j_ranks j -> 0 <= r' < j_ranks j -> r mod j_files j = r' mod j_files j ->
     (t * q + r / j_files j) * j_buf j = (t' * q + r' / j_files j) * j_buf j -> r = r' /\ t = t').
  { intros r r' t t' R R' E E'.
    pose proof (Z.div_mod r (j_files j) ltac:(lia)) as D1. pose proof (Z.div_mod r' (j_files j) ltac:(lia)) as D2.
    assert (A1 : 0 <= r / j_files j < q) by (split; [apply Z.div_pos; lia|apply Z.div_lt_upper_bound; lia]).
    assert (A2 : 0 <= r' / j_files j < q) by (split; [apply Z.div_pos; lia|apply Z.div_lt_upper_bound; lia]).
    assert (E2 : t * q + r / j_files j = t' * q + r' / j_files j) by nia. clear E'.
    assert (t = t') by nia. subst t'. split; [|reflexivity]. assert (r / j_files j = r' / j_files j) by lia. congruence. }
  apply NoDup_flat_map.
  - apply seq_NoDup.
  - intros r R. apply in_seq in R. cbn. unfold puts. rewrite map_map. cbn.
    assert (NoDup (seq 0 (Z.to_nat (j_iters j)))) as ND by apply seq_NoDup. revert ND. generalize (seq 0 (Z.to_nat (j_iters j))) as l. clear - S R N.
    intros l. induction l as [|t l IH]; intros ND; [constructor|]. cbn. inversion ND as [|? ? N1 N2]. subst. constructor; [|exact (IH N2)].
    intros W. apply in_map_iff in W. destruct W as (t' & E & W). injection E as E.
    assert (R' : 0 <= Z.of_nat r < j_ranks j) by (clear - R N; lia).
    destruct (S (Z.of_nat r) (Z.of_nat r) (Z.of_nat t') (Z.of_nat t) R' R' eq_refl E) as [_ K]. apply N1. apply Nat2Z.inj in K. subst t'. exact W.
  - intros r r' z R R' Z1 Z2. apply in_seq in R, R'. cbn in Z1, Z2. unfold puts in Z1, Z2. rewrite map_map in Z1, Z2.
    apply in_map_iff in Z1, Z2. destruct Z1 as (t & <- & _), Z2 as (t' & E & _). cbn in E. injection E as E1 E2.
    assert (Q : 0 <= Z.of_nat r < j_ranks j) by (clear - R N; lia). assert (Q' : 0 <= Z.of_nat r' < j_ranks j) by (clear - R' N; lia).
    destruct (S (Z.of_nat r) (Z.of_nat r') (Z.of_nat t) (Z.of_nat t') Q Q' (eq_sym E1) (eq_sym E2)) as [K _]. apply Nat2Z.inj in K. exact K.
Qed.
