(** C93, C94: the write benchmark parfu_write_test.c. *)
From Coq Require Import Permutation Lia.
From Verif Require Import Bytes Outcome LegacyCodec Behavior WriteTest WriteTestSpec WriteTestProofs.

Lemma order_ext j out ws : usable j -> holds j -> all_end j out -> in_some_order j out ws -> in_some_order j (the_out j) ws.
Proof.
  intros U H A O. unfold in_some_order in *. etransitivity; [exact O|]. rewrite !flat_map_concat_map.
  erewrite map_ext_in; [reflexivity|]. intros r R. apply in_seq in R. cbv beta. rewrite (all_end_unique j out U H A) by lia. reflexivity.
Qed.

(** C93 when the files divide the ranks: all ranks end with 0; each writes in
    every iteration, to its own file; in whatever order the writes happen, no two go to
    the same place of a file and every slot of every file ends up with the data *)
Theorem C93_slots_partial j : usable j -> holds j -> j_ranks j mod j_files j = 0 ->
  exists out, all_end j out /\
    (forall r, 0 <= r < j_ranks j ->
       fst (out r) = ranks_of j (r mod j_files j) * j_iters j * j_buf j /\ zlen (snd (out r)) = j_iters j /\
       Forall (fun w => p_file w = r mod j_files j /\ zlen (p_bytes w) = j_data j) (snd (out r))) /\
    forall ws, in_some_order j out ws ->
      NoDup (map (fun w => (p_file w, p_off w)) ws) /\
      forall i old s p, 0 <= i < j_files j -> 0 <= s < ranks_of j i * j_iters j -> 0 <= p < j_buf j ->
        after (sized old (ranks_of j i * j_iters j * j_buf j)) i ws (s * j_buf j + p) =
          if p <? j_data j then Some (pattern p) else old (s * j_buf j + p).
Proof.
  intros U H M. pose proof U as (F & N & T & D & B & M4). exists (the_out j). split; [apply the_out_ok; assumption|]. split.
  - intros r R. split; [reflexivity|]. split.
    + cbn. unfold zlen, puts. rewrite map_length, seq_length. lia.
    + apply Forall_forall. intros w W. cbn in W. apply in_map_iff in W. destruct W as (k & <- & _). cbn. split; [reflexivity|]. apply the_data_len. lia.
  - intros ws O. split; [apply (keys_nodup j ws U M O)|].
    intros i old s p I S P. rewrite ranks_of_val in * by lia. rewrite M in *.
    rewrite (proj2 (Z.ltb_ge i 0)) in * by lia. rewrite Z.add_0_r in *.
    pose proof (Z.div_mod (j_ranks j) (j_files j) ltac:(lia)) as DM. rewrite M, Z.add_0_r in DM.
    set (q := j_ranks j / j_files j) in *.
    assert (Q : 1 <= q) by (apply Z.div_le_lower_bound; lia).
    rewrite (contents j ws i s p); auto.
    + destruct (p <? j_data j); [reflexivity|]. unfold sized. rewrite (proj2 (Z.leb_le _ _)).
      2:{ assert (0 <= s * j_buf j) by (apply Z.mul_nonneg_nonneg; lia). lia. }
      rewrite (proj2 (Z.ltb_lt _ _)); [reflexivity|].
      assert ((s + 1) * j_buf j <= q * j_iters j * j_buf j) by (apply Z.mul_le_mono_nonneg_r; lia). lia.
    + pose proof (Z.div_mod s q ltac:(lia)) as Ds. pose proof (Z.mod_pos_bound s q ltac:(lia)) as Ms.
      assert (Ts : 0 <= s / q < j_iters j) by (split; [apply Z.div_pos; lia|apply Z.div_lt_upper_bound; lia]).
      exists (s mod q * j_files j + i), (s / q).
      assert (E : (s mod q * j_files j + i) / j_files j = s mod q) by (symmetry; apply (Z.div_unique _ _ _ i); lia).
      split; [|split; [exact Ts|split]].
      * split; [assert (0 <= s mod q * j_files j) by (apply Z.mul_nonneg_nonneg; lia); lia|].
        assert ((s mod q + 1) * j_files j <= q * j_files j) by (apply Z.mul_le_mono_nonneg_r; lia). lia.
      * rewrite Z.add_comm, Z.mod_add by lia. apply Z.mod_small. lia.
      * fold q. rewrite E. lia.
Qed.
Print Assumptions C93_slots_partial.

(** the files have different names *)
Theorem C93_names j i k : 0 <= i < 10 -> 0 <= k < 10 -> file_name j i = file_name j k -> i = k.
Proof.
  intros I K E. unfold file_name in E. apply app_inv_head in E. apply app_inv_head in E.
  rewrite !(Z.mod_small _ 10), !(Z.div_small _ 10) in E by lia. injection E as E.
  assert (forall d, 0 <= d < 10 -> In d [0; 1; 2; 3; 4; 5; 6; 7; 8; 9]) as A by (intros d Dd; cbn; lia).
  apply A in I, K. cbn in I, K.
  repeat (destruct I as [<-|I]; [repeat (destruct K as [<-|K]; [first [reflexivity | discriminate E]|]); destruct K|]). destruct I.
Qed.
Print Assumptions C93_names.

(** refuted when the files do not divide the ranks: the last part of file 0
    keeps what it had before, and two writes go to the same place *)
Theorem C93_refuted j : usable j -> holds j -> j_ranks j mod j_files j <> 0 -> 2 <= j_iters j ->
  exists out, all_end j out /\ forall ws, in_some_order j out ws ->
    ~ NoDup (map (fun w => (p_file w, p_off w)) ws) /\
    forall old p, 0 <= p < j_buf j ->
      let s := ranks_of j 0 * j_iters j - 1 in
      after (sized old (ranks_of j 0 * j_iters j * j_buf j)) 0 ws (s * j_buf j + p) = old (s * j_buf j + p).
Proof.
  intros U H M T2. pose proof U as (F & N & T & D & B & M4). exists (the_out j). split; [apply the_out_ok; assumption|].
  intros ws O.
  pose proof (Z.div_mod (j_ranks j) (j_files j) ltac:(lia)) as DM. pose proof (Z.mod_pos_bound (j_ranks j) (j_files j) ltac:(lia)) as MB.
  set (q := j_ranks j / j_files j) in *. set (t := j_ranks j mod j_files j) in *.
  assert (Q : 1 <= q) by (apply Z.div_le_lower_bound; lia).
  assert (QF : j_files j <= q * j_files j) by (rewrite <- (Z.mul_1_l (j_files j)) at 1; apply Z.mul_le_mono_nonneg_r; lia).
  split.
  - intros ND.
    assert (W1 : In (slot_put j (the_data j) (q * j_files j) 0) ws) by (apply (in_puts j ws); [lia|exact O|exists (q * j_files j), 0; repeat split; lia]).
    assert (W2 : In (slot_put j (the_data j) 0 1) ws) by (apply (in_puts j ws); [lia|exact O|exists 0, 1; repeat split; lia]).
    assert (W0 : In (slot_put j (the_data j) 0 0) ws) by (apply (in_puts j ws); [lia|exact O|exists 0, 0; repeat split; lia]).
    (* count the writes: two different (rank, iteration) pairs give the same write *)
    apply (Permutation_map (fun w => (p_file w, p_off w))) in O. apply (Permutation_NoDup O) in ND. clear O.
    rewrite flat_map_concat_map in ND.
    replace (seq 0 (Z.to_nat (j_ranks j))) with (0%nat :: seq 1 (Z.to_nat (j_ranks j) - 1)) in ND.
    2:{ replace (Z.to_nat (j_ranks j)) with (S (Z.to_nat (j_ranks j) - 1)) at 2 by lia. reflexivity. }
    cbn [map concat] in ND. rewrite map_app in ND.
    assert (I1 : In (0, q * j_buf j) (map (fun w => (p_file w, p_off w)) (snd (the_out j (Z.of_nat 0))))).
    { cbn. unfold puts. rewrite map_map. apply in_map_iff. exists 1%nat. split; [|apply in_seq; lia].
      unfold slot_put. cbn [p_file p_off]. fold q. change (Z.of_nat 0) with 0. change (Z.of_nat 1) with 1. rewrite Z.div_0_l, Z.mod_0_l by lia. f_equal. lia. }
    assert (I2 : In (0, q * j_buf j) (map (fun w => (p_file w, p_off w)) (concat (map (fun r => snd (the_out j (Z.of_nat r))) (seq 1 (Z.to_nat (j_ranks j) - 1)))))).
    { rewrite <- flat_map_concat_map. apply in_map_iff. exists (slot_put j (the_data j) (q * j_files j) 0). split.
      - unfold slot_put. cbn [p_file p_off]. fold q. rewrite Z.mod_mul, Z.div_mul by lia. f_equal.
      - apply in_flat_map. exists (Z.to_nat (q * j_files j)). split; [apply in_seq; lia|]. cbn. unfold puts. apply in_map_iff.
        exists 0%nat. rewrite Z2Nat.id by lia. split; [reflexivity|]. apply in_seq. lia. }
    apply in_split in I1. destruct I1 as (l1 & l2 & E1). rewrite E1 in ND. rewrite <- app_assoc in ND. cbn [app] in ND.
    apply NoDup_remove_2 in ND. apply ND. rewrite !in_app_iff. tauto.
  - intros old p P. cbv zeta. rewrite ranks_of_val by lia. fold q t. rewrite (proj2 (Z.ltb_lt 0 t)) by lia.
    assert (G : (q + 1) * j_iters j = q * j_iters j + j_iters j) by lia.
    assert (q <= q * j_iters j) by (rewrite <- (Z.mul_1_r q) at 1; apply Z.mul_le_mono_nonneg_l; lia).
    rewrite (untouched j ws); auto.
    + unfold sized. assert (0 <= ((q + 1) * j_iters j - 1) * j_buf j) by (apply Z.mul_nonneg_nonneg; lia).
      rewrite (proj2 (Z.leb_le _ _)) by lia. rewrite (proj2 (Z.ltb_lt _ _)); [reflexivity|]. lia.
    + intros (r & k & R & K & E1 & E2). fold q in E2.
      assert (r / j_files j <= q) by (apply Z.div_le_mono; lia).
      assert (k * q <= (j_iters j - 1) * q) by (apply Z.mul_le_mono_nonneg_r; lia). lia.
Qed.
Print Assumptions C93_refuted.

Lemma fill_loop_out buf n : forall i m, (exists m', fill_loop n i buf m = Ok m') \/ fill_loop n i buf m = Err EUB.
Proof.
  induction n as [|n IH]; intros i m; cbn [fill_loop]; [left; eauto|].
  destruct (_ <? _); [right; reflexivity|]. destruct (_ <? _); [right; reflexivity|]. apply IH.
Qed.
Lemma as_long_out z : as_long z = Ok z \/ as_long z = Err EUB.
Proof. unfold as_long. destruct (_ || _); auto. Qed.

(** refuted for large buffers: the part of the offset that belongs to the rank is
    an int product *)
Theorem C93_overflow_refuted j r : usable j -> 1 <= j_iters j -> 0 <= r < j_ranks j -> INT_MAX < r / j_files j * j_buf j ->
  rank_main j r = Err EUB.
Proof.
  intros (F & N & T & D & B & M4) T1 R X.
  destruct (groups_ok j (Z.to_nat (j_files j)) 0) as (l & E & P); try lia.
  pose proof (Z.mod_pos_bound r (j_files j) ltac:(lia)) as MB.
  unfold rank_main. rewrite E. cbn [bind]. rewrite (proj2 (Z.eqb_neq _ _)) by lia. rewrite (proj2 (Z.ltb_ge _ _)) by lia.
  unfold fill. rewrite (proj2 (Z.ltb_ge (j_data j) 0)) by lia.
  destruct (fill_loop_out (j_buf j) (Z.to_nat (j_data j / 4)) 0 (fun _ => None)) as [[m ->]| ->]; [|reflexivity]. cbn [bind].
  rewrite (proj2 (Z.ltb_ge _ _)) by lia.
  rewrite P by lia. rewrite Z2Nat.id, Z.add_0_l by lia. rewrite in_file_val by lia.
  destruct (as_long_out ((j_ranks j / j_files j + (if r mod j_files j <? j_ranks j mod j_files j then 1 else 0)) * j_iters j)) as [-> | ->]; [|reflexivity]. cbn [bind].
  destruct (as_long_out ((j_ranks j / j_files j + (if r mod j_files j <? j_ranks j mod j_files j then 1 else 0)) * j_iters j * j_buf j)) as [-> | ->]; [|reflexivity]. cbn [bind].
  rewrite (proj2 (Z.ltb_ge _ 0)).
  2:{ assert (0 <= j_ranks j / j_files j) by (apply Z.div_pos; lia). destruct (_ <? _); (apply Z.mul_nonneg_nonneg; [apply Z.mul_nonneg_nonneg|]; lia). }
  rewrite (proj2 (Z.ltb_ge (j_buf j) _)) by lia. cbn [andb].
  destruct (Z.to_nat (j_iters j)) as [|n] eqn:En; [lia|]. cbn [write_loop]. unfold offset. cbn [Z.mul]. rewrite as_long_ok by (unfold LONG_MAX; lia). cbn [bind].
  unfold as_int. rewrite (proj2 (Z.ltb_lt INT_MAX _)) by lia. rewrite orb_true_r. reflexivity.
Qed.
Print Assumptions C93_overflow_refuted.

(** C94: what is refused: too few arguments, a negative buffer size, more files than
    ranks (the run is aborted), a negative number of iterations *)
Theorem C94_refused_partial :
  (forall ranks args r, (length args < 5)%nat -> write_test ranks args r = Ok (-1, 0, [])) /\
  (forall j r, 1 <= j_files j <= 10 -> j_files j <= j_ranks j -> j_buf j < 0 -> rank_main j r = Ok (-3, 0, [])) /\
  (forall j r, 1 <= j_files j <= 10 -> 0 <= j_ranks j < j_files j -> rank_main j r = Err EAbort) /\
  (forall j r, usable {| j_ranks := j_ranks j; j_data := j_data j; j_buf := j_buf j; j_name := j_name j; j_iters := - j_iters j; j_files := j_files j |} ->
     holds {| j_ranks := j_ranks j; j_data := j_data j; j_buf := j_buf j; j_name := j_name j; j_iters := - j_iters j; j_files := j_files j |} ->
     j_iters j < 0 -> 0 <= r < j_ranks j -> exists size, rank_main j r = Ok (4, size, [])).
Proof.
  split; [|split; [|split]].
  - intros ranks args r L. destruct args as [|a1 [|a2 [|a3 [|a4 [|a5 args]]]]]; try reflexivity. cbn in L. lia.
  - intros j r F N Bb. destruct (groups_ok j (Z.to_nat (j_files j)) 0) as (l & E & P); try lia.
    unfold rank_main. rewrite E. cbn [bind]. rewrite (proj2 (Z.eqb_neq _ _)) by lia. rewrite (proj2 (Z.ltb_lt _ _)) by lia. reflexivity.
  - intros j r F N. unfold rank_main. rewrite groups_few by lia. reflexivity.
  - intros j r U H I R. pose proof (fill_ok _ U H) as (m & E' & _). unfold fill in E'. cbn [j_data j_buf] in E'.
    destruct U as (F & N & T & D & B & M4). destruct H as (H1 & H2 & H3). cbn [j_ranks j_data j_buf j_name j_iters j_files] in *.
    destruct (groups_ok j (Z.to_nat (j_files j)) 0) as (l & E & P); [clear - F N; lia ..|].
    pose proof (Z.mod_pos_bound r (j_files j) ltac:(lia)) as MB.
    unfold rank_main. rewrite E. cbn [bind]. rewrite (proj2 (Z.eqb_neq _ _)) by lia. rewrite (proj2 (Z.ltb_ge _ _)) by lia.
    unfold fill. rewrite E'. cbn [bind]. rewrite (proj2 (Z.ltb_ge _ _)) by lia.
    rewrite P by lia. rewrite Z2Nat.id, Z.add_0_l by lia. rewrite in_file_val by lia.
    set (q := j_ranks j / j_files j) in *. assert (Q : 1 <= q) by (apply Z.div_le_lower_bound; lia).
    set (c := q + (if r mod j_files j <? j_ranks j mod j_files j then 1 else 0)).
    assert (C : 1 <= c <= q + 1) by (unfold c; clear - Q; destruct (r mod j_files j <? j_ranks j mod j_files j); lia).
    clearbody c q.
    set (n := - j_iters j) in *. replace (j_iters j) with (- n) by (unfold n; lia).
    assert (0 < n) by (unfold n; lia).
    assert (1 <= c * n <= (q + 1) * n) by (clear - C H; split; [nia|apply Z.mul_le_mono_nonneg_r; lia]).
    assert (c * n * j_buf j <= (q + 1) * n * j_buf j) by (apply Z.mul_le_mono_nonneg_r; lia).
    assert (c * n <= c * n * j_buf j) by (rewrite <- (Z.mul_1_r (c * n)) at 1; apply Z.mul_le_mono_nonneg_l; lia).
    replace (c * - n) with (- (c * n)) by lia. assert (- (c * n) * j_buf j = - (c * n * j_buf j)) as EE by lia.
    unfold as_long, LONG_MAX. rewrite (proj2 (Z.ltb_ge _ _)) by lia. rewrite (proj2 (Z.ltb_ge _ _)) by lia. cbn [orb bind].
    rewrite EE. rewrite (proj2 (Z.ltb_ge _ _)) by lia. rewrite (proj2 (Z.ltb_ge _ _)) by lia. cbn [orb bind].
    rewrite (proj2 (Z.ltb_lt _ 0)) by lia. eauto.
Qed.
Print Assumptions C94_refused_partial.

(** refuted: no files, too many of them (there is a message, and the program goes
    on), or more data than the buffer holds *)
Theorem C94_refuted j r :
  j_files j = 0 \/ 10 < j_files j /\ 10 < j_ranks j \/
  1 <= j_files j <= 10 /\ j_files j <= j_ranks j /\ 0 <= j_buf j /\ j_buf j + 4 <= j_data j ->
  rank_main j r = Err EUB.
Proof.
  intros [F|[[F N]|(F & N & Bb & D)]]; unfold rank_main.
  - rewrite F. reflexivity.
  - rewrite groups_many by lia. reflexivity.
  - destruct (groups_ok j (Z.to_nat (j_files j)) 0) as (l & E & P); try lia.
    rewrite E. cbn [bind]. rewrite (proj2 (Z.eqb_neq _ _)) by lia. rewrite (proj2 (Z.ltb_ge _ _)) by lia.
    unfold fill. rewrite (proj2 (Z.ltb_ge _ _)) by lia. 
    pose proof (Z.div_mod (j_data j) 4 ltac:(lia)). pose proof (Z.mod_pos_bound (j_data j) 4 ltac:(lia)).
    rewrite fill_loop_bad by lia. reflexivity.
Qed.
Print Assumptions C94_refuted.

(** six ranks, two files, three iterations, eight bytes in slots of ten *)
Definition job0 (ranks files iters : Z) : job := {| j_ranks := ranks; j_data := 8; j_buf := 10; j_name := b "out"; j_iters := iters; j_files := files |}.
Example C93_witness : usable (job0 6 2 3) /\ holds (job0 6 2 3) /\ j_ranks (job0 6 2 3) mod j_files (job0 6 2 3) = 0 /\
  (exists ws, rank_main (job0 6 2 3) 5 = Ok (0, 90, ws) /\ map p_off ws = [20; 50; 80] /\ map p_file ws = [1; 1; 1]).
Proof.
  split; [unfold usable, INT_MAX; cbn; lia|]. split; [unfold holds, INT_MAX; cbn; lia|]. split; [reflexivity|].
  eexists. split; [vm_compute; reflexivity|]. split; reflexivity.
Qed.
Example C93_refuted_witness : usable (job0 5 2 3) /\ holds (job0 5 2 3) /\ j_ranks (job0 5 2 3) mod j_files (job0 5 2 3) <> 0 /\
  (exists w0 w4, rank_main (job0 5 2 3) 0 = Ok (0, 90, w0) /\ rank_main (job0 5 2 3) 4 = Ok (0, 90, w4) /\
     map p_off w0 = [0; 20; 40] /\ map p_off w4 = [20; 40; 60]).
Proof.
  split; [unfold usable, INT_MAX; cbn; lia|]. split; [unfold holds, INT_MAX; cbn; lia|]. split; [vm_compute; discriminate|].
  eexists. eexists. split; [vm_compute; reflexivity|]. split; [vm_compute; reflexivity|]. split; reflexivity.
Qed.
(** three ranks, one file, buffers of 1.2 GB *)
Example C93_overflow_witness : let j := {| j_ranks := 3; j_data := 8; j_buf := 1200000000; j_name := b "out"; j_iters := 1; j_files := 1 |} in
  usable j /\ INT_MAX < 2 / j_files j * j_buf j /\ rank_main j 2 = Err EUB /\ (exists x, rank_main j 1 = Ok x).
Proof.
  cbv zeta. split; [unfold usable, INT_MAX; cbn; lia|]. split; [vm_compute; reflexivity|]. split; [vm_compute; reflexivity|].
  eexists. vm_compute. reflexivity.
Qed.
Example C94_witness : write_test 20 [b "8"; b "10"; b "out"; b "3"; b "11"] 0 = Err EUB /\ write_test 2 [b "8"; b "10"; b "out"; b "3"; b "3"] 0 = Err EAbort /\
  write_test 2 [b "8"; b "-1"; b "out"; b "3"; b "2"] 0 = Ok (-3, 0, []) /\ (exists s, write_test 2 [b "8"; b "10"; b "out"; b "-1"; b "2"] 0 = Ok (4, s, [])) /\
  write_test 2 [b "16"; b "10"; b "out"; b "3"; b "2"] 0 = Err EUB.
Proof.
  split; [vm_compute; reflexivity|]. split; [vm_compute; reflexivity|]. split; [vm_compute; reflexivity|].
  split; [eexists; vm_compute; reflexivity|]. vm_compute. reflexivity.
Qed.
