(** The properties of 0.5.1 archives under different numbers of ranks and at
    crash points: C53, C54. *)
From Coq Require Import Lia.
From Verif Require Import Bytes Outcome TarSpec TarModel TarProofs TarMore Layout Mover MoverSpec Samples
  Legacy LegacyLayout LegacySpec LegacyLayoutProofs LegacyCodec LegacyCodecProofs LegacyWrite LegacyArchive LegacyEndSpec LegacyRun LegacyEndMore LegacyAgreeSpec LegacyAgree.

Definition n_ent (name : bytes) (n : Z) : lent :=
  {| l_rel := b "t/" ++ name; l_arc := name; l_type := LReg; l_tgt := []; l_size := n; l_hdr := 512; l_loc := -1; l_orig := -1; l_ploc := -1; l_pname := Some (b "x");
     l_phdr := -1; l_psize := -1; l_nfrag := -1; l_fptr := -1; l_bucket := -1 |}.
Definition n_P : Z := 100352.
Definition n_list (m : Z) : list lent := [n_ent (b "A") 99500; n_ent (b "B") m].
Definition n_env (m : Z) : env := {| e_names := a_names; e_lstat := fun p => Some (st_reg (if bytes_eqb p (b "t/A") then 99500 else m), []);
  e_data := fun p => Some (repeat "z"%char (Z.to_nat (if bytes_eqb p (b "t/A") then 99500 else m))) |}.
Definition n_clock (_ : Z) : Z := 0.

(** one run, the ranks writing one after the other *)
Fixpoint all_ok (xs : list (outcome (option (list wr)))) : option (list (list wr)) :=
  match xs with
  | [] => Some []
  | Ok (Some w) :: xs' => match all_ok xs' with Some ws => Some (w :: ws) | None => None end
  | _ => None
  end.
Definition writes_of (P : Z) (pad : bytes) (clock : Z -> Z) (ev : env) (l : list lent) (R : nat) : option (list wr) :=
  match prologue 512 P pad clock l with
  | Ok (Some (ws0, D, text, starts)) =>
      match all_ok (map (fun r => rank_part 512 P D clock ev text starts (Z.of_nat R) (Z.of_nat r)) (seq 0 R)) with
      | Some wss => Some (ws0 ++ concat wss)
      | None => None
      end
  | _ => None
  end.
Lemma all_ok_ok (f : nat -> outcome (option (list wr))) rs : forall wss, all_ok (map f rs) = Some wss -> Forall2 (fun r ws => f r = Ok (Some ws)) rs wss.
Proof.
  induction rs as [|r rs IH]; intros wss H; cbn [map all_ok] in H.
  - assert (wss = []) as -> by congruence. constructor.
  - destruct (f r) as [[w|]|] eqn:E; try discriminate. destruct (all_ok (map f rs)) as [ws|] eqn:E2; [|discriminate].
    assert (wss = w :: ws) as -> by congruence. constructor; auto.
Qed.
Lemma writes_run P pad clock ev l R prior ws : writes_of P pad clock ev l R = Some ws -> legacy_run 512 P pad clock ev l R prior (fold_left write_at ws prior).
Proof.
  unfold writes_of. destruct (prologue 512 P pad clock l) as [[[[[ws0 D] text] starts]|]|] eqn:E; try discriminate.
  destruct (all_ok _) as [wss|] eqn:E2; [|discriminate]. intros H.
  assert (ws = ws0 ++ concat wss) as -> by congruence.
  apply (Legacy_run _ _ _ _ _ _ _ _ ws0 D text starts wss (concat wss)); auto.
  - apply all_ok_ok in E2. exact E2.
  - apply interleave_concat.
Qed.
Lemma writes_crash P pad clock ev l R prior ws disk : writes_of P pad clock ev l R = Some ws -> torn ws prior disk -> legacy_crash P pad clock ev l R prior disk.
Proof.
  unfold writes_of. destruct (prologue 512 P pad clock l) as [[[[[ws0 D] text] starts]|]|] eqn:E; try discriminate.
  destruct (all_ok _) as [wss|] eqn:E2; [|discriminate]. intros H.
  assert (ws = ws0 ++ concat wss) as -> by congruence.
  apply (Legacy_crash _ _ _ _ _ _ _ ws0 D text starts wss (concat wss)); auto.
  - apply all_ok_ok in E2. exact E2.
  - apply interleave_concat.
Qed.

Lemma n_listed m name n : 600 <= m <= 700 -> name = b "A" /\ n = 99500 \/ name = b "B" /\ n = m -> as_listed (n_env m) (n_ent name n).
Proof.
  intros Hm H.
  exists (st_reg n), []. assert (Hn : 0 <= n <= 99500) by (destruct H as [(_ & ->)|(_ & ->)]; lia).
  assert (T : is_text (b "t/" ++ name) /\ zlen (b "t/" ++ name) = 3) by (destruct H as [(-> & _)|(-> & _)]; (split; [split; nb|reflexivity])).
  destruct T as ((T1 & T2) & T3).
  assert (L : e_lstat (n_env m) (b "t/" ++ name) = Some (st_reg n, [])) by (destruct H as [(-> & ->)|(-> & ->)]; reflexivity).
  assert (Dt : e_data (n_env m) (b "t/" ++ name) = Some (repeat "z"%char (Z.to_nat n))) by (destruct H as [(-> & ->)|(-> & ->)]; reflexivity).
  cbn [n_ent l_rel l_type l_size l_hdr st_reg st_uid st_gid st_mtime st_size st_kind].
  split; [exact L|]. split; [change (2 ^ 21) with 2097152; lia|]. split; [change (2 ^ 21) with 2097152; lia|]. split; [change (2 ^ 33) with 8589934592; lia|]. split; [change (2 ^ 63) with 9223372036854775808; lia|].
  split; [change (2 ^ 33) with 8589934592; lia|]. split; auto. split; [rewrite T3; change (2 ^ 29) with 536870912; lia|].
  split; [split; auto; split; auto; split; auto; exists (repeat "z"%char (Z.to_nat n)); split; [exact Dt|unfold zlen; rewrite repeat_length; lia]|].
  generalize dependent (b "t/" ++ name). intros rel T1 T2 T3 L Dt.
  assert (E : new_tarentry (e_lstat (n_env m)) rel 0 = Ok {| te_offset := 0; te_stat := st_reg n; te_file := rel; te_link := [] |}) by (unfold new_tarentry; rewrite L; reflexivity).
  destruct (proj2 (C02_lemma a_names {| te_offset := 0; te_stat := st_reg n; te_file := rel; te_link := [] |})) as (h & Eh);
    [cbn [te_stat st_reg st_kind]; discriminate|vm_compute; discriminate|vm_compute; discriminate|].
  exists h. split; [unfold file_header; rewrite E; cbn [n_env e_names]; rewrite Eh; reflexivity|].
  pose proof (make_tar_header_length _ _ _ Eh) as X. rewrite hdr_size_short in X; [congruence|..]; unfold need_path, need_link, need_size, is_reg; cbn [te_file te_link te_stat st_reg st_kind st_size andb]; try reflexivity; apply Z.ltb_ge; unfold MAX_FILE_SIZE; lia.
Qed.
Lemma n_proper m : m = 600 \/ m = 601 -> proper n_P q_pad (n_env m) (n_list m).
Proof.
  intros Hm. assert (Hm' : 600 <= m <= 700) by lia.
  assert (F : Forall (fits 512 n_P) (n_list m)).
  { constructor; [vm_compute; discriminate|constructor; [|constructor]]. destruct Hm as [-> | ->]; vm_compute; discriminate. }
  assert (S : forall name n, name = b "A" \/ name = b "B" -> 0 <= n <= 99500 -> sendable (n_ent name n)).
  { intros name n Hn Hz. unfold sendable, is_long, is_int, n_ent. cbn [l_rel l_arc l_type l_tgt l_size l_hdr l_loc l_orig l_ploc l_pname l_phdr l_psize l_nfrag l_fptr l_bucket pad_text].
    change (2 ^ 63) with 9223372036854775808. change (2 ^ 31) with 2147483648. destruct Hn as [-> | ->]; repeat split; auto; try lia; try discriminate; nb. }
  constructor.
  - vm_compute. split; discriminate.
  - reflexivity.
  - split; nb.
  - vm_compute. discriminate.
  - constructor; [apply S; auto; lia|constructor; [apply S; auto; lia|constructor]].
  - constructor; [apply n_listed; auto|constructor; [apply n_listed; auto|constructor]].
  - exists (n_list m), []. rewrite app_nil_r. auto.
  - repeat constructor; vm_compute; reflexivity.
  - eapply Forall_impl; [|exact F]. intros e He. left. exact He.
  - destruct Hm as [-> | ->]; vm_compute; discriminate.
Qed.
Definition byte_at (o : option (list wr)) (p : Z) : option byte :=
  match o with Some ws => match ar_cell (fold_left write_at ws empty_archive) p with Byte c => Some c | Undef => None end | None => None end.
Lemma byte_some ws p c : byte_at (Some ws) p = Some c -> ar_cell (fold_left write_at ws empty_archive) p = Byte c.
Proof. unfold byte_at. destruct (ar_cell (fold_left write_at ws empty_archive) p); congruence. Qed.

(** C53 (partial): every run of the 0.5.1 writer on the same list and prior file
    gives, whatever the number of ranks and the order of their writes, an archive
    of the same size, and the same byte everywhere except on the slack between
    the end of a file's bytes and the end of its last block. *)
Theorem C53_ranks_partial : forall P pad clock ev l R R' prior ar ar', present P pad ev l -> (1 <= R)%nat -> (1 <= R')%nat ->
  legacy_run 512 P pad clock ev l R prior ar -> legacy_run 512 P pad clock ev l R' prior ar' ->
  ar_size ar = ar_size ar' /\
  exists cat es fs nb, list_to_buffer l P true = Ok (Some cat) /\ set_offsets_and_split 512 P pad l = Ok (Some (es, fs, nb)) /\
    forall p, ar_cell ar p = ar_cell ar' p \/ slack ev (data_offset P (512 + zlen cat)) fs p.
Proof. exact ranks_lemma. Qed.
Print Assumptions C53_ranks_partial.
(** FALSE without the exception: a rank does not clear its buffer between
    buckets, so the slack shows bytes of other files, and which ones depends on
    the number of ranks. *)
Theorem C53_refuted : exists P pad clock ev l ar ar' p, proper P pad ev l /\
  legacy_run 512 P pad clock ev l 1 empty_archive ar /\ legacy_run 512 P pad clock ev l 2 empty_archive ar' /\
  ar_cell ar p = Byte "z"%char /\ ar_cell ar' p = Byte NUL.
Proof.
  assert (A : byte_at (writes_of n_P q_pad n_clock (n_env 600) (n_list 600) 1) (2 * n_P + 1300) = Some "z"%char) by (vm_compute; reflexivity).
  assert (B : byte_at (writes_of n_P q_pad n_clock (n_env 600) (n_list 600) 2) (2 * n_P + 1300) = Some NUL) by (vm_compute; reflexivity).
  pose proof (fun ws => writes_run n_P q_pad n_clock (n_env 600) (n_list 600) 1 empty_archive ws) as A'.
  pose proof (fun ws => writes_run n_P q_pad n_clock (n_env 600) (n_list 600) 2 empty_archive ws) as B'.
  generalize dependent (writes_of n_P q_pad n_clock (n_env 600) (n_list 600) 1).
  generalize dependent (writes_of n_P q_pad n_clock (n_env 600) (n_list 600) 2).
  intros [ws2|] B B' [ws1|] A A'; try discriminate. apply byte_some in A, B. specialize (A' _ eq_refl). specialize (B' _ eq_refl).
  exists n_P, q_pad, n_clock, (n_env 600), (n_list 600). eexists. eexists. exists (2 * n_P + 1300). split; [apply n_proper; auto|]. split; [exact A'|]. split; [exact B'|]. split; [exact A|exact B].
Qed.
Print Assumptions C53_refuted.

(** C54 (partial): if a run on any number of ranks stops at any moment, every
    byte of the file is the one that was there before or the one that every
    finished run puts there (or is in the slack after a file's bytes), and the
    file is no longer than that of a finished run. *)
Theorem C54_legacy_crash_partial : forall P pad clock ev l R R' prior disk ar', present P pad ev l -> (1 <= R)%nat -> (1 <= R')%nat ->
  legacy_crash P pad clock ev l R prior disk -> legacy_run 512 P pad clock ev l R' prior ar' ->
  ar_size disk <= ar_size ar' /\
  exists cat es fs nb, list_to_buffer l P true = Ok (Some cat) /\ set_offsets_and_split 512 P pad l = Ok (Some (es, fs, nb)) /\
    forall p, ar_cell disk p = ar_cell prior p \/ ar_cell disk p = ar_cell ar' p \/ slack ev (data_offset P (512 + zlen cat)) fs p.
Proof. exact legacy_crash_lemma. Qed.
Print Assumptions C54_legacy_crash_partial.
Definition only_write (prior : archive) (w : wr) : archive :=
  {| ar_size := ar_size prior; ar_cell := fun p => if (w_pos w <=? p) && (p <? w_pos w + w_len w) then w_mem w (p - w_pos w) else ar_cell prior p |}.
Lemma only_torn ws prior w : In w ws -> torn ws prior (only_write prior w).
Proof.
  intros Hw. split; [exact (size_mono ws prior)|]. intros p. cbn [only_write ar_cell].
  destruct (Z.leb_spec (w_pos w) p); [|left; reflexivity]. destruct (Z.ltb_spec p (w_pos w + w_len w)); [|left; reflexivity].
  right. exists w. auto.
Qed.
Definition cell_eqb (x y : cell) : bool := match x, y with Byte c, Byte d => beq c d | Undef, Undef => true | _, _ => false end.
Lemma cell_eqb_false x y : cell_eqb x y = false -> x <> y.
Proof. intros H ->. destruct y; cbn [cell_eqb] in H; [|discriminate]. assert (beq c c = true) by (apply beq_spec; reflexivity). congruence. Qed.
Definition n_compare (o o' : option (list wr)) (k q : Z) : bool :=
  match o, o' with
  | Some ws0, Some ws => match nth_error ws 1 with
      | Some w => let prior := fold_left write_at ws0 empty_archive in
          (w_pos w <=? k) && (w_pos w + w_len w <? q) && negb (cell_eqb (ar_cell (only_write prior w) k) (ar_cell prior k)) &&
          negb (cell_eqb (ar_cell prior q) (ar_cell (fold_left write_at ws prior) q)) && (q <? ar_size prior)
      | None => false end
  | _, _ => false
  end.

(** FALSE as "old archive or new archive": a run over the finished archive of an
    earlier run may stop with the new catalog in front of the old data. *)
Theorem C54_refuted : exists P pad clock ev0 l0 prior ev l disk ar', proper P pad ev0 l0 /\ proper P pad ev l /\
  legacy_run 512 P pad clock ev0 l0 2 empty_archive prior /\
  legacy_crash P pad clock ev l 2 prior disk /\ legacy_run 512 P pad clock ev l 2 prior ar' /\
  (exists p, ar_cell disk p <> ar_cell prior p) /\ exists p, p < ar_size disk /\ ar_cell disk p <> ar_cell ar' p /\ ar_cell disk p = ar_cell prior p.
Proof.
  assert (A : n_compare (writes_of n_P q_pad n_clock (n_env 600) (n_list 600) 2) (writes_of n_P q_pad n_clock (n_env 601) (n_list 601) 2) 592 (2 * n_P + 134) = true) by (vm_compute; reflexivity).
  pose proof (fun ws => writes_run n_P q_pad n_clock (n_env 600) (n_list 600) 2 empty_archive ws) as A1.
  pose proof (fun prior ws => writes_run n_P q_pad n_clock (n_env 601) (n_list 601) 2 prior ws) as A2.
  pose proof (fun prior ws disk => writes_crash n_P q_pad n_clock (n_env 601) (n_list 601) 2 prior ws disk) as A3.
  generalize dependent (writes_of n_P q_pad n_clock (n_env 600) (n_list 600) 2).
  generalize dependent (writes_of n_P q_pad n_clock (n_env 601) (n_list 601) 2).
  intros [ws|] A2 A3 [ws0|] A A1; try discriminate. unfold n_compare in A. destruct (nth_error ws 1) as [w|] eqn:Ew; [|discriminate].
  specialize (A1 _ eq_refl). set (prior := fold_left write_at ws0 empty_archive) in *.
  specialize (A2 prior _ eq_refl). specialize (A3 prior _ (only_write prior w) eq_refl).
  apply andb_prop in A as (A & B5). apply andb_prop in A as (A & B4). apply andb_prop in A as (A & B3). apply andb_prop in A as (B1 & B2).
  apply Bool.negb_true_iff in B3, B4. apply cell_eqb_false in B3, B4. apply Z.leb_le in B1. apply Z.ltb_lt in B2, B5.
  exists n_P, q_pad, n_clock, (n_env 600), (n_list 600), prior, (n_env 601), (n_list 601), (only_write prior w), (fold_left write_at ws prior).
  split; [apply n_proper; auto|]. split; [apply n_proper; auto|]. split; [exact A1|]. split; [apply A3; apply only_torn; eapply nth_error_In; eauto|]. split; [exact A2|].
  split.
  - exists 592. intros E. apply B3. rewrite <- E. reflexivity.
  - exists (2 * n_P + 134). split; [cbn [only_write ar_size]; lia|].
    assert (E : ar_cell (only_write prior w) (2 * n_P + 134) = ar_cell prior (2 * n_P + 134)).
    { cbn [only_write ar_cell]. destruct (Z.leb_spec (w_pos w) (2 * n_P + 134)); [|reflexivity]. destruct (Z.ltb_spec (2 * n_P + 134) (w_pos w + w_len w)); [lia|reflexivity]. }
    split; [rewrite E; auto|exact E].
Qed.
Print Assumptions C54_refuted.
