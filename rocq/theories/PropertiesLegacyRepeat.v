(** Property theorem C100: a stopped run of 0.5.1 can be repeated. *)
From Coq Require Import Lia.
From Verif Require Import Bytes Outcome TarSpec TarModel TarProofs TarMore Layout Mover MoverSpec Samples
  Legacy LegacyLayout LegacySpec LegacyLayoutProofs LegacyCodec LegacyCodecProofs LegacyWrite LegacyArchive LegacyEndSpec LegacyRun LegacyEndMore LegacyAgreeSpec LegacyAgree PropertiesLegacyAgree
  LegacyRepeatSpec LegacyRepeat.

(** *** C100 (partial).  After any number of stopped runs over the file [prior]
    (each on any number of ranks, at any time of day, with whatever the files
    contained then, stopped at any moment with any of its bytes on disk), a run
    that finishes makes the archive a single run over [prior] would have made:
    same size, and the same byte everywhere except on the slack after the end of
    a file's bytes (C53). *)
Theorem C100_repeat_partial : forall P pad clock ev l R R' prior disk ar ar', present P pad ev l -> (1 <= R)%nat -> (1 <= R')%nat ->
  attempts P pad l prior disk -> legacy_run 512 P pad clock ev l R disk ar -> legacy_run 512 P pad clock ev l R' prior ar' ->
  ar_size ar = ar_size ar' /\
  exists cat es fs nb, list_to_buffer l P true = Ok (Some cat) /\ set_offsets_and_split 512 P pad l = Ok (Some (es, fs, nb)) /\
    forall p, ar_cell ar p = ar_cell ar' p \/ slack ev (data_offset P (512 + zlen cat)) fs p.
Proof. exact repeat_lemma. Qed.
Print Assumptions C100_repeat_partial.

(** witness: two stopped runs, one on two ranks of which only the catalog
    arrived, one on a single rank at another time of which only the last write
    arrived; then a run on three ranks *)
(** sample clock, and the place of one write; model nothing in /repo *)
Definition n_later (_ : Z) : Z := 1000.
Definition nth_write (o : option (list wr)) (i : nat) : option wr := match o with Some ws => nth_error ws i | None => None end.
Definition n_place (o : option wr) : option (Z * Z * bool) := option_map (fun w => (w_pos w, w_len w, cell_eqb (w_mem w 80) (Byte NUL))) o.
Lemma nth_write_in o i w : nth_write o i = Some w -> exists ws, o = Some ws /\ In w ws.
Proof. destruct o as [ws|]; cbn; [|discriminate]. intros H. exists ws. split; auto. eapply nth_error_In; eauto. Qed.
Example C100_witness : exists d1 d2 ar ar', present n_P q_pad (n_env 600) (n_list 600) /\
  legacy_crash n_P q_pad n_clock (n_env 600) (n_list 600) 2 empty_archive d1 /\ ar_cell d1 592 <> ar_cell empty_archive 592 /\
  legacy_crash n_P q_pad n_later (n_env 600) (n_list 600) 1 d1 d2 /\ ar_cell d2 592 = ar_cell d1 592 /\
  attempts n_P q_pad (n_list 600) empty_archive d2 /\
  legacy_run 512 n_P q_pad n_later (n_env 600) (n_list 600) 3 d2 ar /\ legacy_run 512 n_P q_pad n_later (n_env 600) (n_list 600) 1 empty_archive ar'.
Proof.
  assert (A : n_place (nth_write (writes_of n_P q_pad n_clock (n_env 600) (n_list 600) 2) 1) = Some (512, 89, false)) by (vm_compute; reflexivity).
  assert (B : n_place (nth_write (writes_of n_P q_pad n_later (n_env 600) (n_list 600) 1) 5) = Some (301056, 1024, true)) by (vm_compute; reflexivity).
  assert (C : (match writes_of n_P q_pad n_later (n_env 600) (n_list 600) 3 with Some _ => true | None => false end) = true) by (vm_compute; reflexivity).
  pose proof (fun prior ws disk => writes_crash n_P q_pad n_clock (n_env 600) (n_list 600) 2 prior ws disk) as A1.
  pose proof (fun prior ws disk => writes_crash n_P q_pad n_later (n_env 600) (n_list 600) 1 prior ws disk) as B1.
  pose proof (fun prior ws => writes_run n_P q_pad n_later (n_env 600) (n_list 600) 1 prior ws) as B2.
  pose proof (fun prior ws => writes_run n_P q_pad n_later (n_env 600) (n_list 600) 3 prior ws) as C1.
  generalize dependent (writes_of n_P q_pad n_clock (n_env 600) (n_list 600) 2). intros o1 A A1.
  generalize dependent (writes_of n_P q_pad n_later (n_env 600) (n_list 600) 1). intros o2 B B1 B2.
  generalize dependent (writes_of n_P q_pad n_later (n_env 600) (n_list 600) 3). intros [ws3|] C C1; [|discriminate].
  destruct (nth_write o1 1) as [w1|] eqn:E1; [|discriminate]. destruct (nth_write o2 5) as [w2|] eqn:E2; [|discriminate].
  destruct (nth_write_in _ _ _ E1) as (ws1 & F1 & I1). destruct (nth_write_in _ _ _ E2) as (ws2 & F2 & I2). clear E1 E2.
  unfold n_place, option_map in A, B.
  assert (P1 : w_pos w1 = 512) by congruence. assert (L1 : w_len w1 = 89) by congruence. assert (M1 : cell_eqb (w_mem w1 80) (Byte NUL) = false) by congruence. apply cell_eqb_false in M1.
  assert (P2 : w_pos w2 = 301056) by congruence.
  set (d1 := only_write empty_archive w1). set (d2 := only_write d1 w2).
  assert (Pr : present n_P q_pad (n_env 600) (n_list 600)) by (apply proper_present; apply n_proper; auto).
  assert (K1 : legacy_crash n_P q_pad n_clock (n_env 600) (n_list 600) 2 empty_archive d1) by (eapply A1; [exact F1|apply only_torn; exact I1]).
  assert (K2 : legacy_crash n_P q_pad n_later (n_env 600) (n_list 600) 1 d1 d2) by (eapply B1; [exact F2|apply only_torn; exact I2]).
  exists d1, d2, (fold_left write_at ws3 d2), (fold_left write_at ws2 empty_archive).
  split; [exact Pr|]. split; [exact K1|]. split.
  { unfold d1. cbn [only_write ar_cell]. rewrite P1, L1. exact M1. }
  split; [exact K2|]. split.
  { unfold d2. cbn [only_write ar_cell]. rewrite P2. reflexivity. }
  split; [|split; [apply C1; reflexivity|apply B2; exact F2]].
  assert (T1 : attempts n_P q_pad (n_list 600) empty_archive d1).
  { apply (Att_more _ _ _ _ empty_archive n_clock (n_env 600) 2 d1); [constructor|exact Pr|repeat constructor|exact K1|].
    unfold d1, only_write; cbn [ar_size]. lia. }
  apply (Att_more _ _ _ _ d1 n_later (n_env 600) 1 d2); [exact T1|exact Pr|constructor|exact K2|].
  unfold d2, only_write; cbn [ar_size]. lia.
Qed.
