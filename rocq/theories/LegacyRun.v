(** Runs of the 0.5.1 writer. *)
From Verif Require Import Bytes Outcome TarSpec TarModel TarProofs TarMore Layout Mover MoverSpec MoverProofs AssembleProofs EndSpec EndProofs EndMore
  Legacy LegacyProofs LegacyLayout LegacySpec LegacyLayoutProofs LegacyRanks LegacyMore LegacyCodec LegacyCodecProofs LegacyWrite LegacySeats LegacyImage LegacyArchive LegacyEndSpec DriftSpec LegacyDriftSpec LegacyWalk LegacySend LegacyEnd.
From Coq Require Import Lia.

(** the conditions under which the archive is as it should be *)
Record proper (P : Z) (pad : bytes) (ev : env) (l : list lent) : Prop := {
  pr_P : 100000 <= P <= 500000000;
  pr_Pb : P mod 512 = 0;
  pr_pad : is_text pad;
  pr_len : zlen l <= 4000000;
  pr_send : Forall sendable l;
  pr_listed : Forall (as_listed ev) l;
  pr_first : small_first 512 P l;
  pr_hdr : Forall (fun e => l_hdr e < P) l;
  pr_room : Forall (fun e => fits 512 P e \/ room_left 512 P e) l;
  pr_vol : volume P l <= 2147483640 * P
}.

(** the same, for files that need not have the size listed *)
Record present (P : Z) (pad : bytes) (ev : env) (l : list lent) : Prop := {
  ps_P : 100000 <= P <= 500000000;
  ps_Pb : P mod 512 = 0;
  ps_pad : is_text pad;
  ps_len : zlen l <= 4000000;
  ps_send : Forall sendable l;
  ps_there : Forall (as_there ev) l;
  ps_first : small_first 512 P l;
  ps_hdr : Forall (fun e => l_hdr e < P) l;
  ps_room : Forall (fun e => fits 512 P e \/ room_left 512 P e) l;
  ps_vol : volume P l <= 2147483640 * P
}.
Definition fair (P : Z) (pad : bytes) (ev : env) (l : list lent) : Prop := present P pad ev l /\ Forall (as_found ev) l.
Lemma proper_fair P pad ev l : proper P pad ev l -> fair P pad ev l.
Proof. intros []. split; [constructor; auto; apply all_there; auto|]. apply all_found. auto. Qed.
Lemma proper_present P pad ev l : proper P pad ev l -> present P pad ev l.
Proof. intros H. apply proper_fair. exact H. Qed.

Lemma present_hdr P pad ev l : present P pad ev l -> Forall (fun e => 0 < l_hdr e) l.
Proof. intros H. eapply Forall_impl; [|apply (ps_there _ _ _ _ H)]. intros e He. apply He. Qed.
Lemma proper_hdr P pad ev l : proper P pad ev l -> Forall (fun e => 0 < l_hdr e) l.
Proof. intros H. eapply present_hdr. apply proper_present. exact H. Qed.

(** everything about the pieces of a run *)
Definition parts (P : Z) (pad : bytes) (clock : Z -> Z) (ev : env) (l : list lent) (R : nat) (cat : bytes) (fs : list lent) (D : Z) (text : bytes) (starts : list Z) (ws0 : list wr) : Prop :=
  list_to_buffer l P true = Ok (Some cat) /\ 0 < zlen cat < 1000000000 /\ seated 512 P (-1) P l fs /\ rank_call_list fs = Ok (Some starts) /\ check_calls fs 0 starts = Ok true /\
  D = data_offset P (512 + zlen cat) /\
  ws0 = put 0 512 (poke fresh 0 (catalog_header (zlen cat) (clock (-2)))) :: put 512 (zlen cat) (poke fresh 0 cat) :: catalog_spacer 512 P 512 (512 + zlen cat) (clock (-1)) /\
  forall r, 0 <= r < Z.of_nat R -> exists ws, rank_part 512 P D clock ev text starts (Z.of_nat R) r = Ok (Some ws) /\
    Forall (fun w => exists j, (0 <= j < zlen starts) /\ (buf_write P D clock ev fs j w \/ term_write P D starts j w)) ws /\
    forall j, 0 <= j < zlen starts -> j mod Z.of_nat R = r -> (exists w, In w ws /\ buf_write P D clock ev fs j w) /\ (j = zlen starts - 1 -> exists w, In w ws /\ term_write P D starts j w).

Lemma seated_len blk P i w l fs : seated blk P i w l fs -> zlen l <= zlen fs.
Proof.
  induction 1 as [|? ? ? ? ? g ? ? ? ? ? ? _ _ _ _ _ _ _ _ _ _ _ _ IH]; [lia|].
  unfold zlen in *. cbn [length]. rewrite app_length. lia.
Qed.
Lemma cat_pos l P cat : list_to_buffer l P true = Ok (Some cat) -> 100000 <= P <= 500000000 -> 0 < zlen cat.
Proof.
  intros H HP. destruct (text_count _ _ _ _ H ltac:(change (10 ^ 10) with 10000000000; lia)) as (E & _). rewrite E, zlen_app. unfold cat_head. rewrite !zlen_app.
  change (zlen (b "parfu_v04 ")) with 10. pose proof (zlen_nonneg (concat (map (line true) l))).
  repeat match goal with |- context [zlen ?x] => lazymatch goal with H : 0 <= zlen x |- _ => fail | _ => pose proof (zlen_nonneg x) end end; lia.
Qed.

Lemma present_parts P pad clock ev l R ws0 D text starts : present P pad ev l -> prologue 512 P pad clock l = Ok (Some (ws0, D, text, starts)) ->
  exists cat fs, parts P pad clock ev l R cat fs D text starts ws0.
Proof.
  intros Hp H. pose proof (present_hdr _ _ _ _ Hp) as Hh. destruct Hp as [HP HPb Hpad Hlen Hsend Hlisted Hfirst Hhdr Hroom Hvol].
  destruct (prologue_inv _ _ _ _ _ _ _ _ HP Hlen H) as (cat & es & fs & nb & E1 & E2 & E3 & E4 & E5 & E6 & E7 & E8).
  assert (Hs : seated 512 P (-1) P l fs) by (eapply layout_seated; eauto; lia).
  assert (Hl2 : 2 <= zlen l) by (apply split_inv in E3; tauto).
  exists cat, fs. unfold parts. split; auto. split; [split; [eapply cat_pos; eauto|auto]|]. split; auto. split; auto. split; auto. split; auto. split; auto.
  intros r Hr. apply (ranks_ok P D clock ev l fs text starts); auto.
  - pose proof (seated_len _ _ _ _ _ _ Hs). lia.
  - eapply split_sendable; eauto. lia.
Qed.

Lemma run_parts P pad clock ev l R ws0 D text starts : proper P pad ev l -> prologue 512 P pad clock l = Ok (Some (ws0, D, text, starts)) ->
  exists cat fs, parts P pad clock ev l R cat fs D text starts ws0.
Proof. intros Hp. apply present_parts. apply proper_present. exact Hp. Qed.

Lemma forall2_nth {A B} (Q : A -> B -> Prop) xs ys : Forall2 Q xs ys -> forall n x, nth_error xs n = Some x -> exists y, nth_error ys n = Some y /\ Q x y.
Proof. induction 1 as [|x y xs ys H _ IH]; intros [|n] z; cbn; try discriminate; [intros E; assert (z = x) by congruence; subst; eauto|apply IH]. Qed.
Lemma forall2_in {A B} (Q : A -> B -> Prop) xs ys : Forall2 Q xs ys -> forall y, In y ys -> exists x, In x xs /\ Q x y.
Proof. induction 1 as [|x y xs ys H _ IH]; intros z; [intros []|]. intros [<-|I]; [exists x; split; [left; auto|auto]|]. destruct (IH z I) as (x' & A1 & A2). exists x'. split; [right; auto|auto]. Qed.

Lemma run_writes P pad clock ev l R cat fs D text starts ws0 wss ws : (1 <= R)%nat -> parts P pad clock ev l R cat fs D text starts ws0 ->
  Forall2 (fun r ws => rank_part 512 P D clock ev text starts (Z.of_nat R) (Z.of_nat r) = Ok (Some ws)) (seq 0 R) wss -> interleave wss ws ->
  (forall w, In w ws -> exists j, 0 <= j < zlen starts /\ (buf_write P D clock ev fs j w \/ term_write P D starts j w)) /\
  (forall j, 0 <= j < zlen starts -> (exists w, In w ws /\ buf_write P D clock ev fs j w) /\ (j = zlen starts - 1 -> exists w, In w ws /\ term_write P D starts j w)).
Proof.
  intros HR (_ & _ & _ & _ & _ & _ & _ & Hr) F I. pose proof (interleave_in _ _ I) as Hin. split.
  - intros w Hw. apply Hin in Hw as (x & X1 & X2). destruct (forall2_in _ _ _ F x X1) as (r & R1 & R2). apply in_seq in R1.
    destruct (Hr (Z.of_nat r) ltac:(lia)) as (ws' & A & B & _). assert (ws' = x) by congruence. subst. rewrite Forall_forall in B. apply B. exact X2.
  - intros j Hj. assert (Hm : 0 <= j mod Z.of_nat R < Z.of_nat R) by (apply Z.mod_pos_bound; lia).
    destruct (Hr _ Hm) as (ws' & A & _ & B). destruct (B j Hj eq_refl) as ((w & W1 & W2) & T).
    destruct (forall2_nth _ _ _ F (Z.to_nat (j mod Z.of_nat R)) (Z.to_nat (j mod Z.of_nat R))) as (y & Y1 & Y2).
    { rewrite (nth_error_nth' _ 0%nat) by (rewrite seq_length; lia). rewrite seq_nth by lia. reflexivity. }
    cbv beta in Y2. rewrite Z2Nat.id in Y2 by lia. assert (y = ws') by congruence. subst y. apply nth_error_In in Y1.
    split; [exists w; split; auto; apply Hin; eauto|]. intros El. destruct (T El) as (w2 & V1 & V2). exists w2. split; auto. apply Hin. eauto.
Qed.

Lemma gap_iff P n : 512 < P -> 0 <= n -> data_offset P (512 + n) - (512 + n) = 512 <-> (1024 + n) mod P = 0.
Proof.
  intros HP Hn. destruct (data_offset_facts P (512 + n) ltac:(lia) ltac:(lia)) as (A & B). split; intros H.
  - replace (1024 + n) with (data_offset P (512 + n)) by lia. exact A.
  - apply Z.mod_divide in A, H; try lia. destruct A as (x & A), H as (y & H). assert (y - 1 < x) by (apply (Z.mul_lt_mono_pos_r P); lia). assert (x < y + 1) by (apply (Z.mul_lt_mono_pos_r P); lia). assert (x = y) by lia. subst x. lia.
Qed.

Lemma fair_readable P pad clock ev l R prior ar a cat : fair P pad ev l -> (1 <= R)%nat -> legacy_run 512 P pad clock ev l R prior ar -> concretises a ar ->
  list_to_buffer l P true = Ok (Some cat) -> (1024 + zlen cat) mod P <> 0 ->
  exists mc ms, tar_list a = Some (mc :: ms) /\ is_catalog cat mc /\ interspersed (entry_found ev) is_spacer l ms.
Proof.
  intros (Hp & Hfound) HR Hrun Ha Hc Hg. destruct Hrun as [ws0 D text starts wss ws Hpro Hf Hi].
  destruct (present_parts P pad clock ev l R _ _ _ _ Hp Hpro) as (cat' & fs & Hpa). destruct (run_writes _ _ _ _ _ _ _ _ _ _ _ _ _ _ HR Hpa Hf Hi) as (W1 & W2).
  destruct Hpa as (E1 & E2 & E3 & E4 & E5 & E6 & E7 & _). assert (cat' = cat) by congruence. subst cat'.
  destruct Hp as [HP HPb Hpad Hlen Hsend Hlisted Hfirst Hhdr Hroom Hvol].
  eapply (readable P D clock ev l fs starts cat ws0 ws prior _ HP HPb E3 Hvol Hlisted E4 E5 E2 E6 E7 W1 W2 eq_refl); eauto.
  intros X. apply Hg. rewrite E6 in X. apply gap_iff in X; lia.
Qed.

Lemma inter_in {A} (f g : A -> member -> Prop) sp ls ms : (forall e m, In e ls -> f e m -> g e m) -> interspersed f sp ls ms -> interspersed g sp ls ms.
Proof.
  intros H X. induction X as [|m l ms Hs _ IH|e m l ms He _ IH]; [constructor|apply In_spacer; auto|apply In_entry; [apply H; [left; auto|auto]|apply IH]].
  intros e' m' I. apply H. right. exact I.
Qed.
Lemma run_readable P pad clock ev l R prior ar a cat : proper P pad ev l -> (1 <= R)%nat -> legacy_run 512 P pad clock ev l R prior ar -> concretises a ar ->
  list_to_buffer l P true = Ok (Some cat) -> (1024 + zlen cat) mod P <> 0 ->
  exists mc ms, tar_list a = Some (mc :: ms) /\ is_catalog cat mc /\ interspersed (entry_shown ev) is_spacer l ms.
Proof.
  intros Hp HR Hrun Ha Hc Hg. destruct (fair_readable P pad clock ev l R prior ar a cat (proper_fair _ _ _ _ Hp) HR Hrun Ha Hc Hg) as (mc & ms & A & B & C).
  exists mc, ms. split; auto. split; auto. eapply inter_in; [|exact C]. intros e m Hin Hm. cbv beta in *. apply found_shown; auto.
  pose proof (pr_listed _ _ _ _ Hp) as Hl. rewrite Forall_forall in Hl. apply Hl. exact Hin.
Qed.

Lemma run_stops P pad clock ev l R ar a cat : proper P pad ev l -> (1 <= R)%nat -> legacy_run 512 P pad clock ev l R empty_archive ar -> concretises a ar ->
  list_to_buffer l P true = Ok (Some cat) -> (1024 + zlen cat) mod P = 0 -> exists mc, tar_list a = Some [mc] /\ is_catalog cat mc.
Proof.
  intros Hp HR Hrun Ha Hc Hg. destruct Hrun as [ws0 D text starts wss ws Hpro Hf Hi].
  destruct (run_parts P pad clock ev l R _ _ _ _ Hp Hpro) as (cat' & fs & Hpa). destruct (run_writes _ _ _ _ _ _ _ _ _ _ _ _ _ _ HR Hpa Hf Hi) as (W1 & W2).
  destruct Hpa as (E1 & E2 & E3 & E4 & E5 & E6 & E7 & _). assert (cat' = cat) by congruence. subst cat'.
  destruct Hp as [HP HPb Hpad Hlen Hsend Hlisted Hfirst Hhdr Hroom Hvol].
  eapply (stops P D clock ev l fs starts cat ws0 ws empty_archive _ HP HPb E3 Hvol (all_there _ _ Hlisted) E4 E5 E2 E6 E7 W1 W2 eq_refl); eauto.
  rewrite E6. apply gap_iff; lia.
Qed.

(** *** a run exists *)
Lemma replace_mid {A} (pre : list A) x y post : replace (length pre) y (pre ++ x :: post) = pre ++ y :: post.
Proof. induction pre as [|z pre IH]; cbn; auto. rewrite IH. reflexivity. Qed.
Lemma interleave_concat {A} (ls : list (list A)) : interleave ls (concat ls).
Proof.
  assert (G : forall (rest pre : list (list A)), Forall (fun x => x = []) pre -> interleave (pre ++ rest) (concat rest)).
  { induction rest as [|x rest IH]; intros pre Hp; cbn [concat].
    - rewrite app_nil_r. constructor. exact Hp.
    - revert pre Hp. induction x as [|y x IHx]; intros pre Hp; cbn [app].
      + specialize (IH (pre ++ [[]])). rewrite <- app_assoc in IH. apply IH. apply Forall_app. split; auto.
      + apply (Il_step _ (length pre) y x); [rewrite nth_error_app2, Nat.sub_diag by lia; reflexivity|]. rewrite replace_mid. apply IHx. exact Hp. }
  apply (G ls []). constructor.
Qed.
Lemma present_exists P pad clock ev l R prior ws0 D text starts : present P pad ev l -> prologue 512 P pad clock l = Ok (Some (ws0, D, text, starts)) ->
  exists ar, legacy_run 512 P pad clock ev l R prior ar.
Proof.
  intros Hp H. destruct (present_parts P pad clock ev l R _ _ _ _ Hp H) as (cat & fs & (_ & _ & _ & _ & _ & _ & _ & Hr)).
  assert (X : exists wss, Forall2 (fun r ws => rank_part 512 P D clock ev text starts (Z.of_nat R) (Z.of_nat r) = Ok (Some ws)) (seq 0 R) wss).
  { apply choose. intros r Hin. apply in_seq in Hin. destruct (Hr (Z.of_nat r) ltac:(lia)) as (ws & E & _). eauto. }
  destruct X as (wss & F). eexists. eapply Legacy_run; [exact H|exact F|apply interleave_concat].
Qed.

Lemma run_exists P pad clock ev l R prior ws0 D text starts : proper P pad ev l -> prologue 512 P pad clock l = Ok (Some (ws0, D, text, starts)) ->
  exists ar, legacy_run 512 P pad clock ev l R prior ar.
Proof. intros Hp. apply present_exists. apply proper_present. exact Hp. Qed.

(** the program succeeds when the two texts fit *)
Lemma run_succeeds P pad clock ev l R prior cat : proper P pad ev l -> 2 <= zlen l -> zlen pad <= 100 -> Forall (fun e => zlen (l_tgt e) <= 100) l ->
  list_to_buffer l P true = Ok (Some cat) ->
  (forall es fs nb, set_offsets_and_split 512 P pad l = Ok (Some (es, fs, nb)) -> exists text, list_to_buffer fs P false = Ok (Some text)) ->
  exists ar, legacy_run 512 P pad clock ev l R prior ar.
Proof.
  intros Hp Hl Hpd Ht Hc Hx. pose proof (proper_hdr _ _ _ _ Hp) as Hh. pose proof Hp as [HP HPb Hpad Hlen Hsend Hlisted Hfirst Hhdr Hroom Hvol].
  destruct (succeeds_lemma 512 P pad l) as (es & fs & nb & E); auto; try lia.
  { unfold MAX_FILE_SIZE. lia. }
  { rewrite Forall_forall in *. intros e He. split; [|apply Ht; auto]. specialize (Hh e He). specialize (Hhdr e He). cbv beta in *. lia. }
  destruct (Hx es fs nb E) as (text & Et).
  destruct (accepted_lemma 512 P pad l es fs nb) as (st & A1 & A2); auto; try lia.
  destruct (prologue_ok P pad clock l cat es fs nb text st) as (ws0 & Ep); auto.
  eapply run_exists; eauto.
Qed.
