(** Lemmas behind C100: a finished run makes up for every stopped one. *)
From Verif Require Import Bytes Outcome TarSpec TarModel TarProofs TarMore Layout Mover MoverSpec MoverProofs AssembleProofs EndSpec EndProofs EndMore
  Legacy LegacyProofs LegacyLayout LegacySpec LegacyLayoutProofs LegacyRanks LegacyMore LegacyCodec LegacyCodecProofs LegacyWrite LegacySeats LegacyImage LegacyArchive LegacyEndSpec LegacyDriftSpec LegacyWalk LegacySend LegacyEnd LegacyRun LegacyAgreeSpec LegacyAgree LegacyRepeatSpec.
From Coq Require Import Lia.

(** the writes of rank 0 before the broadcasts *)
Definition opening (P : Z) (cat : bytes) (clock : Z -> Z) : list wr :=
  put 0 512 (poke fresh 0 (catalog_header (zlen cat) (clock (-2)))) :: put 512 (zlen cat) (poke fresh 0 cat) :: catalog_spacer 512 P 512 (512 + zlen cat) (clock (-1)).
(** they lie in the same places whatever the time *)
Lemma opening_place P cat clock clock' w : In w (opening P cat clock) -> exists w', In w' (opening P cat clock') /\ w_pos w' = w_pos w /\ w_len w' = w_len w.
Proof.
  unfold opening, catalog_spacer. intros [<-|[<-|H]].
  - eexists. split; [left; reflexivity|]. split; reflexivity.
  - eexists. split; [right; left; reflexivity|]. split; reflexivity.
  - destruct (512 <? _) eqn:E; [|destruct H]. destruct H as [<-|[]]. eexists. split; [right; right; left; reflexivity|]. split; reflexivity.
Qed.

(** what a run is made of *)
Lemma run_parts P pad clock ev l R ws0 D text starts wss ws : present P pad ev l -> (1 <= R)%nat ->
  prologue 512 P pad clock l = Ok (Some (ws0, D, text, starts)) ->
  Forall2 (fun r ws => rank_part 512 P D clock ev text starts (Z.of_nat R) (Z.of_nat r) = Ok (Some ws)) (seq 0 R) wss -> interleave wss ws ->
  exists cat es fs nb, list_to_buffer l P true = Ok (Some cat) /\ set_offsets_and_split 512 P pad l = Ok (Some (es, fs, nb)) /\
    rank_call_list fs = Ok (Some starts) /\ D = data_offset P (512 + zlen cat) /\ ws0 = opening P cat clock /\ complete P D clock ev fs starts ws /\
    100000 <= P <= 500000000 /\ P mod 512 = 0 /\ seated 512 P (-1) P l fs /\ volume P l <= 2147483640 * P /\ Forall (as_there ev) l /\ 0 < zlen cat < 1000000000.
Proof.
  intros Hp HR Hpro Hf Hi. pose proof (present_hdr _ _ _ _ Hp) as Hh.
  destruct (prologue_inv _ _ _ _ _ _ _ _ (ps_P _ _ _ _ Hp) (ps_len _ _ _ _ Hp) Hpro) as (cat & es & fs & nb & E1 & E2 & E3 & E4 & E5 & E6 & E7 & E8).
  assert (Hs : seated 512 P (-1) P l fs) by (destruct Hp as [HP HPb Hpad Hlen Hsend Hlisted Hfirst Hhdr Hroom Hvol]; eapply layout_seated; eauto; lia).
  assert (Hl2 : 2 <= zlen l) by (apply split_inv in E3; tauto).
  assert (Pa : parts P pad clock ev l R cat fs D text starts ws0).
  { destruct Hp as [HP HPb Hpad Hlen Hsend Hlisted Hfirst Hhdr Hroom Hvol].
    unfold parts. split; auto. split; [split; [eapply cat_pos; eauto|auto]|]. split; auto. split; auto. split; auto. split; auto. split; auto.
    intros r Hr. apply (ranks_ok P D clock ev l fs text starts); auto.
    - pose proof (seated_len _ _ _ _ _ _ Hs). lia.
    - eapply split_sendable; eauto. lia. }
  pose proof (run_writes _ _ _ _ _ _ _ _ _ _ _ _ _ _ HR Pa Hf Hi) as W. destruct Pa as (_ & Q2 & _).
  exists cat, es, fs, nb. do 3 (split; auto). split; auto. split; auto. split; [exact W|]. destruct Hp as [HP HPb Hpad Hlen Hsend Hlisted Hfirst Hhdr Hroom Hvol]. auto 10.
Qed.

(** the writes of two runs lie in the same places *)
Lemma cross_place P D clock clock' ev ev' fs starts cat ws ws' w : complete P D clock ev fs starts ws -> complete P D clock' ev' fs starts ws' ->
  In w (opening P cat clock ++ ws) -> exists w', In w' (opening P cat clock' ++ ws') /\ w_pos w' = w_pos w /\ w_len w' = w_len w.
Proof.
  intros (A & _) (_ & B) I. apply in_app_or in I as [I|I].
  { destruct (opening_place P cat clock clock' w I) as (w' & I' & E). exists w'. split; [apply in_or_app; auto|exact E]. }
  destruct (A w I) as (j & Hj & [X|(T1 & T2 & T3 & _)]); destruct (B j Hj) as ((w' & I' & X') & T).
  - exists w'. split; [apply in_or_app; auto|]. apply buf_pos in X as (-> & ->). apply buf_pos in X' as (-> & ->). auto.
  - destruct (T T1) as (w2 & I2 & (_ & Y2 & Y3 & _)). exists w2. split; [apply in_or_app; auto|]. lia.
Qed.

(** a file after stopped runs differs from the first only where runs write, and is
    no longer than what a finished run makes *)
Lemma attempts_left P pad l prior disk : attempts P pad l prior disk ->
  forall cat es fs nb starts D clock ev ws, list_to_buffer l P true = Ok (Some cat) -> set_offsets_and_split 512 P pad l = Ok (Some (es, fs, nb)) ->
  rank_call_list fs = Ok (Some starts) -> D = data_offset P (512 + zlen cat) -> complete P D clock ev fs starts ws -> (forall w, In w (opening P cat clock ++ ws) -> 0 <= w_len w) ->
  ar_size prior <= ar_size disk <= ar_size (fold_left write_at (opening P cat clock ++ ws) prior) /\
  forall p, ar_cell disk p = ar_cell prior p \/ exists w, In w (opening P cat clock ++ ws) /\ covers w p.
Proof.
  intros H cat es fs nb starts D clock ev ws E1 E2 E3 ED C L. induction H as [|d clock0 ev0 R d' H IH Hp HR Hcr Hsz].
  - split; [split; [lia|apply size_mono]|]. auto.
  - destruct IH as ((I1 & I2) & I3). destruct Hcr as [ws0 D0 text starts0 wss ws1 disk Hpro Hf Hi (Ht1 & Ht2)].
    destruct (run_parts _ _ _ _ _ _ _ _ _ _ _ _ Hp HR Hpro Hf Hi) as (cat0 & es0 & fs0 & nb0 & F1 & F2 & F3 & FD & F0 & Cw & _).
    assert (cat0 = cat) by congruence. subst cat0. assert (fs0 = fs) by congruence. subst fs0. assert (starts0 = starts) by congruence. subst starts0.
    rewrite <- ED in FD. rewrite FD in Cw. rewrite F0 in Ht1, Ht2. clear F0 FD.
    split; [split; [lia|]|].
    + eapply Z.le_trans; [exact Ht1|]. apply fold_size_le; [exact I2| |].
      * intros w I Hl. destruct (cross_place _ _ _ _ _ _ _ _ _ _ _ _ Cw C I) as (w' & I' & X1 & X2). rewrite <- X1, <- X2. apply size_in; auto. lia.
      * intros w I. destruct (cross_place _ _ _ _ _ _ _ _ _ _ _ _ Cw C I) as (w' & I' & X1 & X2). rewrite <- X2. auto.
    + intros p. destruct (Ht2 p) as [E|(w & I & Cv & _)].
      * destruct (I3 p) as [G|G]; [left; congruence|right; exact G].
      * right. destruct (cross_place _ _ _ _ _ _ _ _ _ _ _ _ Cw C I) as (w' & I' & X1 & X2). exists w'. split; auto. unfold covers in *. lia.
Qed.

Lemma repeat_lemma P pad clock ev l R R' prior disk ar ar' : present P pad ev l -> (1 <= R)%nat -> (1 <= R')%nat ->
  attempts P pad l prior disk -> legacy_run 512 P pad clock ev l R disk ar -> legacy_run 512 P pad clock ev l R' prior ar' ->
  ar_size ar = ar_size ar' /\
  exists cat es fs nb, list_to_buffer l P true = Ok (Some cat) /\ set_offsets_and_split 512 P pad l = Ok (Some (es, fs, nb)) /\
    forall p, ar_cell ar p = ar_cell ar' p \/ slack ev (data_offset P (512 + zlen cat)) fs p.
Proof.
  intros Hp HR HR' Ha Hrun Hrun'. destruct Hrun as [ws0 D text starts wss ws Hpro Hf Hi]. destruct Hrun' as [ws0' D' text' starts' wss' ws' Hpro' Hf' Hi'].
  assert (ws0' = ws0 /\ D' = D /\ text' = text /\ starts' = starts) as (-> & -> & -> & ->) by (repeat split; congruence).
  destruct (run_parts _ _ _ _ _ _ _ _ _ _ _ _ Hp HR Hpro Hf Hi) as (cat & es & fs & nb & E1 & E2 & E3 & ED & E0 & W & HP & HPb & Hs & Hvol & Hli & Hcat).
  destruct (run_parts _ _ _ _ _ _ _ _ _ _ _ _ Hp HR' Hpro' Hf' Hi') as (cat1 & es1 & fs1 & nb1 & F1 & F2 & F3 & _ & _ & W' & _).
  assert (cat1 = cat) by congruence. subst cat1. assert (fs1 = fs) by congruence. subst fs1.
  assert (Prog : forall x w, complete P D clock ev fs starts x -> In w (ws0 ++ x) -> program_write P D clock ev fs starts ws0 w) by (intros x w Hx; apply is_program; exact Hx).
  assert (Len : forall x w, complete P D clock ev fs starts x -> In w (ws0 ++ x) -> 0 <= w_len w).
  { intros x w Hx I. apply (len_nonneg P D clock ev l fs starts cat ws0 HP HPb Hs Hvol Hli); auto. eapply Prog; eauto. }
  assert (Same : forall x x' w, complete P D clock ev fs starts x -> complete P D clock ev fs starts x' -> In w (ws0 ++ x) -> exists w', In w' (ws0 ++ x') /\ w_pos w' = w_pos w /\ w_len w' = w_len w).
  { intros x x' w Hx Hx' I. rewrite E0 in I |- *. exact (cross_place _ _ _ _ _ _ _ _ _ _ _ _ Hx Hx' I). }
  assert (L : forall w, In w (opening P cat clock ++ ws') -> 0 <= w_len w) by (intros w I; rewrite <- E0 in I; eapply Len; eauto).
  destruct (attempts_left _ _ _ _ _ Ha _ _ _ _ _ _ _ _ _ E1 E2 E3 ED W' L) as ((A1 & A2) & A3). rewrite <- E0 in A2, A3.
  split.
  { apply Z.le_antisymm.
    - apply fold_size_le; [exact A2| |intros w I; exact (Len _ _ W I)].
      intros w I Hl. destruct (Same ws ws' w W W' I) as (w' & I' & X1 & X2). rewrite <- X1, <- X2. apply size_in; auto. lia.
    - apply fold_size_le; [pose proof (size_mono (ws0 ++ ws) disk); lia| |intros w I; exact (Len _ _ W' I)].
      intros w I Hl. destruct (Same ws' ws w W' W I) as (w' & I' & X1 & X2). rewrite <- X1, <- X2. apply size_in; auto. lia. }
  exists cat, es, fs, nb. split; auto. split; auto. rewrite <- ED. intros p.
  destruct (fold_last (ws0 ++ ws) disk p) as [(E & N)|(w & I & C & E)]; destruct (fold_last (ws0 ++ ws') prior p) as [(E' & N')|(w' & I' & C' & E')].
  - left. rewrite E, E'. destruct (A3 p) as [G|(w & I & C)]; [exact G|]. exfalso. exact (N' w I C).
  - exfalso. destruct (Same ws' ws w' W' W I') as (x & Ix & X1 & X2). apply (N x Ix). unfold covers in *. lia.
  - exfalso. destruct (Same ws ws' w W W' I) as (x & Ix & X1 & X2). apply (N' x Ix). unfold covers in *. lia.
  - destruct (agree P D clock ev l fs starts cat ws0 HP HPb Hs Hvol Hli Hcat ED E0 p w w' (Prog _ _ W I) (Prog _ _ W' I') C C') as [S|S]; [right; exact S|left; congruence].
Qed.
