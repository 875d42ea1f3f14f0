(** Lemmas behind C53 and C54: all writes of all runs of the 0.5.1 writer agree,
    except on the slack after a piece. *)
From Verif Require Import Bytes Outcome TarSpec TarModel TarProofs TarMore Layout Mover MoverSpec MoverProofs AssembleProofs EndSpec EndProofs EndMore
  Legacy LegacyProofs LegacyLayout LegacySpec LegacyLayoutProofs LegacyRanks LegacyMore LegacyCodec LegacyCodecProofs LegacyWrite LegacySeats LegacyImage LegacyArchive LegacyEndSpec LegacyDriftSpec LegacyWalk LegacySend LegacyEnd LegacyRun LegacyAgreeSpec.
From Coq Require Import Lia.

Lemma at_mem_eq m m' pos x i : at_mem m pos x -> at_mem m' pos x -> pos <= i < pos + zlen x -> m i = m' i.
Proof.
  intros A B Hi. destruct (A (i - pos) ltac:(lia)) as (c & C1 & C2). destruct (B (i - pos) ltac:(lia)) as (c' & D1 & D2).
  replace (pos + (i - pos)) with i in * by lia. congruence.
Qed.
Lemma packed_find base es q : forall w, packed 512 base w es -> w <= q < w + sumb 512 es -> exists f, In f es /\ frag_start f - base <= q < frag_start f - base + bsz 512 f.
Proof.
  induction es as [|f es IH]; intros w Hp Hq; cbn [packed sumb] in *; [lia|]. destruct Hp as (P1 & P2).
  destruct (Z.lt_ge_cases q (w + bsz 512 f)) as [L|G]; [exists f; split; [left; auto|lia]|].
  destruct (IH _ P2 ltac:(lia)) as (x & I & B). exists x. split; [right; auto|auto].
Qed.

(** the lemmas of LegacyEnd without the hypotheses they do not need *)
Lemma vac P D clock ev fs : forall j : Z, 0 <= j < zlen (@nil Z) -> (exists w, In w (@nil wr) /\ buf_write P D clock ev fs j w) /\ (j = zlen (@nil Z) - 1 -> exists w, In w (@nil wr) /\ term_write P D [] j w).
Proof. intros j Hj. change (zlen (@nil Z)) with 0 in Hj. lia. Qed.
Lemma used_room' P ev l fs : 100000 <= P <= 500000000 -> P mod 512 = 0 -> seated 512 P (-1) P l fs -> volume P l <= 2147483640 * P -> Forall (as_there ev) l ->
  forall j, 0 <= j -> 0 <= sumb 512 (bucket_of j fs) <= P /\ (sumb 512 (bucket_of j fs) < P -> sumb 512 (bucket_of j fs) + 512 <= P).
Proof. intros. apply (used_room P 0 (fun _ => 0) ev l fs [] [] []); auto. apply vac. Qed.
Lemma wl_bound' P ev l fs : 100000 <= P <= 500000000 -> P mod 512 = 0 -> seated 512 P (-1) P l fs -> volume P l <= 2147483640 * P -> Forall (as_there ev) l ->
  forall j, 0 <= j -> 0 < wl P fs j <= P.
Proof. intros. apply (wl_bound P 0 (fun _ => 0) ev l fs [] [] []); auto. apply vac. Qed.
Lemma pro_writes' (ev : env) P D clock cat ws0 : D = data_offset P (512 + zlen cat) ->
  ws0 = put 0 512 (poke fresh 0 (catalog_header (zlen cat) (clock (-2)))) :: put 512 (zlen cat) (poke fresh 0 cat) :: catalog_spacer 512 P 512 (512 + zlen cat) (clock (-1)) ->
  forall w, In w ws0 -> w = put 0 512 (poke fresh 0 (catalog_header (zlen cat) (clock (-2)))) \/ w = put 512 (zlen cat) (poke fresh 0 cat) \/
    512 < D - (512 + zlen cat) /\ w = put (loc cat) 512 (poke fresh 0 (space_header (D - loc cat - 512) (clock (-1)))).
Proof. intros HD Hw. apply (pro_writes P D clock ev [] [] cat ws0 []); auto. apply vac. Qed.
Lemma pro_end' (ev : env) P D clock cat ws0 : 100000 <= P <= 500000000 -> P mod 512 = 0 -> 0 < zlen cat < 1000000000 -> D = data_offset P (512 + zlen cat) ->
  ws0 = put 0 512 (poke fresh 0 (catalog_header (zlen cat) (clock (-2)))) :: put 512 (zlen cat) (poke fresh 0 cat) :: catalog_spacer 512 P 512 (512 + zlen cat) (clock (-1)) ->
  forall w, In w ws0 -> 0 <= w_pos w /\ w_pos w + w_len w <= D.
Proof. intros H1 H2 H3 HD Hw. apply (pro_end P D clock ev [] [] cat ws0 []); auto. apply vac. Qed.
Lemma loc_facts' (ev : env) cat : loc cat mod 512 = 0 /\ 512 + zlen cat <= loc cat < 512 + zlen cat + 512.
Proof. apply (loc_facts 0 0 (fun _ => 0) ev [] [] cat []). apply vac. Qed.

Section agree.
Variables (P D : Z) (clock : Z -> Z) (ev : env) (l fs : list lent) (starts : list Z) (cat : bytes) (ws0 : list wr).
Hypothesis HP : 100000 <= P <= 500000000.
Hypothesis HPb : P mod 512 = 0.
Hypothesis Hs : seated 512 P (-1) P l fs.
Hypothesis Hvol : volume P l <= 2147483640 * P.
Hypothesis Hlisted : Forall (as_there ev) l.
Hypothesis Hrank : rank_call_list fs = Ok (Some starts).
Hypothesis Hcheck : check_calls fs 0 starts = Ok true.
Hypothesis Hcat : 0 < zlen cat < 1000000000.
Hypothesis HD : D = data_offset P (512 + zlen cat).
Hypothesis Hws0 : ws0 = put 0 512 (poke fresh 0 (catalog_header (zlen cat) (clock (-2)))) :: put 512 (zlen cat) (poke fresh 0 cat) :: catalog_spacer 512 P 512 (512 + zlen cat) (clock (-1)).

Definition program_write (w : wr) : Prop :=
  In w ws0 \/ exists j, 0 <= j < zlen starts /\ (buf_write P D clock ev fs j w \/ term_write P D starts j w).

Lemma bucket_agree j q w w' : 0 <= j < zlen starts -> buf_write P D clock ev fs j w -> buf_write P D clock ev fs j w' -> 0 <= q < wl P fs j ->
  slack ev D fs (D + j * P + q) \/ w_mem w q = w_mem w' q.
Proof.
  intros Hj Hw Hw' Hq. pose proof Hw as (_ & _ & _ & Sp). pose proof Hw' as (_ & _ & _ & Sp').
  rewrite wused in Sp, Sp'.
  pose proof (used_room' P ev l fs HP HPb Hs Hvol Hlisted j ltac:(lia)) as (U1 & U2).
  unfold wl in Hq. destruct (Z.lt_ge_cases q (sumb 512 (bucket_of j fs))) as [L|G].
  - destruct (fs_pack P l fs j HP Hs ltac:(lia)) as (Pk & _).
    destruct (packed_find (j * P) (bucket_of j fs) q 0 Pk ltac:(lia)) as (f & If & B).
    unfold bucket_of in If. apply filter_In in If as (If & Eb). apply Z.eqb_eq in Eb.
    pose proof (frag_shown P D clock ev fs f w If) as S. rewrite Eb in S. destruct (S Hw) as (S1 & S2).
    pose proof (frag_shown P D clock ev fs f w' If) as S'. rewrite Eb in S'. destruct (S' Hw') as (S1' & S2').
    pose proof (fs_served P ev l fs HP Hs Hvol Hlisted) as Sv. rewrite Forall_forall in Sv. destruct (Sv f If) as (V1 & V2 & V3 & V4).
    assert (Hdata : l_loc f - j * P <= q -> slack ev D fs (D + j * P + q) \/ w_mem w q = w_mem w' q).
    { intros Hq2. destruct (Z.lt_ge_cases q (l_loc f - j * P + zlen (piece ev f))) as [Lp|Gp].
      - right. unfold piece in Lp. destruct (l_type f) eqn:Et; try (change (zlen (@nil byte)) with 0 in Lp; lia).
        destruct (Z.ltb_spec 0 (l_size f)) as [Ls|]; [|change (zlen (@nil byte)) with 0 in Lp; lia].
        destruct (V4 eq_refl Ls) as (d & Ed). rewrite Ed in Lp. eapply at_mem_eq; [exact (S2 eq_refl Ls d Ed)|exact (S2' eq_refl Ls d Ed)|lia].
      - left. exists f. split; auto. unfold bsz in B. lia. }
    destruct (Z.eqb_spec (l_orig f) 0) as [E0|E0].
    + destruct (Z.lt_ge_cases q (l_loc f - j * P)) as [Lh|Gh]; [|auto]. right. destruct (V3 E0) as (h & Eh & Zh).
      eapply at_mem_eq; [exact (S1 E0 h Eh)|exact (S1' E0 h Eh)|]. unfold frag_start in *. rewrite E0 in *. cbn [Z.eqb] in *. lia.
    + apply Hdata. unfold frag_start in B. destruct (Z.eqb_spec (l_orig f) 0); [contradiction|lia].
  - right. destruct (Z.ltb_spec (sumb 512 (bucket_of j fs)) P) as [Lu|Gu]; [|lia].
    eapply at_mem_eq; [exact (Sp Lu)|exact (Sp' Lu)|].
    assert (Z0 : zlen (space_header (P - sumb 512 (bucket_of j fs) - 512) (clock j)) = 512).
    { unfold space_header. unfold zlen. rewrite (proj1 (fixed_header_read (b ".parfu_spacer ") (wrap32 (P - sumb 512 (bucket_of j fs) - 512)) (clock j) ltac:(nb) ltac:(cbn; lia) ltac:(rewrite wrap32_id; [change (8 ^ 11) with 8589934592; lia|unfold is_int; change (2 ^ 31) with 2147483648; lia]))). reflexivity. }
    lia.
Qed.

Lemma pro_agree w w' p : In w ws0 -> In w' ws0 -> covers w p -> covers w' p -> w_mem w (p - w_pos w) = w_mem w' (p - w_pos w').
Proof.
  intros I I'. pose proof (loc_facts' ev cat) as (L1 & L2). unfold covers.
  apply (pro_writes' ev P D clock cat ws0 HD Hws0) in I as [->|[->|(G & ->)]]; apply (pro_writes' ev P D clock cat ws0 HD Hws0) in I' as [->|[->|(G' & ->)]];
    cbn [put w_pos w_len w_mem]; intros C C'; try reflexivity; exfalso; lia.
Qed.

Lemma agree p w w' : program_write w -> program_write w' -> covers w p -> covers w' p ->
  slack ev D fs p \/ w_mem w (p - w_pos w) = w_mem w' (p - w_pos w').
Proof.
  assert (Pe : forall w, In w ws0 -> 0 <= w_pos w /\ w_pos w + w_len w <= D) by (intros x Hx; apply (pro_end' ev P D clock cat ws0 HP HPb Hcat HD Hws0 x Hx)).
  assert (Dd : forall w j, 0 <= j < zlen starts -> buf_write P D clock ev fs j w \/ term_write P D starts j w -> D <= w_pos w).
  { intros x j Hj [B|(_ & B & _)]; [apply buf_pos in B as (B & _)|]; nia. }
  intros [I|(j & Hj & B)] [I'|(j' & Hj' & B')] C C'.
  - right. apply pro_agree; auto.
  - exfalso. specialize (Pe w I). specialize (Dd w' j' Hj' B'). unfold covers in *. lia.
  - exfalso. specialize (Pe w' I'). specialize (Dd w j Hj B). unfold covers in *. lia.
  - unfold covers in *. destruct B as [B|(T1 & T2 & T3 & T4)], B' as [B'|(T1' & T2' & T3' & T4')].
    + destruct (buf_pos P D clock ev fs j w B) as (X1 & X2). destruct (buf_pos P D clock ev fs j' w' B') as (Y1 & Y2).
      pose proof (wl_bound' P ev l fs HP HPb Hs Hvol Hlisted j ltac:(lia)). pose proof (wl_bound' P ev l fs HP HPb Hs Hvol Hlisted j' ltac:(lia)).
      assert (j' = j) by (assert (j' * P < (j + 1) * P) by lia; assert (j * P < (j' + 1) * P) by lia; nia). subst j'.
      rewrite X1, Y1. replace p with (D + j * P + (p - (D + j * P))) at 1 by lia. apply (bucket_agree j); auto. lia.
    + exfalso. destruct (buf_pos P D clock ev fs j w B) as (X1 & X2). pose proof (wl_bound' P ev l fs HP HPb Hs Hvol Hlisted j ltac:(lia)).
      unfold is_last in T1'. assert ((j + 1) * P <= (j' + 1) * P) by nia. lia.
    + exfalso. destruct (buf_pos P D clock ev fs j' w' B') as (X1 & X2). pose proof (wl_bound' P ev l fs HP HPb Hs Hvol Hlisted j' ltac:(lia)).
      unfold is_last in T1. assert ((j' + 1) * P <= (j + 1) * P) by nia. lia.
    + right. rewrite T4, T4' by lia. reflexivity.
Qed.

(** the cells of a run *)
Lemma fold_last ws : forall a p, (ar_cell (fold_left write_at ws a) p = ar_cell a p /\ forall w, In w ws -> ~ covers w p) \/
  exists w, In w ws /\ covers w p /\ ar_cell (fold_left write_at ws a) p = w_mem w (p - w_pos w).
Proof.
  clear. induction ws as [|w ws IH]; intros a p; cbn [fold_left]; [left; auto|].
  destruct (IH (write_at a w) p) as [(E & N)|(x & I & C & E)]; [|right; exists x; split; [right; auto|auto]].
  destruct (covers_dec w p) as [C|C].
  - right. exists w. rewrite write_in in E by auto. split; [left; auto|auto].
  - left. rewrite write_out in E by auto. split; auto. intros x [<-|I]; auto.
Qed.

Definition complete (ws : list wr) : Prop :=
  (forall w, In w ws -> exists j, 0 <= j < zlen starts /\ (buf_write P D clock ev fs j w \/ term_write P D starts j w)) /\
  (forall j, 0 <= j < zlen starts -> (exists w, In w ws /\ buf_write P D clock ev fs j w) /\ (j = zlen starts - 1 -> exists w, In w ws /\ term_write P D starts j w)).

Lemma same_place ws ws' w : complete ws -> complete ws' -> In w (ws0 ++ ws) -> exists w', In w' (ws0 ++ ws') /\ w_pos w' = w_pos w /\ w_len w' = w_len w.
Proof.
  intros (A & _) (_ & B) I. apply in_app_or in I as [I|I]; [exists w; split; [apply in_or_app; auto|auto]|].
  destruct (A w I) as (j & Hj & [X|(T1 & T2 & T3 & _)]); destruct (B j Hj) as ((w' & I' & X') & T).
  - exists w'. split; [apply in_or_app; auto|]. apply buf_pos in X as (-> & ->). apply buf_pos in X' as (-> & ->). auto.
  - destruct (T T1) as (w2 & I2 & (_ & Y2 & Y3 & _)). exists w2. split; [apply in_or_app; auto|]. lia.
Qed.
Lemma is_program ws w : complete ws -> In w (ws0 ++ ws) -> program_write w.
Proof. intros (A & _) I. apply in_app_or in I as [I|I]; [left; auto|right; auto]. Qed.

Lemma fold_size_le ws : forall a X, ar_size a <= X -> (forall w, In w ws -> 0 < w_len w -> w_pos w + w_len w <= X) -> (forall w, In w ws -> 0 <= w_len w) -> ar_size (fold_left write_at ws a) <= X.
Proof.
  clear. induction ws as [|w ws IH]; intros a X Ha H H0; cbn [fold_left]; auto. apply IH; [|intros; apply H; auto; right; auto|intros; apply H0; right; auto].
  cbn [write_at ar_size]. destruct (Z.eqb_spec (w_len w) 0); auto. specialize (H w (or_introl eq_refl)). specialize (H0 w (or_introl eq_refl)). lia.
Qed.
Lemma len_nonneg w : program_write w -> 0 <= w_len w.
Proof.
  intros [I|(j & Hj & [B|(_ & _ & B & _)])].
  - apply (pro_writes' ev P D clock cat ws0 HD Hws0) in I as [->|[->|(G & ->)]]; cbn [put w_len]; lia.
  - apply buf_pos in B as (_ & ->). pose proof (wl_bound' P ev l fs HP HPb Hs Hvol Hlisted j ltac:(lia)). lia.
  - lia.
Qed.

Lemma two_runs ws ws' prior : complete ws -> complete ws' ->
  ar_size (fold_left write_at (ws0 ++ ws) prior) = ar_size (fold_left write_at (ws0 ++ ws') prior) /\
  forall p, ar_cell (fold_left write_at (ws0 ++ ws) prior) p = ar_cell (fold_left write_at (ws0 ++ ws') prior) p \/ slack ev D fs p.
Proof.
  assert (G : forall ws ws', complete ws -> complete ws' -> ar_size (fold_left write_at (ws0 ++ ws) prior) <= ar_size (fold_left write_at (ws0 ++ ws') prior)).
  { intros x x' Hx Hx'. apply fold_size_le; [apply size_mono| |].
    - intros w I L. destruct (same_place x x' w Hx Hx' I) as (w' & I' & E1 & E2). rewrite <- E1, <- E2. apply size_in; auto. lia.
    - intros w I. apply len_nonneg. exact (is_program x w Hx I). }
  intros Hw Hw'. split; [apply Z.le_antisymm; auto|]. intros p.
  destruct (fold_last (ws0 ++ ws) prior p) as [(E & N)|(w & I & C & E)]; destruct (fold_last (ws0 ++ ws') prior p) as [(E' & N')|(w' & I' & C' & E')].
  - left. congruence.
  - exfalso. destruct (same_place ws' ws w' Hw' Hw I') as (x & Ix & X1 & X2). apply (N x Ix). unfold covers in *. lia.
  - exfalso. destruct (same_place ws ws' w Hw Hw' I) as (x & Ix & X1 & X2). apply (N' x Ix). unfold covers in *. lia.
  - destruct (agree p w w' (is_program ws w Hw I) (is_program ws' w' Hw' I') C C') as [S|S]; [right; exact S|left; congruence].
Qed.
Lemma torn_run ws ws' prior disk : complete ws -> complete ws' -> torn (ws0 ++ ws) prior disk ->
  ar_size disk <= ar_size (fold_left write_at (ws0 ++ ws') prior) /\
  forall p, ar_cell disk p = ar_cell prior p \/ ar_cell disk p = ar_cell (fold_left write_at (ws0 ++ ws') prior) p \/ slack ev D fs p.
Proof.
  intros Hw Hw' (Hz & Hd). destruct (two_runs ws ws' prior Hw Hw') as (Z0 & _). split; [lia|]. intros p.
  destruct (Hd p) as [E|(w & I & C & E)]; auto. right.
  destruct (fold_last (ws0 ++ ws') prior p) as [(E' & N')|(w' & I' & C' & E')].
  - exfalso. destruct (same_place ws ws' w Hw Hw' I) as (x & Ix & X1 & X2). apply (N' x Ix). unfold covers in *. lia.
  - destruct (agree p w w' (is_program ws w Hw I) (is_program ws' w' Hw' I') C C') as [S|S]; [right; exact S|left; congruence].
Qed.
End agree.

Lemma ranks_lemma P pad clock ev l R R' prior ar ar' : present P pad ev l -> (1 <= R)%nat -> (1 <= R')%nat ->
  legacy_run 512 P pad clock ev l R prior ar -> legacy_run 512 P pad clock ev l R' prior ar' ->
  ar_size ar = ar_size ar' /\
  exists cat es fs nb, list_to_buffer l P true = Ok (Some cat) /\ set_offsets_and_split 512 P pad l = Ok (Some (es, fs, nb)) /\
    forall p, ar_cell ar p = ar_cell ar' p \/ slack ev (data_offset P (512 + zlen cat)) fs p.
Proof.
  intros Hp HR HR' Hrun Hrun'. destruct Hrun as [ws0 D text starts wss ws Hpro Hf Hi]. destruct Hrun' as [ws0' D' text' starts' wss' ws' Hpro' Hf' Hi'].
  assert (ws0' = ws0 /\ D' = D /\ text' = text /\ starts' = starts) as (-> & -> & -> & ->) by (repeat split; congruence).
  pose proof (present_hdr _ _ _ _ Hp) as Hh.
  destruct (prologue_inv _ _ _ _ _ _ _ _ (ps_P _ _ _ _ Hp) (ps_len _ _ _ _ Hp) Hpro) as (cat & es & fs & nb & E1 & E2 & E3 & E4 & E5 & E6 & E7 & E8).
  assert (Prt : forall R, exists cat' fs', parts P pad clock ev l R cat' fs' D text starts ws0 /\ cat' = cat /\ fs' = fs).
  { intros R0. destruct Hp as [HP HPb Hpad Hlen Hsend Hlisted Hfirst Hhdr Hroom Hvol].
    assert (Hs : seated 512 P (-1) P l fs) by (eapply layout_seated; eauto; lia).
    assert (Hl2 : 2 <= zlen l) by (apply split_inv in E3; tauto).
    exists cat, fs. split; auto. unfold parts. split; auto. split; [split; [eapply cat_pos; eauto|auto]|]. split; auto. split; auto. split; auto. split; auto. split; auto.
    intros r Hr. apply (ranks_ok P D clock ev l fs text starts); auto.
    - pose proof (seated_len _ _ _ _ _ _ Hs). lia.
    - eapply split_sendable; eauto. lia. }
  destruct (Prt R) as (c1 & f1 & Pa & -> & ->). destruct (Prt R') as (c2 & f2 & Pa' & -> & ->).
  pose proof (run_writes _ _ _ _ _ _ _ _ _ _ _ _ _ _ HR Pa Hf Hi) as W. pose proof (run_writes _ _ _ _ _ _ _ _ _ _ _ _ _ _ HR' Pa' Hf' Hi') as W'.
  destruct Pa as (_ & Q2 & Q3 & _). destruct Hp as [HP HPb Hpad Hlen Hsend Hlisted Hfirst Hhdr Hroom Hvol].
  destruct (two_runs P D clock ev l fs starts cat ws0 HP HPb Q3 Hvol Hlisted Q2 E7 E8 ws ws' prior W W') as (Z0 & Z1).
  split; auto. exists cat, es, fs, nb. split; auto. split; auto. rewrite <- E7. exact Z1.
Qed.

Lemma legacy_crash_lemma P pad clock ev l R R' prior disk ar' : present P pad ev l -> (1 <= R)%nat -> (1 <= R')%nat ->
  legacy_crash P pad clock ev l R prior disk -> legacy_run 512 P pad clock ev l R' prior ar' ->
  ar_size disk <= ar_size ar' /\
  exists cat es fs nb, list_to_buffer l P true = Ok (Some cat) /\ set_offsets_and_split 512 P pad l = Ok (Some (es, fs, nb)) /\
    forall p, ar_cell disk p = ar_cell prior p \/ ar_cell disk p = ar_cell ar' p \/ slack ev (data_offset P (512 + zlen cat)) fs p.
Proof.
  intros Hp HR HR' Hrun Hrun'. destruct Hrun as [ws0 D text starts wss ws disk Hpro Hf Hi Ht]. destruct Hrun' as [ws0' D' text' starts' wss' ws' Hpro' Hf' Hi'].
  assert (ws0' = ws0 /\ D' = D /\ text' = text /\ starts' = starts) as (-> & -> & -> & ->) by (repeat split; congruence).
  pose proof (present_hdr _ _ _ _ Hp) as Hh.
  destruct (prologue_inv _ _ _ _ _ _ _ _ (ps_P _ _ _ _ Hp) (ps_len _ _ _ _ Hp) Hpro) as (cat & es & fs & nb & E1 & E2 & E3 & E4 & E5 & E6 & E7 & E8).
  assert (Prt : forall R, exists cat' fs', parts P pad clock ev l R cat' fs' D text starts ws0 /\ cat' = cat /\ fs' = fs).
  { intros R0. destruct Hp as [HP HPb Hpad Hlen Hsend Hlisted Hfirst Hhdr Hroom Hvol].
    assert (Hs : seated 512 P (-1) P l fs) by (eapply layout_seated; eauto; lia).
    assert (Hl2 : 2 <= zlen l) by (apply split_inv in E3; tauto).
    exists cat, fs. split; auto. unfold parts. split; auto. split; [split; [eapply cat_pos; eauto|auto]|]. split; auto. split; auto. split; auto. split; auto. split; auto.
    intros r Hr. apply (ranks_ok P D clock ev l fs text starts); auto.
    - pose proof (seated_len _ _ _ _ _ _ Hs). lia.
    - eapply split_sendable; eauto. lia. }
  destruct (Prt R) as (c1 & f1 & Pa & -> & ->). destruct (Prt R') as (c2 & f2 & Pa' & -> & ->).
  pose proof (run_writes _ _ _ _ _ _ _ _ _ _ _ _ _ _ HR Pa Hf Hi) as W. pose proof (run_writes _ _ _ _ _ _ _ _ _ _ _ _ _ _ HR' Pa' Hf' Hi') as W'.
  destruct Pa as (_ & Q2 & Q3 & _). destruct Hp as [HP HPb Hpad Hlen Hsend Hlisted Hfirst Hhdr Hroom Hvol].
  destruct (torn_run P D clock ev l fs starts cat ws0 HP HPb Q3 Hvol Hlisted Q2 E7 E8 ws ws' prior disk W W' Ht) as (Z0 & Z1).
  split; auto. exists cat, es, fs, nb. split; auto. split; auto. rewrite <- E7. exact Z1.
Qed.
