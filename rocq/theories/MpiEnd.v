(** Lemmas behind C77-C80: from the command line to the archive. *)
From Coq Require Import Permutation Lia.
From Verif Require Import Bytes Outcome TarSpec TarModel TarProofs TarMore Layout LayoutSpec LayoutProofs LayoutMore OrderCodec OrderCodecProofs OrderMore
  Mover MoverSpec MoverProofs MoverMore Worker WorkerProofs Assemble AssembleProofs Boss BossProofs BossMore
  Spider SpiderSpec SpiderProofs SpiderMore Args ArgsSpec ArgsProofs Program ProgramProofs EndSpec EndProofs EndMore WholeSpec Whole Mpi MpiProofs MpiBound MpiSpec.
Local Open Scope nat_scope.

Lemma skip_usable n a : usable a -> usable (skipn n a).
Proof.
  intros [H1 H2]. rewrite <- (firstn_skipn n a) in H1, H2. apply no_byte_app in H1. rewrite zlen_app in H2. split; [apply H1|]. pose proof (zlen_nonneg (firstn n a)). lia.
Qed.
Lemma usable_nil : usable [].
Proof. split; [intros []|vm_compute; discriminate]. Qed.
Lemma parse_good args : forall o o' ts, parse_args o args = Ok (Some (o', ts)) -> usable (op_archive o) -> (0 <= op_bucket o < 2 ^ 64)%Z -> Forall usable args ->
  usable (op_archive o') /\ Forall usable ts /\ (0 <= op_bucket o' < 2 ^ 64)%Z.
Proof.
  induction args as [|a args IH]; intros o o' ts H Ho Hb Hu; cbn [parse_args] in H.
  - injection H as <- <-. auto.
  - inversion Hu as [|? ? Ha Hu']; subst. destruct (parse_arg o a) as [x|e] eqn:E; cbn [bind] in H; [|discriminate].
    destruct x as [t|[o1|]]; [|eapply IH; [exact H|..]|discriminate].
    + destruct (parse_args o args) as [[[o2 ts2]|]|e] eqn:E2; cbn [bind] in H; try discriminate. injection H as <- <-.
      destruct (IH o o2 ts2 E2 Ho Hb Hu') as (A & B & C). split; auto. split; auto. constructor; auto.
      unfold parse_arg in E. destruct (zlen a <? equals_position a)%Z; [injection E as <-; auto|].
      destruct (bytes_eqb _ _) in E; [destruct (get_stoi _) in E; discriminate|]. destruct (bytes_eqb _ _) in E; [destruct (get_stoi _) in E; discriminate|].
      destruct (bytes_eqb _ _) in E; discriminate.
    + unfold parse_arg in E. destruct (zlen a <? equals_position a)%Z; [discriminate|].
      destruct (bytes_eqb _ _) in E; [destruct (get_stoi _) in E; [injection E as <-; auto|discriminate]|]. destruct (bytes_eqb _ _) in E; [destruct (get_stoi _) in E; [injection E as <-; auto|discriminate]|].
      destruct (bytes_eqb _ _) in E; [|discriminate]. injection E as <-. cbn [op_archive]. exact (skip_usable (S (Z.to_nat (equals_position a))) a Ha).
    + unfold parse_arg in E. destruct (zlen a <? equals_position a)%Z; [discriminate|].
      destruct (bytes_eqb _ _) in E; [destruct (get_stoi _) in E; [injection E as <-; auto|discriminate]|]. destruct (bytes_eqb _ _) in E; [destruct (get_stoi _) in E; [|discriminate]|].
      * injection E as <-. cbn [op_bucket]. apply Z.mod_pos_bound. lia.
      * destruct (bytes_eqb _ _) in E; [|discriminate]. injection E as <-. auto.
    + auto.
Qed.

(** what main was given when it finishes *)
Lemma boss_finished R junk fuel fs sort opens args acts : boss_main R junk fuel fs sort opens args = (acts, Finished) -> Forall usable args ->
  exists o base bs, parse_args {| op_bucket := DEFAULT_BUCKET_SIZE; op_maxo := junk; op_archive := [] |} args = Ok (Some (o, [base])) /\
    plan fuel fs sort base (op_bucket o) (op_maxo o) = Ok (Some bs) /\ opens (op_archive o) = true /\ acts = created R o base bs /\
    usable (op_archive o) /\ usable base /\ (100000 <= op_bucket o < 2 ^ 64)%Z.
Proof.
  intros H Hu. unfold boss_main in H. destruct args as [|a args]; [discriminate|].
  destruct (parse_args _ (a :: args)) as [[[o ts]|]|e] eqn:E; try discriminate.
  destruct (op_archive o) as [|c p] eqn:Eo; [discriminate|]. destruct ts as [|base [|? ?]]; try discriminate.
  destruct (plan fuel fs sort base (op_bucket o) (op_maxo o)) as [[bs|]|e] eqn:Ep; try discriminate. rewrite <- Eo in *.
  destruct (opens (op_archive o)) eqn:Eop; [|discriminate]. injection H as <-. exists o, base, bs. split; auto. split; auto. split; auto.
  split; [unfold created; reflexivity|].
  destruct (parse_good _ _ _ _ E) as (A & B & C); auto; [apply usable_nil|vm_compute; split; [discriminate|reflexivity]|]. inversion B; subst. split; auto. split; auto. split; [|lia].
  unfold plan in Ep. destruct (scan fuel fs base) as [[dirs files]|e]; cbn [bind] in Ep; [|discriminate]. destruct (set_offsets dirs (sort files)) as [d f].
  unfold create_transfer_orders in Ep. destruct (Z.ltb_spec (op_bucket o) 100000); [discriminate|lia].
Qed.
Lemma created_all R o base bs : created R o base bs = acts_all R (op_bucket o) (op_archive o) base bs.
Proof. reflexivity. Qed.
Lemma fit_letter l t : zlen l = 1%Z -> usable t -> (zlen (l ++ t) + 1 <= INT_MAX)%Z.
Proof. intros Hl [_ H]. rewrite zlen_app, Hl. lia. Qed.
Lemma fit_U k : (100000 <= k < 2 ^ 64)%Z -> (zlen (b "U" ++ print_int k) + 1 <= INT_MAX)%Z.
Proof.
  intros H. rewrite zlen_app, print_int_zlen by lia. change (zlen (b "U")) with 1%Z. assert (ndig 10 k <= 30)%Z.
  { apply ndig_le; lia. }
  unfold INT_MAX. lia.
Qed.
Lemma fit_texts bs : texts_fit bs -> Forall short_text (ts bs).
Proof.
  intros H. unfold ts. rewrite Forall_map, Forall_forall. intros B HB. unfold short_text. rewrite zlen_app. change (zlen (b "C")) with 1%Z. specialize (H B HB). lia.
Qed.

Lemma safe_lemma R junk fuel fs sort opens args acts ev : boss_main R junk fuel fs sort opens args = (acts, Finished) -> Forall usable args ->
  1 <= R -> (Z.of_nat R <= INT_MAX)%Z -> (forall bs, In (APush bs) acts -> texts_fit bs) ->
  forall n s, mrun R opens ev (program R acts Finished) n s ->
  ~ mpi_error R s /\ forall dk q, ~ In (AOpen q true) acts -> disk_after dk (m_log s) q = dk q.
Proof.
  intros H Hu HR HRm Ht n s Hrun. destruct (boss_finished _ _ _ _ _ _ _ _ H Hu) as (o & base & bs & _ & _ & Ho & -> & U1 & U2 & Hb).
  assert (Hf : texts_fit bs) by (apply Ht; unfold created; apply in_or_app; right; apply in_or_app; right; left; reflexivity).
  assert (Hbk : (0 < op_bucket o)%Z) by lia.
  pose proof (fit_texts bs Hf) as F1. pose proof (fit_U _ Hb) as F2. pose proof (fit_letter (b "A") _ eq_refl U1) as F3. pose proof (fit_letter (b "P") _ eq_refl U2) as F4.
  destruct U1 as [U1 _], U2 as [U2 _]. split.
  - destruct (no_error R opens ev (op_bucket o) (op_archive o) base bs HR HRm Hbk F1 F2 F3 F4 U1 U2 Ho n s Hrun) as [A B].
    intros [(r & Hr & E)|(e & E & Hne)]; [exact (A r Hr E)|exact (Hne (B e E))].
  - intros dk q Hq. apply (only_archive R opens ev (op_bucket o) (op_archive o) base bs HR HRm Hbk F1 F2 F3 F4 U1 U2 Ho n s dk q Hrun).
    intros ->. apply Hq. unfold created. apply in_or_app. left. right. right. left. reflexivity.
Qed.

Opaque jobs.
(** rank 0 gets through only if every bundle was written once *)
Lemma complete_lemma R junk fuel fs sort opens args acts ev : boss_main R junk fuel fs sort opens args = (acts, Finished) -> Forall usable args ->
  1 <= R -> (Z.of_nat R <= INT_MAX)%Z -> (forall bs, In (APush bs) acts -> texts_fit bs) ->
  exists o base bs, parse_args {| op_bucket := DEFAULT_BUCKET_SIZE; op_maxo := junk; op_archive := [] |} args = Ok (Some (o, [base])) /\
    plan fuel fs sort base (op_bucket o) (op_maxo o) = Ok (Some bs) /\
    let w := jobs ev (op_bucket o) (op_archive o) base bs in
    (forall n s, mrun R opens ev (program R acts Finished) n s -> m_prog s = PStop Finished ->
      exists ws, Permutation (filter is_write (map snd (m_log s))) (map (EvWrite (op_archive o)) ws) /\ Forall2 (fun k x => w k = Some x) (seq 0 (length bs)) ws) /\
    ((exists k, k < length bs /\ w k = None) -> forall n s, mrun R opens ev (program R acts Finished) n s -> m_prog s <> PStop Finished).
Proof.
  intros H Hu HR HRm Ht. destruct (boss_finished _ _ _ _ _ _ _ _ H Hu) as (o & base & bs & Hp & Hpl & Ho & -> & U1 & U2 & Hb). exists o, base, bs. split; auto. split; auto.
  assert (Hf : texts_fit bs) by (apply Ht; unfold created; apply in_or_app; right; apply in_or_app; right; left; reflexivity).
  assert (Hbk : (0 < op_bucket o)%Z) by lia.
  pose proof (fit_texts bs Hf) as F1. pose proof (fit_U _ Hb) as F2. pose proof (fit_letter (b "A") _ eq_refl U1) as F3. pose proof (fit_letter (b "P") _ eq_refl U2) as F4.
  destruct U1 as [U1 _], U2 as [U2 _]. cbv zeta. split.
  - intros n s Hrun E. pose proof (finished_writes R opens ev (op_bucket o) (op_archive o) base bs HR HRm Hbk F1 F2 F3 F4 U1 U2 Ho n s Hrun E) as X. exact X.
  - intros (k & Hk & Ek) n s Hrun. apply (failed_hangs R opens ev (op_bucket o) (op_archive o) base bs HR HRm Hbk F1 F2 F3 F4 U1 U2 Ho n s k Hrun Hk).
    apply okb_none. exact Ek.
Qed.

(** a bucket size beyond int: no rank is ever through, nothing is ever created *)
Lemma over_lemma R junk fuel fs sort opens args acts ev o base : boss_main R junk fuel fs sort opens args = (acts, Finished) -> Forall usable args ->
  parse_args {| op_bucket := DEFAULT_BUCKET_SIZE; op_maxo := junk; op_archive := [] |} args = Ok (Some (o, [base])) ->
  2 <= R -> (Z.of_nat R <= INT_MAX)%Z -> (forall bs, In (APush bs) acts -> texts_fit bs) -> (INT_MAX < op_bucket o)%Z ->
  forall n s, mrun R opens ev (program R acts Finished) n s ->
  m_log s = [] /\ m_prog s <> PStop Finished /\ forall r, 1 <= r < R -> m_pc s r <> WDone.
Proof.
  intros H Hu Hpa HR HRm Ht Hov n s Hrun. destruct (boss_finished _ _ _ _ _ _ _ _ H Hu) as (o' & base' & bs & Hp & Hpl & Ho & -> & U1 & U2 & Hb).
  assert (o' = o /\ base' = base) as [-> ->] by (split; congruence).
  assert (Hf : texts_fit bs) by (apply Ht; unfold created; apply in_or_app; right; apply in_or_app; right; left; reflexivity).
  assert (Hbk : (0 < op_bucket o)%Z) by lia. assert (HR1 : 1 <= R) by lia.
  pose proof (fit_texts bs Hf) as F1. pose proof (fit_U _ Hb) as F2. pose proof (fit_letter (b "A") _ eq_refl U1) as F3. pose proof (fit_letter (b "P") _ eq_refl U2) as F4.
  destruct U1 as [U1 _], U2 as [U2 _].
  destruct (over_log R opens ev (op_bucket o) (op_archive o) base bs HR1 HRm Hbk F1 F2 F3 F4 U1 U2 Ho n s HR Hrun Hov) as [A B]. split; auto.
  pose proof (rel_run R opens ev (op_bucket o) (op_archive o) base bs HR1 HRm Hbk F1 F2 F3 F4 U1 U2 Ho n s Hrun) as (c & k & np & nx & pend & Hrun' & Hpos & Hw & _). split.
  - intros E. inversion Hpos as [l l' st E1 E2 E3 Ep Ec|i' st E1 E2 E3 Ep Ec|i' st E1 E2 E3 Ep Ec|st E1 Ep Ec|r' x st E1 E2 E3 E4 Ep Ec|i' st E1 E2 E3 E4 Ep Ec|i' st E1 E2 E3 E4 Ep Ec|st E1 E2 E3 Ep Ec];
      try (match goal with X : _ = m_colls s |- _ => rewrite <- X in B end; cbn in B; lia).
    rewrite E in Ep. destruct l' as [|[p|p|] l']; cbn [of_ops] in Ep; try congruence.
    pose proof (pP_busy R opens (op_archive o) base bs HR1 F1 F4 1) as K. rewrite Ep in K. exact K.
  - intros r Hr E. destruct (over_stuck R opens ev (op_bucket o) (op_archive o) base bs HR1 HRm Hbk F1 F2 F3 F4 U1 U2 Ho n s r Hrun Hov Hr) as [S1 _].
    assert (W := proj1 Hw r Hr). rewrite E in W. inversion W as [k0 pc0 w0 Q1| |pc0 Q1 [Q2|(? & Q2)]| | | | | | |]; try discriminate; try lia. inversion Q1.
Qed.

(** from the first state on *)
Lemma leads_end R opens ev p B : (forall n s, mrun R opens ev p n s -> n <= B) -> (forall n s, mrun R opens ev p n s -> ended R s \/ exists s', mstep R opens ev True s s') ->
  forall n s, mrun R opens ev p n s -> exists s', mleads R opens ev s s' /\ ended R s'.
Proof.
  intros HB HP. assert (G : forall k n s, mrun R opens ev p n s -> B - n <= k -> exists s', mleads R opens ev s s' /\ ended R s').
  { induction k as [|k IH]; intros n s H Hk.
    - destruct (HP n s H) as [E|(s' & St)]; [exists s; split; [constructor|auto]|]. assert (X := HB _ _ (mrun_step _ _ _ _ _ _ _ _ H St)). lia.
    - destruct (HP n s H) as [E|(s' & St)]; [exists s; split; [constructor|auto]|]. destruct (IH (S n) s') as (s2 & L & E); [econstructor; eauto|pose proof (HB _ _ H); lia|].
      exists s2. split; auto. econstructor; eauto. }
  intros n s H. exact (G (B - n) n s H ltac:(lia)).
Qed.
Lemma frame_long t : (INT_MAX < zlen t + 2)%Z -> exists e, frame (b "C") t = Err e.
Proof.
  intros H. unfold frame. rewrite zlen_app. assert (E : zlen (b "C") = 1%Z) by reflexivity. rewrite E.
  destruct (Z.leb_spec (1 + zlen t + 1) INT_MAX); [lia|]. eexists. reflexivity.
Qed.
Lemma deliver_long t : (INT_MAX < zlen t + 2)%Z -> exists e, deliver (b "C") t = Err e.
Proof. intros H. destruct (frame_long t H) as (e & E). unfold deliver. rewrite E. exists e. reflexivity. Qed.
Lemma jobs_long ev bucket path base bs o e : deliver (b "C") (print_bundle (nth o bs [])) = Err e -> jobs ev bucket path base bs o = None.
Proof. intros E. rewrite jobs_eq, E. reflexivity. Qed.
Lemma jobs_fit ev bucket path base bs : (forall o, o < length bs -> succeeds (jobs ev bucket path base bs o) = true) -> texts_fit bs.
Proof.
  intros H B HB. destruct (In_nth bs B [] HB) as (o & Ho & En). specialize (H o Ho). rewrite <- En. clear En HB B.
  destruct (Z.le_gt_cases (zlen (print_bundle (nth o bs [])) + 2) INT_MAX) as [L|L]; [exact L|exfalso]. destruct (deliver_long _ L) as (e & E).
  rewrite (jobs_long ev bucket path base bs o e E) in H. discriminate.
Qed.
Lemma bucket_aligned junk args o base : Forall usable args ->
  parse_args {| op_bucket := DEFAULT_BUCKET_SIZE; op_maxo := junk; op_archive := [] |} args = Ok (Some (o, [base])) -> (op_bucket o mod 512 = 0)%Z.
Proof.
  intros Hu Hp. assert (G : forall args x o' ts, parse_args x args = Ok (Some (o', ts)) -> (op_bucket x mod 512 = 0)%Z -> (op_bucket o' mod 512 = 0)%Z).
  { clear. induction args as [|a args IH]; intros x o' ts H Hx; cbn [parse_args] in H; [injection H as <- <-; auto|].
    destruct (parse_arg x a) as [y|e] eqn:E; cbn [bind] in H; [|discriminate]. destruct y as [t|[o1|]]; [| |discriminate].
    - destruct (parse_args x args) as [[[o2 ts2]|]|e] eqn:E2; cbn [bind] in H; try discriminate. injection H as <- <-. eapply IH; eauto.
    - eapply IH; [exact H|]. unfold parse_arg in E. destruct (zlen a <? equals_position a)%Z; [discriminate|].
      destruct (bytes_eqb _ _) in E; [destruct (get_stoi _) in E; [injection E as <-; auto|discriminate]|]. destruct (bytes_eqb _ _) in E; [destruct (get_stoi _) in E; [|discriminate]|].
      + injection E as <-. cbn [op_bucket]. rewrite <- Znumtheory.Zmod_div_mod; [|lia|lia|exists (2 ^ 55)%Z; reflexivity]. rewrite nbb_spec. apply up512_bounds.
      + destruct (bytes_eqb _ _) in E; [|discriminate]. injection E as <-. auto. }
  eapply G; [exact Hp|reflexivity].
Qed.
Lemma sum_app (f : act -> nat) l l' : list_sum (map f (l ++ l')) = list_sum (map f l) + list_sum (map f l').
Proof. rewrite map_app. apply list_sum_app. Qed.
Lemma sum_sends (f : act -> nat) (g : nat -> act) l : (forall r, f (g r) = 2) -> list_sum (map f (map g l)) = 2 * length l.
Proof. intros H. induction l as [|r l IH]; [reflexivity|]. cbn [map list_sum fold_right length]. unfold list_sum in IH. rewrite IH, H. lia. Qed.
Lemma created_sum R o base bs : 1 <= R -> list_sum (map (fun a => match a with APush bs => 4 * length bs + R | _ => 2 end) (created R o base bs)) = 4 * length bs + 5 * R + 6.
Proof.
  intros HR. unfold created. rewrite !sum_app, !sum_sends by reflexivity. rewrite !seq_length. cbn [map list_sum fold_right]. lia.
Qed.

(** the program that finishes planning, on ranks that have the time *)
Lemma run_lemma R opens ev o base bs dk : 2 <= R -> (Z.of_nat R <= INT_MAX)%Z -> usable (op_archive o) -> usable base -> (100000 <= op_bucket o <= INT_MAX)%Z ->
  opens (op_archive o) = true -> dk (op_archive o) = None ->
  (forall k, k < length bs -> succeeds (jobs ev (op_bucket o) (op_archive o) base bs k) = true) ->
  let p := program R (created R o base bs) Finished in
  (forall n s, mrun R opens ev p n s -> n <= (4 * length bs + 5 * R + 6) * (4 * R + 2) + R /\ ~ mpi_error R s /\ ~ crashed R s /\
     (forall q, q <> op_archive o -> disk_after dk (m_log s) q = dk q) /\
     (ended R s \/ exists s', mstep R opens ev True s s') /\ (exists s', mleads R opens ev s s' /\ ended R s')) /\
  (forall n s, mrun R opens ev p n s -> ended R s -> exists c k, run (length bs) R (fun o' => succeeds (jobs ev (op_bucket o) (op_archive o) base bs o')) k c /\ boss c = BEnd /\
     disk_after dk (m_log s) (op_archive o) = Some (assemble (jobs ev (op_bucket o) (op_archive o) base bs) (map snd (log c)))).
Proof.
  intros HR HRm U1 U2 Hb Ho Hdk Hok p.
  pose proof (jobs_fit ev (op_bucket o) (op_archive o) base bs Hok) as Hf.
  assert (Hbk : (0 < op_bucket o)%Z) by lia. assert (HR1 : 1 <= R) by lia. assert (Hb' : (100000 <= op_bucket o < 2 ^ 64)%Z) by (unfold INT_MAX in *; lia).
  pose proof (fit_texts bs Hf) as F1. pose proof (fit_U _ Hb') as F2. pose proof (fit_letter (b "A") _ eq_refl U1) as F3. pose proof (fit_letter (b "P") _ eq_refl U2) as F4.
  destruct U1 as [U1 _], U2 as [U2 _].
  assert (Hfine : fine_all ev (op_bucket o) (op_archive o) base bs) by (split; [lia|exact Hok]).
  assert (HB : forall n s, mrun R opens ev p n s -> n <= (4 * length bs + 5 * R + 6) * (4 * R + 2) + R).
  { intros n s H. rewrite <- (created_sum R o base bs HR1). exact (steps_bound R opens ev p _ n s HR1 (within_program R (created R o base bs) Finished) H). }
  assert (HRel : forall n s, mrun R opens ev p n s -> Rel R ev (op_bucket o) (op_archive o) base bs s).
  { intros n s H. exact (rel_run R opens ev (op_bucket o) (op_archive o) base bs HR1 HRm Hbk F1 F2 F3 F4 U1 U2 Ho n s H). }
  assert (HP : forall n s, mrun R opens ev p n s -> ended R s \/ exists s', mstep R opens ev True s s').
  { intros n s H. exact (goes_on R opens ev (op_bucket o) (op_archive o) base bs HR1 HRm F1 F4 s HR Hfine (HRel n s H)). }
  split.
  - intros n s H. split; [exact (HB n s H)|]. split; [|split; [|split; [|split]]].
    + destruct (no_error R opens ev (op_bucket o) (op_archive o) base bs HR1 HRm Hbk F1 F2 F3 F4 U1 U2 Ho n s H) as [A B].
      intros [(r & Hr & E)|(e & E & Hne)]; [exact (A r Hr E)|exact (Hne (B e E))].
    + intros (r & e & Hr & E). exact (nobody_dies R opens ev (op_bucket o) (op_archive o) base bs HR1 s r e Hfine (HRel n s H) Hr E).
    + intros q Hq. exact (only_archive R opens ev (op_bucket o) (op_archive o) base bs HR1 HRm Hbk F1 F2 F3 F4 U1 U2 Ho n s dk q H Hq).
    + exact (HP n s H).
    + exact (leads_end R opens ev p _ HB HP n s H).
  - intros n s H E. destruct (finished_disk R opens ev (op_bucket o) (op_archive o) base bs HR1 HRm Hbk F1 F2 F3 F4 U1 U2 Ho n s dk HR H E Hdk) as (c & k & A & B & C & _).
    exists c, k. split; [exact A|]. split; [exact B|]. exact C.
Qed.

(** from the command line to the archive on disk *)
Lemma whole_lemma R junk fs sort args o base t ev dk cc : 2 <= R -> (Z.of_nat R <= INT_MAX)%Z -> Forall usable args ->
  parse_args {| op_bucket := DEFAULT_BUCKET_SIZE; op_maxo := junk; op_archive := [] |} args = Ok (Some (o, [base])) ->
  op_archive o <> [] -> dk (op_archive o) = None -> cc (op_archive o) = true -> (100000 <= op_bucket o <= INT_MAX)%Z ->
  (forall l, order_files l (sort l)) -> quiet_heap fs -> base <> [] -> is_dir_node t -> wf_node t -> shows fs base t -> small_tree base t -> tab_free t ->
  (forall p n, at_path t p n -> archivable n -> still ev base p n) ->
  exists f0, forall fuel, f0 <= fuel -> exists acts N, boss_main R junk fuel fs sort (excl_ok dk cc) args = (acts, Finished) /\
  let p := program R acts Finished in let opens := excl_ok dk cc in
  (forall n s, mrun R opens ev p n s -> n <= (4 * N + 5 * R + 6) * (4 * R + 2) + R /\ ~ mpi_error R s /\ ~ crashed R s /\
     (forall q, q <> op_archive o -> disk_after dk (m_log s) q = dk q) /\
     (ended R s \/ exists s', mstep R opens ev True s s') /\ (exists s', mleads R opens ev s s' /\ ended R s')) /\
  (forall n s, mrun R opens ev p n s -> ended R s -> exists x, disk_after dk (m_log s) (op_archive o) = Some x /\
     forall a, concretises a x -> exists ms nodes, tar_list a = Some ms /\
       NoDup (map fst nodes) /\ (forall q m, In (q, m) nodes <-> at_path t q m /\ archivable m) /\
       Forall2 (fun pn m => describes ev base (fst pn) (snd pn) m) nodes ms).
Proof.
  intros HR HRm Hu Hpa Hne Hdk Hcc Hbk Hs Hq Hb Hd Hw Hsh Hsm Htab Hst.
  assert (Hane : args <> []) by (intros ->; discriminate Hpa).
  pose proof (bucket_aligned junk args o base Hu Hpa) as Hbm.
  destruct (parse_good _ _ _ _ Hpa) as (U1 & U2 & _); auto; [apply usable_nil|vm_compute; split; [discriminate|reflexivity]|]. inversion U2 as [|? ? U3 _]; subst. clear U2.
  assert (Hbn : no_byte NUL base) by apply U3.
  destruct (scan_lemma fs base t Hq Hb Hd Hw Hsh) as (dirs & files & (f0 & Hf) & _).
  exists f0. intros fuel Hfuel.
  destruct (plan_ok fuel fs sort base t (op_bucket o) (op_maxo o) Hs Hq Hb Hd Hw Hsh (small_short _ _ Hsm) (proj1 Hbk) Hbm dirs files (Hf fuel Hfuel)) as (d & f & bs & _ & Hpl & _).
  assert (Hop : excl_ok dk cc (op_archive o) = true) by (unfold excl_ok; rewrite Hdk; exact Hcc).
  exists (created R o base bs), (length bs). split.
  { rewrite (boss_main_eq R junk fuel fs sort (excl_ok dk cc) args o base Hane Hpa Hne), Hpl, Hop. reflexivity. }
  assert (Hok : forall k, (k < length bs)%nat -> succeeds (jobs ev (op_bucket o) (op_archive o) base bs k) = true).
  { exact (tree_completes fuel fs sort base t ev (op_bucket o) (op_maxo o) bs (op_archive o) Hpl Hs Hb Hbn Hd Hw Hsh Hsm Htab (proj1 Hbk) Hbm Hst). }
  destruct (run_lemma R (excl_ok dk cc) ev o base bs dk HR HRm U1 U3 Hbk Hop Hdk Hok) as [A B]. split; [exact A|].
  intros n s H E. destruct (B n s H E) as (c & k & Hrun & Hend & Hdisk). eexists. split; [exact Hdisk|]. intros a Ha.
  assert (HR1 : 1 <= R) by lia.
  exact (C19_lemma fuel fs sort base t ev (op_bucket o) (op_maxo o) bs (op_archive o) R k c a Hpl Hs Hb Hbn Hd Hw Hsh (small_short _ _ Hsm) Htab (proj1 Hbk) Hbm Hst (small_slash _ _ Hsm) HR1 Hrun Hend Ha).
Qed.
