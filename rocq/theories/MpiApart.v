(** The ranks of the 0.6 program write different places (C96). *)
From Coq Require Import Permutation Lia.
From Verif Require Import Bytes Outcome TarSpec TarModel TarProofs TarMore Layout LayoutSpec LayoutProofs LayoutMore OrderCodec OrderCodecProofs OrderMore
  Mover MoverSpec MoverProofs MoverMore Worker WorkerProofs Assemble AssembleProofs Boss BossProofs BossMore
  Spider SpiderSpec SpiderProofs SpiderMore Args ArgsSpec ArgsProofs Program ProgramProofs EndSpec EndProofs EndMore WholeSpec Whole Mpi MpiProofs MpiBound MpiSpec MpiEnd ApartSpec.
Local Open Scope nat_scope.

(** the planner's assumptions follow from the tree, whatever the files do later *)
Lemma tree_plain fuel fs sort base t bucket maxo bs : plan fuel fs sort base bucket maxo = Ok (Some bs) ->
  (forall l, order_files l (sort l)) -> base <> [] -> is_dir_node t -> wf_node t -> shows fs base t -> short_paths base t -> tab_free t ->
  (100000 <= bucket)%Z -> (bucket mod 512 = 0)%Z ->
  exists dirs files d f, set_offsets dirs (sort files) = (d, f) /\ create_transfer_orders 0 bucket maxo d f = Ok (Some bs) /\
    plannable bucket dirs (sort files) /\ Forall plain (dirs ++ sort files).
Proof.
  intros H Hs H2 H3 H4 H5 Hsh Htab Hb Hm. apply plan_inv in H as (dirs & files & d & f & Hsc & Hso & Hc).
  exists dirs, files, d, f. split; auto. split; auto.
  split; [exact (scan_plannable _ _ _ _ _ _ _ _ Hsc H2 H3 H4 H5 Hsh (Hs files) Hb Hm)|].
  destruct (scan_any _ _ _ _ _ _ Hsc H2 H3 H4 H5) as (_ & _ & W & _). destruct (Hs files sort_by_size_swo) as [Pm _].
  assert (PP : Permutation (dirs ++ files) (dirs ++ sort files)) by (apply Permutation_app_head; auto).
  apply Forall_forall. intros e He. apply (Permutation_in _ (Permutation_sym PP)) in He. destruct (W e He) as (_ & _ & p & n & Ha & Er & Rn).
  destruct (at_path_wf _ _ _ Ha H4) as [Wn Gp]. destruct (Htab p n Ha) as [T1 T2].
  unfold plain. rewrite Er. split; auto. destruct n; cbn in Rn; try contradiction; destruct Rn as (_ & _ & ->).
  + split; [intros []|]. split; [apply join_nonul; auto|intros []].
  + split; auto. split; [apply join_nonul; auto|]. inversion Wn; auto.
  + split; [intros []|]. split; [apply join_nonul; auto|intros []].
  + split; [intros []|]. split; [apply join_nonul; auto|intros []].
Qed.

Opaque jobs.
Lemma wlog_pair ev bucket path base bs c : forall l1 r p w l2 r' w' l3,
  wlog ev bucket path base bs c = l1 ++ (r, EvWrite p w) :: l2 ++ (r', EvWrite p w') :: l3 ->
  exists c1 i c2 j c3, map snd c = c1 ++ i :: c2 ++ j :: c3 /\ jobs ev bucket path base bs i = Some w /\ jobs ev bucket path base bs j = Some w'.
Proof.
  assert (One : forall c l1 r p w l3, wlog ev bucket path base bs c = l1 ++ (r, EvWrite p w) :: l3 ->
    exists c1 i c3, c = c1 ++ i :: c3 /\ jobs ev bucket path base bs (snd i) = Some w /\ wlog ev bucket path base bs c3 = l3).
  { clear c. induction c as [|[q o] c IH]; intros l1 r p w l3 E; [destruct l1; discriminate E|].
    unfold wlog, jobw in E. cbn [flat_map fst snd] in E. destruct (jobs ev bucket path base bs o) as [x|] eqn:Ej; cbn [app] in E.
    - destruct l1 as [|y l1]; cbn [app] in E.
      + injection E as _ _ E1 E2. exists [], (q, o), c. split; [reflexivity|]. split; [cbn [snd]; congruence|exact E2].
      + injection E as _ E2. destruct (IH _ _ _ _ _ E2) as (c1 & i & c3 & -> & A & B). exists ((q, o) :: c1), i, c3. auto.
    - destruct (IH _ _ _ _ _ E) as (c1 & i & c3 & -> & A & B). exists ((q, o) :: c1), i, c3. auto. }
  intros l1 r p w l2 r' w' l3 E. destruct (One _ _ _ _ _ _ E) as (c1 & i & c3 & -> & A & B). destruct (One _ _ _ _ _ _ B) as (c2 & j & c4 & -> & A' & _).
  exists (map snd c1), (snd i), (map snd c2), (snd j), (map snd c4). rewrite map_app. cbn [map]. rewrite map_app. auto.
Qed.
Lemma filter_split {A} (g : A -> bool) l l1 x l2 y l3 : g x = true -> g y = true -> l = l1 ++ x :: l2 ++ y :: l3 -> filter g l = filter g l1 ++ x :: filter g l2 ++ y :: filter g l3.
Proof. intros Hx Hy ->. rewrite filter_app. cbn [filter]. rewrite Hx, filter_app. cbn [filter]. rewrite Hy. reflexivity. Qed.
Lemma nodup_log N R okb n c : 1 <= R -> run N R okb n c -> NoDup (map snd (log c)) /\ forall o, In o (map snd (log c)) -> o < N.
Proof.
  intros HR H. destruct (outstanding N R okb n c HR H) as (A & B & _). pose proof (inv_run _ _ _ _ _ HR H) as I.
  pose proof (Permutation_map snd B) as B'. rewrite map_app in B'. pose proof (Permutation_NoDup B' A) as Nd. split.
  - clear -Nd. match type of Nd with NoDup (?X ++ _) => induction X as [|a m IH] end; [exact Nd|]. apply IH. inversion Nd; auto.
  - intros o Ho. assert (Hg : In o (map snd (given c))) by (apply (Permutation_in _ (Permutation_sym B')), in_or_app; right; exact Ho).
    rewrite (i_seq _ _ _ I) in Hg. apply in_seq in Hg. assert (sent N c <= N); [|lia]. pose proof (i_phase _ _ _ I) as Ph. unfold phase_ok in Ph. unfold sent. destruct (boss c); lia.
Qed.

Lemma mpi_apart R junk fuel fs sort opens args acts ev o base t : boss_main R junk fuel fs sort opens args = (acts, Finished) -> Forall usable args ->
  parse_args {| op_bucket := DEFAULT_BUCKET_SIZE; op_maxo := junk; op_archive := [] |} args = Ok (Some (o, [base])) ->
  1 <= R -> (Z.of_nat R <= INT_MAX)%Z -> (forall bs, In (APush bs) acts -> texts_fit bs) ->
  (forall l, order_files l (sort l)) -> base <> [] -> is_dir_node t -> wf_node t -> shows fs base t -> short_paths base t -> tab_free t ->
  forall n s, mrun R opens ev (program R acts Finished) n s -> never_twice (m_log s).
Proof.
  intros H Hu Hpa HR HRm Ht Hs Hb Hd Hw Hsh Hsp Htab n s Hrun.
  destruct (boss_finished _ _ _ _ _ _ _ _ H Hu) as (o' & base' & bs & Hpa' & Hpl & Ho & -> & U1 & U2 & Hbk). rewrite Hpa in Hpa'. injection Hpa' as <- <-.
  assert (Hf : texts_fit bs) by (apply Ht; unfold created; apply in_or_app; right; apply in_or_app; right; left; reflexivity).
  assert (Hbk' : (0 < op_bucket o)%Z) by lia.
  pose proof (fit_texts bs Hf) as F1. pose proof (fit_U _ Hbk) as F2. pose proof (fit_letter (b "A") _ eq_refl U1) as F3. pose proof (fit_letter (b "P") _ eq_refl U2) as F4.
  destruct U1 as [U1 _], U2 as [U2 _].
  destruct (rel_run R opens ev (op_bucket o) (op_archive o) base bs HR HRm Hbk' F1 F2 F3 F4 U1 U2 Ho n s Hrun) as (c & k & np & nx & pend & Hc & _ & _ & [L _]).
  destruct (tree_plain _ _ _ _ _ _ _ _ Hpl Hs Hb Hd Hw Hsh Hsp Htab (proj1 Hbk) (bucket_aligned junk args o base Hu Hpa)) as (dirs & files & d & f & Hso & Hct & Hp & Hplain).
  intros l1 r p w l2 r' w' l3 E. pose proof (filter_split (fun re => is_write (snd re)) (m_log s) l1 (r, EvWrite p w) l2 (r', EvWrite p w') l3 eq_refl eq_refl E) as E'. rewrite L in E'.
  destruct (wlog_pair _ _ _ _ _ _ _ _ _ _ _ _ _ _ E') as (c1 & i & c2 & j & c3 & Em & Wi & Wj).
  destruct (nodup_log _ _ _ _ _ HR Hc) as (Nd & Lt). rewrite Em in Nd, Lt.
  assert (Ni : i <> j). { intros ->. apply NoDup_remove_2 in Nd. apply Nd. apply in_or_app. right. apply in_or_app. right. left. reflexivity. }
  assert (Li : i < length bs) by (apply Lt; apply in_or_app; right; left; reflexivity).
  assert (Lj : j < length bs) by (apply Lt; apply in_or_app; right; right; apply in_or_app; right; left; reflexivity).
  intros (x & X & Y). eapply (jobs_disjoint ev (op_bucket o) (op_archive o) base 0 (op_maxo o) dirs (sort files) d f bs i j w w' x); eauto.
  vm_compute. split; discriminate.
Qed.
