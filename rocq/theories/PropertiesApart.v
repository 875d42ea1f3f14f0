(** Property theorems C95, C96: no byte of the archive is written twice, so none
    is lost, in whatever order the ranks' writes arrive. *)
From Coq Require Import Permutation Sorted Lia.
From Verif Require Import Bytes Outcome TarSpec TarModel Layout LayoutSpec LayoutMore OrderCodec Mover MoverSpec Worker Assemble Boss BossProofs Spider SpiderSpec SpiderMore Args ArgsSpec Program ProgramProofs EndSpec WholeSpec Whole Mpi MpiProofs MpiBound MpiSpec MpiEnd MpiMore MpiRefuse MpiExact Samples PropertiesScan PropertiesProgram PropertiesEnd PropertiesWhole TarProofs LayoutProofs AssembleProofs SpiderProofs ArgsProofs EndProofs EndMore Legacy LegacyLayout LegacyScan LegacyCodec LegacyWrite LegacyEndSpec LegacyCreate LegacyTotal PropertiesBoss PropertiesLegacyScan PropertiesLegacyEnd PropertiesMpi LegacyMpi LegacyMpiSpec PropertiesLegacyMpi ApartSpec Apart LegacyApart MpiApart TextFit.

(** *** C95: the 0.5.1 program.  Whatever the command line, the tree, what the
    files do meanwhile, the number of ranks and the schedule, at every moment of
    every run, failed ones included *)
Theorem C95_legacy_never_twice : forall R fuel fs sort clock ev opens args n s,
  (1 <= R)%nat -> Forall (no_byte NUL) args -> lrun R opens (lmain R fuel fs sort clock ev args) n s ->
  never_twice (l_log s) /\ nothing_lost (l_log s).
Proof.
  intros R fuel fs sort clock ev opens args n s HR HA Hrun.
  pose proof (legacy_apart R fuel fs sort clock ev opens args n s HR HA Hrun) as H. split; [exact H|exact (twice_lost _ H)].
Qed.
Print Assumptions C95_legacy_never_twice.
(** witness: runs of the sample tree that write *)
Lemma unwritten p l : (forall r w, ~ In (r, EvWrite p w) l) -> forall dk, dk p = None \/ dk p = Some empty_archive -> disk_after dk l p = None \/ disk_after dk l p = Some empty_archive.
Proof.
  induction l as [|[r e] l IH]; intros H dk Hd; [exact Hd|]. change (disk_after dk ((r, e) :: l)) with (disk_after (on_disk dk e) l). apply IH; [intros r' w' Hi; exact (H r' w' (or_intror Hi))|].
  destruct e as [q ok|k|q|q w|q| |]; cbn [on_disk]; auto; [destruct ok; auto|]; unfold set_file; destruct (bytes_eqb p q) eqn:E; auto; apply bytes_eqb_spec in E; subst q.
  - right. destruct Hd as [->| ->]; reflexivity.
  - destruct (H r w (or_introl eq_refl)).
Qed.
Example C95_witness : forall R clock, (1 <= R)%nat -> exists fuel n s r w, lrun R (fun _ => true) (lmain R fuel h_fs lsort clock g_env h_args) n s /\
  Forall (no_byte NUL) h_args /\ In (r, EvWrite (b "out.tar") w) (l_log s).
Proof.
  intros R clock HR. destruct (C86_witness R clock (fun _ => None) HR) as (fuel & A & _ & (n & s & Hrun & Hz) & Hd). exists fuel, n, s.
  destruct (Hd n s 0%nat Hrun ltac:(lia) (Hz 0%nat ltac:(lia))) as (ar & Ea & Hl).
  assert (D : (exists r w, In (r, EvWrite (b "out.tar") w) (l_log s)) \/ forall r w, ~ In (r, EvWrite (b "out.tar") w) (l_log s)).
  { clear. induction (l_log s) as [|[r e] l [(r' & w' & IH)|IH]].
    - right. intros r w [].
    - left. exists r', w'. right. exact IH.
    - destruct e as [q ok|k|q|q w|q| |]; try (right; intros r' w' [X|X]; [discriminate X|exact (IH _ _ X)]).
      destruct (bytes_eqb q (b "out.tar")) eqn:E.
      + apply bytes_eqb_spec in E. left. exists r, w. left. rewrite E. reflexivity.
      + right. intros r' w' [X|X]; [|exact (IH _ _ X)]. injection X as _ X _. rewrite X in E. discriminate E. }
  destruct D as [(r & w & D)|D]; [exists r, w; auto|exfalso].
  destruct (unwritten (b "out.tar") (l_log s) D (fun _ => None) (or_introl eq_refl)) as [X|X]; rewrite X in Ea; [discriminate Ea|]. injection Ea as <-.
  destruct (Hl []) as (cat & mc & ms & nodes' & T & _); [split; [reflexivity|intros p x Hp; cbn in Hp; lia]|]. discriminate T.
Qed.

(** *** C96: the 0.6 program, whatever the files do meanwhile ([ev]).  Partial:
    names and link targets without a tab, paths the planner takes
    ([short_paths]), order texts that fit a message (C57) *)
Theorem C96_never_twice_partial : forall R junk fuel fs sort opens args acts ev o base t,
  boss_main R junk fuel fs sort opens args = (acts, Finished) -> Forall usable args ->
  parse_args {| op_bucket := DEFAULT_BUCKET_SIZE; op_maxo := junk; op_archive := [] |} args = Ok (Some (o, [base])) ->
  (1 <= R)%nat -> Z.of_nat R <= INT_MAX -> (forall bs, In (APush bs) acts -> texts_fit bs) ->
  (forall l, order_files l (sort l)) -> base <> [] -> is_dir_node t -> wf_node t -> shows fs base t -> short_paths base t -> tab_free t ->
  forall n s, mrun R opens ev (program R acts Finished) n s -> never_twice (m_log s) /\ nothing_lost (m_log s).
Proof.
  intros R junk fuel fs sort opens args acts ev o base t H1 H2 H3 H4 H5 H6 H7 H8 H9 H10 H11 H12 H13 n s Hrun.
  pose proof (mpi_apart R junk fuel fs sort opens args acts ev o base t H1 H2 H3 H4 H5 H6 H7 H8 H9 H10 H11 H12 H13 n s Hrun) as H. split; [exact H|exact (twice_lost _ H)].
Qed.
Print Assumptions C96_never_twice_partial.
(** the assumption [texts_fit] (here and in C77, C78) holds for every tree,
    whatever its names, as long as the bucket is at most 10^9 bytes and the
    archive's offsets are numbers of 63 bits *)
Theorem C77_texts_fit_partial : forall R junk fuel fs sort opens args acts o base t,
  boss_main R junk fuel fs sort opens args = (acts, Finished) -> Forall usable args ->
  parse_args {| op_bucket := DEFAULT_BUCKET_SIZE; op_maxo := junk; op_archive := [] |} args = Ok (Some (o, [base])) ->
  op_bucket o <= 1000000000 -> (forall bs B x, In (APush bs) acts -> In B bs -> In x B -> o_pos x < 2 ^ 63) ->
  (forall l, order_files l (sort l)) -> base <> [] -> is_dir_node t -> wf_node t -> shows fs base t -> short_paths base t ->
  forall bs, In (APush bs) acts -> texts_fit bs.
Proof.
  intros R junk fuel fs sort opens args acts o base t H Hu Hpa Hb Hpos Hs Hn Hd Hw Hsh Hsp bs Hin.
  destruct (boss_finished _ _ _ _ _ _ _ _ H Hu) as (o' & base' & bs' & Hpa' & Hpl & Ho & -> & U1 & U2 & Hbk). rewrite Hpa in Hpa'. injection Hpa' as <- <-.
  assert (Hin' : In (APush bs') (created R o base bs')) by (unfold created; apply in_or_app; right; apply in_or_app; right; left; reflexivity).
  enough (texts_fit bs') by (eapply created_texts; eauto).
  destruct U2 as [U2 _]. eapply plan_texts; eauto; [lia|]. exact (bucket_aligned junk args o base Hu Hpa).
Qed.
Print Assumptions C77_texts_fit_partial.
Theorem C96_tree_partial : forall R junk fuel fs sort opens args acts ev o base t,
  boss_main R junk fuel fs sort opens args = (acts, Finished) -> Forall usable args ->
  parse_args {| op_bucket := DEFAULT_BUCKET_SIZE; op_maxo := junk; op_archive := [] |} args = Ok (Some (o, [base])) ->
  (1 <= R)%nat -> Z.of_nat R <= INT_MAX ->
  op_bucket o <= 1000000000 -> (forall bs B x, In (APush bs) acts -> In B bs -> In x B -> o_pos x < 2 ^ 63) ->
  (forall l, order_files l (sort l)) -> base <> [] -> is_dir_node t -> wf_node t -> shows fs base t -> short_paths base t -> tab_free t ->
  forall n s, mrun R opens ev (program R acts Finished) n s -> never_twice (m_log s) /\ nothing_lost (m_log s).
Proof.
  intros R junk fuel fs sort opens args acts ev o base t H1 H2 H3 H4 H5 Hb Hpos H7 H8 H9 H10 H11 H12 H13.
  eapply C96_never_twice_partial; eauto. exact (C77_texts_fit_partial _ _ _ _ _ _ _ _ _ _ _ H1 H2 H3 Hb Hpos H7 H8 H9 H10 H11 H12).
Qed.
Print Assumptions C96_tree_partial.
(** witness: a run of the sample tree with all its eight writes *)
Lemma writes_found p (l : list (nat * event)) ws : Permutation (filter is_write (map snd l)) (map (EvWrite p) ws) -> forall w, In w ws -> exists r, In (r, EvWrite p w) l.
Proof.
  intros P w Hw. assert (I : In (EvWrite p w) (filter is_write (map snd l))) by (apply (Permutation_in _ (Permutation_sym P)), in_map, Hw).
  apply filter_In in I as [I _]. apply in_map_iff in I as ((r & e) & E & I). cbn in E. subst e. exists r. exact I.
Qed.
Example C96_witness : exists acts n s, boss_main 3 1 9 s_fs isort (excl_ok (fun _ => None) (fun _ => true)) s_args = (acts, Finished) /\ Forall usable s_args /\
  parse_args {| op_bucket := DEFAULT_BUCKET_SIZE; op_maxo := 1; op_archive := [] |} s_args = Ok (Some (s_opts DEFAULT_BUCKET_SIZE 1, [b "base"])) /\
  (forall bs, In (APush bs) acts -> texts_fit bs) /\ is_dir_node s_tree /\ wf_node s_tree /\ shows s_fs (b "base") s_tree /\ short_paths (b "base") s_tree /\ tab_free s_tree /\
  mrun 3 (excl_ok (fun _ => None) (fun _ => true)) s_env (program 3 acts Finished) n s /\ length (filter is_write (map snd (m_log s))) = 8%nat.
Proof.
  destruct C79_witness as (acts & n & s & Hb & Hrun & He). exists acts, n, s. split; [exact Hb|]. split; [exact s_usable|]. split; [vm_compute; reflexivity|].
  assert (Ea : acts = created 3 (s_opts DEFAULT_BUCKET_SIZE 1) (b "base") (s_plan 1)).
  { assert (X : boss_main 3 1 9 s_fs isort (excl_ok (fun _ => None) (fun _ => true)) s_args = (created 3 (s_opts DEFAULT_BUCKET_SIZE 1) (b "base") (s_plan 1), Finished)) by (vm_compute; reflexivity). rewrite X in Hb. injection Hb as Hb. symmetry. exact Hb. }
  destruct s_boss as (_ & _ & Hf).
  assert (Ht : forall bs, In (APush bs) acts -> texts_fit bs) by (rewrite Ea; apply created_texts, Hf).
  split; [exact Ht|]. split; [exact I|]. split; [exact s_wf|]. split; [exact s_shows|]. split; [exact s_short|]. split; [exact s_tab|]. split; [exact Hrun|].
  destruct (complete_lemma 3 1 9 s_fs isort _ s_args acts s_env Hb s_usable ltac:(lia) ltac:(vm_compute; discriminate) Ht) as (o & base & bs & Hp & Hpl & W & _).
  assert (Ep : parse_args {| op_bucket := DEFAULT_BUCKET_SIZE; op_maxo := 1; op_archive := [] |} s_args = Ok (Some (s_opts DEFAULT_BUCKET_SIZE 1, [b "base"]))) by (vm_compute; reflexivity).
  rewrite Ep in Hp. assert (Eo : o = s_opts DEFAULT_BUCKET_SIZE 1 /\ base = b "base") by (split; congruence). destruct Eo as [-> ->]. 
  assert (El : plan 9 s_fs isort (b "base") DEFAULT_BUCKET_SIZE 1 = Ok (Some (s_plan 1))) by (vm_compute; reflexivity).
  cbn [s_opts op_bucket op_maxo] in Hpl. rewrite El in Hpl. match type of Hpl with Ok (Some ?x) = _ => assert (Es : bs = x) by congruence end. rewrite Es in *. clear Es.
  destruct He as (F1 & _). destruct (W n s Hrun F1) as (ws & P & F). rewrite (Permutation_length P), map_length. assert (Lw : length (seq 0 (length (s_plan 1))) = length ws) by (clear -F; induction F; cbn [length]; congruence). rewrite seq_length in Lw. rewrite <- Lw. vm_compute. reflexivity.
Qed.

(** witness for the two further assumptions of C77_texts_fit_partial and C96_tree_partial *)
Example C96_tree_witness : op_bucket (s_opts DEFAULT_BUCKET_SIZE 1) <= 1000000000 /\
  forall acts, boss_main 3 1 9 s_fs isort (excl_ok (fun _ => None) (fun _ => true)) s_args = (acts, Finished) ->
  forall bs B x, In (APush bs) acts -> In B bs -> In x B -> o_pos x < 2 ^ 63.
Proof.
  split; [vm_compute; discriminate|]. intros acts Hb bs B x Ha HB Hx.
  assert (Ea : acts = created 3 (s_opts DEFAULT_BUCKET_SIZE 1) (b "base") (s_plan 1)).
  { assert (X : boss_main 3 1 9 s_fs isort (excl_ok (fun _ => None) (fun _ => true)) s_args = (created 3 (s_opts DEFAULT_BUCKET_SIZE 1) (b "base") (s_plan 1), Finished)) by (vm_compute; reflexivity). rewrite X in Hb. injection Hb as Hb. symmetry. exact Hb. }
  rewrite Ea in Ha. assert (Eb : bs = s_plan 1).
  { unfold created in Ha. repeat (apply in_app_or in Ha as [Ha|Ha]).
    - repeat destruct Ha as [Ha|Ha]; try discriminate Ha; destruct Ha.
    - apply in_map_iff in Ha as (z & Ez & _). discriminate Ez.
    - destruct Ha as [Ha|[]]. congruence.
    - apply in_map_iff in Ha as (z & Ez & _). discriminate Ez.
    - destruct Ha as [Ha|[]]. discriminate Ha. }
  assert (E : forallb (fun B => forallb (fun o => o_pos o <? 2 ^ 63) B) (s_plan 1) = true) by (vm_compute; reflexivity).
  rewrite forallb_forall in E. rewrite Eb in HB. specialize (E B HB). rewrite forallb_forall in E. specialize (E x Hx). lia.
Qed.

(** false with tabs: a tree on which everything else holds; there are runs that
    end, and in each of them two ranks' or two of a rank's writes overlap *)
(** sample data, as [evil_dirs] and [evil_files] of PropertiesBoss.v *)
Definition evil_tree : node := NDir [(b "a", NFile 1); (evil_name, NFile 5)].
Definition evil_lstat (p : bytes) : option (stat * bytes) :=
  if bytes_eqb p (b "base") then Some (st_dir, []) else e_lstat evil_env p.
Definition evil_fs : fsys := {| f_lstat := evil_lstat; f_heap := fun _ => NUL;
  f_readdir := fun p => if bytes_eqb p (b "base") then Some [b "."; b "a"; b ".."; evil_name] else None |}.
Definition evil_plan : list (list order) := match plan 9 evil_fs isort (b "base") DEFAULT_BUCKET_SIZE 1 with Ok (Some bs) => bs | _ => [] end.
Definition evil_opens : bytes -> bool := excl_ok (fun _ => None) (fun _ => true).
Definition evil_acts : list act := created 3 (s_opts DEFAULT_BUCKET_SIZE 1) (b "base") evil_plan.
Lemma evil_good : good_name (b "a") /\ good_name evil_name.
Proof. unfold good_name, no_byte; repeat split; try discriminate; vm_compute; intros F; repeat destruct F as [F|F]; try discriminate F; try contradiction F. Qed.
Lemma evil_wf : wf_node evil_tree.
Proof.
  destruct evil_good as (G1 & G2). unfold evil_tree. apply Wf_dir.
  - repeat constructor; cbn [map fst In]; intros F; repeat destruct F as [F|F]; try discriminate F; try contradiction F.
  - repeat apply Forall_cons; try apply Forall_nil; assumption.
  - repeat apply Forall_cons; try apply Forall_nil; cbn [snd]; constructor; lia.
Qed.
Lemma evil_shows : shows evil_fs (b "base") evil_tree.
Proof.
  eapply Sh_dir; [vm_compute; reflexivity|reflexivity|vm_compute; reflexivity|vm_compute; reflexivity|].
  repeat apply Forall_cons; try apply Forall_nil; cbn [fst snd].
  - eapply (Sh_file evil_fs _ (st_reg 1)); vm_compute; reflexivity.
  - eapply (Sh_file evil_fs _ (st_reg 5)); vm_compute; reflexivity.
Qed.
Lemma evil_short : short_paths (b "base") evil_tree.
Proof.
  intros p n H. unfold evil_tree in H.
  repeat match goal with
  | H : In _ (_ :: _) |- _ => destruct H as [H|H]
  | H : In _ [] |- _ => destruct H
  | H : (_, _) = (_, _) |- _ => injection H as <- <-
  | H : False |- _ => destruct H
  | H : at_path _ _ _ |- _ => inversion H; clear H; subst
  end; (split; [vm_compute; discriminate|exact I]).
Qed.
Theorem C96_refuted :
  boss_main 3 1 9 evil_fs isort evil_opens s_args = (evil_acts, Finished) /\ Forall usable s_args /\
  parse_args {| op_bucket := DEFAULT_BUCKET_SIZE; op_maxo := 1; op_archive := [] |} s_args = Ok (Some (s_opts DEFAULT_BUCKET_SIZE 1, [b "base"])) /\
  (forall bs, In (APush bs) evil_acts -> texts_fit bs) /\
  is_dir_node evil_tree /\ wf_node evil_tree /\ shows evil_fs (b "base") evil_tree /\ short_paths (b "base") evil_tree /\
  (exists n s, mrun 3 evil_opens evil_env (program 3 evil_acts Finished) n s /\ ended 3 s) /\
  (forall n s, mrun 3 evil_opens evil_env (program 3 evil_acts Finished) n s -> ended 3 s -> ~ never_twice (m_log s)).
Proof.
  assert (Hb : boss_main 3 1 9 evil_fs isort evil_opens s_args = (evil_acts, Finished)) by (vm_compute; reflexivity).
  assert (Hf : texts_fit evil_plan) by (apply texts_small; vm_compute; reflexivity).
  assert (Ht : forall bs, In (APush bs) evil_acts -> texts_fit bs) by (apply created_texts, Hf).
  assert (Ep : parse_args {| op_bucket := DEFAULT_BUCKET_SIZE; op_maxo := 1; op_archive := [] |} s_args = Ok (Some (s_opts DEFAULT_BUCKET_SIZE 1, [b "base"]))) by (vm_compute; reflexivity).
  assert (El : plan 9 evil_fs isort (b "base") DEFAULT_BUCKET_SIZE 1 = Ok (Some evil_plan)) by (vm_compute; reflexivity).
  assert (Ln : length evil_plan = 3%nat) by (vm_compute; reflexivity).
  split; [exact Hb|]. split; [exact s_usable|]. split; [exact Ep|]. split; [exact Ht|]. split; [exact I|]. split; [exact evil_wf|]. split; [exact evil_shows|]. split; [exact evil_short|]. split.
  - destruct (run_lemma 3 evil_opens evil_env (s_opts DEFAULT_BUCKET_SIZE 1) (b "base") evil_plan (fun _ => None)) as [A _].
    + lia.
    + vm_compute; discriminate.
    + apply (Forall_inv (usable_small [b "out.tar"] eq_refl)).
    + apply (Forall_inv (usable_small [b "base"] eq_refl)).
    + vm_compute; split; discriminate.
    + reflexivity.
    + reflexivity.
    + intros k Hk. assert (E : forallb (fun k => succeeds (jobs evil_env DEFAULT_BUCKET_SIZE (b "out.tar") (b "base") evil_plan k)) (seq 0 3) = true) by (vm_compute; reflexivity).
      rewrite forallb_forall in E. apply E. apply in_seq. lia.
    + assert (G : forall n s s', mrun 3 evil_opens evil_env (program 3 evil_acts Finished) n s -> mleads 3 evil_opens evil_env s s' ->
        exists n', mrun 3 evil_opens evil_env (program 3 evil_acts Finished) n' s').
      { intros n s s' H L. revert n H. induction L as [s|s s1 s2 St L IH]; intros n H; [eauto|]. exact (IH (S n) (mrun_step _ _ _ _ _ _ _ _ H St)). }
      destruct (A _ _ (mrun_start _ _ _ _)) as (_ & _ & _ & _ & _ & s' & L & E). destruct (G _ _ _ (mrun_start _ _ _ _) L) as (n' & H'). eauto.
  - intros n s Hrun (F1 & _) Nt.
    destruct (complete_lemma 3 1 9 evil_fs isort _ s_args evil_acts evil_env Hb s_usable ltac:(lia) ltac:(vm_compute; discriminate) Ht) as (o & base & bs & Hp & Hpl & W & _).
    rewrite Ep in Hp. assert (Eo : o = s_opts DEFAULT_BUCKET_SIZE 1 /\ base = b "base") by (split; congruence). destruct Eo as [-> ->]. cbn [s_opts op_bucket op_maxo] in Hpl. rewrite El in Hpl. match type of Hpl with Ok (Some ?x) = _ => assert (Es : bs = x) by congruence end. rewrite Es in *. clear Es.
    destruct (W n s Hrun F1) as (ws & P & F). clear W. rewrite Ln in F. cbn [s_opts op_bucket op_archive] in *.
    assert (Pl : forall k, (k < 3)%nat -> match jobs evil_env DEFAULT_BUCKET_SIZE (b "out.tar") (b "base") evil_plan k with Some w => nth k [(0, 512); (512, 1024); (0, 1024)] (0, 0) = (w_pos w, w_len w) | None => False end).
    { intros k Hk. destruct k as [|[|[|k]]]; [vm_compute; reflexivity..|lia]. }
    inversion F as [|? w0 ? ws1 J0 F1' E1 E2]; subst. inversion F1' as [|? w1 ? ws2 J1 F2' E1' E2']; subst. inversion F2' as [|? w2 ? ws3 J2 F3' E1'' E2'']; subst. inversion F3'; subst.
    pose proof (Pl 0%nat ltac:(lia)) as P0. pose proof (Pl 2%nat ltac:(lia)) as P2. rewrite J0 in P0. rewrite J2 in P2. cbn [nth] in P0, P2. injection P0 as A1 A2. injection P2 as B1 B2.
    destruct (writes_found _ _ _ P w0) as (r0 & I0); [left; reflexivity|]. destruct (writes_found _ _ _ P w2) as (r2 & I2); [right; right; left; reflexivity|].
    assert (Ov : overlap w0 w2) by (exists 0; lia).
    apply in_split in I0 as (l1 & l2 & El'). rewrite El' in I2. apply in_app_or in I2 as [I2|[I2|I2]].
    + apply in_split in I2 as (l3 & l4 & E3). rewrite E3 in El'. rewrite <- app_assoc in El'. cbn [app] in El'. exact (Nt _ _ _ _ _ _ _ _ El' (overlap_sym _ _ Ov)).
    + injection I2 as _ I2. rewrite I2 in A2. lia.
    + apply in_split in I2 as (l3 & l4 & E3). rewrite E3 in El'. exact (Nt _ _ _ _ _ _ _ _ El' Ov).
Qed.
Print Assumptions C96_refuted.
