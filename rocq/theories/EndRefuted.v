(** A tree whose archive cannot be read (used by C19_refuted): a directory whose
    path has exactly 100 bytes, and one file. *)
From Coq Require Import Permutation.
From Verif Require Import Bytes Outcome TarSpec TarModel TarProofs TarMore Layout LayoutSpec LayoutProofs LayoutMore OrderCodec OrderCodecProofs OrderMore
  Mover MoverSpec MoverProofs MoverMore Worker WorkerProofs Assemble AssembleProofs Boss BossProofs BossMore BossRuns
  Spider SpiderSpec SpiderProofs SpiderMore Program ProgramProofs EndSpec EndProofs EndMore Samples.

Definition r_name : bytes := repeat "d"%char 98.
Definition r_tree : node := NDir [(r_name, NDir []); (b "f", NFile 10)].
Definition r_lstat (p : bytes) : option (stat * bytes) :=
  if bytes_eqb p (b "b") then Some (st_dir, [])
  else if bytes_eqb p (b "b/") then Some (st_dir, [])
  else if bytes_eqb p (b "b/" ++ r_name) then Some (st_dir, [])
  else if bytes_eqb p (b "b/f") then Some (st_reg 10, [])
  else None.
Definition r_readdir (p : bytes) : option (list bytes) :=
  if bytes_eqb p (b "b") then Some [b "."; r_name; b ".."; b "f"]
  else if bytes_eqb p (b "b/" ++ r_name) then Some [b "."; b ".."] else None.
Definition r_fs : fsys := {| f_readdir := r_readdir; f_lstat := r_lstat; f_heap := fun _ => NUL |}.
Definition r_env : env := {| e_names := a_names; e_lstat := r_lstat;
  e_data := fun p => if bytes_eqb p (b "b/f") then Some (b "0123456789") else None |}.
Definition r_plan : list (list order) :=
  match plan 9 r_fs isort (b "b") a_bucket 3 with Ok (Some bs) => bs | _ => [] end.
Lemma r_plan_ok : plan 9 r_fs isort (b "b") a_bucket 3 = Ok (Some r_plan).
Proof. vm_compute. reflexivity. Qed.
Definition r_file : bytes :=
  let ar := assemble (jobs r_env a_bucket (b "out") (b "b") r_plan) [0]%nat in
  map (fun k => match ar_cell ar (Z.of_nat k) with Byte x => x | Undef => "?"%char end) (seq 0 (Z.to_nat (ar_size ar))).

Lemma r_good : good_name r_name /\ good_name (b "f").
Proof.
  unfold good_name, no_byte; repeat split; try discriminate; cbn; intros F; repeat destruct F as [F|F]; try discriminate F; try contradiction F.
Qed.
Lemma r_wf : wf_node r_tree.
Proof.
  destruct r_good as (G1 & G2). unfold r_tree. apply Wf_dir.
  - repeat constructor; cbn [map fst In]; intros F; repeat destruct F as [F|F]; try discriminate F; try contradiction F.
  - repeat apply Forall_cons; try apply Forall_nil; assumption.
  - repeat apply Forall_cons; try apply Forall_nil; cbn [snd]; constructor; try lia; constructor.
Qed.
Lemma r_shows : shows r_fs (b "b") r_tree.
Proof.
  eapply Sh_dir; [vm_compute; reflexivity|reflexivity|vm_compute; reflexivity|vm_compute; reflexivity|].
  repeat apply Forall_cons; try apply Forall_nil; cbn [fst snd].
  - eapply Sh_dir; [vm_compute; reflexivity|reflexivity|vm_compute; reflexivity|vm_compute; reflexivity|]. constructor.
  - eapply (Sh_file r_fs _ (st_reg 10)); vm_compute; reflexivity.
Qed.
Ltac r_paths :=
  repeat match goal with
  | H : In _ (_ :: _) |- _ => destruct H as [H|H]
  | H : In _ [] |- _ => destruct H
  | H : (_, _) = (_, _) |- _ => injection H as <- <-
  | H : False |- _ => destruct H
  | H : at_path _ _ _ |- _ => inversion H; clear H; subst
  end.
Lemma r_short : short_paths (b "b") r_tree.
Proof. intros p n H. unfold r_tree in H. r_paths; (split; [vm_compute; discriminate|exact I]). Qed.
Lemma r_tab : tab_free r_tree.
Proof.
  intros p n H. unfold r_tree in H. r_paths; split; auto; unfold no_byte; cbn; intros F; repeat destruct F as [F|F]; try discriminate F; try contradiction.
Qed.
Lemma r_still : forall p n, at_path r_tree p n -> archivable n -> still r_env (b "b") p n.
Proof.
  intros p n H Ha. unfold r_tree in H. r_paths; cbn in Ha; try contradiction; unfold still;
    (do 2 eexists; split; [vm_compute; reflexivity|]; cbn; repeat split; try lia; try discriminate; try reflexivity; try (eexists; split; [vm_compute; reflexivity|vm_compute; reflexivity]); congruence).
Qed.
Lemma r_run okb : okb 0%nat = true -> exists n s, run 1 2 okb n s /\ boss s = BEnd /\ map snd (log s) = [0]%nat.
Proof.
  intros K0. pose proof (run_init 1 2 okb) as H.
  adv H ltac:(eapply (S_first 1 2 okb _ 0)).
  adv H ltac:(eapply (W_recv 1 2 okb _ 1 0 [])).
  adv H ltac:(eapply (S_first_all 1 2 okb _ 1)).
  adv H ltac:(eapply (W_exec 1 2 okb _ 1 0)).
  adv H ltac:(eapply (W_reply 1 2 okb _ 1)).
  adv H ltac:(eapply (S_collect 1 2 okb _ 0 1)).
  adv H ltac:(eapply (S_collect_end 1 2 okb _ 1)).
  eexists _, _. split; [exact H|]. split; reflexivity.
Qed.
Lemma r_jobs : succeeds (jobs r_env a_bucket (b "out") (b "b") r_plan 0) = true.
Proof. vm_compute. reflexivity. Qed.
Lemma r_conc : concretises r_file (assemble (jobs r_env a_bucket (b "out") (b "b") r_plan) [0]%nat).
Proof.
  unfold r_file. set (ar := assemble _ _). assert (H : 0 <= ar_size ar) by (vm_compute; discriminate).
  clearbody ar. unfold concretises. split; [unfold zlen; rewrite map_length, seq_length; lia|].
  intros p x Hp E. assert (Hs : nth_error (seq 0 (Z.to_nat (ar_size ar))) (Z.to_nat p) = Some (Z.to_nat p)).
  { rewrite (nth_error_nth' _ 0%nat) by (rewrite seq_length; lia). f_equal. rewrite seq_nth by lia. lia. }
  erewrite map_nth_error by exact Hs. rewrite Z2Nat.id by lia. rewrite E. reflexivity.
Qed.
Lemma r_bad : tar_list r_file = None.
Proof. vm_compute. reflexivity. Qed.
