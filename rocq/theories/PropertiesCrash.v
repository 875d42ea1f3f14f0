(** Property theorems C52 (crash points). *)
From Coq Require Import Permutation.
From Verif Require Import Bytes Outcome TarModel Layout LayoutSpec LayoutProofs LayoutMore OrderCodec OrderCodecProofs OrderMore
  Mover MoverSpec MoverProofs MoverMore Worker WorkerProofs Assemble AssembleProofs Boss BossProofs BossMore BossRuns
  EndSpec EndProofs CrashSpec Crash Samples PropertiesMover PropertiesBoss.

(** *** C52.  [s] is any state of any run, for any number of ranks: the moment
    the program is stopped.  [going]: (some of) the orders whose write is being
    made at that moment.  Every byte on disk is zero (never written) or the byte
    the layout wants there; every byte of a bundle whose write returned is there.
    Partial: no tabs in names, no file changed since the scan. *)
Theorem C52_crash_partial : forall ev path base idx bucket maxo dirs files d f bs R n s going disk,
  plannable bucket dirs files -> set_offsets dirs files = (d, f) ->
  create_transfer_orders idx bucket maxo d f = Ok (Some bs) ->
  Forall plain (dirs ++ files) -> INT_MIN <= idx <= INT_MAX ->
  Forall (unchanged ev base) (dirs ++ files) -> (1 <= R)%nat ->
  run (length bs) R (fun o => succeeds (jobs ev bucket path base bs o)) n s ->
  (forall o, In o going -> exists r, work s r = WBusy o) ->
  crash_image (jobs ev bucket path base bs) (map snd (log s)) going disk ->
  exists z, laid 0 (d ++ f) z /\
  ar_size disk <= z /\
  (forall p c l, layout_at (d ++ f) p = c :: l -> ar_cell disk p = Byte NUL \/ exists x, meant ev base c = Some x /\ ar_cell disk p = Byte x) /\
  (forall o B p, In o (map snd (log s)) -> nth_error bs o = Some B -> bundle_start B <= p < bundle_end B ->
     forall c l, layout_at (d ++ f) p = c :: l -> exists x, meant ev base c = Some x /\ ar_cell disk p = Byte x).
Proof.
  intros ev path base idx bucket maxo dirs files d f bs R n s going disk H1 H2 H3 H4 H5 H6 H7 H8 H9 H10.
  exact (crash_lemma ev path base idx bucket maxo dirs files d f bs R n s disk H1 H2 H3 H4 H5 H6 H7 H8 going H9 H10).
Qed.
Print Assumptions C52_crash_partial.

(** a moment with one bundle written, one being written and one not begun *)
Lemma run_middle okb : okb 0%nat = true -> okb 1%nat = true ->
  exists n s, run 3 4 okb n s /\ map snd (log s) = [1%nat] /\ work s 1%nat = WBusy 0.
Proof.
  intros K0 K1. pose proof (run_init 3 4 okb) as H.
  adv H ltac:(eapply (S_first 3 4 okb _ 0)).
  adv H ltac:(eapply (W_recv 3 4 okb _ 1 0 [])).
  adv H ltac:(eapply (S_first 3 4 okb _ 1)).
  adv H ltac:(eapply (W_recv 3 4 okb _ 2 1 [])).
  adv H ltac:(eapply (W_exec 3 4 okb _ 2 1)).
  eexists _, _. split; [exact H|]. split; reflexivity.
Qed.
(** of bundle 0 the first 100 bytes arrived *)
Definition torn_disk : archive :=
  {| ar_size := ar_size (assemble (jobs t_env a_bucket (b "arch") (b "base") t_bundles) [1%nat]);
     ar_cell := fun p => if (0 <=? p) && (p <? 100)
                         then match jobs t_env a_bucket (b "arch") (b "base") t_bundles 0 with Some x => w_mem x p | None => Undef end
                         else ar_cell (assemble (jobs t_env a_bucket (b "arch") (b "base") t_bundles) [1%nat]) p |}.
Lemma t_place : option_map (fun x => (w_pos x, 100 <=? w_len x)) (jobs t_env a_bucket (b "arch") (b "base") t_bundles 0) = Some (0, true).
Proof. vm_compute. reflexivity. Qed.
Lemma torn_gen w x : w 0%nat = Some x -> w_pos x = 0 -> 100 <= w_len x ->
  crash_image w [1%nat] [0%nat] {| ar_size := ar_size (assemble w [1%nat]);
     ar_cell := fun p => if (0 <=? p) && (p <? 100) then match w 0%nat with Some x => w_mem x p | None => Undef end
                         else ar_cell (assemble w [1%nat]) p |}.
Proof.
  intros E P L. split; [left; cbn; lia|]. intros p. cbn [ar_cell].
  destruct (Z.leb_spec 0 p), (Z.ltb_spec p 100); cbn [andb]; auto. right. exists 0%nat, x.
  split; [left; auto|]. split; auto. split; [lia|]. rewrite E, P, Z.sub_0_r. reflexivity.
Qed.
Example C52_witness : exists d f n s,
  plannable a_bucket a_dirs (firstn 3 a_files) /\ set_offsets a_dirs (firstn 3 a_files) = (d, f) /\
  create_transfer_orders 0 a_bucket 2 d f = Ok (Some t_bundles) /\ Forall plain (a_dirs ++ firstn 3 a_files) /\
  Forall (unchanged t_env (b "base")) (a_dirs ++ firstn 3 a_files) /\
  run (length t_bundles) 4 (fun o => succeeds (jobs t_env a_bucket (b "arch") (b "base") t_bundles o)) n s /\ map snd (log s) = [1%nat] /\
  (forall o, In o [0%nat] -> exists r, work s r = WBusy o) /\
  crash_image (jobs t_env a_bucket (b "arch") (b "base") t_bundles) (map snd (log s)) [0%nat] torn_disk /\
  (* byte 4 of the file, the end of the name in the first header; and byte 500 *)
  ar_cell torn_disk 4 = Byte "/"%char /\ ar_cell torn_disk 500 = Byte NUL.
Proof.
  assert (K0 : succeeds (jobs t_env a_bucket (b "arch") (b "base") t_bundles 0) = true) by (vm_compute; reflexivity).
  assert (K1 : succeeds (jobs t_env a_bucket (b "arch") (b "base") t_bundles 1) = true) by (vm_compute; reflexivity).
  destruct (run_middle (fun o => succeeds (jobs t_env a_bucket (b "arch") (b "base") t_bundles o)) K0 K1) as (n & s & R1 & R2 & R3).
  destruct (set_offsets a_dirs (firstn 3 a_files)) as [d f] eqn:Es.
  exists d, f, n, s. split.
  { unfold plannable. split; [vm_compute; discriminate|]. split; [vm_compute; reflexivity|]. split; [discriminate|].
    split; repeat constructor; vm_compute; try reflexivity; discriminate. }
  split; auto. split. { unfold t_bundles. rewrite Es. vm_compute in Es. injection Es as <- <-. vm_compute. reflexivity. }
  split. { repeat constructor; vm_compute; intuition discriminate. }
  split.
  { unfold a_dirs, a_files. cbn [app firstn].
    repeat (apply Forall_cons; [split; [eexists; split; vm_compute; reflexivity|
      first [left; vm_compute; reflexivity | right; eexists; split; [vm_compute; reflexivity|vm_compute; discriminate]]]|]). apply Forall_nil. }
  split; [exact R1|]. split; [exact R2|]. split; [intros o [<-|[]]; exists 1%nat; exact R3|].
  split.
  { rewrite R2. pose proof t_place as T. destruct (jobs t_env a_bucket (b "arch") (b "base") t_bundles 0) as [x|] eqn:Ej; [|discriminate T].
    cbn [option_map] in T. assert (w_pos x = 0) by congruence. assert ((100 <=? w_len x) = true) by congruence.
    pose proof (torn_gen _ x Ej H ltac:(lia)) as G. exact G. }
  split; vm_compute; reflexivity.
Qed.

(** false with a tab in a file name: a byte of the first header is overwritten
    with a byte of another file's header *)
Theorem C52_refuted : exists ev base path dirs files d f bs R n s disk p c l x,
  plannable a_bucket dirs files /\ Forall (unchanged ev base) (dirs ++ files) /\
  set_offsets dirs files = (d, f) /\ create_transfer_orders 0 a_bucket 1 d f = Ok (Some bs) /\
  run (length bs) R (fun o => succeeds (jobs ev a_bucket path base bs o)) n s /\
  crash_image (jobs ev a_bucket path base bs) (map snd (log s)) [] disk /\
  layout_at (d ++ f) p = c :: l /\ ar_cell disk p = Byte x /\ x <> NUL /\ meant ev base c <> Some x.
Proof.
  assert (K0 : succeeds (jobs evil_env a_bucket (b "arch") (b "base") evil_bundles 0) = true) by (vm_compute; reflexivity).
  assert (K1 : succeeds (jobs evil_env a_bucket (b "arch") (b "base") evil_bundles 1) = true) by (vm_compute; reflexivity).
  assert (K2 : succeeds (jobs evil_env a_bucket (b "arch") (b "base") evil_bundles 2) = true) by (vm_compute; reflexivity).
  destruct (run_ascending (fun o => succeeds (jobs evil_env a_bucket (b "arch") (b "base") evil_bundles o)) K0 K1 K2) as (n & s & R1 & E1 & L1).
  exists evil_env, (b "base"), (b "arch"), evil_dirs, evil_files, (fst (set_offsets evil_dirs evil_files)), (snd (set_offsets evil_dirs evil_files)), evil_bundles, 4%nat, n, s.
  exists (assemble (jobs evil_env a_bucket (b "arch") (b "base") evil_bundles) (map snd (log s))), 5.
  eexists _, _, _.
  split. { unfold plannable. split; [vm_compute; discriminate|]. split; [vm_compute; reflexivity|]. split; [discriminate|].
    split; repeat constructor; vm_compute; try reflexivity; discriminate. }
  split; [exact evil_unchanged|]. split; [vm_compute; reflexivity|]. split; [vm_compute; reflexivity|]. split; [exact R1|].
  split; [split; [left; lia|intros p; left; reflexivity]|]. rewrite L1.
  split; [vm_compute; reflexivity|]. split; [vm_compute; reflexivity|]. split; vm_compute; discriminate.
Qed.
Print Assumptions C52_refuted.
