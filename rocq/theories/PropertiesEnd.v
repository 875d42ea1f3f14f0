(** Property theorems C19 and C33 (the whole archive). *)
From Coq Require Import Permutation.
From Verif Require Import Bytes Outcome TarSpec TarModel TarProofs TarMore Layout LayoutSpec LayoutProofs LayoutMore OrderCodec OrderCodecProofs OrderMore
  Mover MoverSpec MoverProofs MoverMore Worker WorkerProofs Assemble AssembleProofs Boss BossProofs BossMore BossRuns
  Spider SpiderSpec SpiderProofs SpiderMore Program ProgramProofs EndSpec EndProofs EndMore EndRefuted Samples PropertiesScan PropertiesProgram.

(** *** C19.  [plan]: what rank 0 computes from the scan of the tree [t] shown
    at [base]; the file system the workers meet still shows the tree; any
    number of ranks, any completed run; [a] is any byte string the archive file
    can be (C18: some padding bytes are undefined).
    Partial: no tabs in names, paths up to 40000 bytes, metadata in the range
    of C03, directory paths of [slash_safe] length, and the run completes (see
    C13, C16, C22 for when it does not). *)
Theorem C19_end_to_end_partial : forall fuel fs sort base t ev bucket maxo bs path R n s a,
  plan fuel fs sort base bucket maxo = Ok (Some bs) ->
  (forall l, order_files l (sort l)) -> base <> [] -> no_byte NUL base -> is_dir_node t -> wf_node t -> shows fs base t ->
  short_paths base t -> tab_free t -> 100000 <= bucket -> bucket mod 512 = 0 ->
  (forall p n, at_path t p n -> archivable n -> still ev base p n) ->
  (forall p n, at_path t p n -> is_dir_node n -> p <> [] -> slash_safe (node_path base p)) ->
  (1 <= R)%nat ->
  run (length bs) R (fun o => succeeds (jobs ev bucket path base bs o)) n s -> boss s = BEnd ->
  concretises a (assemble (jobs ev bucket path base bs) (map snd (log s))) ->
  exists ms nodes, tar_list a = Some ms /\
    (* [nodes] are the files, links and directories of the tree, each once *)
    NoDup (map fst nodes) /\ (forall p n, In (p, n) nodes <-> at_path t p n /\ archivable n) /\
    (* and the members the reader lists are exactly these *)
    Forall2 (fun pn m => describes ev base (fst pn) (snd pn) m) nodes ms.
Proof. exact C19_lemma. Qed.
Print Assumptions C19_end_to_end_partial.

(** which directory paths are safe *)
Theorem C19_slash_safe : forall p, zlen p < 100 -> slash_safe p.
Proof.
  intros p H. unfold slash_safe, compute_hdr_size. rewrite !hdr_size_short; auto; unfold need_path, need_link, need_size, is_reg; cbn [te_file te_link te_stat st_kind st_size];
    rewrite ?zlen_app; change (zlen [SLASH]) with 1; change (zlen (@nil byte)) with 0; lia.
Qed.
Print Assumptions C19_slash_safe.

Theorem C19_slash_safe_long : forall p, no_byte NUL p -> 101 <= zlen p <= 501 -> slash_safe p.
Proof. exact slash_safe_long. Qed.
Print Assumptions C19_slash_safe_long.

(** C07, exactly: the plan agrees with the header written iff the entry is not a
    directory, or its name carries the slash already, or the slash does not
    change the header size. *)
Theorem C07_planned_header_exact : forall nm lstat fn off e h s target,
  lstat fn = Some (s, target) -> new_tarentry lstat fn off = Ok e -> make_tar_header nm e = Ok h ->
  (compute_hdr_size fn (match st_kind s with KLnk => cstr target | _ => [] end)
                       (match st_kind s with KReg => st_size s | _ => 0 end) = Ok (zlen h)
   <-> (st_kind s = KDir -> ends_with_slash fn = false -> slash_safe fn)).
Proof.
  intros nm lstat fn off e h s target H1 H2 H3. pose proof (header_exact nm lstat fn off e h s target H1 H2 H3) as X.
  destruct (st_kind s); try (split; [discriminate|intros _; exact X]).
  unfold slash_safe. destruct (ends_with_slash fn); (split; [intros Y; try discriminate; intros _ _; congruence|intros Y; try exact X]).
  rewrite Y by reflexivity. exact X.
Qed.
Print Assumptions C07_planned_header_exact.

Definition fill (c : byte) (ar : archive) : bytes :=
  map (fun k => match ar_cell ar (Z.of_nat k) with Byte x => x | Undef => c end) (seq 0 (Z.to_nat (ar_size ar))).
Lemma fill_ok c ar : 0 <= ar_size ar -> concretises (fill c ar) ar.
Proof.
  intros H. unfold concretises, fill. split; [unfold zlen; rewrite map_length, seq_length; lia|].
  intros p x Hp E. assert (Hs : nth_error (seq 0 (Z.to_nat (ar_size ar))) (Z.to_nat p) = Some (Z.to_nat p)).
  { rewrite (nth_error_nth' _ 0%nat) by (rewrite seq_length; lia). f_equal. rewrite seq_nth by lia. lia. }
  erewrite map_nth_error by exact Hs. rewrite Z2Nat.id by lia. rewrite E. reflexivity.
Qed.

(** witness: the sample tree, three bundles, three workers, two schedules *)
Definition s_env : env := {| e_names := a_names;
  e_lstat := fun p => if bytes_eqb p (b "base/") then Some (st_dir, []) else s_lstat p;
  e_data := fun p => if bytes_eqb p (b "base/.hidden") then Some (b "abc") else if bytes_eqb p (b "base/dir/file") then Some (repeat "z"%char 1234)
                     else if bytes_eqb p (b "base/dir/sub/x") then Some [] else None |}.
Ltac paths :=
  repeat match goal with
  | H : In _ (_ :: _) |- _ => destruct H as [H|H]
  | H : In _ [] |- _ => destruct H
  | H : (_, _) = (_, _) |- _ => injection H as <- <-
  | H : False |- _ => destruct H
  | H : at_path _ _ _ |- _ => inversion H; clear H; subst
  end.
Example s_still : forall p n, at_path s_tree p n -> archivable n -> still s_env (b "base") p n.
Proof.
  intros p n H Ha. unfold s_tree in H. paths; cbn in Ha; try contradiction; unfold still;
    (do 2 eexists; split; [vm_compute; reflexivity|]; cbn; repeat split; try lia; try discriminate; try reflexivity; try (eexists; split; [vm_compute; reflexivity|vm_compute; reflexivity]); congruence).
Qed.
Example s_tab : tab_free s_tree.
Proof.
  intros p n H. unfold s_tree in H. paths; split; auto; unfold no_byte; cbn; intros F; repeat destruct F as [F|F]; try discriminate F; try contradiction.
Qed.
Example s_safe : forall p n, at_path s_tree p n -> is_dir_node n -> p <> [] -> slash_safe (node_path (b "base") p).
Proof. intros p n H _ _. apply C19_slash_safe. unfold s_tree in H. paths; vm_compute; reflexivity. Qed.

Definition s_plan3 : list (list order) :=
  match plan 9 s_fs isort (b "base") a_bucket 3 with Ok (Some bs) => bs | _ => [] end.
Lemma s_plan3_ok : plan 9 s_fs isort (b "base") a_bucket 3 = Ok (Some s_plan3).
Proof. vm_compute. reflexivity. Qed.
Example s_succeeds : forall o, (o < 3)%nat -> succeeds (jobs s_env a_bucket (b "out") (b "base") s_plan3 o) = true.
Proof. intros [|[|[|o]]] H; try lia; vm_compute; reflexivity. Qed.
Example C19_witness : exists n s n' s' a,
  run (length s_plan3) 4 (fun o => succeeds (jobs s_env a_bucket (b "out") (b "base") s_plan3 o)) n s /\ boss s = BEnd /\ map snd (log s) = [0; 1; 2]%nat /\
  run (length s_plan3) 4 (fun o => succeeds (jobs s_env a_bucket (b "out") (b "base") s_plan3 o)) n' s' /\ boss s' = BEnd /\ map snd (log s') = [2; 1; 0]%nat /\
  concretises a (assemble (jobs s_env a_bucket (b "out") (b "base") s_plan3) (map snd (log s))) /\
  option_map (map (fun m => (m_path m, m_size m))) (tar_list a) =
    Some [(b "base/", 0); (b "base/dir/", 0); (b "base/locked/", 0); (b "base/dir/sub/", 0); (b "base/lnk", 0); (b "base/dir/sub/x", 0); (b "base/.hidden", 3); (b "base/dir/file", 1234)].
Proof.
  destruct (run_ascending (fun o => succeeds (jobs s_env a_bucket (b "out") (b "base") s_plan3 o))) as (n & s & R1 & R2 & R3); try (apply s_succeeds; lia).
  destruct (run_descending (fun o => succeeds (jobs s_env a_bucket (b "out") (b "base") s_plan3 o))) as (n' & s' & R1' & R2' & R3'); try (apply s_succeeds; lia).
  exists n, s, n', s', (fill "?"%char (assemble (jobs s_env a_bucket (b "out") (b "base") s_plan3) [0; 1; 2]%nat)).
  split; [exact R1|]. split; [exact R2|]. split; [exact R3|]. split; [exact R1'|]. split; [exact R2'|]. split; [exact R3'|].
  split; [rewrite R3; apply fill_ok; vm_compute; discriminate|]. vm_compute. reflexivity.
Qed.

(** false without [slash_safe]: a directory path of exactly 100 bytes, one file,
    one worker.  The planner reserves one block for the directory's header, the
    worker writes three, and the file's header lands inside them. *)
Theorem C19_refuted : exists fuel fs sort base t ev bucket maxo bs path R n s a,
  plan fuel fs sort base bucket maxo = Ok (Some bs) /\
  (forall l, order_files l (sort l)) /\ base <> [] /\ no_byte NUL base /\ is_dir_node t /\ wf_node t /\ shows fs base t /\
  short_paths base t /\ tab_free t /\ 100000 <= bucket /\ bucket mod 512 = 0 /\
  (forall p n, at_path t p n -> archivable n -> still ev base p n) /\ (1 <= R)%nat /\
  run (length bs) R (fun o => succeeds (jobs ev bucket path base bs o)) n s /\ boss s = BEnd /\
  concretises a (assemble (jobs ev bucket path base bs) (map snd (log s))) /\
  tar_list a = None.
Proof.
  destruct (r_run (fun o => succeeds (jobs r_env a_bucket (b "out") (b "b") r_plan o)) r_jobs) as (n & s & R1 & R2 & R3).
  exists 9%nat, r_fs, isort, (b "b"), r_tree, r_env, a_bucket, 3, r_plan, (b "out"), 2%nat, n, s, r_file.
  split; [exact r_plan_ok|]. split; [exact isort_order_files|]. split; [discriminate|].
  split; [unfold no_byte; cbn; intros [F|F]; [discriminate F|contradiction]|].
  split; [exact I|]. split; [exact r_wf|]. split; [exact r_shows|]. split; [exact r_short|]. split; [exact r_tab|].
  split; [vm_compute; discriminate|]. split; [reflexivity|]. split; [exact r_still|]. split; [lia|].
  split; [exact R1|]. split; [exact R2|]. split; [rewrite R3; exact r_conc|]. exact r_bad.
Qed.
Print Assumptions C19_refuted.

(** *** C33: false of every archive: it ends with the padding of its last entry,
    less than one block after the entry's last byte. *)
Theorem C33_refuted : forall fuel fs sort base t ev bucket maxo bs path R n s,
  plan fuel fs sort base bucket maxo = Ok (Some bs) ->
  (forall l, order_files l (sort l)) -> base <> [] -> no_byte NUL base -> is_dir_node t -> wf_node t -> shows fs base t ->
  short_paths base t -> tab_free t -> 100000 <= bucket -> bucket mod 512 = 0 ->
  (forall p n, at_path t p n -> archivable n -> still ev base p n) ->
  (forall p n, at_path t p n -> is_dir_node n -> p <> [] -> slash_safe (node_path base p)) ->
  (1 <= R)%nat ->
  run (length bs) R (fun o => succeeds (jobs ev bucket path base bs o)) n s -> boss s = BEnd ->
  exists dirs files d f e off l', scan fuel fs base = Ok (dirs, files) /\ set_offsets dirs (sort files) = (d, f) /\ d ++ f = l' ++ [(e, off)] /\
    let size := ar_size (assemble (jobs ev bucket path base bs) (map snd (log s))) in
    off + en_hdr e + en_size e <= size < off + en_hdr e + en_size e + 512.
Proof.
  intros fuel fs sort base t ev bucket maxo bs path R n s H1 H2 H3 H4 H5 H6 H7 H8 H9 H10 H11 H12 H13 H14 H15 H16.
  destruct (C33_lemma fuel fs sort base t ev bucket maxo bs path R n s H1 H2 H3 H4 H5 H6 H7 H8 H9 H10 H11 H12 H13 H14 H15 H16) as (dirs & files & d & f & e & off & l' & A & B & C & D).
  exists dirs, files, d, f, e, off, l'. split; auto. split; auto. split; auto. cbv zeta. rewrite D. pose proof (up512_bounds (off + en_hdr e + en_size e)). lia.
Qed.
Print Assumptions C33_refuted.
