(** Property theorems C71 (files whose size changes while archiving) and C72
    (files that cannot be opened, or are gone). *)
From Coq Require Import Permutation.
From Verif Require Import Bytes Outcome TarSpec TarModel TarProofs TarMore Layout LayoutSpec LayoutProofs LayoutMore OrderCodec OrderCodecProofs OrderMore
  Mover MoverSpec MoverProofs MoverMore Worker WorkerProofs Assemble AssembleProofs Boss BossProofs BossMore BossRuns
  Spider SpiderSpec SpiderProofs SpiderMore Program ProgramProofs EndSpec EndProofs EndMore EndRefuted MembersSpec Members DriftSpec Drift DriftProofs
  Samples PropertiesScan PropertiesProgram PropertiesEnd.

(** *** C71.  The scan saw the tree [t]; when the workers copy it, it is [t']:
    files may have grown or shrunk.  Whatever the sizes now are, as long as no
    file needs another number of 512-byte blocks, the archive lists exactly the
    members of the tree as it now is, and each member has the contents of its
    file up to the size the scan saw.
    Partial: the hypotheses of C19, and files stay below 8 GiB and within the
    blocks they had (false otherwise, below). *)
Theorem C71_resized_files_partial : forall fuel fs sort base t t' ev bucket maxo bs path R n s a,
  plan fuel fs sort base bucket maxo = Ok (Some bs) ->
  (forall l, order_files l (sort l)) -> base <> [] -> no_byte NUL base -> is_dir_node t -> wf_node t -> shows fs base t ->
  short_paths base t -> tab_free t -> 100000 <= bucket -> bucket mod 512 = 0 ->
  (forall p n, at_path t p n -> is_dir_node n -> p <> [] -> slash_safe (node_path base p)) ->
  wf_node t' -> drifted t t' ->
  (forall p n, at_path t' p n -> archivable n -> still ev base p n) ->
  (1 <= R)%nat ->
  run (length bs) R (fun o => succeeds (jobs ev bucket path base bs o)) n s -> boss s = BEnd ->
  concretises a (assemble (jobs ev bucket path base bs) (map snd (log s))) ->
  exists ms nodes, tar_list a = Some ms /\
    NoDup (map fst nodes) /\ (forall p n, In (p, n) nodes <-> at_path t' p n /\ archivable n) /\
    Forall2 (fun pn m => exists n m', at_path t (fst pn) n /\ describes ev base (fst pn) (snd pn) m' /\ alike (known n) m m') nodes ms.
Proof.
  intros fuel fs sort base t t' ev bucket maxo bs path R n s a H1 H2 H3 H4 H5 H6 H7 H8 H9 H10 H11 H12 H13 H14 H15 H16 H17 H18 H19.
  destruct (C71_lemma fuel fs sort base t t' ev bucket maxo bs path R n s a H1 H2 H3 H4 H5 H6 H7 H8 H9 H10 H11 H12 H13 H14 H15 H16 H17 H18 H19) as (ms & nodes & A & B & C & D & _).
  exists ms, nodes. auto.
Qed.
Print Assumptions C71_resized_files_partial.

(** when files only shrank, the members are exactly the files as they now are *)
Theorem C71_shrunk_files_partial : forall fuel fs sort base t t' ev bucket maxo bs path R n s a,
  plan fuel fs sort base bucket maxo = Ok (Some bs) ->
  (forall l, order_files l (sort l)) -> base <> [] -> no_byte NUL base -> is_dir_node t -> wf_node t -> shows fs base t ->
  short_paths base t -> tab_free t -> 100000 <= bucket -> bucket mod 512 = 0 ->
  (forall p n, at_path t p n -> is_dir_node n -> p <> [] -> slash_safe (node_path base p)) ->
  wf_node t' -> drifted t t' ->
  (forall p n n', at_path t p n -> at_path t' p n' -> known n' <= known n) ->
  (forall p n, at_path t' p n -> archivable n -> still ev base p n) ->
  (1 <= R)%nat ->
  run (length bs) R (fun o => succeeds (jobs ev bucket path base bs o)) n s -> boss s = BEnd ->
  concretises a (assemble (jobs ev bucket path base bs) (map snd (log s))) ->
  exists ms nodes, tar_list a = Some ms /\
    NoDup (map fst nodes) /\ (forall p n, In (p, n) nodes <-> at_path t' p n /\ archivable n) /\
    Forall2 (fun pn m => describes ev base (fst pn) (snd pn) m) nodes ms.
Proof.
  intros fuel fs sort base t t' ev bucket maxo bs path R n s a H1 H2 H3 H4 H5 H6 H7 H8 H9 H10 H11 H12 H13 H14 Hk H15 H16 H17 H18 H19.
  destruct (C71_lemma fuel fs sort base t t' ev bucket maxo bs path R n s a H1 H2 H3 H4 H5 H6 H7 H8 H9 H10 H11 H12 H13 H14 H15 H16 H17 H18 H19) as (ms & nodes & A & B & C & D & _).
  exists ms, nodes. split; auto. split; auto. split; auto.
  assert (G : forall pn, In pn nodes -> at_path t' (fst pn) (snd pn) /\ archivable (snd pn)) by (intros [p n'] I; apply C; auto).
  clear - D G Hk H15. induction D as [|[p n'] m l l' (n0 & m' & X1 & X2 & X3) D IH]; constructor; [|apply IH; intros; apply G; right; auto].
  cbn [fst snd] in *. destruct (G _ (or_introl eq_refl)) as [A Ar]. cbn [fst snd] in A, Ar. specialize (Hk p n0 n' X1 A).
  assert (Hl : zlen (m_data m') <= known n0).
  { destruct X2 as [X2 _]. destruct n'; cbn in Ar, X2; try contradiction.
    - destruct X2 as (_ & _ & _ & Es & Ed). destruct (H15 p _ A I) as (s & tg & _ & _ & _ & _ & _ & _ & _ & _ & (_ & _ & d & E & L) & _).
      cbn [known] in Hk. assert (m_data m' = d) by congruence. congruence.
    - destruct X2 as (_ & _ & _ & _ & ->). exact Hk.
    - destruct X2 as (_ & _ & _ & _ & ->). exact Hk.
    - destruct X2 as (_ & _ & _ & _ & ->). exact Hk. }
  destruct X3 as (E1 & E2 & E3 & E4 & E5 & E6 & E7 & E8 & E9 & E10 & E11 & E12).
  assert (m = m') as ->; [|exact X2]. unfold zlen in *. rewrite !firstn_all2 in E12 by lia. destruct m, m'; cbn in *; subst; reflexivity.
Qed.
Print Assumptions C71_shrunk_files_partial.

(** the sample tree with base/.hidden at another size *)
Definition d_tree (k : nat) : node := NDir
  [(b ".hidden", NFile (Z.of_nat k));
   (b "dir", NDir [(b "file", NFile 1234); (b "sub", NDir [(b "x", NFile 0)])]);
   (b "lnk", NLink (b "target"));
   (b "locked", NLocked); (b "dev", NOther); (b "odd", NUnreadable)].
Definition d_env (k : nat) : env := {| e_names := a_names;
  e_lstat := fun p => if bytes_eqb p (b "base/.hidden") then Some (st_reg (Z.of_nat k), []) else e_lstat s_env p;
  e_data := fun p => if bytes_eqb p (b "base/.hidden") then Some (repeat "q"%char k) else e_data s_env p |}.
Lemma d_wf k : Z.of_nat k < 2 ^ 63 -> wf_node (d_tree k).
Proof.
  intros Hk. unfold d_tree. apply Wf_dir; [nodup|repeat constructor; cbn [fst]; apply s_good; cbn; tauto|].
  apply Forall_cons; [cbn [snd]; constructor; lia|]. pose proof s_wf as W. unfold s_tree in W. inversion W as [| |? _ _ W'| | |]; subst. inversion W'; auto.
Qed.
Lemma d_still k : (k <= 1000)%nat -> forall p n, at_path (d_tree k) p n -> archivable n -> still (d_env k) (b "base") p n.
Proof.
  intros Hk p n H Ha. destruct (list_eq_dec (list_eq_dec Ascii.ascii_dec) p [b ".hidden"]) as [->|Hp].
  - unfold d_tree in H. inversion H; subst. match goal with H : at_path _ [] _ |- _ => inversion H; subst end. cbn [In] in *. 
    assert (n = NFile (Z.of_nat k)) as -> by (repeat match goal with H : _ \/ _ |- _ => destruct H as [H|H] end; try contradiction; try discriminate; congruence).
    unfold still. exists (st_reg (Z.of_nat k)), []. split; [reflexivity|]. cbn [st_reg st_uid st_gid st_mtime st_size st_kind].
    change (2 ^ 21) with 2097152. change (2 ^ 33) with 8589934592. change (2 ^ 63) with 9223372036854775808. do 5 (split; [lia|]). split; [vm_compute; discriminate|]. split; [vm_compute; discriminate|].
    split; [|auto]. split; [reflexivity|]. split; [reflexivity|]. exists (repeat "q"%char k). split; [reflexivity|]. unfold zlen. rewrite repeat_length. reflexivity.
  - assert (H' : at_path s_tree p n \/ (p = [] /\ n = d_tree k)).
    { unfold d_tree in H. inversion H as [|? nm m q ? Hin Hat]; subst; [auto|]. left. destruct Hin as [E|Hin].
      - exfalso. assert (nm = b ".hidden") by (symmetry; exact (f_equal fst E)). assert (m = NFile (Z.of_nat k)) by (symmetry; exact (f_equal snd E)). subst. inversion Hat; subst. apply Hp. reflexivity.
      - unfold s_tree. eapply At_below; [right; exact Hin|exact Hat]. }
    destruct H' as [H'|[-> ->]].
    + destruct (s_still p n H' Ha) as (s & tg & X). exists s, tg.
      assert (Hne : bytes_eqb (node_path (b "base") p) (b "base/.hidden") = false).
      { destruct (bytes_eqb _ _) eqn:E; auto. exfalso. apply bytes_eqb_spec in E. apply Hp. unfold s_tree in H'. clear - E H'. paths; try discriminate E; reflexivity. }
      unfold d_env. cbn [e_lstat e_data e_names]. rewrite Hne. exact X.
    + exists st_dir, []. vm_compute. repeat split; auto; discriminate.
Qed.
Lemma d_drifted k : (1 <= k <= 512)%nat -> drifted s_tree (d_tree k).
Proof.
  intros Hk. assert (Hn : near (NFile 3) (NFile (Z.of_nat k))).
  { cbn [near]. right. split; [pose proof (up512_bounds 3); pose proof (up512_bounds (Z.of_nat k)); lia|]. unfold MAX_FILE_SIZE. lia. }
  assert (Hr : forall n, near n n \/ exists s, n = NFile s) by (intros []; cbn; eauto).
  assert (Hf : forall s, s <= MAX_FILE_SIZE -> near (NFile s) (NFile s)) by (intros; cbn; auto).
  intros p. split; intros n H.
  - unfold s_tree in H. inversion H as [|? nm m q ? Hin Hat]; subst.
    + exists (d_tree k). split; [constructor|reflexivity].
    + destruct Hin as [E|Hin].
      * assert (nm = b ".hidden") by (symmetry; exact (f_equal fst E)). assert (m = NFile 3) by (symmetry; exact (f_equal snd E)). subst. inversion Hat; subst. exists (NFile (Z.of_nat k)). split; auto. eapply At_below; [left; reflexivity|constructor].
      * exists n. split; [eapply At_below; [right; exact Hin|exact Hat]|]. destruct (Hr n) as [?|(s & ->)]; auto. apply Hf. clear - Hin Hat. paths; try (vm_compute; discriminate).
  - unfold d_tree in H. inversion H as [|? nm m q ? Hin Hat]; subst.
    + exists s_tree. split; [constructor|reflexivity].
    + destruct Hin as [E|Hin].
      * assert (nm = b ".hidden") by (symmetry; exact (f_equal fst E)). assert (m = NFile (Z.of_nat k)) by (symmetry; exact (f_equal snd E)). subst. inversion Hat; subst. exists (NFile 3). split; auto. eapply At_below; [left; reflexivity|constructor].
      * exists n. split; [eapply At_below; [right; exact Hin|exact Hat]|]. destruct (Hr n) as [?|(s & ->)]; auto. apply Hf. clear - Hin Hat. paths; try (vm_compute; discriminate).
Qed.
Lemma d_jobs k : k = 1%nat \/ k = 10%nat \/ k = 600%nat -> forall o, (o < 3)%nat -> succeeds (jobs (d_env k) a_bucket (b "out") (b "base") s_plan3 o) = true.
Proof. intros [-> | [-> | ->]] [|[|[|o]]] H; try lia; vm_compute; reflexivity. Qed.

(** witness: base/.hidden had 3 bytes at the scan and has 10 (or 1) at the copy *)
Example C71_witness : wf_node (d_tree 10) /\ drifted s_tree (d_tree 10) /\ (forall p n, at_path (d_tree 10) p n -> archivable n -> still (d_env 10) (b "base") p n) /\
  drifted s_tree (d_tree 1) /\
  exists n s a, run (length s_plan3) 4 (fun o => succeeds (jobs (d_env 10) a_bucket (b "out") (b "base") s_plan3 o)) n s /\ boss s = BEnd /\
    concretises a (assemble (jobs (d_env 10) a_bucket (b "out") (b "base") s_plan3) (map snd (log s))) /\
    option_map (map (fun m => (m_path m, m_size m, firstn 12 (m_data m)))) (tar_list a) =
      Some [(b "base/", 0, []); (b "base/dir/", 0, []); (b "base/locked/", 0, []); (b "base/dir/sub/", 0, []); (b "base/lnk", 0, []); (b "base/dir/sub/x", 0, []);
            (b "base/.hidden", 10, b "qqq???????"); (b "base/dir/file", 1234, b "zzzzzzzzzzzz")].
Proof.
  split; [apply d_wf; vm_compute; reflexivity|]. split; [apply d_drifted; lia|]. split; [apply d_still; lia|]. split; [apply d_drifted; lia|].
  destruct (run_ascending (fun o => succeeds (jobs (d_env 10) a_bucket (b "out") (b "base") s_plan3 o))) as (n & s & R1 & R2 & R3); try (apply d_jobs; [auto|lia]).
  exists n, s, (fill "?"%char (assemble (jobs (d_env 10) a_bucket (b "out") (b "base") s_plan3) [0; 1; 2]%nat)).
  split; [exact R1|]. split; [exact R2|]. split; [rewrite R3; apply fill_ok; vm_compute; discriminate|]. vm_compute. reflexivity.
Qed.

(** false when a file outgrows its blocks: base/.hidden has 600 bytes when it is
    copied.  The run completes, and the archive cannot be read. *)
Theorem C71_refuted : exists fuel fs sort base t t' ev bucket maxo bs path R n s a,
  plan fuel fs sort base bucket maxo = Ok (Some bs) /\
  (forall l, order_files l (sort l)) /\ base <> [] /\ no_byte NUL base /\ is_dir_node t /\ wf_node t /\ shows fs base t /\
  short_paths base t /\ tab_free t /\ 100000 <= bucket /\ bucket mod 512 = 0 /\
  (forall p n, at_path t p n -> is_dir_node n -> p <> [] -> slash_safe (node_path base p)) /\
  wf_node t' /\
  (forall p n, at_path t' p n -> archivable n -> still ev base p n) /\
  (1 <= R)%nat /\
  run (length bs) R (fun o => succeeds (jobs ev bucket path base bs o)) n s /\ boss s = BEnd /\
  concretises a (assemble (jobs ev bucket path base bs) (map snd (log s))) /\
  t = s_tree /\ t' = d_tree 600 /\ tar_list a = None.
Proof.
  destruct (run_ascending (fun o => succeeds (jobs (d_env 600) a_bucket (b "out") (b "base") s_plan3 o))) as (n & s & R1 & R2 & R3); try (apply d_jobs; [auto|lia]).
  exists 9%nat, s_fs, isort, (b "base"), s_tree, (d_tree 600), (d_env 600), a_bucket, 3, s_plan3, (b "out"), 4%nat, n, s, (fill "?"%char (assemble (jobs (d_env 600) a_bucket (b "out") (b "base") s_plan3) [0; 1; 2]%nat)).
  split; [exact s_plan3_ok|]. split; [exact isort_order_files|]. split; [discriminate|].
  split; [unfold no_byte; cbn; intros F; repeat destruct F as [F|F]; try discriminate F; contradiction|].
  split; [exact I|]. split; [exact s_wf|]. split; [exact s_shows|]. split; [exact s_short|]. split; [exact s_tab|].
  split; [vm_compute; discriminate|]. split; [reflexivity|]. split; [exact s_safe|]. split; [apply d_wf; vm_compute; reflexivity|].
  split; [apply d_still; lia|]. split; [lia|].
  split; [exact R1|]. split; [exact R2|]. split; [rewrite R3; apply fill_ok; vm_compute; discriminate|].
  split; [reflexivity|]. split; [reflexivity|]. vm_compute. reflexivity.
Qed.
Print Assumptions C71_refuted.

(** *** C72.  When the workers copy the tree, some files cannot be opened for
    reading: the archive lists exactly the members of the tree; those whose files
    could be opened are right, the others have the right name, type, size, owner
    ... and contents of the right length.
    Partial: the hypotheses of C19. *)
Theorem C72_unopenable_partial : forall fuel fs sort base t ev ev' bucket maxo bs path R n s a,
  plan fuel fs sort base bucket maxo = Ok (Some bs) ->
  (forall l, order_files l (sort l)) -> base <> [] -> no_byte NUL base -> is_dir_node t -> wf_node t -> shows fs base t ->
  short_paths base t -> tab_free t -> 100000 <= bucket -> bucket mod 512 = 0 ->
  (forall p n, at_path t p n -> is_dir_node n -> p <> [] -> slash_safe (node_path base p)) ->
  hides ev ev' -> (forall p n, at_path t p n -> archivable n -> still ev' base p n) ->
  (1 <= R)%nat ->
  run (length bs) R (fun o => succeeds (jobs ev bucket path base bs o)) n s -> boss s = BEnd ->
  concretises a (assemble (jobs ev bucket path base bs) (map snd (log s))) ->
  exists ms nodes, tar_list a = Some ms /\ NoDup (map fst nodes) /\
    (forall p n, In (p, n) nodes <-> at_path t p n /\ archivable n) /\
    Forall2 (fun pn m => (closed ev base (fst pn) (snd pn) /\ exists m', describes ev' base (fst pn) (snd pn) m' /\ alike 0 m m') \/
                         (~ closed ev base (fst pn) (snd pn) /\ describes ev' base (fst pn) (snd pn) m)) nodes ms.
Proof. exact C72_lemma. Qed.
Print Assumptions C72_unopenable_partial.

(** the sample, base/.hidden cannot be opened *)
Definition u_env : env := {| e_names := a_names; e_lstat := e_lstat s_env;
  e_data := fun p => if bytes_eqb p (b "base/.hidden") then None else e_data s_env p |}.
Lemma u_hides : hides u_env s_env.
Proof. split; [reflexivity|]. split; [reflexivity|]. intros q. cbn [u_env e_data]. destruct (bytes_eqb q (b "base/.hidden")); auto. Qed.
Lemma u_jobs : forall o, (o < 3)%nat -> succeeds (jobs u_env a_bucket (b "out") (b "base") s_plan3 o) = true.
Proof. intros [|[|[|o]]] H; try lia; vm_compute; reflexivity. Qed.
Definition u_listing (a : bytes) : option (list (bytes * Z * bytes)) := option_map (map (fun m => (m_path m, m_size m, firstn 4 (m_data m)))) (tar_list a).

(** the run ends as if nothing had happened, and what the archive holds as the
    contents of the file is whatever the memory held: two archives the same
    run may leave.  (The first of them also witnesses C72_unopenable_partial.) *)
Theorem C72_refuted : exists n s a a',
  hides u_env s_env /\ closed u_env (b "base") [b ".hidden"] (NFile 3) /\
  plan 9 s_fs isort (b "base") a_bucket 3 = Ok (Some s_plan3) /\
  run (length s_plan3) 4 (fun o => succeeds (jobs u_env a_bucket (b "out") (b "base") s_plan3 o)) n s /\ boss s = BEnd /\
  concretises a (assemble (jobs u_env a_bucket (b "out") (b "base") s_plan3) (map snd (log s))) /\
  concretises a' (assemble (jobs u_env a_bucket (b "out") (b "base") s_plan3) (map snd (log s))) /\
  u_listing a = Some [(b "base/", 0, []); (b "base/dir/", 0, []); (b "base/locked/", 0, []); (b "base/dir/sub/", 0, []); (b "base/lnk", 0, []); (b "base/dir/sub/x", 0, []);
            (b "base/.hidden", 3, b "???"); (b "base/dir/file", 1234, b "zzzz")] /\
  u_listing a' = Some [(b "base/", 0, []); (b "base/dir/", 0, []); (b "base/locked/", 0, []); (b "base/dir/sub/", 0, []); (b "base/lnk", 0, []); (b "base/dir/sub/x", 0, []);
            (b "base/.hidden", 3, b "!!!"); (b "base/dir/file", 1234, b "zzzz")].
Proof.
  destruct (run_ascending (fun o => succeeds (jobs u_env a_bucket (b "out") (b "base") s_plan3 o))) as (n & s & R1 & R2 & R3); try (apply u_jobs; lia).
  exists n, s, (fill "?"%char (assemble (jobs u_env a_bucket (b "out") (b "base") s_plan3) [0; 1; 2]%nat)), (fill "!"%char (assemble (jobs u_env a_bucket (b "out") (b "base") s_plan3) [0; 1; 2]%nat)).
  split; [exact u_hides|]. split; [vm_compute; reflexivity|]. split; [exact s_plan3_ok|]. split; [exact R1|]. split; [exact R2|].
  rewrite R3. split; [apply fill_ok; vm_compute; discriminate|]. split; [apply fill_ok; vm_compute; discriminate|]. split; vm_compute; reflexivity.
Qed.
Print Assumptions C72_refuted.

(** if a file, link or directory is gone when the workers get to it, no run of
    any number of ranks, under any schedule, ever ends *)
Theorem C72_gone_refuted : forall fuel fs sort base t ev bucket maxo bs path R n s p nd,
  plan fuel fs sort base bucket maxo = Ok (Some bs) ->
  (forall l, order_files l (sort l)) -> base <> [] -> is_dir_node t -> wf_node t -> shows fs base t ->
  short_paths base t -> tab_free t -> 100000 <= bucket -> bucket mod 512 = 0 ->
  at_path t p nd -> archivable nd -> e_lstat ev (node_path base p) = None ->
  (1 <= R)%nat ->
  run (length bs) R (fun o => succeeds (jobs ev bucket path base bs o)) n s -> boss s <> BEnd.
Proof. exact gone_hangs. Qed.
Print Assumptions C72_gone_refuted.
Example C72_gone_witness : at_path s_tree [b "dir"; b "file"] (NFile 1234) /\
  e_lstat {| e_names := a_names; e_lstat := fun p => if bytes_eqb p (b "base/dir/file") then None else e_lstat s_env p; e_data := e_data s_env |} (node_path (b "base") [b "dir"; b "file"]) = None.
Proof. split; [|vm_compute; reflexivity]. eapply At_below; [right; left; reflexivity|]. eapply At_below; [left; reflexivity|constructor]. Qed.
