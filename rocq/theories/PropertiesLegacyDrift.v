(** Property theorem C89 (the 0.5.1 program, files whose size changes between
    the listing and the copying). *)
From Coq Require Import Permutation Sorted Lia.
From Verif Require Import Bytes Outcome TarSpec TarModel TarProofs Layout Mover MoverSpec Worker Boss Spider SpiderSpec SpiderProofs Program EndSpec EndProofs EndMore LayoutSpec LayoutProofs MembersSpec DriftSpec Samples
  Legacy LegacyProofs LegacyLayout LegacySpec LegacyScan LegacyScanProofs LegacyCodec LegacyCodecProofs LegacyWrite LegacyEndSpec LegacyDriftSpec LegacyWalk LegacyEnd LegacyRun LegacyCreate
  PropertiesScan PropertiesEnd PropertiesLegacyScan LegacyTreeSpec LegacyCreateProofs LegacyTotal LegacyBridge PropertiesLegacyEnd TargetSpec Target Mpi LegacyMpi LegacyMpiSpec LegacyMpiProofs LegacyMpiMore LegacyMpiEnd LegacyMpiWhole LegacyMpiRun LegacyMpiTree
  LegacyDrift LegacyDriftBad PropertiesLegacyMpi.

(** *** C89.  The listing saw the tree [t]; when the ranks copy it, it is [t'].
    Whatever the sizes now are (within [manageable]), every run ends with 0 on every
    rank: the program does not notice *)
Theorem C89_unnoticed_partial : forall M R fs sort clock ev opens rest arc top more t t' nodes,
  (1 <= R)%nat -> Forall (no_byte NUL) (("C"%char :: rest) :: arc :: top :: more) -> arc <> [] -> opens arc = true ->
  (forall l, Permutation l (sort l) /\ StronglySorted (fun x y => compare_entries x y <= 0) (sort l)) ->
  top <> [] -> ends_with_slash top = false -> no_byte TAB top -> wf_node t -> is_dir_node t -> shows fs top t -> tab_free t ->
  manageable top t -> names_to M top t -> (forall p, Forall PropertiesLegacyScan.plain p -> ~ at_path t p NLocked) ->
  NoDup (map fst nodes) -> (forall p n, In (p, n) nodes <-> reached t p n) -> few_enough M nodes ->
  wf_node t' -> manageable top t' -> resized t t' -> (forall p n, reached t' p n -> still ev top p n) ->
  exists f0, forall fuel, (f0 <= fuel)%nat -> forall n s, lrun R opens (lmain R fuel fs sort clock ev (("C"%char :: rest) :: arc :: top :: more)) n s ->
    exists s', lleads R opens s s' /\ all_zero R s'.
Proof.
  intros M R fs sort clock ev opens rest arc top more t t' nodes A1 A2 A3 A4 A5 A6 A7 A8 A9 A10 A11 A12 A13 A14 A15 A16 A17 A18 A19 A20 A21 A22.
  destruct (resized_whole M R fs sort clock ev opens rest arc top more t t' nodes (fun _ => None) A1 A2 A3 A4 A5 A6 A7 A8 A9 A10 A11 A12 A13 A14 A15 A16 A17 A18 A19 A20 A21 A22) as (f0 & A).
  exists f0. intros fuel Hf. destruct (A fuel Hf) as (B & _). exact B.
Qed.
Print Assumptions C89_unnoticed_partial.

(** as long as no file needs another number of 512-byte blocks, the archive
    lists exactly the members of the tree as it now is, each with the contents of
    its file up to the size listed *)
Theorem C89_resized_files_partial : forall M R fs sort clock ev opens rest arc top more t t' nodes dk,
  (1 <= R)%nat -> Forall (no_byte NUL) (("C"%char :: rest) :: arc :: top :: more) -> arc <> [] -> opens arc = true ->
  (forall l, Permutation l (sort l) /\ StronglySorted (fun x y => compare_entries x y <= 0) (sort l)) ->
  top <> [] -> ends_with_slash top = false -> no_byte TAB top -> wf_node t -> is_dir_node t -> shows fs top t -> tab_free t ->
  manageable top t -> names_to M top t -> (forall p, Forall PropertiesLegacyScan.plain p -> ~ at_path t p NLocked) ->
  NoDup (map fst nodes) -> (forall p n, In (p, n) nodes <-> reached t p n) -> few_enough M nodes ->
  wf_node t' -> manageable top t' -> drifted t t' -> (forall p n, reached t' p n -> still ev top p n) ->
  exists f0, forall fuel, (f0 <= fuel)%nat -> let p := lmain R fuel fs sort clock ev (("C"%char :: rest) :: arc :: top :: more) in
  (forall n s, lrun R opens p n s -> exists s', lleads R opens s s' /\ all_zero R s') /\
  (forall n s r, lrun R opens p n s -> (r < R)%nat -> l_prog s r = LReturn 0 -> exists ar cat, disk_after dk (l_log s) arc = Some ar /\
     zlen cat <= (M + 167) * zlen nodes + 55 /\ ((1024 + zlen cat) mod L_BUCKET <> 0 -> forall a, concretises a ar ->
     exists mc ms nodes', tar_list a = Some (mc :: ms) /\ is_catalog cat mc /\ NoDup (map fst nodes') /\ (forall q m, In (q, m) nodes' <-> reached t' q m) /\
       interspersed (fun pn m => exists n m', at_path t (fst pn) n /\ describes ev top (fst pn) (snd pn) m' /\ alike (known n) m m') is_spacer nodes' ms)).
Proof. exact drift_whole. Qed.
Print Assumptions C89_resized_files_partial.

(** when files only shrank, the members are exactly the files as they now are *)
Theorem C89_shrunk_files_partial : forall M R fs sort clock ev opens rest arc top more t t' nodes dk,
  (1 <= R)%nat -> Forall (no_byte NUL) (("C"%char :: rest) :: arc :: top :: more) -> arc <> [] -> opens arc = true ->
  (forall l, Permutation l (sort l) /\ StronglySorted (fun x y => compare_entries x y <= 0) (sort l)) ->
  top <> [] -> ends_with_slash top = false -> no_byte TAB top -> wf_node t -> is_dir_node t -> shows fs top t -> tab_free t ->
  manageable top t -> names_to M top t -> (forall p, Forall PropertiesLegacyScan.plain p -> ~ at_path t p NLocked) ->
  NoDup (map fst nodes) -> (forall p n, In (p, n) nodes <-> reached t p n) -> few_enough M nodes ->
  wf_node t' -> manageable top t' -> drifted t t' -> (forall p n n', at_path t p n -> at_path t' p n' -> known n' <= known n) -> (forall p n, reached t' p n -> still ev top p n) ->
  exists f0, forall fuel, (f0 <= fuel)%nat -> let p := lmain R fuel fs sort clock ev (("C"%char :: rest) :: arc :: top :: more) in
  (forall n s r, lrun R opens p n s -> (r < R)%nat -> l_prog s r = LReturn 0 -> exists ar cat, disk_after dk (l_log s) arc = Some ar /\
     zlen cat <= (M + 167) * zlen nodes + 55 /\ ((1024 + zlen cat) mod L_BUCKET <> 0 -> forall a, concretises a ar ->
     exists mc ms nodes', tar_list a = Some (mc :: ms) /\ is_catalog cat mc /\ NoDup (map fst nodes') /\ (forall q m, In (q, m) nodes' <-> reached t' q m) /\
       interspersed (fun pn m => describes ev top (fst pn) (snd pn) m) is_spacer nodes' ms)).
Proof.
  intros M R fs sort clock ev opens rest arc top more t t' nodes dk A1 A2 A3 A4 A5 A6 A7 A8 A9 A10 A11 A12 A13 A14 A15 A16 A17 A18 A19 A20 A21 Hk A22.
  destruct (drift_whole M R fs sort clock ev opens rest arc top more t t' nodes dk A1 A2 A3 A4 A5 A6 A7 A8 A9 A10 A11 A12 A13 A14 A15 A16 A17 A18 A19 A20 A21 A22) as (f0 & A).
  exists f0. intros fuel Hf p n s r Hrun Hr Er. destruct (A fuel Hf) as (_ & C). destruct (C n s r Hrun Hr Er) as (ar & cat & E1 & E2 & E3).
  exists ar, cat. split; [exact E1|]. split; [exact E2|]. intros Hm a Ha. destruct (E3 Hm a Ha) as (mc & ms & nodes' & F1 & F2 & F3 & F4 & F5).
  exists mc, ms, nodes'. split; [exact F1|]. split; [exact F2|]. split; [exact F3|]. split; [exact F4|].
  apply (shrunk_exact ev top t t' nodes' ms Hk A22); [|exact F5]. intros q m Hq. apply F4. exact Hq.
Qed.
Print Assumptions C89_shrunk_files_partial.

(** *** witness: base/dir/file had 1234 bytes when listed and has 1300, or 1100,
    when copied *)
Definition k_tree (k : nat) : node := NDir
  [(b ".hidden", NFile 3); (b "dir", NDir [(b "file", NFile (Z.of_nat k)); (b ".d", NDir [(b "x", NFile 0)])]); (b "lnk", NLink (b "target")); (b "dev", NOther)].
Definition k_env (k : nat) : env := {| e_names := a_names;
  e_lstat := fun p => if bytes_eqb p (b "base/dir/file") then Some (st_reg (Z.of_nat k), []) else g_lstat p;
  e_data := fun p => if bytes_eqb p (b "base/dir/file") then Some (repeat "q"%char k) else None |}.
Lemma k_wf k : Z.of_nat k < 2 ^ 63 -> wf_node (k_tree k).
Proof.
  intros Hk. unfold k_tree. apply Wf_dir; [nodup|repeat constructor; cbn [fst]; apply h_good; cbn; tauto|].
  repeat apply Forall_cons; try apply Forall_nil; cbn [snd]; try constructor; try lia; try discriminate.
  - nodup.
  - repeat constructor; cbn [fst]; apply h_good; cbn; tauto.
  - repeat apply Forall_cons; try apply Forall_nil; cbn [snd]; constructor; try lia; [nodup| |].
    + repeat constructor; cbn [fst]; apply h_good; cbn; tauto.
    + repeat constructor; lia.
  - cbn. intros F; repeat destruct F as [F|F]; try discriminate; contradiction.
Qed.
Lemma k_reached k p n : reached (k_tree k) p n ->
  (p = [] /\ n = k_tree k) \/ (p = [b "dir"] /\ n = NDir [(b "file", NFile (Z.of_nat k)); (b ".d", NDir [(b "x", NFile 0)])]) \/
  (p = [b "dir"; b "file"] /\ n = NFile (Z.of_nat k)) \/ (p = [b "lnk"] /\ n = NLink (b "target")).
Proof.
  intros (A & B & C). unfold k_tree in A.
  walk_tree; cbn [archivable] in C; try contradiction;
    try solve [left; split; reflexivity | right; left; split; reflexivity | right; right; left; split; reflexivity | right; right; right; split; reflexivity]; exfalso.
  all: repeat match goal with F : Forall PropertiesLegacyScan.plain (_ :: _) |- _ => inversion F as [|? ? ? ?]; clear F; subst end.
  all: match goal with F : PropertiesLegacyScan.plain _ |- _ => exact (F _ eq_refl) end.
Qed.
Lemma k_still k : (k <= 2000)%nat -> forall p n, reached (k_tree k) p n -> still (k_env k) (b "base") p n.
Proof.
  intros Hk p n H. apply k_reached in H as [(-> & ->)|[(-> & ->)|[(-> & ->)|(-> & ->)]]].
  3: { exists (st_reg (Z.of_nat k)), []. split; [reflexivity|]. cbn [st_reg st_uid st_gid st_mtime st_size st_kind].
    change (2 ^ 21) with 2097152. change (2 ^ 33) with 8589934592. change (2 ^ 63) with 9223372036854775808. do 5 (split; [lia|]). split; [vm_compute; discriminate|]. split; [vm_compute; discriminate|].
    split; [|auto]. split; [reflexivity|]. split; [reflexivity|]. exists (repeat "q"%char k). split; [reflexivity|]. unfold zlen. rewrite repeat_length. reflexivity. }
  all: unfold still; eexists; eexists; (split; [vm_compute; reflexivity|]);
    cbn [st_uid st_gid st_mtime st_size st_kind st_dir st_reg st_lnk k_env e_names];
    change (2 ^ 21) with 2097152; change (2 ^ 33) with 8589934592; change (2 ^ 63) with 9223372036854775808;
    repeat (split; [lia|]); (split; [vm_compute; discriminate|]); (split; [vm_compute; discriminate|]).
  - split; [reflexivity|auto].
  - split; auto.
  - split; [split; auto|]. intros X. destruct (X eq_refl).
Qed.
(** trees compared child by child *)
Lemma drifted_leaf n : near n n -> (forall p m, at_path n p m -> p = [] /\ m = n) -> drifted n n.
Proof. intros N L p. split; intros m H; destruct (L p m H) as (-> & ->); exists n; auto. Qed.
Lemma drifted_file s s' : near (NFile s) (NFile s') -> drifted (NFile s) (NFile s').
Proof. intros N p. split; intros m H; inversion H; subst; eexists; (split; [constructor|exact N]). Qed.
Lemma drifted_dir ch ch' : Forall2 (fun x y => fst x = fst y /\ drifted (snd x) (snd y)) ch ch' -> drifted (NDir ch) (NDir ch').
Proof.
  intros F p. split; intros m H; inversion H as [|? nm c q ? Hin Hat]; subst; try (eexists; split; [constructor|reflexivity]).
  - destruct (In_nth_error _ _ Hin) as (k & Hk). destruct (forall2_nth _ _ _ F k _ Hk) as ([nm' c'] & Hk' & E & D). cbn [fst snd] in *. subst nm'.
    destruct (proj1 (D q) m Hat) as (m' & A & N). exists m'. split; [|exact N]. eapply At_below; [eapply nth_error_In; exact Hk'|exact A].
  - destruct (forall2_in _ _ _ F _ Hin) as ([nm' c'] & Hin' & E & D). cbn [fst snd] in *. subst nm'.
    destruct (proj2 (D q) m Hat) as (m' & A & N). exists m'. split; [|exact N]. eapply At_below; [exact Hin'|exact A].
Qed.
Lemma k_drifted k : (1025 <= k <= 1536)%nat -> drifted (NDir h_tree) (k_tree k).
Proof.
  intros Hk. assert (Hn : near (NFile 1234) (NFile (Z.of_nat k))).
  { cbn [near]. right. split; [|unfold MAX_FILE_SIZE; lia]. pose proof (up512_bounds 1234). pose proof (up512_bounds (Z.of_nat k)). lia. }
  assert (Hs : forall s, drifted (NFile s) (NFile s)) by (intros s; apply drifted_file; left; reflexivity).
  unfold h_tree, k_tree. apply drifted_dir. apply Forall2_cons; [split; [reflexivity|apply Hs]|].
  apply Forall2_cons; [split; [reflexivity|]; cbn [snd]; apply drifted_dir|].
  - apply Forall2_cons; [split; [reflexivity|apply drifted_file; exact Hn]|]. apply Forall2_cons; [|constructor]. split; [reflexivity|]. apply drifted_dir. apply Forall2_cons; [|constructor]. split; [reflexivity|apply Hs].
  - apply Forall2_cons; [split; [reflexivity|apply drifted_leaf; [reflexivity|intros p m H; inversion H; auto]]|].
    apply Forall2_cons; [split; [reflexivity|apply drifted_leaf; [reflexivity|intros p m H; inversion H; auto]]|constructor].
Qed.

Lemma k_known : forall p n n', at_path (NDir h_tree) p n -> at_path (k_tree 1100) p n' -> known n' <= known n.
Proof.
  intros p n n' H H'. unfold k_tree in H'. unfold h_tree in H.
  Ltac k_step := match goal with
  | A : at_path _ [] _ |- _ => inversion A; clear A; subst
  | A : at_path (NDir _) (_ :: _) _ |- _ => inversion A; clear A; subst
  | A : at_path (NFile _) (_ :: _) _ |- _ => inversion A
  | A : at_path (NLink _) (_ :: _) _ |- _ => inversion A
  | A : at_path NOther (_ :: _) _ |- _ => inversion A
  | I : (?x, ?m) = (?y, ?n) |- _ => let X := fresh in let Y := fresh in pose proof (f_equal snd I) as X; pose proof (f_equal fst I) as Y; cbn [fst snd] in X, Y; clear I; subst; try discriminate
  | I : In _ _ |- _ => cbn [In] in I; repeat (destruct I as [I|I]); [..|destruct I]
  end.
  destruct p as [|x p]; [repeat k_step; cbn; lia|]. destruct p as [|y p]; [repeat k_step; cbn; lia|]. destruct p as [|z p]; [repeat k_step; cbn; lia|].
  destruct p as [|w p]; repeat k_step; cbn; lia.
Qed.
(** on any number of ranks: the member of the file says 1300 and has 1300 bytes,
    of which the first 1234 are those of the file *)
Example C89_witness : forall R clock dk, (1 <= R)%nat -> wf_node (k_tree 1300) /\ drifted (NDir h_tree) (k_tree 1300) /\ (forall p n, reached (k_tree 1300) p n -> still (k_env 1300) (b "base") p n) /\
  (wf_node (k_tree 1100) /\ drifted (NDir h_tree) (k_tree 1100) /\ (forall p n, reached (k_tree 1100) p n -> still (k_env 1100) (b "base") p n) /\
   forall p n n', at_path (NDir h_tree) p n -> at_path (k_tree 1100) p n' -> known n' <= known n) /\
  exists fuel, let p := lmain R fuel h_fs lsort clock (k_env 1300) h_args in
  (forall n s, lrun R (fun _ => true) p n s -> exists s', lleads R (fun _ => true) s s' /\ all_zero R s') /\
  forall n s r, lrun R (fun _ => true) p n s -> (r < R)%nat -> l_prog s r = LReturn 0 -> exists ar, disk_after dk (l_log s) (b "out.tar") = Some ar /\ forall a, concretises a ar ->
     exists mc ms m d, tar_list a = Some (mc :: ms) /\ In m ms /\ m_path m = b "base/dir/file" /\ m_size m = 1300 /\ m_data m = repeat "q"%char 1234 ++ d /\ length d = 66%nat.
Proof.
  intros R clock dk HR. destruct C50_exists_witness as (W1 & W2 & _).
  assert (D : drifted (NDir h_tree) (k_tree 1300)) by (apply k_drifted; lia).
  split; [apply k_wf; vm_compute; reflexivity|]. split; [exact D|]. split; [apply k_still; lia|]. split.
  { split; [apply k_wf; vm_compute; reflexivity|]. split; [apply k_drifted; lia|]. split; [apply k_still; lia|exact k_known]. }
  destruct (C89_resized_files_partial 99 R h_fs lsort clock (k_env 1300) (fun _ => true) [] (b "out.tar") (b "base") [] (NDir h_tree) (k_tree 1300) m_nodes dk) as (f0 & A).
  - exact HR.
  - repeat constructor; nb.
  - discriminate.
  - reflexivity.
  - exact lsort_ok.
  - discriminate.
  - reflexivity.
  - nb.
  - exact h_wf.
  - exact I.
  - exact h_shows.
  - exact g_tab.
  - exact (proj1 (short_enough _ _ W1)).
  - exact (proj2 (short_enough _ _ W1)).
  - exact W2.
  - repeat constructor; cbn [map fst In m_nodes]; intuition discriminate.
  - exact m_nodes_reached.
  - apply few_short; vm_compute; [split; discriminate|discriminate].
  - apply k_wf. vm_compute. reflexivity.
  - left. exact (resized_short _ _ _ (drifted_resized _ _ D) W1).
  - exact D.
  - apply k_still. lia.
  - destruct (A f0 (le_n _)) as (B & C). exists f0. intros p. split; [exact B|].
    intros n s r Hrun Hr Er. destruct (C n s r Hrun Hr Er) as (ar & cat & E1 & E2 & E3). exists ar. split; [exact E1|]. intros a Ha.
    destruct (E3 ltac:(pose proof (zlen_nonneg cat); change (zlen m_nodes) with 4 in E2; unfold L_BUCKET; rewrite Z.mod_small; lia) a Ha) as (mc & ms & nodes' & G1 & _ & _ & G3 & G4).
    assert (Hin : In ([b "dir"; b "file"], NFile (Z.of_nat 1300)) nodes').
    { apply G3. split; [econstructor; [right; left; reflexivity|econstructor; [left; reflexivity|constructor]]|]. split; [|exact I]. repeat constructor; intros q X; discriminate X. }
    assert (X : exists m, In m ms /\ exists n m', at_path (NDir h_tree) [b "dir"; b "file"] n /\ describes (k_env 1300) (b "base") [b "dir"; b "file"] (NFile (Z.of_nat 1300)) m' /\ alike (known n) m m').
    { clear - G4 Hin. induction G4 as [|m l ms _ _ IH|e m l ms He _ IH]; [destruct Hin| |].
      - destruct (IH Hin) as (x & Y1 & Y2). exists x. split; [right; exact Y1|exact Y2].
      - destruct Hin as [->|Hin]; [exists m; split; [left; reflexivity|exact He]|]. destruct (IH Hin) as (x & Y1 & Y2). exists x. split; [right; exact Y1|exact Y2]. }
    destruct X as (m & Hm & n0 & m' & N1 & (N2 & _) & N3).
    assert (n0 = NFile 1234) as ->.
    { apply (at_path_det (NDir h_tree) [b "dir"; b "file"] n0 (NFile 1234) N1 h_wf). econstructor; [right; left; reflexivity|econstructor; [left; reflexivity|constructor]]. }
    cbn [known] in N3. destruct N2 as (P1 & _ & _ & P2 & P3).
    assert (P4 : m_data m' = repeat "q"%char 1300) by (change (e_data (k_env 1300) (node_path (b "base") [b "dir"; b "file"])) with (Some (repeat "q"%char 1300)) in P3; congruence).
    destruct N3 as (Q1 & _ & _ & _ & _ & _ & _ & Q2 & _ & _ & Q3 & Q4). rewrite P4 in Q3, Q4.
    exists mc, ms, m, (skipn 1234 (m_data m)). split; [exact G1|]. split; [exact Hm|]. split; [rewrite Q1; exact P1|]. split; [rewrite Q2; exact P2|].
    change (Z.to_nat 1234) with 1234%nat in Q4. split.
    + rewrite <- (firstn_skipn 1234 (m_data m)) at 1. rewrite Q4. f_equal. 
    + rewrite skipn_length. unfold zlen in Q3. rewrite repeat_length in Q3. lia.
Qed.

(** *** FALSE without the condition on the blocks: when base/A was listed it had
    100 bytes, when it is copied it has 600; base/B has 2000 NUL bytes.  On any
    number of ranks every run ends with 0 everywhere, and a tar reader does not
    find base/B in the archive *)
Theorem C89_refuted : exists fs ev top t t' nodes,
  top <> [] /\ ends_with_slash top = false /\ no_byte TAB top /\ wf_node t /\ is_dir_node t /\ shows fs top t /\ tab_free t /\
  short_names top t /\ (forall p, Forall PropertiesLegacyScan.plain p -> ~ at_path t p NLocked) /\
  NoDup (map fst nodes) /\ (forall p n, In (p, n) nodes <-> reached t p n) /\ 2 <= zlen nodes <= 250000 /\ nodes_bytes nodes <= 1000000000000 /\
  wf_node t' /\ resized t t' /\ (forall p n, reached t' p n -> still ev top p n) /\
  exists p z, reached t p (NFile z) /\ reached t' p (NFile z) /\
  forall R clock dk, (1 <= R)%nat -> exists f0, forall fuel, (f0 <= fuel)%nat -> let prog := lmain R fuel fs lsort clock ev [b "C"; b "out.tar"; top] in
  (forall n s, lrun R (fun _ => true) prog n s -> exists s', lleads R (fun _ => true) s s' /\ all_zero R s') /\
  (forall n s r, lrun R (fun _ => true) prog n s -> (r < R)%nat -> l_prog s r = LReturn 0 -> exists ar, disk_after dk (l_log s) (b "out.tar") = Some ar /\
     forall a, concretises a ar -> exists ms, tar_list a = Some ms /\ forall m, In m ms -> m_path m <> node_path top p).
Proof.
  exists u_fs, u_env, (b "base"), (NDir (u_ch 100)), (NDir (u_ch 600)), u_nodes.
  assert (Nd : NoDup (map fst u_nodes)) by (repeat constructor; cbn [map fst In u_nodes]; intuition discriminate).
  assert (Ln : 2 <= zlen u_nodes <= 250000) by (vm_compute; split; discriminate).
  assert (Nb : nodes_bytes u_nodes <= 1000000000000) by (vm_compute; discriminate).
  assert (Tb : no_byte TAB (b "base")) by nb.
  split; [discriminate|]. split; [reflexivity|]. split; [exact Tb|]. split; [apply u_wf; lia|]. split; [exact I|]. split; [exact u_shows|]. split; [apply u_tab|].
  split; [exact u_short|]. split; [exact u_open|]. split; [exact Nd|]. split; [apply (u_reached 100)|]. split; [exact Ln|]. split; [exact Nb|].
  split; [apply u_wf; lia|]. split; [exact u_resized|]. split; [exact u_still|].
  exists [b "B"], 2000. split; [apply u_reached; cbn [In]; auto|]. split; [apply u_reached; cbn [In]; auto|].
  intros R clock dk HR.
  destruct (resized_whole 99 R u_fs lsort clock u_env (fun _ => true) [] (b "out.tar") (b "base") [] (NDir (u_ch 100)) (NDir (u_ch 600)) u_nodes dk HR ltac:(repeat constructor; nb) ltac:(discriminate) eq_refl lsort_ok
    ltac:(discriminate) eq_refl Tb (u_wf 100 ltac:(lia)) I u_shows (u_tab 100) (proj1 (short_enough _ _ u_short)) (proj2 (short_enough _ _ u_short)) u_open Nd (u_reached 100) (few_short _ Ln Nb) (u_wf 600 ltac:(lia)) (or_introl (resized_short _ _ _ u_resized u_short)) u_resized u_still) as (f0 & A).
  exists f0. intros fuel Hf prog. destruct (A fuel Hf) as (B & C). split; [exact B|].
  intros n s r Hrun Hr Er. destruct (C n s r Hrun Hr Er) as (ar & cat & l & E1 & _ & E2 & _). exists ar. split; [exact E1|].
  intros a Ha. exact (hidden fuel clock R (before dk (b "out.tar")) l ar a HR E2 Ha).
Qed.
Print Assumptions C89_refuted.
