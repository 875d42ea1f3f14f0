(** Property theorems C84-C88 (the 0.5.1 program on R ranks, message by message). *)
From Coq Require Import Permutation Sorted Lia.
From Verif Require Import Bytes Outcome TarSpec TarModel TarProofs Layout Mover MoverSpec Worker Boss Spider SpiderSpec SpiderProofs Program EndSpec EndProofs EndMore Samples
  Legacy LegacyProofs LegacyLayout LegacySpec LegacyScan LegacyScanProofs LegacyCodec LegacyCodecProofs LegacyWrite LegacyEndSpec LegacyEnd LegacyRun LegacyCreate
  PropertiesEnd PropertiesLegacyScan LegacyTreeSpec LegacyCreateProofs LegacyTotal PropertiesLegacyEnd TargetSpec Target Mpi LegacyMpi LegacyMpiSpec LegacyMpiProofs LegacyMpiMore LegacyMpiEnd LegacyMpiWhole LegacyMpiRun LegacyMpiHang LegacyMpiTree LegacyVanish.

(** *** C84: whatever the command line, the tree, what the files do meanwhile
    ([ev]) and whether the archive file can be opened ([opens]): in no run does
    a rank get into an MPI error (a receive of another type or length than what
    rank 0 sends, or another collective call), and only the file named as the
    archive, in create mode, is opened or written *)
Theorem C84_no_mpi_error : forall R fuel fs sort clock ev opens args n s dk,
  (1 <= R)%nat -> Forall (no_byte NUL) args -> lrun R opens (lmain R fuel fs sort clock ev args) n s ->
  (forall r, (r < R)%nat -> l_prog s r <> LBad) /\
  (forall q, (forall rest top more, args <> ("C"%char :: rest) :: q :: top :: more) -> disk_after dk (l_log s) q = dk q).
Proof.
  intros R fuel fs sort clock ev opens args n s dk HR HA Hrun. split; [intros r Hr; exact (no_bad R fuel fs sort clock ev opens args HR HA n s r Hrun Hr)|].
  intros q Hq.
  assert (D : (exists rest arc top more, args = ("C"%char :: rest) :: arc :: top :: more) \/ (forall rest arc top more, args <> ("C"%char :: rest) :: arc :: top :: more)).
  { destruct args as [|[|c rest] [|arc [|top more]]]; try (right; intros; discriminate). destruct (beq_spec c "C"%char) as [X Y]. destruct (beq c "C"%char).
    - rewrite (X eq_refl). left. exists rest, arc, top, more. reflexivity.
    - right. intros rest' arc' top' more' Z0. injection Z0 as Z1 _ _ _ _. discriminate (Y Z1). }
  destruct D as [(rest & arc & top & more & ->)|N].
  - apply (disk_rest opens arc).
    + apply Forall_forall. intros [r e] He. exact (log_ok R fuel fs sort clock ev opens _ HR HA n s rest arc top more eq_refl Hrun r e He).
    + intros ->. exact (Hq rest top more eq_refl).
  - rewrite (log_none R fuel fs sort clock ev opens args HR HA n s N Hrun). reflexivity.
Qed.
Print Assumptions C84_no_mpi_error.
(** and every run is over after a bounded number of steps *)
Theorem C84_bounded : forall R fuel fs sort clock ev opens args, (1 <= R)%nat -> Forall (no_byte NUL) args ->
  exists N, forall n s, lrun R opens (lmain R fuel fs sort clock ev args) n s -> (n <= N)%nat.
Proof.
  intros R fuel fs sort clock ev opens args HR HA. eexists. intros n s Hrun.
  pose proof (run_length R opens _ _ (main_matched R fuel fs sort clock ev opens args HR HA) n s Hrun) as H. eapply Nat.le_trans; [apply Nat.le_add_r|exact H].
Qed.
Print Assumptions C84_bounded.

(** *** C85: the exit code can be trusted.  When main has returned 0 on one rank
    in create mode, the file on disk is the complete archive of a run as
    specified in C49/C50 ([create_run]: the catalog, then every rank's part), and
    in every run, from every state, every rank gets to return 0 *)
Theorem C85_zero_is_complete : forall R fuel fs sort clock ev opens rest arc top more n s r dk,
  (1 <= R)%nat -> Forall (no_byte NUL) (("C"%char :: rest) :: arc :: top :: more) ->
  (forall l, Permutation l (sort l) /\ StronglySorted (fun x y => compare_entries x y <= 0) (sort l)) ->
  let p := lmain R fuel fs sort clock ev (("C"%char :: rest) :: arc :: top :: more) in
  lrun R opens p n s -> (r < R)%nat -> l_prog s r = LReturn 0 ->
  (exists l ar, create_run fuel fs clock ev top R (before dk arc) l ar /\ disk_after dk (l_log s) arc = Some ar) /\
  forall n' s', lrun R opens p n' s' -> exists s'', lleads R opens s' s'' /\ all_zero R s''.
Proof.
  intros R fuel fs sort clock ev opens rest arc top more n s r dk HR HA Hsort p Hrun Hr Er.
  assert (Hn : no_byte NUL arc) by (inversion HA as [|? ? _ HA1]; inversion HA1; auto).
  exact (returned_lemma R fuel fs sort clock ev opens rest arc top more HR Hn HA Hsort n s r dk Hrun Hr Er).
Qed.
Print Assumptions C85_zero_is_complete.

(** *** C86 (partial): from the command line and a tree to the archive on disk,
    over every run of every rank.  The restrictions are those of C50; the
    condition on the catalog's length is C45 *)
Theorem C86_create_partial : forall M R fs sort clock ev opens rest arc top more t nodes dk,
  (1 <= R)%nat -> Forall (no_byte NUL) (("C"%char :: rest) :: arc :: top :: more) -> arc <> [] -> opens arc = true ->
  (forall l, Permutation l (sort l) /\ StronglySorted (fun x y => compare_entries x y <= 0) (sort l)) ->
  top <> [] -> ends_with_slash top = false -> no_byte TAB top -> wf_node t -> is_dir_node t -> shows fs top t -> tab_free t ->
  (forall p n, reached t p n -> still ev top p n) -> manageable top t -> names_to M top t -> (forall p, Forall PropertiesLegacyScan.plain p -> ~ at_path t p NLocked) ->
  NoDup (map fst nodes) -> (forall p n, In (p, n) nodes <-> reached t p n) -> few_enough M nodes ->
  exists f0, forall fuel, (f0 <= fuel)%nat -> let p := lmain R fuel fs sort clock ev (("C"%char :: rest) :: arc :: top :: more) in
  (forall n s, lrun R opens p n s -> exists s', lleads R opens s s' /\ all_zero R s') /\
  (forall n s r, lrun R opens p n s -> (r < R)%nat -> l_prog s r = LReturn 0 -> exists ar cat, disk_after dk (l_log s) arc = Some ar /\
     zlen cat <= (M + 167) * zlen nodes + 55 /\ ((1024 + zlen cat) mod L_BUCKET <> 0 -> forall a, concretises a ar ->
     exists mc ms nodes', tar_list a = Some (mc :: ms) /\ is_catalog cat mc /\ NoDup (map fst nodes') /\ (forall q m, In (q, m) nodes' <-> reached t q m) /\
       interspersed (fun pn m => describes ev top (fst pn) (snd pn) m) is_spacer nodes' ms)).
Proof. exact legacy_whole. Qed.
Print Assumptions C86_create_partial.
(** up to 15000 entries with paths up to 99 bytes, or 900 with paths up to 4096,
    the catalog cannot end where C45 fails *)
Theorem C86_small_partial : forall M R fs sort clock ev opens rest arc top more t nodes dk,
  (1 <= R)%nat -> Forall (no_byte NUL) (("C"%char :: rest) :: arc :: top :: more) -> arc <> [] -> opens arc = true ->
  (forall l, Permutation l (sort l) /\ StronglySorted (fun x y => compare_entries x y <= 0) (sort l)) ->
  top <> [] -> ends_with_slash top = false -> no_byte TAB top -> wf_node t -> is_dir_node t -> shows fs top t -> tab_free t ->
  (forall p n, reached t p n -> still ev top p n) -> manageable top t -> names_to M top t -> (forall p, Forall PropertiesLegacyScan.plain p -> ~ at_path t p NLocked) ->
  NoDup (map fst nodes) -> (forall p n, In (p, n) nodes <-> reached t p n) -> few_enough M nodes -> (M + 167) * zlen nodes <= 4190000 ->
  exists f0, forall fuel, (f0 <= fuel)%nat -> let p := lmain R fuel fs sort clock ev (("C"%char :: rest) :: arc :: top :: more) in
  (forall n s, lrun R opens p n s -> exists s', lleads R opens s s' /\ all_zero R s') /\
  (forall n s r, lrun R opens p n s -> (r < R)%nat -> l_prog s r = LReturn 0 -> exists ar, disk_after dk (l_log s) arc = Some ar /\ forall a, concretises a ar ->
     exists cat mc ms nodes', tar_list a = Some (mc :: ms) /\ is_catalog cat mc /\ NoDup (map fst nodes') /\ (forall q m, In (q, m) nodes' <-> reached t q m) /\
       interspersed (fun pn m => describes ev top (fst pn) (snd pn) m) is_spacer nodes' ms).
Proof.
  intros M R fs sort clock ev opens rest arc top more t nodes dk HR HA Harc Hop Hsort H1 H2 H4 Hw Hd Hsh Htf Hst Hman Hshort Hlock Hnd Hin Hlen Hsm.
  destruct (legacy_whole M R fs sort clock ev opens rest arc top more t nodes dk HR HA Harc Hop Hsort H1 H2 H4 Hw Hd Hsh Htf Hst Hman Hshort Hlock Hnd Hin Hlen) as (f0 & A).
  exists f0. intros fuel Hf p. destruct (A fuel Hf) as (B & C). split; [exact B|]. intros n s r Hrun Hr Er. destruct (C n s r Hrun Hr Er) as (ar & cat & E1 & E2 & E3).
  exists ar. split; [exact E1|]. intros a Ha. exists cat. apply E3; [|exact Ha]. pose proof (zlen_nonneg cat). rewrite Z.mod_small by (unfold L_BUCKET; lia). lia.
Qed.
Print Assumptions C86_small_partial.

(** *** C87: FALSE of the code: a run in which one rank fails does not end on
    the others.  An unknown mode, a top directory that cannot be listed (a plain
    file, or nothing), a file that went away after the listing: rank 0 returns
    an error, the others wait for it for ever (unless the launcher kills them) *)
Definition vanished : env := {| e_names := a_names; e_lstat := g_lstat; e_data := fun _ => None |}.
Definition h_args : list bytes := [b "C"; b "out.tar"; b "base"].
Definition m_nodes : list (list bytes * node) :=
  [([], NDir h_tree); ([b "dir"], NDir [(b "file", NFile 1234); (b ".d", NDir [(b "x", NFile 0)])]); ([b "lnk"], NLink (b "target")); ([b "dir"; b "file"], NFile 1234)].
Definition v_list : option (list lent) := match list_directory 9 h_fs (b "base") with Ok (Some es) => match fill_rels (b "base") es with Ok es' => Some (lsort es') | _ => None end | _ => None end.
Definition v_pro : option (list wr * Z * bytes * list Z) :=
  match v_list with Some l => match prologue L_BLOCK L_BUCKET L_PAD (fun _ => 0) l with Ok (Some x) => Some x | _ => None end | None => None end.
Definition v_fails : bool := match v_pro with
  | Some (_, D, text, starts) => match rank_part L_BLOCK L_BUCKET D (fun _ => 0) vanished text starts 2 0 with Ok None => true | _ => false end
  | None => false end.
Definition v_idle : bool := match v_pro with
  | Some (_, D, text, starts) => match rank_part L_BLOCK L_BUCKET D (fun _ => 0) vanished text starts 2 1 with Ok (Some []) => (zlen text <=? INT_MAX) | _ => false end
  | None => false end.
Theorem C87_refuted :
  (forall R fuel fs sort clock ev opens c rest a1 a2 more, Forall (no_byte NUL) ((c :: rest) :: a1 :: a2 :: more) -> ~ In c ["C"; "X"; "T"]%char ->
     forall n s r, lrun R opens (lmain R fuel fs sort clock ev ((c :: rest) :: a1 :: a2 :: more)) n s -> (1 <= r < R)%nat -> ~ gone (l_prog s r)) /\
  (forall R fuel fs sort clock ev opens rest arc top more, Forall (no_byte NUL) (("C"%char :: rest) :: arc :: top :: more) -> no_directory fs top ->
     forall n s r, lrun R opens (lmain R fuel fs sort clock ev (("C"%char :: rest) :: arc :: top :: more)) n s -> (1 <= r < R)%nat -> ~ gone (l_prog s r)) /\
  (forall n s, lrun 2 (fun _ => true) (lmain 2 9 h_fs lsort (fun _ => 0) vanished h_args) n s -> ~ gone (l_prog s 1%nat)).
Proof.
  split; [|split].
  - intros R fuel fs sort clock ev opens c rest a1 a2 more HA Hc n s r. apply unknown_hang; auto.
  - intros R fuel fs sort clock ev opens rest arc top more HA Hd n s r. apply listing_hang; auto. intros es. rewrite (refused_listing fs top fuel Hd). discriminate.
  - assert (F : v_fails = true) by (vm_compute; reflexivity). assert (I : v_idle = true) by (vm_compute; reflexivity). unfold v_fails, v_idle, v_pro, v_list in F, I.
    destruct (list_directory 9 h_fs (b "base")) as [[es|]|e] eqn:E1; try discriminate F. destruct (fill_rels (b "base") es) as [es'|e] eqn:E2; try discriminate F.
    destruct (prologue L_BLOCK L_BUCKET L_PAD (fun _ => 0) (lsort es')) as [[[[[ws0 D] text] starts]|]|e] eqn:E3; try discriminate F.
    destruct (rank_part L_BLOCK L_BUCKET D (fun _ => 0) vanished text starts 2 0) as [[?|]|e] eqn:E4; try discriminate F.
    destruct (rank_part L_BLOCK L_BUCKET D (fun _ => 0) vanished text starts 2 1) as [[[|? ?]|]|e] eqn:E5; try discriminate I.
    intros n s. unfold h_args. change (b "C") with ("C"%char :: []).
    apply (part_hang 2 9 h_fs lsort (fun _ => 0) vanished (fun _ => true) [] (b "out.tar") (b "base") [] ltac:(lia) ltac:(nb) ltac:(repeat constructor; nb) es es' ws0 D text starts 0 1 []); auto; try lia.
    + discriminate.
    + intros ws. change (Z.of_nat 2) with 2. change (Z.of_nat 0) with 0. rewrite E4. discriminate.
Qed.
Print Assumptions C87_refuted.

(** *** C88: when main has returned 0 on any rank, every entry of the tree was
    there when it was archived: its metadata could be read and, if it is a
    nonempty file, it could be opened ([ev]).  [ev0] is what the files were when
    they were listed *)
Theorem C88_zero_means_found : forall R fuel fs sort clock ev ev0 opens rest arc top more t nodes n s r,
  (1 <= R)%nat -> Forall (no_byte NUL) (("C"%char :: rest) :: arc :: top :: more) ->
  (forall l, Permutation l (sort l) /\ StronglySorted (fun x y => compare_entries x y <= 0) (sort l)) ->
  top <> [] -> ends_with_slash top = false -> no_byte TAB top -> wf_node t -> is_dir_node t -> shows fs top t -> tab_free t ->
  (forall p m, reached t p m -> still ev0 top p m) -> manageable top t ->
  NoDup (map fst nodes) -> (forall p m, In (p, m) nodes <-> reached t p m) -> zlen nodes <= 4000000 -> nodes_bytes nodes <= 8000000000000000 ->
  lrun R opens (lmain R fuel fs sort clock ev (("C"%char :: rest) :: arc :: top :: more)) n s -> (r < R)%nat -> l_prog s r = LReturn 0 ->
  forall p m, reached t p m -> e_lstat ev (node_path top p) <> None /\ match m with NFile z => 0 < z -> e_data ev (node_path top p) <> None | _ => True end.
Proof. exact zero_there. Qed.
Print Assumptions C88_zero_means_found.

(** *** witnesses *)
Lemma m_nodes_reached p n : In (p, n) m_nodes <-> reached (NDir h_tree) p n.
Proof.
  split.
  - intros [E|[E|[E|[E|[]]]]]; injection E as <- <-.
    + split; [constructor|]. split; [constructor|exact I].
    + split; [econstructor; [right; left; reflexivity|constructor]|]. split; [|exact I]. repeat constructor; intros r X; discriminate X.
    + split; [econstructor; [right; right; left; reflexivity|constructor]|]. split; [|exact I]. repeat constructor; intros r X; discriminate X.
    + split; [econstructor; [right; left; reflexivity|econstructor; [left; reflexivity|constructor]]|]. split; [|exact I]. repeat constructor; intros r X; discriminate X.
  - intros H. g_cases H; cbn; auto.
Qed.
Lemma lsort_ok l : Permutation l (lsort l) /\ StronglySorted (fun x y => compare_entries x y <= 0) (lsort l).
Proof. split; [apply lsort_perm|apply lsort_sorted]. Qed.
(** the hypotheses of C84-C86 and C88 are met: on any number of ranks the tree
    [h_tree] gets archived, every run ends with 0 everywhere *)
Example C86_witness : forall R clock dk, (1 <= R)%nat -> exists fuel, let p := lmain R fuel h_fs lsort clock g_env h_args in
  Forall (no_byte NUL) h_args /\ (forall l, Permutation l (lsort l) /\ StronglySorted (fun x y => compare_entries x y <= 0) (lsort l)) /\
  (exists n s, lrun R (fun _ => true) p n s /\ all_zero R s) /\
  forall n s r, lrun R (fun _ => true) p n s -> (r < R)%nat -> l_prog s r = LReturn 0 -> exists ar, disk_after dk (l_log s) (b "out.tar") = Some ar /\ forall a, concretises a ar ->
     exists cat mc ms nodes', tar_list a = Some (mc :: ms) /\ is_catalog cat mc /\ (forall q m, In (q, m) nodes' <-> reached (NDir h_tree) q m) /\
       interspersed (fun pn m => describes g_env (b "base") (fst pn) (snd pn) m) is_spacer nodes' ms.
Proof.
  intros R clock dk HR. destruct C50_exists_witness as (W1 & W2 & _).
  destruct (C86_small_partial 99 R h_fs lsort clock g_env (fun _ => true) [] (b "out.tar") (b "base") [] (NDir h_tree) m_nodes dk) as (f0 & A).
  - exact HR.
  - repeat constructor; nb.
  - discriminate.
  - reflexivity.
  - exact lsort_ok.
  - discriminate.
  - reflexivity.
  - nb.
  - exact h_wf.
  - exact I.
  - exact h_shows.
  - exact g_tab.
  - exact g_still.
  - exact (proj1 (short_enough _ _ W1)).
  - exact (proj2 (short_enough _ _ W1)).
  - exact W2.
  - repeat constructor; cbn [map fst In m_nodes]; intuition discriminate.
  - exact m_nodes_reached.
  - apply few_short; vm_compute; [split; discriminate|discriminate].
  - vm_compute. discriminate.
  - destruct (A f0 (le_n _)) as (B & C). exists f0. intros p. split; [repeat constructor; nb|]. split; [exact lsort_ok|]. split.
    + destruct (B 0%nat _ (lrun_start _ _ _)) as (s' & L & Z0).
      assert (X : forall s s', lleads R (fun _ => true) s s' -> forall n, lrun R (fun _ => true) p n s -> exists n', lrun R (fun _ => true) p n' s').
      { induction 1 as [s|s s1 s2 St L' IH]; intros n Hn; [eauto|]. apply (IH (S n)). econstructor; eauto. }
      destruct (X _ _ L 0%nat (lrun_start _ _ _)) as (n' & Hn'). exists n', s'. auto.
    + intros n s r Hrun Hr Er. destruct (C n s r Hrun Hr Er) as (ar & E1 & E2). exists ar. split; [exact E1|]. intros a Ha.
      destruct (E2 a Ha) as (cat & mc & ms & nodes' & G1 & G2 & _ & G3 & G4). exists cat, mc, ms, nodes'. auto.
Qed.
(** C88: with [g_env] in both places its hypotheses are those of C86_witness;
    with the file gone, 0 is never returned *)
Example C88_witness : forall R fuel clock n s r, (1 <= R)%nat -> lrun R (fun _ => true) (lmain R fuel h_fs lsort clock vanished h_args) n s -> (r < R)%nat -> l_prog s r <> LReturn 0.
Proof.
  intros R fuel clock n s r HR Hrun Hr Er.
  destruct (C88_zero_means_found R fuel h_fs lsort clock vanished g_env (fun _ => true) [] (b "out.tar") (b "base") [] (NDir h_tree) m_nodes n s r) with (p := [b "dir"; b "file"]) (m := NFile 1234) as (_ & X).
  - exact HR.
  - repeat constructor; nb.
  - exact lsort_ok.
  - discriminate.
  - reflexivity.
  - nb.
  - exact h_wf.
  - exact I.
  - exact h_shows.
  - exact g_tab.
  - exact g_still.
  - exact g_manageable.
  - repeat constructor; cbn [map fst In m_nodes]; intuition discriminate.
  - exact m_nodes_reached.
  - vm_compute. discriminate.
  - vm_compute. discriminate.
  - exact Hrun.
  - exact Hr.
  - exact Er.
  - apply m_nodes_reached. cbn. auto.
  - apply X; [lia|reflexivity].
Qed.
(** C87: such command lines; rank 0 has returned at once *)
Example C87_witness : ~ In "V"%char ["C"; "X"; "T"]%char /\ no_directory h_fs (b "nothing") /\
  lmain 2 9 h_fs lsort (fun _ => 0) g_env [b "V"; b "out.tar"; b "base"] 0 = LReturn (-2) /\
  lmain 2 9 h_fs lsort (fun _ => 0) g_env [b "C"; b "out.tar"; b "nothing"] 0 = LReturn 333.
Proof. split; [cbn; intuition discriminate|]. split; [exact I|]. split; vm_compute; reflexivity. Qed.

(** C86 with a path longer than 100 bytes (an extended tar header): the one file
    of the tree has a name of 150 bytes *)
Definition lx_name : bytes := repeat "x"%char 150.
Definition lx_ch : list (bytes * node) := [(lx_name, NFile 10)].
Definition lx_stat (p : bytes) : option (stat * bytes) :=
  if bytes_eqb p (b "base") then Some (st_dir, []) else if bytes_eqb p (b "base/") then Some (st_dir, [])
  else if bytes_eqb p (b "base/" ++ lx_name) then Some (st_reg 10, []) else None.
Definition lx_readdir (p : bytes) : option (list bytes) := if bytes_eqb p (b "base") then Some [b "."; b ".."; lx_name] else None.
Definition lx_fs : fsys := {| f_readdir := lx_readdir; f_lstat := lx_stat; f_heap := fun _ => NUL |}.
Definition lx_env : env := {| e_names := a_names; e_lstat := lx_stat; e_data := fun p => if bytes_eqb p (b "base/" ++ lx_name) then Some (repeat "q"%char 10) else None |}.
Definition lx_nodes : list (list bytes * node) := [([], NDir lx_ch); ([lx_name], NFile 10)].
Lemma lx_at p n : at_path (NDir lx_ch) p n <-> In (p, n) lx_nodes.
Proof.
  split.
  - intros H. unfold lx_ch in H. walk_tree; cbn [In]; unfold lx_nodes; cbn [In]; auto.
  - intros [E|[E|[]]]; injection E as <- <-; [constructor|]. econstructor; [left; reflexivity|constructor].
Qed.
Lemma lx_reached p n : In (p, n) lx_nodes <-> reached (NDir lx_ch) p n.
Proof.
  unfold reached. rewrite lx_at. split; [|intros (H & _); exact H]. intros H. split; [exact H|].
  destruct H as [E|[E|[]]]; injection E as <- <-; (split; [|exact I]); repeat constructor; intros q X; discriminate X.
Qed.
Lemma lx_good : good_name lx_name.
Proof. unfold good_name, no_byte. repeat split; try discriminate; cbn; intros F; repeat destruct F as [F|F]; try discriminate; contradiction. Qed.
Lemma lx_wf : wf_node (NDir lx_ch).
Proof.
  unfold lx_ch. apply Wf_dir; [repeat constructor; intros []|repeat constructor; cbn [fst]; apply lx_good|].
  repeat apply Forall_cons; try apply Forall_nil; cbn [snd]; constructor; lia.
Qed.
Lemma lx_shows : shows lx_fs (b "base") (NDir lx_ch).
Proof.
  eapply Sh_dir; [vm_compute; reflexivity|reflexivity|vm_compute; reflexivity|vm_compute; reflexivity|].
  repeat apply Forall_cons; try apply Forall_nil; cbn [fst snd].
  eapply (Sh_file lx_fs _ (st_reg 10)); vm_compute; reflexivity.
Qed.
Lemma lx_still p n : reached (NDir lx_ch) p n -> still lx_env (b "base") p n.
Proof.
  intros H. apply lx_reached in H as [E|[E|[]]]; injection E as <- <-.
  - exists st_dir, []. split; [vm_compute; reflexivity|]. cbn [st_dir st_uid st_gid st_mtime st_size st_kind lx_env e_names].
    change (2 ^ 21) with 2097152; change (2 ^ 33) with 8589934592; change (2 ^ 63) with 9223372036854775808.
    repeat (split; [lia|]); (split; [vm_compute; discriminate|]); (split; [vm_compute; discriminate|]). split; auto.
  - exists (st_reg 10), []. split; [vm_compute; reflexivity|]. cbn [st_reg st_uid st_gid st_mtime st_size st_kind lx_env e_names].
    change (2 ^ 21) with 2097152; change (2 ^ 33) with 8589934592; change (2 ^ 63) with 9223372036854775808.
    repeat (split; [lia|]); (split; [vm_compute; discriminate|]); (split; [vm_compute; discriminate|]).
    split; auto. split; auto. split; auto. exists (repeat "q"%char 10). split; vm_compute; reflexivity.
Qed.
Example C86_long_witness : forall R clock dk, (1 <= R)%nat -> 100 < zlen (node_path (b "base") [lx_name]) /\ exists fuel, let p := lmain R fuel lx_fs lsort clock lx_env h_args in
  (forall n s, lrun R (fun _ => true) p n s -> exists s', lleads R (fun _ => true) s s' /\ all_zero R s') /\
  forall n s r, lrun R (fun _ => true) p n s -> (r < R)%nat -> l_prog s r = LReturn 0 -> exists ar, disk_after dk (l_log s) (b "out.tar") = Some ar /\ forall a, concretises a ar ->
     exists cat mc ms nodes', tar_list a = Some (mc :: ms) /\ is_catalog cat mc /\ NoDup (map fst nodes') /\ (forall q m, In (q, m) nodes' <-> reached (NDir lx_ch) q m) /\
       interspersed (fun pn m => describes lx_env (b "base") (fst pn) (snd pn) m) is_spacer nodes' ms.
Proof.
  intros R clock dk HR. split; [vm_compute; reflexivity|].
  destruct (C86_small_partial 155 R lx_fs lsort clock lx_env (fun _ => true) [] (b "out.tar") (b "base") [] (NDir lx_ch) lx_nodes dk) as (f0 & A).
  - exact HR.
  - repeat constructor; nb.
  - discriminate.
  - reflexivity.
  - exact lsort_ok.
  - discriminate.
  - reflexivity.
  - nb.
  - exact lx_wf.
  - exact I.
  - exact lx_shows.
  - intros p n H. apply lx_at in H as [E|[E|[]]]; injection E as <- <-; (split; [|exact I]); [nb|]. unfold no_byte. vm_compute. intros F. repeat destruct F as [F|F]; try discriminate; contradiction.
  - exact lx_still.
  - right. intros p n H. apply lx_reached in H as [E|[E|[]]]; injection E as <- <-; (split; [vm_compute; discriminate|]); [|lia]. vm_compute. reflexivity.
  - intros p n H. apply lx_reached in H as [E|[E|[]]]; injection E as <- <-; (split; [vm_compute; discriminate|]); exact I.
  - intros p _ H. apply lx_at in H as [E|[E|[]]]; discriminate E.
  - repeat constructor; cbn [map fst In lx_nodes]; intuition discriminate.
  - exact lx_reached.
  - vm_compute. repeat split; discriminate.
  - vm_compute. discriminate.
  - exists f0. exact (A f0 (le_n _)).
Qed.
