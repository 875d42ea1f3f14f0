(** Property theorems C73 (target given through a symbolic link), C74 (target
    that is no directory), C75 (both versions archive the same members), C76
    (slash behind the target). *)
From Coq Require Import Permutation Sorted.
From Verif Require Import Bytes Outcome TarSpec TarModel TarProofs Layout LayoutSpec LayoutProofs LayoutMore OrderCodec Mover MoverSpec MoverMore Worker Assemble AssembleProofs
  Boss BossProofs BossMore BossRuns Args ArgsSpec ArgsProofs Spider SpiderSpec SpiderProofs SpiderMore Program ProgramProofs EndSpec EndProofs EndMore EndRefuted
  MembersSpec Members UnpackSpec Unpack Legacy LegacyScan LegacyScanProofs LegacyLayout LegacyCodec LegacyWrite LegacyCreate LegacySpec LegacyEndSpec LegacyTreeSpec
  LegacyRun LegacyCreateProofs LegacyTotal TargetSpec Target Versions Slash
  Samples PropertiesScan PropertiesProgram PropertiesEnd PropertiesLegacyScan PropertiesLegacyEnd.

(** *** C73.  0.6: only what opening the target shows matters; the target may be
    a symbolic link to a directory.  C19, with [opens_as] in the place of
    [shows].  Partial: the other conditions of C19. *)
Theorem C73_linked_target_partial : forall fuel fs sort base t ev bucket maxo bs path R n s a,
  plan fuel fs sort base bucket maxo = Ok (Some bs) ->
  (forall l, order_files l (sort l)) -> base <> [] -> no_byte NUL base -> is_dir_node t -> wf_node t -> opens_as fs base t ->
  short_paths base t -> tab_free t -> 100000 <= bucket -> bucket mod 512 = 0 ->
  (forall p n, at_path t p n -> archivable n -> still ev base p n) ->
  (forall p n, at_path t p n -> is_dir_node n -> p <> [] -> slash_safe (node_path base p)) ->
  (1 <= R)%nat ->
  run (length bs) R (fun o => succeeds (jobs ev bucket path base bs o)) n s -> boss s = BEnd ->
  concretises a (assemble (jobs ev bucket path base bs) (map snd (log s))) ->
  exists ms nodes, tar_list a = Some ms /\
    NoDup (map fst nodes) /\ (forall p n, In (p, n) nodes <-> at_path t p n /\ archivable n) /\
    Forall2 (fun pn m => describes ev base (fst pn) (snd pn) m) nodes ms.
Proof. exact C73_lemma. Qed.
Print Assumptions C73_linked_target_partial.
(** the same for 0.5.1: C50 *)
Theorem C73_legacy_partial : forall fuel fs clock ev top t R prior l ar a cat,
  top <> [] -> ends_with_slash top = false -> no_byte NUL top -> no_byte TAB top -> wf_node t -> is_dir_node t -> is_link fs top -> opens_as fs top t -> tab_free t ->
  (forall p n, reached t p n -> still ev top p n) -> manageable top t -> (1 <= R)%nat ->
  create_run fuel fs clock ev top R prior l ar -> zlen l <= 4000000 -> total_size l <= 8000000000000000 ->
  concretises a ar -> list_to_buffer l L_BUCKET true = Ok (Some cat) -> (1024 + zlen cat) mod L_BUCKET <> 0 ->
  exists mc ms nodes, tar_list a = Some (mc :: ms) /\ is_catalog cat mc /\ NoDup (map fst nodes) /\
    (forall p n, In (p, n) nodes <-> reached t p n) /\
    interspersed (fun pn m => describes ev top (fst pn) (snd pn) m) is_spacer nodes ms.
Proof.
  intros fuel fs clock ev top t R prior l ar a cat A1 A2 A3 A4 A5 A6 Al Ao A8 A9 A10 A11 A12. apply opens_shows in Ao. apply (create_seen _ _ _ _ _ _ _ _ _ A2 Al) in A12.
  exact (C50_create_partial fuel (seen fs top) clock ev top t R prior l ar a cat A1 A2 A3 A4 A5 A6 Ao A8 A9 A10 A11 A12).
Qed.
Print Assumptions C73_legacy_partial.
(** witnesses: the samples of C19 and C50 with a link at "base" *)
Definition link_at (f : bytes -> option (stat * bytes)) (p : bytes) : option (stat * bytes) := if bytes_eqb p (b "base") then Some (st_lnk 9, b "elsewhere") else f p.
Definition k_fs : fsys := {| f_readdir := s_readdir; f_lstat := link_at s_lstat; f_heap := fun _ => NUL |}.
Definition k_fs' : fsys := {| f_readdir := h_readdir; f_lstat := link_at h_lstat; f_heap := fun _ => NUL |}.
Lemma seen_opens fs fs' base t : f_readdir fs = f_readdir fs' -> (forall p, p <> base -> f_lstat fs p = f_lstat fs' p) -> shows fs base t -> is_dir_node t -> opens_as fs' base t.
Proof.
  intros E1 E2 H D. assert (G : forall p n, shows fs p n -> zlen base < zlen p -> shows fs' p n).
  { clear - E1 E2. fix IH 3. intros p n H L. pose proof (E2 p (longer _ _ L)) as Hl. destruct H as [path s l E K|path s t E K Z|path s l names ch E K R F A|path s l E K R|path s l E K|path E|path s t E K Z]; rewrite Hl in E; try rewrite E1 in R.
    - apply (Sh_file _ _ s l); auto.
    - apply (Sh_link _ _ s t); auto.
    - apply (Sh_dir _ _ s l names ch); auto. clear F. induction A as [|c ch0 Hc A IHA]; constructor; [|exact IHA].
      apply IH; auto. rewrite !zlen_app. pose proof (zlen_nonneg (fst c)). change (zlen [SLASH]) with 1. lia.
    - apply (Sh_locked _ _ s l); auto.
    - apply (Sh_other _ _ s l); auto.
    - apply Sh_gone. auto.
    - apply (Sh_badlink _ _ s t); auto. }
  destruct (shows_opens _ _ _ H D) as [names ch R F A|R]; rewrite E1 in R.
  - apply (Opens fs' base names ch); auto. eapply Forall_impl; [|exact A]. cbv beta. intros c Hc. apply G; auto. rewrite !zlen_app. pose proof (zlen_nonneg (fst c)). change (zlen [SLASH]) with 1. lia.
  - apply Opens_not; auto.
Qed.
Lemma link_at_other f p : p <> b "base" -> f p = link_at f p.
Proof. intros H. unfold link_at. destruct (bytes_eqb p (b "base")) eqn:E; auto. apply bytes_eqb_spec in E. contradiction. Qed.
Example C73_witness : opens_as k_fs (b "base") s_tree /\ is_link k_fs (b "base") /\ ~ shows k_fs (b "base") s_tree /\
  plan 9 k_fs isort (b "base") a_bucket 3 = Ok (Some s_plan3) /\   (* the runs are those of C19_witness *)
  opens_as k_fs' (b "base") (NDir h_tree) /\ is_link k_fs' (b "base") /\
  (forall es, list_directory 5 h_fs (b "base") = Ok (Some es) -> list_directory 5 k_fs' (b "base") = Ok (Some es)).  (* those of C50_witness *)
Proof.
  split; [apply (seen_opens s_fs); [reflexivity|intros p H; exact (link_at_other s_lstat p H)|exact s_shows|exact I]|].
  split; [exists (st_lnk 9), (b "elsewhere"); repeat split|].
  split; [intros H; inversion H as [| |? ? ? ? ? E K| | | |]; vm_compute in E; injection E as <- <-; discriminate K|].
  split; [vm_compute; reflexivity|].
  split; [apply (seen_opens h_fs); [reflexivity|intros p H; exact (link_at_other h_lstat p H)|exact h_shows|exact I]|].
  split; [exists (st_lnk 9), (b "elsewhere"); repeat split|].
  intros es H. rewrite <- H. vm_compute. reflexivity.
Qed.

(** *** C74.  0.5.1 refuses a target that is neither directory nor link *)
Theorem C74_legacy_partial : forall fuel fs clock ev top R prior, no_directory fs top ->
  list_directory fuel fs top = Ok None /\ forall l ar, ~ create_run fuel fs clock ev top R prior l ar.
Proof.
  intros fuel fs clock ev top R prior H. pose proof (refused_listing fs top fuel H) as E. split; auto. intros l ar X. inversion X; subst. congruence.
Qed.
Print Assumptions C74_legacy_partial.
Example C74_legacy_witness : no_directory h_fs (b "base/dir/file") /\ no_directory h_fs (b "nothing").
Proof. split; [|exact I]. vm_compute. split; discriminate. Qed.
(** 0.6 does not: whatever the command line, a target that cannot be opened as a
    directory does not keep it from making the archive file and handing out
    orders, and no run on any number of ranks, under any schedule, ends. *)
Theorem C74_refuted : forall R junk fuel fs sort opens args o base ev path, args <> [] -> Forall short args ->
  parse_args {| op_bucket := DEFAULT_BUCKET_SIZE; op_maxo := junk; op_archive := [] |} args = Ok (Some (o, [base])) ->
  op_archive o <> [] -> 100000 <= op_bucket o -> (forall l, order_files l (sort l)) ->
  base <> [] -> zlen base < 40000 -> f_readdir fs base = None -> e_lstat ev (base ++ [SLASH]) = None -> opens (op_archive o) = true -> (1 <= R)%nat ->
  exists acts bs, fst (boss_main R junk (S fuel) fs sort opens args) = acts /\ In (AOpen (op_archive o) true) acts /\ In (APush bs) acts /\
    forall n s, run (length bs) R (fun o' => succeeds (jobs ev (op_bucket o) path base bs o')) n s -> boss s <> BEnd.
Proof.
  intros R junk fuel fs sort opens args o base ev path Ha Hsh Hp Hn Hb Hs H1 H2 H3 H4 Ho HR.
  pose proof (parsed_aligned junk args o base Hsh Hp) as Hm.
  destruct (missing_plans fs base H1 H3 H2 fuel sort (op_bucket o) (op_maxo o) Hs Hb Hm) as (bs & P).
  eexists. exists bs. split; [reflexivity|]. rewrite (boss_main_eq _ _ _ _ _ _ _ o base) by auto. rewrite P. cbn iota. rewrite Ho. cbn [fst].
  split; [right; right; left; reflexivity|]. split; [rewrite !in_app_iff; right; right; right; left; left; reflexivity|].
  intros n s Hr. exact (missing_hangs fs base H1 H3 H2 (S fuel) sort ev (op_bucket o) (op_maxo o) bs path R n s P Hs Hb Hm H4 HR Hr).
Qed.
Print Assumptions C74_refuted.
Example C74_witness : parse_args {| op_bucket := DEFAULT_BUCKET_SIZE; op_maxo := 7; op_archive := [] |} [b "archivefile=out.tar"; b "nothing"] =
    Ok (Some ({| op_bucket := DEFAULT_BUCKET_SIZE; op_maxo := 7; op_archive := b "out.tar" |}, [b "nothing"])) /\
  f_readdir s_fs (b "nothing") = None /\ e_lstat s_env (b "nothing" ++ [SLASH]) = None /\ f_readdir s_fs (b "base/dir/file") = None /\ e_lstat s_env (b "base/dir/file" ++ [SLASH]) = None.
Proof. vm_compute. auto. Qed.

(** *** C75.  The archives the two versions make of one tree (scanned in any
    order) hold the same members, up to order, besides the catalog and the
    spacers of 0.5.1 and the nodes below or at names starting with a dot, which
    0.5.1 leaves out.  Partial: the conditions of C19 and C50. *)
Theorem C75_versions_agree_partial : forall fs fs' sort base t t' ev, (forall l, order_files l (sort l)) ->
  base <> [] -> ends_with_slash base = false -> no_byte NUL base -> no_byte TAB base -> is_dir_node t -> wf_node t -> wf_node t' ->
  shows fs base t -> shows fs' base t' -> same_tree t t' ->
  short_paths base t -> tab_free t -> manageable base t' ->
  (forall p n, at_path t p n -> archivable n -> still ev base p n) ->
  (forall p n, at_path t p n -> is_dir_node n -> p <> [] -> slash_safe (node_path base p)) ->
  (* parfu 0.6 *)
  forall fuel bucket maxo bs path R n s a,
  plan fuel fs sort base bucket maxo = Ok (Some bs) -> 100000 <= bucket -> bucket mod 512 = 0 -> (1 <= R)%nat ->
  run (length bs) R (fun o => succeeds (jobs ev bucket path base bs o)) n s -> boss s = BEnd ->
  concretises a (assemble (jobs ev bucket path base bs) (map snd (log s))) ->
  (* parfu 0.5.1 *)
  forall fuel' clock R' prior l ar a' cat, (1 <= R')%nat ->
  create_run fuel' fs' clock ev base R' prior l ar -> zlen l <= 4000000 -> total_size l <= 8000000000000000 ->
  concretises a' ar -> list_to_buffer l L_BUCKET true = Ok (Some cat) -> (1024 + zlen cat) mod L_BUCKET <> 0 ->
  exists ms mc ms' common hidden, tar_list a = Some ms /\ tar_list a' = Some (mc :: ms') /\ is_catalog cat mc /\
    interspersed eq is_spacer common ms' /\ Permutation ms (common ++ hidden) /\
    forall m, In m hidden -> exists p n, at_path t p n /\ ~ Forall PropertiesLegacyScan.plain p /\ describes ev base p n m.
Proof. exact C75_lemma. Qed.
Print Assumptions C75_versions_agree_partial.
(** witness: the tree of C50, with its hidden files readable *)
Definition v_env : env := {| e_names := a_names; e_lstat := g_lstat;
  e_data := fun p => if bytes_eqb p (b "base/dir/file") then Some (repeat "z"%char 1234) else if bytes_eqb p (b "base/.hidden") then Some (b "abc")
                     else if bytes_eqb p (b "base/dir/.d/x") then Some [] else None |}.
Definition v_plan : list (list order) := match plan 9 h_fs isort (b "base") a_bucket 3 with Ok (Some bs) => bs | _ => [] end.
Lemma v_still p n : at_path (NDir h_tree) p n -> archivable n -> still v_env (b "base") p n.
Proof.
  intros H Ha. unfold h_tree in H. paths; cbn in Ha; try contradiction; unfold still;
    (do 2 eexists; split; [vm_compute; reflexivity|]; cbn; repeat split; try lia; try discriminate; try reflexivity; try (eexists; split; [vm_compute; reflexivity|vm_compute; reflexivity]); congruence).
Qed.
Lemma v_short : short_paths (b "base") (NDir h_tree).
Proof. intros p n H. unfold h_tree in H. paths; (split; [vm_compute; discriminate|]); try exact I; vm_compute; discriminate. Qed.
Lemma v_jobs : forall o, (o < 3)%nat -> succeeds (jobs v_env a_bucket (b "out") (b "base") v_plan o) = true.
Proof. intros [|[|[|o]]] H; try lia; vm_compute; reflexivity. Qed.
Lemma v_reach p n : reached (NDir h_tree) p n -> still v_env (b "base") p n.
Proof. intros (A & _ & B). apply v_still; auto. Qed.
Example C75_witness : shows h_fs (b "base") (NDir h_tree) /\ wf_node (NDir h_tree) /\ tab_free (NDir h_tree) /\ manageable (b "base") (NDir h_tree) /\ short_paths (b "base") (NDir h_tree) /\
  (forall p n, at_path (NDir h_tree) p n -> archivable n -> still v_env (b "base") p n) /\
  plan 9 h_fs isort (b "base") a_bucket 3 = Ok (Some v_plan) /\
  (exists n s a, run (length v_plan) 4 (fun o => succeeds (jobs v_env a_bucket (b "out") (b "base") v_plan o)) n s /\ boss s = BEnd /\
     concretises a (assemble (jobs v_env a_bucket (b "out") (b "base") v_plan) (map snd (log s))) /\
     option_map (map m_path) (tar_list a) = Some [b "base/"; b "base/dir/"; b "base/dir/.d/"; b "base/lnk"; b "base/dir/.d/x"; b "base/.hidden"; b "base/dir/file"]) /\
  forall clock R prior, exists fuel l ar, create_run fuel h_fs clock v_env (b "base") R prior l ar /\ zlen l = 4 /\ total_size l = 1234.
Proof.
  split; [exact h_shows|]. split; [exact h_wf|]. split; [exact g_tab|]. split; [exact g_manageable|]. split; [exact v_short|]. split; [exact v_still|].
  split; [vm_compute; reflexivity|]. split.
  - destruct (run_ascending (fun o => succeeds (jobs v_env a_bucket (b "out") (b "base") v_plan o))) as (n & s & R1 & R2 & R3); try (apply v_jobs; lia).
    exists n, s, (fill "?"%char (assemble (jobs v_env a_bucket (b "out") (b "base") v_plan) [0; 1; 2]%nat)).
    replace (length v_plan) with 3%nat by (vm_compute; reflexivity). split; [exact R1|]. split; [exact R2|].
    split; [rewrite R3; apply fill_ok; vm_compute; discriminate|]. vm_compute. reflexivity.
  - intros clock R prior. destruct C50_exists_witness as (W1 & W2 & nodes & W3 & W4 & W5 & W6).
    rewrite <- W5, <- W6. apply (C50_run_exists_partial 99 h_fs clock v_env (b "base") (NDir h_tree) nodes R prior); auto; try discriminate; try exact (proj1 (short_enough _ _ W1)); try exact (proj2 (short_enough _ _ W1)); try (apply few_short; lia); try exact I.
    + nb.
    + nb.
    + exact h_wf.
    + exact h_shows.
    + exact g_tab.
    + exact v_reach.
Qed.

(** *** C76.  A slash behind the target.  0.6: the archives made of "base" and
    of "base/" hold the same members up to order, spelt with one slash more; *)
Theorem C76_slash_partial : forall fs fs' sort sort' base t ev,
  (forall l, order_files l (sort l)) -> (forall l, order_files l (sort' l)) ->
  base <> [] -> no_byte NUL base -> is_dir_node t -> wf_node t ->
  opens_as fs base t -> opens_as fs' base t -> fs_blind base fs' -> slash_blind base (e_lstat ev) -> slash_blind base (e_data ev) ->
  short_paths (base ++ [SLASH]) t -> tab_free t ->
  (forall p n, at_path t p n -> archivable n -> still ev base p n) ->
  (forall p n, at_path t p n -> is_dir_node n -> p <> [] -> slash_safe (node_path base p) /\ slash_safe (node_path (base ++ [SLASH]) p)) ->
  forall fuel fuel' bucket bucket' maxo maxo' bs bs',
  plan fuel fs sort base bucket maxo = Ok (Some bs) -> plan fuel' fs' sort' (base ++ [SLASH]) bucket' maxo' = Ok (Some bs') ->
  100000 <= bucket -> bucket mod 512 = 0 -> 100000 <= bucket' -> bucket' mod 512 = 0 ->
  forall path path' R n s R' n' s' a a', (1 <= R)%nat -> (1 <= R')%nat ->
  run (length bs) R (fun o => succeeds (jobs ev bucket path base bs o)) n s -> boss s = BEnd ->
  run (length bs') R' (fun o => succeeds (jobs ev bucket' path' (base ++ [SLASH]) bs' o)) n' s' -> boss s' = BEnd ->
  concretises a (assemble (jobs ev bucket path base bs) (map snd (log s))) ->
  concretises a' (assemble (jobs ev bucket' path' (base ++ [SLASH]) bs') (map snd (log s'))) ->
  exists ms ms' ms2, tar_list a = Some ms /\ tar_list a' = Some ms' /\ Permutation ms2 ms' /\ Forall2 (respelt base) ms ms2.
Proof. exact C76_lemma. Qed.
Print Assumptions C76_slash_partial.
(** and so each unpacks to the same place *)
Theorem C76_same_place : forall base m m', respelt base m m' -> components (m_path m) = components (m_path m').
Proof. intros base m m' ((rest & -> & ->) & _). symmetry. apply components_blind. Qed.
Print Assumptions C76_same_place.
(** 0.5.1: the very same runs, byte for byte *)
Theorem C76_legacy : forall fs top fuel clock ev R prior l ar,
  top <> [] -> ends_with_slash top = false -> f_readdir fs (top ++ [SLASH]) = f_readdir fs top -> dir_or_link fs top -> dir_or_link fs (top ++ [SLASH]) -> slash_safe top ->
  create_run fuel fs clock ev (top ++ [SLASH]) R prior l ar <-> create_run fuel fs clock ev top R prior l ar.
Proof. intros fs top fuel clock ev R prior l ar H1 H2 H3 H4 H5 H6. apply create_slash; auto. Qed.
Print Assumptions C76_legacy.
(** witnesses *)
Fixpoint squeeze (l : bytes) : bytes :=
  match l with
  | c :: r => match squeeze r with d :: r' => if beq c SLASH && beq d SLASH then d :: r' else c :: d :: r' | [] => [c] end
  | [] => []
  end.
Lemma squeeze_two q : squeeze ([SLASH; SLASH] ++ q) = squeeze ([SLASH] ++ q).
Proof.
  cbn [app]. cbn [squeeze]. destruct (squeeze q) as [|d r].
  - reflexivity.
  - destruct (beq d SLASH) eqn:E; replace (beq SLASH SLASH) with true by reflexivity; cbn [andb]; rewrite ?E; replace (beq SLASH SLASH) with true by reflexivity; auto.
Qed.
Lemma squeeze_app p q q' : squeeze q = squeeze q' -> squeeze (p ++ q) = squeeze (p ++ q').
Proof. intros H. induction p as [|c p IH]; auto. cbn [app squeeze]. rewrite IH. reflexivity. Qed.
Definition q_fs : fsys := {| f_readdir := fun p => if bytes_eqb (squeeze p) (b "base/") then s_readdir (b "base") else s_readdir (squeeze p);
  f_lstat := fun p => if bytes_eqb (squeeze p) (b "base/") then Some (st_dir, []) else s_lstat (squeeze p); f_heap := fun _ => NUL |}.
Definition q_env : env := {| e_names := a_names; e_lstat := fun p => e_lstat s_env (squeeze p); e_data := fun p => e_data s_env (squeeze p) |}.
Definition q_plan : list (list order) := match plan 9 q_fs isort (b "base/") a_bucket 3 with Ok (Some bs) => bs | _ => [] end.
Lemma q_shows : shows q_fs (b "base") s_tree.
Proof.
  eapply Sh_dir; [vm_compute; reflexivity|reflexivity|vm_compute; reflexivity|vm_compute; reflexivity|].
  repeat apply Forall_cons; try apply Forall_nil; cbn [fst snd].
  - eapply (Sh_file q_fs _ (st_reg 3)); vm_compute; reflexivity.
  - eapply Sh_dir; [vm_compute; reflexivity|reflexivity|vm_compute; reflexivity|vm_compute; reflexivity|].
    repeat apply Forall_cons; try apply Forall_nil; cbn [fst snd].
    + eapply (Sh_file q_fs _ (st_reg 1234)); vm_compute; reflexivity.
    + eapply Sh_dir; [vm_compute; reflexivity|reflexivity|vm_compute; reflexivity|vm_compute; reflexivity|].
      repeat apply Forall_cons; try apply Forall_nil; cbn [fst snd]. eapply (Sh_file q_fs _ (st_reg 0)); vm_compute; reflexivity.
  - eapply Sh_link; vm_compute; reflexivity.
  - eapply Sh_locked; vm_compute; reflexivity.
  - eapply Sh_other; vm_compute; reflexivity.
  - eapply Sh_badlink; vm_compute; try reflexivity. discriminate.
Qed.
Lemma q_still p n : at_path s_tree p n -> archivable n -> still q_env (b "base") p n.
Proof.
  intros H Ha. unfold s_tree in H. paths; cbn in Ha; try contradiction; unfold still;
    (do 2 eexists; split; [vm_compute; reflexivity|]; cbn; repeat split; try lia; try discriminate; try reflexivity; try (eexists; split; [vm_compute; reflexivity|vm_compute; reflexivity]); congruence).
Qed.
Lemma q_jobs o : (o < 3)%nat -> succeeds (jobs q_env a_bucket (b "out") (b "base/") q_plan o) = true.
Proof. destruct o as [|[|[|o]]]; intros H; try lia; vm_compute; reflexivity. Qed.
Lemma q_jobs' o : (o < 3)%nat -> succeeds (jobs q_env a_bucket (b "out") (b "base") s_plan3 o) = true.
Proof. destruct o as [|[|[|o]]]; intros H; try lia; vm_compute; reflexivity. Qed.
Example C76_witness : opens_as q_fs (b "base") s_tree /\ fs_blind (b "base") q_fs /\ slash_blind (b "base") (e_lstat q_env) /\ slash_blind (b "base") (e_data q_env) /\
  (forall p n, at_path s_tree p n -> archivable n -> still q_env (b "base") p n) /\
  plan 9 q_fs isort (b "base") a_bucket 3 = Ok (Some s_plan3) /\ plan 9 q_fs isort (b "base/") a_bucket 3 = Ok (Some q_plan) /\
  dir_or_link q_fs (b "base") /\ dir_or_link q_fs (b "base/") /\
  exists n s n' s' a, run (length s_plan3) 4 (fun o => succeeds (jobs q_env a_bucket (b "out") (b "base") s_plan3 o)) n s /\ boss s = BEnd /\
    run (length q_plan) 4 (fun o => succeeds (jobs q_env a_bucket (b "out") (b "base/") q_plan o)) n' s' /\ boss s' = BEnd /\
    concretises a (assemble (jobs q_env a_bucket (b "out") (b "base/") q_plan) (map snd (log s'))) /\
    option_map (map m_path) (tar_list a) = Some [b "base//"; b "base//dir/"; b "base//locked/"; b "base//dir/sub/"; b "base//lnk"; b "base//dir/sub/x"; b "base//.hidden"; b "base//dir/file"].
Proof.
  assert (Q : forall q, squeeze (b "base" ++ [SLASH; SLASH] ++ q) = squeeze (b "base" ++ [SLASH] ++ q)) by (intros q; apply squeeze_app, squeeze_two).
  split; [exact (shows_opens _ _ _ q_shows I)|].
  split; [split; [intros q; cbn [q_fs f_lstat]; rewrite (Q q); reflexivity|split; [intros q; cbn [q_fs f_readdir]; rewrite (Q q); reflexivity|vm_compute; reflexivity]]|].
  split; [intros q; cbn [q_env e_lstat]; rewrite (Q q); reflexivity|]. split; [intros q; cbn [q_env e_data]; rewrite (Q q); reflexivity|].
  split; [exact q_still|]. split; [vm_compute; reflexivity|]. split; [vm_compute; reflexivity|].
  split; [exists st_dir, []; split; [vm_compute; reflexivity|left; reflexivity]|]. split; [exists st_dir, []; split; [vm_compute; reflexivity|left; reflexivity]|].
  destruct (run_ascending (fun o => succeeds (jobs q_env a_bucket (b "out") (b "base") s_plan3 o))) as (n & s & R1 & R2 & R3); try (apply q_jobs'; lia).
  destruct (run_descending (fun o => succeeds (jobs q_env a_bucket (b "out") (b "base/") q_plan o))) as (n' & s' & R1' & R2' & R3'); try (apply q_jobs; lia).
  exists n, s, n', s', (fill "?"%char (assemble (jobs q_env a_bucket (b "out") (b "base/") q_plan) [2; 1; 0]%nat)).
  split; [exact R1|]. split; [exact R2|]. replace (length q_plan) with 3%nat by (vm_compute; reflexivity). split; [exact R1'|]. split; [exact R2'|].
  split; [rewrite R3'; apply fill_ok; vm_compute; discriminate|]. vm_compute. reflexivity.
Qed.
