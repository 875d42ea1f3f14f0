(** Property theorem C97: what was unpacked gives the same archive again. *)
From Coq Require Import Permutation.
From Verif Require Import Bytes Outcome TarSpec TarModel TarProofs Layout LayoutSpec LayoutProofs LayoutMore Samples Mover MoverSpec
  Boss BossProofs BossMore BossRuns Assemble Spider SpiderSpec SpiderProofs SpiderMore PropertiesScan PropertiesLayout Program ProgramProofs EndSpec EndProofs EndMore
  PropertiesProgram PropertiesEnd MembersSpec Members UnpackSpec Unpack PropertiesUnpack RepackSpec Repack.

(** what [unpack] made, and nothing else below the base *)
Lemma made_of fuel fs sort base t ev bucket maxo bs path R n s a S0 ms S :
  plan fuel fs sort base bucket maxo = Ok (Some bs) ->
  (forall l, order_files l (sort l)) -> base <> [] -> no_byte NUL base -> is_dir_node t -> wf_node t -> shows fs base t ->
  short_paths base t -> tab_free t -> 100000 <= bucket -> bucket mod 512 = 0 ->
  (forall p n, at_path t p n -> archivable n -> still ev base p n) ->
  (forall p n, at_path t p n -> is_dir_node n -> p <> [] -> slash_safe (node_path base p)) -> (1 <= R)%nat ->
  run (length bs) R (fun o => succeeds (jobs ev bucket path base bs o)) n s -> boss s = BEnd ->
  concretises a (assemble (jobs ev bucket path base bs) (map snd (log s))) ->
  ~ In (b "..") (components base) -> room_for S0 (components base) -> tar_list a = Some ms -> unpack S0 ms = Some S ->
  (forall p n, at_path t p n -> archivable n -> exists m, S (components base ++ p) = Some (Made m) /\ describes ev base p n m) /\
  (forall p m, S (components base ++ p) = Some (Made m) -> exists n, at_path t p n /\ archivable n).
Proof.
  intros A1 A2 A3 A4 A5 A6 A7 A8 A9 A10 A11 A12 A13 A14 A15 A16 A17 Hdd Hroom Hms HS.
  destruct (C19_ordered _ _ _ _ _ _ _ _ _ _ _ _ _ _ A1 A2 A3 A4 A5 A6 A7 A8 A9 A10 A11 A12 A13 A14 A15 A16 A17) as (ms1 & nodes & B1 & B2 & B3 & B4 & B5).
  assert (ms1 = ms) by congruence. subst ms1.
  destruct (unpacked ev base S0 (fun _ => False) (fun _ => False) Hdd Hroom) with (nodes := nodes) (ms := ms) as (S1 & E1 & E2 & E3); auto.
  - intros m [].
  - intros q [].
  - apply Forall_forall. intros [p nd] H. apply B3 in H as [H _]. apply (at_path_wf _ _ _ H A6).
  - intros q nd H ->. apply B3 in H as [H _]. inversion H; subst. exact A5.
  - apply inter_of_forall2. exact B4.
  - assert (S1 = S) by congruence. subst S1. split.
    + intros p nd H1 H2. apply E2. apply B3. auto.
    + intros p m Hm. destruct p as [|x p].
      * exists t. split; [apply At_here|]. destruct t; try exact I; destruct A5.
      * destruct (E3 (components base ++ x :: p)) as [E|[(p' & nd & H & E)|[]]].
        -- destruct Hroom as (_ & _ & Hr). rewrite E, (Hr (x :: p)) in Hm by discriminate. discriminate Hm.
        -- apply app_inv_head in E. subst p'. apply B3 in H. eauto.
Qed.

(** *** C97.  An archive [a] of the tree [t] is unpacked in a place with room for
    it; [t'] (shown by [fs'] and [ev']) is the tree that is there now.  Archiving
    it again, with any bucket size, order limit, ranks, schedules and order of
    directory listings, gives an archive of the same length with the same
    members: names, types, targets, sizes, contents and metadata.  Partial: the
    conditions of C19 for the first tree; those of the second follow, but for the
    metadata being in range and the files unchanged during the run ([still]). *)
Theorem C97_repack_partial : forall fs sort base t ev fuel bucket maxo bs path R n s a S0 ms S,
  plan fuel fs sort base bucket maxo = Ok (Some bs) ->
  (forall l, order_files l (sort l)) -> base <> [] -> no_byte NUL base -> is_dir_node t -> wf_node t -> shows fs base t ->
  short_paths base t -> tab_free t -> 100000 <= bucket -> bucket mod 512 = 0 ->
  (forall p n, at_path t p n -> archivable n -> still ev base p n) ->
  (forall p n, at_path t p n -> is_dir_node n -> p <> [] -> slash_safe (node_path base p)) -> (1 <= R)%nat ->
  run (length bs) R (fun o => succeeds (jobs ev bucket path base bs o)) n s -> boss s = BEnd ->
  concretises a (assemble (jobs ev bucket path base bs) (map snd (log s))) ->
  ~ In (b "..") (components base) -> room_for S0 (components base) -> tar_list a = Some ms -> unpack S0 ms = Some S ->
  forall fs' sort' t' ev' fuel' bucket' maxo' bs' path' R' n' s' a',
  wf_node t' -> shows fs' base t' -> unpacked_as S ev' base t' ->
  (forall p n, at_path t' p n -> still ev' base p n) ->
  plan fuel' fs' sort' base bucket' maxo' = Ok (Some bs') -> (forall l, order_files l (sort' l)) ->
  100000 <= bucket' -> bucket' mod 512 = 0 -> (1 <= R')%nat ->
  run (length bs') R' (fun o => succeeds (jobs ev' bucket' path' base bs' o)) n' s' -> boss s' = BEnd ->
  concretises a' (assemble (jobs ev' bucket' path' base bs') (map snd (log s'))) ->
  zlen a' = zlen a /\ exists ms', tar_list a' = Some ms' /\ Permutation ms ms'.
Proof.
  intros fs sort base t ev fuel bucket maxo bs path R n s a S0 ms S A1 A2 A3 A4 A5 A6 A7 A8 A9 A10 A11 A12 A13 A14 A15 A16 A17 Hdd Hroom Hms HS
    fs' sort' t' ev' fuel' bucket' maxo' bs' path' R' n' s' a' B1 B2 B3 B4 B5 B6 B7 B8 B9 B10 B11 B12.
  destruct (made_of _ _ _ _ _ _ _ _ _ _ _ _ _ _ _ _ _ A1 A2 A3 A4 A5 A6 A7 A8 A9 A10 A11 A12 A13 A14 A15 A16 A17 Hdd Hroom Hms HS) as [M1 M2].
  destruct (again_members fs fs' sort sort' base t t' ev ev' S A2 B6 A3 A4 A5 A6 B1 A7 B2 A8 A9 A12 (fun p n H _ => B4 p n H) A13 B3 M1 M2
    fuel fuel' bucket bucket' maxo maxo' bs bs' A1 B5 A10 A11 B7 B8 path path' R n s R' n' s' a a' A14 B9 A15 A16 B10 B11 A17 B12) as (L & ms1 & ms' & T & T' & P).
  split; [symmetry; exact L|]. exists ms'. split; [exact T'|]. assert (ms1 = ms) by congruence. subst ms1. exact P.
Qed.
Print Assumptions C97_repack_partial.

(** witness: the sample tree of C19, unpacked: the device and the unreadable
    link are gone, the locked directory is an empty one; archived again with
    another bucket size, names read in another order *)
Definition r_tree : node := NDir
  [(b "lnk", NLink (b "target")); (b "locked", NDir []); (b ".hidden", NFile 3);
   (b "dir", NDir [(b "sub", NDir [(b "x", NFile 0)]); (b "file", NFile 1234)])].
Definition r_readdir (p : bytes) : option (list bytes) :=
  if bytes_eqb p (b "base") then Some [b "."; b ".."; b "lnk"; b "locked"; b ".hidden"; b "dir"]
  else if bytes_eqb p (b "base/dir") then Some [b "."; b ".."; b "sub"; b "file"]
  else if bytes_eqb p (b "base/dir/sub") then Some [b "."; b ".."; b "x"]
  else if bytes_eqb p (b "base/locked") then Some [b "."; b ".."]
  else None.
Definition r_fs : fsys := {| f_readdir := r_readdir; f_lstat := s_lstat; f_heap := fun _ => NUL |}.
Example r_wf : wf_node r_tree.
Proof.
  unfold r_tree. repeat (apply Wf_dir; [nodup|repeat apply Forall_cons; try apply Forall_nil; cbn [fst]; apply s_good; cbn; tauto|repeat apply Forall_cons; try apply Forall_nil; cbn [snd]]);
    try (constructor; try lia; try discriminate; cbn; intros F; repeat destruct F as [F|F]; try discriminate; contradiction).
Qed.
Example r_shows : shows r_fs (b "base") r_tree.
Proof.
  eapply Sh_dir; [vm_compute; reflexivity|reflexivity|vm_compute; reflexivity|vm_compute; reflexivity|].
  repeat apply Forall_cons; try apply Forall_nil; cbn [fst snd].
  - eapply Sh_link; vm_compute; reflexivity.
  - eapply Sh_dir; [vm_compute; reflexivity|reflexivity|vm_compute; reflexivity|vm_compute; reflexivity|constructor].
  - eapply (Sh_file r_fs _ (st_reg 3)); vm_compute; reflexivity.
  - eapply Sh_dir; [vm_compute; reflexivity|reflexivity|vm_compute; reflexivity|vm_compute; reflexivity|].
    repeat apply Forall_cons; try apply Forall_nil; cbn [fst snd].
    + eapply Sh_dir; [vm_compute; reflexivity|reflexivity|vm_compute; reflexivity|vm_compute; reflexivity|].
      repeat apply Forall_cons; try apply Forall_nil; cbn [fst snd]. eapply (Sh_file r_fs _ (st_reg 0)); vm_compute; reflexivity.
    + eapply (Sh_file r_fs _ (st_reg 1234)); vm_compute; reflexivity.
Qed.
Example r_still : forall p n, at_path r_tree p n -> still s_env (b "base") p n.
Proof.
  intros p n H. unfold r_tree in H. paths; unfold still;
    (do 2 eexists; split; [vm_compute; reflexivity|]; cbn; repeat split; try lia; try discriminate; try reflexivity; try (eexists; split; [vm_compute; reflexivity|vm_compute; reflexivity]); congruence).
Qed.
Definition r_plan : list (list order) := match plan 9 r_fs isort (b "base") 204800 3 with Ok (Some bs) => bs | _ => [] end.
Example C97_witness : exists n s a ms S n' s' a',
  run (length s_plan3) 4 (fun o => succeeds (jobs s_env a_bucket (b "out") (b "base") s_plan3 o)) n s /\ boss s = BEnd /\
  concretises a (assemble (jobs s_env a_bucket (b "out") (b "base") s_plan3) (map snd (log s))) /\
  ~ In (b "..") (components (b "base")) /\ room_for empty_dir (components (b "base")) /\ tar_list a = Some ms /\ unpack empty_dir ms = Some S /\
  wf_node r_tree /\ shows r_fs (b "base") r_tree /\ unpacked_as S s_env (b "base") r_tree /\ (forall p n, at_path r_tree p n -> still s_env (b "base") p n) /\
  plan 9 r_fs isort (b "base") 204800 3 = Ok (Some r_plan) /\ length r_plan = 3%nat /\
  run (length r_plan) 4 (fun o => succeeds (jobs s_env 204800 (b "new") (b "base") r_plan o)) n' s' /\ boss s' = BEnd /\
  concretises a' (assemble (jobs s_env 204800 (b "new") (b "base") r_plan) (map snd (log s'))).
Proof.
  assert (K : forall o, (o < 3)%nat -> succeeds (jobs s_env 204800 (b "new") (b "base") r_plan o) = true) by (intros [|[|[|o]]] H; try lia; vm_compute; reflexivity).
  destruct C69_witness as (n & s & a & S' & R1 & R2 & Ca & Hdd & Hroom & _).
  assert (Nb : no_byte NUL (b "base")) by (unfold no_byte; vm_compute; intros F; repeat destruct F as [F|F]; try discriminate F; contradiction).
  destruct (C69_unpack_partial 9 s_fs isort (b "base") s_tree s_env a_bucket 3 s_plan3 (b "out") 4 n s a empty_dir s_plan3_ok isort_order_files ltac:(discriminate) Nb I s_wf s_shows s_short s_tab
    ltac:(vm_compute; discriminate) ltac:(vm_compute; reflexivity) s_still s_safe ltac:(lia) R1 R2 Ca Hdd Hroom) as (ms & S & T & U & _).
  destruct (made_of 9 s_fs isort (b "base") s_tree s_env a_bucket 3 s_plan3 (b "out") 4 n s a empty_dir ms S s_plan3_ok isort_order_files ltac:(discriminate) Nb I s_wf s_shows s_short s_tab
    ltac:(vm_compute; discriminate) ltac:(vm_compute; reflexivity) s_still s_safe ltac:(lia) R1 R2 Ca Hdd Hroom T U) as [M1 M2].
  destruct (run_ascending (fun o => succeeds (jobs s_env 204800 (b "new") (b "base") r_plan o))) as (n' & s' & R1' & R2' & R3'); try (apply K; lia).
  exists n, s, a, ms, S, n', s', (fill "?"%char (assemble (jobs s_env 204800 (b "new") (b "base") r_plan) [0; 1; 2]%nat)).
  split; [exact R1|]. split; [exact R2|]. split; [exact Ca|]. split; [exact Hdd|]. split; [exact Hroom|]. split; [exact T|]. split; [exact U|].
  split; [exact r_wf|]. split; [exact r_shows|]. split; [|split; [exact r_still|]].
  - split.
    + assert (G : forall p n, at_path r_tree p n -> exists n0, at_path s_tree p n0 /\ archivable n0 /\ kind_of n0 = kind_of n).
      { intros p x H. unfold r_tree in H. paths; unfold s_tree;
          (eexists; split; [first [apply At_here|repeat (eapply At_below; [cbn [In]; eauto 12|]); apply At_here]|split; [exact I|reflexivity]]). }
      intros p x H. destruct (G p x H) as (n0 & H0 & Hn & E). destruct (M1 p n0 H0 Hn) as (m & Em & D). exists m. split; [exact Em|].
      destruct n0, x; cbn in E; try discriminate E; try exact D; injection E as <-; exact D.
    + intros p m Em. destruct (M2 p m Em) as (x & H & Hn). unfold s_tree in H. paths; cbn in Hn; try contradiction; unfold r_tree;
        (eexists; first [apply At_here|repeat (eapply At_below; [cbn [In]; eauto 12|]); apply At_here]).
  - split; [vm_compute; reflexivity|]. split; [vm_compute; reflexivity|]. split; [exact R1'|]. split; [exact R2'|]. rewrite R3'. apply fill_ok. vm_compute. discriminate.
Qed.
