(** Property theorems C67 (order sets are filled) and C68 (what does not change
    the archive). *)
From Coq Require Import Permutation Sorted.
From Verif Require Import Bytes Outcome TarSpec TarModel Layout LayoutSpec LayoutProofs LayoutMore LayoutGreedy Samples Mover MoverSpec
  Boss BossProofs BossMore BossRuns Assemble Spider SpiderSpec SpiderProofs SpiderMore PropertiesScan PropertiesLayout Program ProgramProofs EndSpec EndProofs EndMore
  PropertiesEnd MembersSpec Members.

(** *** C67.  The order a set begins with would not have fitted in the set before
    it; without a limit of orders the number of sets is at most 1 + 2 * (archive
    length / bucket).  Partial: files in order of header+size, as in C13. *)
Theorem C67_filled_partial : forall idx bucket maxo dirs files d f bs,
  plannable bucket dirs files -> set_offsets dirs files = (d, f) ->
  StronglySorted (fun x y => en_hdr x + en_size x <= en_hdr y + en_size y) files ->
  create_transfer_orders idx bucket maxo d f = Ok (Some bs) ->
  (forall i B o r, nth_error bs i = Some B -> nth_error bs (S i) = Some (o :: r) ->
     (0 < maxo /\ zlen B = maxo) \/ bucket < o_pos o + o_hdr o + o_size o - bundle_start B) /\
  (maxo <= 0 -> forall e off l, d ++ f = l ++ [(e, off)] ->
     zlen bs <= 2 * (up512 (off + en_hdr e + en_size e) / bucket) + 1).
Proof. exact C67_lemma. Qed.
Print Assumptions C67_filled_partial.
Example C67_witness : let '(d, f) := set_offsets a_dirs a_files in
  exists bs, create_transfer_orders 0 a_bucket 0 d f = Ok (Some bs) /\ plannable a_bucket a_dirs a_files /\
  StronglySorted (fun x y => en_hdr x + en_size x <= en_hdr y + en_size y) a_files /\
  map (fun B => (bundle_start B, bundle_end B)) bs = [(0, 65632); (66048, 168448); (168448, 270848); (270848, 316560)].
Proof.
  destruct (set_offsets a_dirs a_files) as [d f] eqn:Es. vm_compute in Es. injection Es as <- <-.
  eexists. split; [vm_compute; reflexivity|]. split; [exact a_plannable|]. split; [exact (proj2 C13_witness)|]. vm_compute. reflexivity.
Qed.
(** in the order the program's own sort delivers, a set can be cut short: the
    fourth set starts with a file that would have fitted behind the third *)
Definition c67_files : list entry :=
  [force (mk_entry TFile (b "base") (b "f1") [] 100); force (mk_entry TFile (b "base") (repeat "n"%char 120) [] (a_bucket - 1024));
   force (mk_entry TFile (b "base") (b "f2") [] (a_bucket - 1024))].
Theorem C67_refuted : exists dirs files d f bs i B o r,
  plannable a_bucket dirs files /\ order_files files files /\ set_offsets dirs files = (d, f) /\
  create_transfer_orders 0 a_bucket 0 d f = Ok (Some bs) /\
  nth_error bs i = Some B /\ nth_error bs (S i) = Some (o :: r) /\
  o_pos o + o_hdr o + o_size o - bundle_start B <= a_bucket.
Proof.
  exists (firstn 1 a_dirs), c67_files. do 3 eexists. exists 2%nat. do 3 eexists. split.
  - unfold plannable. split; [vm_compute; discriminate|]. split; [vm_compute; reflexivity|]. split; [discriminate|].
    split; repeat constructor; vm_compute; try reflexivity; discriminate.
  - split; [exact (isort_order_files c67_files)|]. split; [vm_compute; reflexivity|]. split; [vm_compute; reflexivity|].
    split; [vm_compute; reflexivity|]. split; [vm_compute; reflexivity|]. vm_compute. discriminate.
Qed.
Print Assumptions C67_refuted.

(** *** C68.  Two completed runs over the same unchanged tree: any bucket sizes,
    order limits, numbers of ranks, schedules, sorts, archive names, and any order
    in which the directories are read.  The archives have the same length and the
    same members.  Partial: the conditions of C19 (C19_refuted: without them there
    may be no readable archive at all). *)
Theorem C68_same_members_partial : forall fs fs' sort sort' base t t' ev,
  (forall l, order_files l (sort l)) -> (forall l, order_files l (sort' l)) ->
  base <> [] -> no_byte NUL base -> is_dir_node t -> wf_node t -> wf_node t' ->
  shows fs base t -> shows fs' base t' -> same_tree t t' ->
  short_paths base t -> tab_free t ->
  (forall p n, at_path t p n -> archivable n -> still ev base p n) ->
  (forall p n, at_path t p n -> is_dir_node n -> p <> [] -> slash_safe (node_path base p)) ->
  forall fuel fuel' bucket bucket' maxo maxo' bs bs',
  plan fuel fs sort base bucket maxo = Ok (Some bs) -> plan fuel' fs' sort' base bucket' maxo' = Ok (Some bs') ->
  100000 <= bucket -> bucket mod 512 = 0 -> 100000 <= bucket' -> bucket' mod 512 = 0 ->
  forall path path' R n s R' n' s' a a', (1 <= R)%nat -> (1 <= R')%nat ->
  run (length bs) R (fun o => succeeds (jobs ev bucket path base bs o)) n s -> boss s = BEnd ->
  run (length bs') R' (fun o => succeeds (jobs ev bucket' path' base bs' o)) n' s' -> boss s' = BEnd ->
  concretises a (assemble (jobs ev bucket path base bs) (map snd (log s))) ->
  concretises a' (assemble (jobs ev bucket' path' base bs') (map snd (log s'))) ->
  zlen a = zlen a' /\ exists ms ms', tar_list a = Some ms /\ tar_list a' = Some ms' /\ Permutation ms ms'.
Proof. exact same_members. Qed.
Print Assumptions C68_same_members_partial.

(** witness: the sample tree of C19 with the names of "base" and "base/dir" read
    backwards; the two archives hold the members in different orders *)
Definition r_tree2 : node := NDir
  [(b "odd", NUnreadable); (b "dev", NOther); (b "locked", NLocked); (b "lnk", NLink (b "target"));
   (b "dir", NDir [(b "sub", NDir [(b "x", NFile 0)]); (b "file", NFile 1234)]); (b ".hidden", NFile 3)].
Definition r_fs2 : fsys := {| f_readdir := fun p => option_map (@rev bytes) (s_readdir p); f_lstat := s_lstat; f_heap := fun _ => NUL |}.
Example C68_same : same_tree s_tree r_tree2.
Proof.
  intros p m. split; intros (n & H & E); [unfold s_tree in H|unfold r_tree2 in H]; paths; cbn [bare] in *;
    eexists; (split; [unfold s_tree, r_tree2;
      repeat match goal with
      | |- at_path _ [] _ => apply At_here
      | |- at_path _ (_ :: _) _ => eapply At_below
      | |- In _ _ => solve [repeat first [left; reflexivity | right]]
      end|reflexivity]).
Qed.
Example C68_shows : shows r_fs2 (b "base") r_tree2 /\ wf_node r_tree2.
Proof.
  split.
  - eapply Sh_dir; [vm_compute; reflexivity|reflexivity|vm_compute; reflexivity|vm_compute; reflexivity|].
    repeat apply Forall_cons; try apply Forall_nil; cbn [fst snd].
    + eapply Sh_badlink; vm_compute; try reflexivity. discriminate.
    + eapply Sh_other; vm_compute; reflexivity.
    + eapply Sh_locked; vm_compute; reflexivity.
    + eapply Sh_link; vm_compute; reflexivity.
    + eapply Sh_dir; [vm_compute; reflexivity|reflexivity|vm_compute; reflexivity|vm_compute; reflexivity|].
      repeat apply Forall_cons; try apply Forall_nil; cbn [fst snd].
      * eapply Sh_dir; [vm_compute; reflexivity|reflexivity|vm_compute; reflexivity|vm_compute; reflexivity|].
        repeat apply Forall_cons; try apply Forall_nil; cbn [fst snd]. eapply (Sh_file r_fs2 _ (st_reg 0)); vm_compute; reflexivity.
      * eapply (Sh_file r_fs2 _ (st_reg 1234)); vm_compute; reflexivity.
    + eapply (Sh_file r_fs2 _ (st_reg 3)); vm_compute; reflexivity.
  - unfold r_tree2. apply Wf_dir; [nodup|repeat constructor; cbn [fst]; apply s_good; cbn; tauto|].
    repeat apply Forall_cons; try apply Forall_nil; cbn [snd]; try constructor; try lia; try discriminate.
    + cbn. intros F; repeat destruct F as [F|F]; try discriminate; contradiction.
    + nodup.
    + repeat constructor; cbn [fst]; apply s_good; cbn; tauto.
    + repeat apply Forall_cons; try apply Forall_nil; cbn [snd]; constructor; try lia; [nodup| |].
      * repeat constructor; cbn [fst]; apply s_good; cbn; tauto.
      * repeat constructor; lia.
Qed.
Definition r_plan2 : list (list order) :=
  match plan 9 r_fs2 isort (b "base") a_bucket 3 with Ok (Some bs) => bs | _ => [] end.
Example C68_witness : exists n s a,
  plan 9 r_fs2 isort (b "base") a_bucket 3 = Ok (Some r_plan2) /\
  run (length r_plan2) 4 (fun o => succeeds (jobs s_env a_bucket (b "out") (b "base") r_plan2 o)) n s /\ boss s = BEnd /\
  concretises a (assemble (jobs s_env a_bucket (b "out") (b "base") r_plan2) (map snd (log s))) /\
  option_map (map (fun m => (m_path m, m_size m))) (tar_list a) =
    Some [(b "base/", 0); (b "base/locked/", 0); (b "base/dir/", 0); (b "base/dir/sub/", 0); (b "base/lnk", 0); (b "base/dir/sub/x", 0); (b "base/.hidden", 3); (b "base/dir/file", 1234)].
Proof.
  assert (Hk : forall o, (o < 3)%nat -> succeeds (jobs s_env a_bucket (b "out") (b "base") r_plan2 o) = true).
  { intros [|[|[|o]]] H; try lia; vm_compute; reflexivity. }
  destruct (run_descending (fun o => succeeds (jobs s_env a_bucket (b "out") (b "base") r_plan2 o))) as (n & s & R1 & R2 & R3); try (apply Hk; lia).
  exists n, s, (fill "?"%char (assemble (jobs s_env a_bucket (b "out") (b "base") r_plan2) [2; 1; 0]%nat)).
  split; [vm_compute; reflexivity|]. split; [exact R1|]. split; [exact R2|]. split; [rewrite R3; apply fill_ok; vm_compute; discriminate|].
  vm_compute. reflexivity.
Qed.
