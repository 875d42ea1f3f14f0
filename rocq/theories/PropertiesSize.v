(** Property theorems C101: how large an archive of 0.6 is. *)
From Coq Require Import Permutation Lia.
From Verif Require Import Bytes Outcome TarSpec TarModel Layout LayoutSpec LayoutMore Mover MoverSpec Worker Assemble AssembleProofs Boss BossRuns
  Samples Spider SpiderSpec Program ProgramProofs EndSpec EndMore PropertiesLayout PropertiesBoss PropertiesScan PropertiesProgram PropertiesEnd SizeSpec Size.

(** *** C101 (partial: conditions of C19).  The archive of a tree consists of one
    member per archivable node and of nothing else: 512 bytes for the header of a
    node with short names, a bounded number of blocks for that of another, and
    the contents rounded up to whole blocks. *)
Theorem C101_size_partial : forall fuel fs sort base t ev bucket maxo bs path R n s,
  plan fuel fs sort base bucket maxo = Ok (Some bs) ->
  (forall l, order_files l (sort l)) -> base <> [] -> no_byte NUL base -> is_dir_node t -> wf_node t -> shows fs base t ->
  short_paths base t -> tab_free t -> 100000 <= bucket -> bucket mod 512 = 0 ->
  (forall p n, at_path t p n -> archivable n -> still ev base p n) ->
  (forall p n, at_path t p n -> is_dir_node n -> p <> [] -> slash_safe (node_path base p)) ->
  (1 <= R)%nat ->
  run (length bs) R (fun o => succeeds (jobs ev bucket path base bs o)) n s -> boss s = BEnd ->
  exists nodes, NoDup (map fst nodes) /\ (forall p n, In (p, n) nodes <-> at_path t p n /\ archivable n) /\
    takes base nodes (ar_size (assemble (jobs ev bucket path base bs) (map snd (log s)))).
Proof.
  intros fuel fs sort base t ev bucket maxo bs path R n s H1 H2 H3 H4 H5 H6 H7 H8 H9 H10 H11 H12 H13 H14 H15 H16.
  destruct (size_cost fuel fs sort base t ev bucket maxo bs path R n s H1 H2 H3 H4 H5 H6 H7 H8 H9 H10 H11 H12 H13 H14 H15 H16) as (nodes & A & B & C).
  exists nodes. split; auto. split; auto. rewrite C. apply cost_takes. intros p m Hin. apply B in Hin as [Hin _]. eapply contents_range; eauto.
Qed.
Print Assumptions C101_size_partial.

(** two runs on the same tree, with whatever bucket sizes, order limits, ranks,
    schedules and listing orders, make archives of the same size *)
Theorem C101_same_size_partial : forall base t fuel fs sort ev bucket maxo bs path R n s fuel' fs' sort' ev' bucket' maxo' bs' path' R' n' s',
  plan fuel fs sort base bucket maxo = Ok (Some bs) -> plan fuel' fs' sort' base bucket' maxo' = Ok (Some bs') ->
  (forall l, order_files l (sort l)) -> (forall l, order_files l (sort' l)) ->
  base <> [] -> no_byte NUL base -> is_dir_node t -> wf_node t -> shows fs base t -> shows fs' base t ->
  short_paths base t -> tab_free t -> 100000 <= bucket -> bucket mod 512 = 0 -> 100000 <= bucket' -> bucket' mod 512 = 0 ->
  (forall p n, at_path t p n -> archivable n -> still ev base p n) -> (forall p n, at_path t p n -> archivable n -> still ev' base p n) ->
  (forall p n, at_path t p n -> is_dir_node n -> p <> [] -> slash_safe (node_path base p)) ->
  (1 <= R)%nat -> (1 <= R')%nat ->
  run (length bs) R (fun o => succeeds (jobs ev bucket path base bs o)) n s -> boss s = BEnd ->
  run (length bs') R' (fun o => succeeds (jobs ev' bucket' path' base bs' o)) n' s' -> boss s' = BEnd ->
  ar_size (assemble (jobs ev bucket path base bs) (map snd (log s))) = ar_size (assemble (jobs ev' bucket' path' base bs') (map snd (log s'))).
Proof.
  intros base t fuel fs sort ev bucket maxo bs path R n s fuel' fs' sort' ev' bucket' maxo' bs' path' R' n' s'
    P P' So So' H3 H4 H5 H6 Sh Sh' H8 H9 B1 B2 B1' B2' St St' Sl HR HR' Ru En Ru' En'.
  destruct (size_cost fuel fs sort base t ev bucket maxo bs path R n s P So H3 H4 H5 H6 Sh H8 H9 B1 B2 St Sl HR Ru En) as (l & A & B & C).
  destruct (size_cost fuel' fs' sort' base t ev' bucket' maxo' bs' path' R' n' s' P' So' H3 H4 H5 H6 Sh' H8 H9 B1' B2' St' Sl HR' Ru' En') as (l' & A' & B' & C').
  rewrite C, C'. apply total_perm, Permutation_map. apply NoDup_Permutation; [eapply NoDup_map_inv; eauto|eapply NoDup_map_inv; eauto|].
  intros [p m]. rewrite B, B'. tauto.
Qed.
Print Assumptions C101_same_size_partial.

(** witness: the sample tree of C19 (four directories, a link, three files of 3,
    1234 and 0 bytes), at most three
    orders in a set; the other conditions are those of C19_witness (s_shows, s_still, s_tab, s_safe) *)
Example C101_witness : exists n s, run (length s_plan3) 4 (fun o => succeeds (jobs s_env a_bucket (b "out") (b "base") s_plan3 o)) n s /\ boss s = BEnd /\
  (forall p m, at_path s_tree p m -> brief (b "base") p m) /\
  ar_size (assemble (jobs s_env a_bucket (b "out") (b "base") s_plan3) (map snd (log s))) = 8 * 512 + 512 + 1536.
Proof.
  destruct (run_ascending (fun o => succeeds (jobs s_env a_bucket (b "out") (b "base") s_plan3 o))) as (n & s & R1 & R2 & R3); try (apply s_succeeds; lia).
  exists n, s. split; [exact R1|]. split; [exact R2|]. split.
  - intros p m H. unfold s_tree in H. paths; repeat split; vm_compute; congruence.
  - rewrite R3. vm_compute. reflexivity.
Qed.
