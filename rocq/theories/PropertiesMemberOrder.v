(** Property theorem C102: the order of the members. *)
From Coq Require Import Permutation Lia.
From Verif Require Import Bytes Outcome TarSpec TarModel Layout LayoutSpec LayoutMore Mover MoverSpec Worker Assemble AssembleProofs Boss BossRuns
  Samples Spider SpiderSpec Program ProgramProofs EndSpec EndMore PropertiesScan PropertiesProgram PropertiesEnd MemberOrderSpec MemberOrder.

(** *** C102 (partial: conditions of C19).  A tar reader lists the directories
    first, then the symbolic links, then the files, smaller ones before larger
    ones, whatever the bucket size, the order limit, the ranks and the schedule. *)
Theorem C102_member_order_partial : forall fuel fs sort base t ev bucket maxo bs path R n s a,
  plan fuel fs sort base bucket maxo = Ok (Some bs) ->
  (forall l, order_files l (sort l)) -> base <> [] -> no_byte NUL base -> is_dir_node t -> wf_node t -> shows fs base t ->
  short_paths base t -> tab_free t -> 100000 <= bucket -> bucket mod 512 = 0 ->
  (forall p n, at_path t p n -> archivable n -> still ev base p n) ->
  (forall p n, at_path t p n -> is_dir_node n -> p <> [] -> slash_safe (node_path base p)) ->
  (1 <= R)%nat ->
  run (length bs) R (fun o => succeeds (jobs ev bucket path base bs o)) n s -> boss s = BEnd ->
  concretises a (assemble (jobs ev bucket path base bs) (map snd (log s))) ->
  exists ms, tar_list a = Some ms /\ in_size_order ms.
Proof. exact order_lemma. Qed.
Print Assumptions C102_member_order_partial.

(** witness: the sample tree of C19, three order sets written in reverse *)
Example C102_witness : exists n s a ms,
  run (length s_plan3) 4 (fun o => succeeds (jobs s_env a_bucket (b "out") (b "base") s_plan3 o)) n s /\ boss s = BEnd /\ map snd (log s) = [2; 1; 0]%nat /\
  concretises a (assemble (jobs s_env a_bucket (b "out") (b "base") s_plan3) (map snd (log s))) /\ tar_list a = Some ms /\ in_size_order ms /\
  map m_type ms = ["5"; "5"; "5"; "5"; "2"; "0"; "0"; "0"]%char /\ map m_size ms = [0; 0; 0; 0; 0; 0; 3; 1234].
Proof.
  destruct (run_descending (fun o => succeeds (jobs s_env a_bucket (b "out") (b "base") s_plan3 o))) as (n & s & R1 & R2 & R3); try (apply s_succeeds; lia).
  assert (Nb : no_byte NUL (b "base")) by (unfold no_byte; cbn; intros F; repeat destruct F as [F|F]; try discriminate F; contradiction).
  set (a := fill "?"%char (assemble (jobs s_env a_bucket (b "out") (b "base") s_plan3) [2; 1; 0]%nat)).
  assert (C : concretises a (assemble (jobs s_env a_bucket (b "out") (b "base") s_plan3) (map snd (log s)))) by (rewrite R3; apply fill_ok; vm_compute; discriminate).
  destruct (C102_member_order_partial 9 s_fs isort (b "base") s_tree s_env a_bucket 3 s_plan3 (b "out") 4 n s a s_plan3_ok isort_order_files ltac:(discriminate) Nb Logic.I s_wf s_shows s_short s_tab
    ltac:(vm_compute; discriminate) eq_refl s_still s_safe ltac:(lia) R1 R2 C) as (ms & M & O).
  exists n, s, a, ms. split; [exact R1|]. split; [exact R2|]. split; [exact R3|]. split; [exact C|]. split; [exact M|]. split; [exact O|].
  assert (X : option_map (fun l => (map m_type l, map m_size l)) (tar_list a) = Some (["5"; "5"; "5"; "5"; "2"; "0"; "0"; "0"]%char, [0; 0; 0; 0; 0; 0; 3; 1234])) by (vm_compute; reflexivity).
  rewrite M in X. cbn [option_map] in X. split; congruence.
Qed.
