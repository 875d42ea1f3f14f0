(** Property theorems C69 and C70: unpacking gives the tree back. *)
From Coq Require Import Permutation.
From Verif Require Import Bytes Outcome TarSpec TarModel Layout LayoutSpec LayoutMore Mover MoverSpec Boss BossProofs BossMore BossRuns Assemble
  Spider SpiderSpec SpiderProofs SpiderMore Samples PropertiesScan Program ProgramProofs EndSpec EndProofs EndMore PropertiesEnd UnpackSpec Unpack
  Legacy LegacyLayout LegacyScan LegacyCodec LegacyWrite LegacyCreate LegacySpec LegacyEndSpec LegacyTreeSpec PropertiesLegacyScan LegacyCreateProofs PropertiesLegacyEnd.

Lemma inter_of_forall2 {A} (Q : A -> member -> Prop) l ms : Forall2 Q l ms -> interspersed Q (fun _ => False) l ms.
Proof. induction 1; [apply In_nil|apply In_entry; auto]. Qed.
Lemma inter_mono {A} (Q : A -> member -> Prop) (sp sp' : member -> Prop) l ms : (forall m, sp m -> sp' m) -> interspersed Q sp l ms -> interspersed Q sp' l ms.
Proof. intros H. induction 1; [apply In_nil|apply In_spacer; auto|apply In_entry; auto]. Qed.

(** *** C69.  0.6: an archive, however it was written (any ranks, any schedule,
    whatever the bytes never written are), is unpacked below any directory that
    has room for it: every file, link and directory of the tree is made where it
    belongs, with contents and metadata, each after the directory it lies in;
    and nothing else changes.  Partial: the conditions of C19, and the base path
    has no "..". *)
Theorem C69_unpack_partial : forall fuel fs sort base t ev bucket maxo bs path R n s a S0,
  plan fuel fs sort base bucket maxo = Ok (Some bs) ->
  (forall l, order_files l (sort l)) -> base <> [] -> no_byte NUL base -> is_dir_node t -> wf_node t -> shows fs base t ->
  short_paths base t -> tab_free t -> 100000 <= bucket -> bucket mod 512 = 0 ->
  (forall p n, at_path t p n -> archivable n -> still ev base p n) ->
  (forall p n, at_path t p n -> is_dir_node n -> p <> [] -> slash_safe (node_path base p)) ->
  (1 <= R)%nat ->
  run (length bs) R (fun o => succeeds (jobs ev bucket path base bs o)) n s -> boss s = BEnd ->
  concretises a (assemble (jobs ev bucket path base bs) (map snd (log s))) ->
  ~ In (b "..") (components base) -> room_for S0 (components base) ->
  exists ms S, tar_list a = Some ms /\ unpack S0 ms = Some S /\
    (forall p n, at_path t p n -> archivable n -> exists m, S (components base ++ p) = Some (Made m) /\ describes ev base p n m) /\
    (forall q, (forall p n, at_path t p n -> archivable n -> q <> components base ++ p) -> S q = S0 q).
Proof.
  intros fuel fs sort base t ev bucket maxo bs path R n s a S0 A1 A2 A3 A4 A5 A6 A7 A8 A9 A10 A11 A12 A13 A14 A15 A16 A17 Hdd Hroom.
  destruct (C19_ordered _ _ _ _ _ _ _ _ _ _ _ _ _ _ A1 A2 A3 A4 A5 A6 A7 A8 A9 A10 A11 A12 A13 A14 A15 A16 A17) as (ms & nodes & B1 & B2 & B3 & B4 & B5).
  destruct (unpacked ev base S0 (fun _ => False) (fun _ => False) Hdd Hroom) with (nodes := nodes) (ms := ms) as (S & E1 & E2 & E3); auto.
  - intros m [].
  - intros q [].
  - apply Forall_forall. intros [p nd] H. apply B3 in H as [H _]. apply (at_path_wf _ _ _ H A6).
  - intros q nd H ->. apply B3 in H as [H _]. inversion H; subst. exact A5.
  - apply inter_of_forall2. exact B4.
  - exists ms, S. split; auto. split; auto. split.
    + intros p nd H1 H2. apply E2. apply B3. auto.
    + intros q Hq. destruct (E3 q) as [E|[(p & nd & H & E)|[]]]; auto. apply B3 in H as [H1 H2]. exfalso. exact (Hq p nd H1 H2 E).
Qed.
Print Assumptions C69_unpack_partial.

(** a target given as "../x" is stored as such, and a careful tar refuses it *)
Theorem C69_refuted : forall fuel fs sort base t ev bucket maxo bs path R n s a,
  plan fuel fs sort base bucket maxo = Ok (Some bs) ->
  (forall l, order_files l (sort l)) -> base <> [] -> no_byte NUL base -> is_dir_node t -> wf_node t -> shows fs base t ->
  short_paths base t -> tab_free t -> 100000 <= bucket -> bucket mod 512 = 0 ->
  (forall p n, at_path t p n -> archivable n -> still ev base p n) ->
  (forall p n, at_path t p n -> is_dir_node n -> p <> [] -> slash_safe (node_path base p)) ->
  (1 <= R)%nat ->
  run (length bs) R (fun o => succeeds (jobs ev bucket path base bs o)) n s -> boss s = BEnd ->
  concretises a (assemble (jobs ev bucket path base bs) (map snd (log s))) ->
  In (b "..") (components base) -> exists ms, tar_list a = Some ms /\ forall S0, unpack S0 ms = None.
Proof.
  intros fuel fs sort base t ev bucket maxo bs path R n s a A1 A2 A3 A4 A5 A6 A7 A8 A9 A10 A11 A12 A13 A14 A15 A16 A17 Hdd.
  destruct (C19_ordered _ _ _ _ _ _ _ _ _ _ _ _ _ _ A1 A2 A3 A4 A5 A6 A7 A8 A9 A10 A11 A12 A13 A14 A15 A16 A17) as (ms & nodes & B1 & B2 & B3 & B4 & B5).
  exists ms. split; auto. intros S0. destruct B4 as [|[p nd] m nodes' ms' Hm _].
  - exfalso. assert (X : In ([], t) []) by (apply B3; split; [apply At_here|destruct t; try exact I; destruct A5]). destruct X.
  - cbn [unpack fst snd] in *. unfold unpack_one. assert (Hp : Forall good_name p).
    { assert (H : In (p, nd) ((p, nd) :: nodes')) by (left; auto). apply B3 in H as [H _]. apply (at_path_wf _ _ _ H A6). }
    rewrite (described_components _ _ _ _ _ Hp Hm). replace (existsb (bytes_eqb (b "..")) (components base ++ p)) with true; auto.
    symmetry. apply existsb_exists. exists (b ".."). split; [apply in_or_app; auto|reflexivity].
Qed.
Print Assumptions C69_refuted.

(** witness: the sample run of C19 (descending schedule), unpacked into an empty
    directory; "base" is put there *)
Definition empty_dir : place := fun q => match q with [] => Some Given | _ => None end.
Example C69_witness : exists n s a S,
  run (length s_plan3) 4 (fun o => succeeds (jobs s_env a_bucket (b "out") (b "base") s_plan3 o)) n s /\ boss s = BEnd /\
  concretises a (assemble (jobs s_env a_bucket (b "out") (b "base") s_plan3) (map snd (log s))) /\
  ~ In (b "..") (components (b "base")) /\ room_for empty_dir (components (b "base")) /\
  match tar_list a with Some ms => unpack empty_dir ms | None => None end = Some S /\
  option_map (fun o => match o with Made m => m_size m | Given => -1 end) (S [b "base"; b "dir"; b "file"]) = Some 1234 /\
  is_directory (S [b "base"; b "dir"; b "sub"]) = true /\ S [b "base"; b "dev"] = None.
Proof.
  destruct (run_descending (fun o => succeeds (jobs s_env a_bucket (b "out") (b "base") s_plan3 o))) as (n & s & R1 & R2 & R3); try (apply s_succeeds; lia).
  exists n, s, (fill "?"%char (assemble (jobs s_env a_bucket (b "out") (b "base") s_plan3) [2; 1; 0]%nat)).
  eexists. split; [exact R1|]. split; [exact R2|]. split; [rewrite R3; apply fill_ok; vm_compute; discriminate|].
  split; [vm_compute; intros [F|[]]; discriminate F|]. split.
  { split; [intros _; vm_compute; auto|]. split; [intros F; vm_compute in F; discriminate F|]. intros p _. reflexivity. }
  split; [vm_compute; reflexivity|]. vm_compute. auto.
Qed.
(** a path is cut as the kernel would *)
Example C69_components : components (b "/a//./b.c/..d/") = [b "a"; b "b.c"; b "..d"] /\ components (b ".") = [] /\ components (b "a/../b") = [b "a"; b ".."; b "b"].
Proof. vm_compute. auto. Qed.

(** *** C70.  0.5.1: the same for what its create mode makes; besides the tree
    only the catalog and the spacer appear. *)
Theorem C70_legacy_unpack_partial : forall fuel fs clock ev top t R prior l ar a cat S0,
  top <> [] -> ends_with_slash top = false -> no_byte NUL top -> no_byte TAB top -> wf_node t -> is_dir_node t -> shows fs top t -> tab_free t ->
  (forall p n, reached t p n -> still ev top p n) -> manageable top t -> (1 <= R)%nat ->
  create_run fuel fs clock ev top R prior l ar -> zlen l <= 4000000 -> total_size l <= 8000000000000000 ->
  concretises a ar -> list_to_buffer l L_BUCKET true = Ok (Some cat) -> (1024 + zlen cat) mod L_BUCKET <> 0 ->
  ~ In (b "..") (components top) -> room_for S0 (components top) -> is_directory (S0 []) = true ->
  (forall x, x = b ".parfu_catalog" \/ x = b ".parfu_spacer " -> hd_error (components top) <> Some x /\ is_directory (S0 [x]) = false) ->
  exists ms S, tar_list a = Some ms /\ unpack S0 ms = Some S /\
    (forall p n, reached t p n -> exists m, S (components top ++ p) = Some (Made m) /\ describes ev top p n m) /\
    (forall q, (forall p n, reached t p n -> q <> components top ++ p) -> q <> [b ".parfu_catalog"] -> q <> [b ".parfu_spacer "] -> S q = S0 q).
Proof.
  intros fuel fs clock ev top t R prior l ar a cat S0 A1 A2 A3 A4 A5 A6 A7 A8 A9 A10 A11 A12 A13 A14 A15 A16 A17 Hdd Hroom H0 Hx.
  destruct (create_ordered _ _ _ _ _ _ _ _ _ _ _ _ A1 A2 A3 A4 A5 A6 A7 A8 A9 A10 A11 A12 A13 A14 A15 A16 A17) as (mc & ms & nodes & B1 & Bc & B2 & B3 & B4 & B5).
  destruct (unpacked ev top S0 (fun m => is_spacer m \/ is_catalog cat m) (fun q => q = [b ".parfu_catalog"] \/ q = [b ".parfu_spacer "]) Hdd Hroom)
    with (nodes := nodes) (ms := mc :: ms) as (S & E1 & E2 & E3); auto.
  - intros m [(P & T & _)|(P & T & _)]; rewrite P, T; eexists; (split; [vm_compute; reflexivity|]); split; try discriminate; auto.
  - intros q [-> | ->]; eexists; (split; [reflexivity|]); split; auto; destruct (Hx _ (or_introl eq_refl)), (Hx _ (or_intror eq_refl)); auto.
  - apply Forall_forall. intros [p nd] H. apply B3 in H as [H _]. apply (at_path_wf _ _ _ H A5).
  - intros q nd H ->. apply B3 in H as [H _]. inversion H; subst. exact A6.
  - intros q nd x H _ Hj Hh. apply B3 in H as (_ & H & _). destruct q as [|y q]; [discriminate|]. cbn in Hh. inversion H as [|? ? Hy _]; subst.
    assert (y = x) by congruence. subst y. destruct Hj as [Hj|Hj]; injection Hj as ->; exact (Hy _ eq_refl).
  - apply In_spacer; [right; exact Bc|]. eapply inter_mono; [|exact B4]. auto.
  - exists (mc :: ms), S. split; auto. split; auto. split.
    + intros p nd H1. apply E2. apply B3. auto.
    + intros q Hq N1 N2. destruct (E3 q) as [E|[(p & nd & H & E)|[E|E]]]; auto; try contradiction. apply B3 in H. exfalso. exact (Hq p nd H E).
Qed.
Print Assumptions C70_legacy_unpack_partial.
(** witness: the empty directory takes the sample tree of C50 (C50_witness gives
    the run) *)
Example C70_witness : ~ In (b "..") (components (b "base")) /\ room_for empty_dir (components (b "base")) /\ is_directory (empty_dir []) = true /\
  (forall x, x = b ".parfu_catalog" \/ x = b ".parfu_spacer " -> hd_error (components (b "base")) <> Some x /\ is_directory (empty_dir [x]) = false).
Proof.
  split; [vm_compute; intros [F|[]]; discriminate F|]. split.
  { split; [intros _; vm_compute; auto|]. split; [intros F; vm_compute in F; discriminate F|]. intros p _. reflexivity. }
  split; [reflexivity|]. intros x [-> | ->]; split; try reflexivity; vm_compute; intros F; discriminate F.
Qed.
