(** Property theorems C102 for 0.5.1: the order of the members. *)
From Coq Require Import Permutation Lia.
From Verif Require Import Bytes Outcome TarSpec TarModel Layout Mover MoverSpec Samples Spider SpiderSpec EndSpec PropertiesEnd
  Legacy LegacyLayout LegacySpec LegacyScan LegacyCodec LegacyWrite LegacyEndSpec LegacyDriftSpec LegacyEnd LegacyRun LegacyCreate PropertiesLegacyScan LegacyTreeSpec LegacyCreateProofs PropertiesLegacyEnd
  SizeSpec LegacyOrderSpec LegacyOrder.

(** *** C102 for 0.5.1 (partial: conditions of C50).  Between catalog and spacers a
    tar reader lists the directories first, then the links, then the files,
    smaller ones before larger ones, and by name where these agree. *)
Theorem C102_legacy_partial : forall fuel fs clock ev top t R prior l ar a cat,
  top <> [] -> ends_with_slash top = false -> no_byte NUL top -> no_byte TAB top -> wf_node t -> is_dir_node t -> shows fs top t -> tab_free t ->
  (forall p n, reached t p n -> still ev top p n) -> manageable top t -> (1 <= R)%nat ->
  create_run fuel fs clock ev top R prior l ar -> zlen l <= 4000000 -> total_size l <= 8000000000000000 ->
  concretises a ar -> list_to_buffer l L_BUCKET true = Ok (Some cat) -> (1024 + zlen cat) mod L_BUCKET <> 0 ->
  exists mc ms nodes, tar_list a = Some (mc :: ms) /\ is_catalog cat mc /\ NoDup (map fst nodes) /\
    (forall p n, In (p, n) nodes <-> reached t p n) /\
    interspersed (fun pn m => describes ev top (fst pn) (snd pn) m) is_spacer nodes ms /\ nodes_in_order nodes.
Proof. exact create_sorted. Qed.
Print Assumptions C102_legacy_partial.

(** hence two runs on the same tree list the same nodes in the same order,
    whatever the listing orders of the directories, the ranks and the files
    written over *)
Theorem C102_legacy_same_partial : forall top t fuel fs clock ev R prior l ar a cat fuel' fs' clock' ev' R' prior' l' ar' a' cat',
  top <> [] -> ends_with_slash top = false -> no_byte NUL top -> no_byte TAB top -> wf_node t -> is_dir_node t -> shows fs top t -> shows fs' top t -> tab_free t ->
  (forall p n, reached t p n -> still ev top p n) -> (forall p n, reached t p n -> still ev' top p n) -> manageable top t -> (1 <= R)%nat -> (1 <= R')%nat ->
  create_run fuel fs clock ev top R prior l ar -> create_run fuel' fs' clock' ev' top R' prior' l' ar' ->
  zlen l <= 4000000 -> total_size l <= 8000000000000000 -> zlen l' <= 4000000 -> total_size l' <= 8000000000000000 ->
  concretises a ar -> list_to_buffer l L_BUCKET true = Ok (Some cat) -> (1024 + zlen cat) mod L_BUCKET <> 0 ->
  concretises a' ar' -> list_to_buffer l' L_BUCKET true = Ok (Some cat') -> (1024 + zlen cat') mod L_BUCKET <> 0 ->
  exists nodes mc ms mc' ms', tar_list a = Some (mc :: ms) /\ tar_list a' = Some (mc' :: ms') /\ (forall p n, In (p, n) nodes <-> reached t p n) /\
    interspersed (fun pn m => describes ev top (fst pn) (snd pn) m) is_spacer nodes ms /\
    interspersed (fun pn m => describes ev' top (fst pn) (snd pn) m) is_spacer nodes ms'.
Proof.
  intros top t fuel fs clock ev R prior l ar a cat fuel' fs' clock' ev' R' prior' l' ar' a' cat'
    H1 H2 H3 H4 H5 H6 S S' H8 St St' Mg HR HR' C C' Z1 Z2 Z1' Z2' K1 K2 K3 K1' K2' K3'.
  destruct (create_sorted _ _ _ _ _ _ _ _ _ _ _ _ H1 H2 H3 H4 H5 H6 S H8 St Mg HR C Z1 Z2 K1 K2 K3) as (mc & ms & nodes & A1 & A2 & A3 & A4 & A5 & A6).
  destruct (create_sorted _ _ _ _ _ _ _ _ _ _ _ _ H1 H2 H3 H4 H5 H6 S' H8 St' Mg HR' C' Z1' Z2' K1' K2' K3') as (mc' & ms' & nodes' & B1 & B2 & B3 & B4 & B5 & B6).
  assert (nodes = nodes') as <-.
  { apply order_unique; auto. apply NoDup_Permutation; [eapply NoDup_map_inv; eauto|eapply NoDup_map_inv; eauto|]. intros [p n]. rewrite A4, B4. tauto. }
  exists nodes, mc, ms, mc', ms'. auto 10.
Qed.
Print Assumptions C102_legacy_same_partial.

(** witness: the runs of C50_witness on two and on five ranks over different files *)
Example C102_legacy_witness : exists l ar ar' mc ms nodes,
  create_run 5 h_fs (fun _ => 7) g_env (b "base") 2 empty_archive l ar /\
  create_run 5 h_fs (fun _ => 9) g_env (b "base") 5 {| ar_size := 7; ar_cell := fun _ => Byte "!"%char |} l ar' /\
  tar_list (fill "?"%char ar) = Some (mc :: ms) /\ nodes_in_order nodes /\
  interspersed (fun pn m => describes g_env (b "base") (fst pn) (snd pn) m) is_spacer nodes ms /\
  In ([], NDir h_tree) nodes /\ In ([b "lnk"], NLink (b "target")) nodes.
Proof.
  destruct C50_witness as (W1 & W2 & W3 & W4 & W5 & l & cat & L1 & L2 & L3 & L4 & L5).
  destruct (L5 (fun _ => 7) 2%nat empty_archive ltac:(vm_compute; discriminate)) as (ar & Hr & Ca).
  destruct (L5 (fun _ => 9) 5%nat {| ar_size := 7; ar_cell := fun _ => Byte "!"%char |} ltac:(vm_compute; discriminate)) as (ar' & Hr' & Ca').
  assert (Zl : zlen l <= 4000000).
  { assert (E : length l = 4%nat) by (rewrite <- (map_length l_rel), L1; reflexivity). unfold zlen. rewrite E. lia. }
  destruct (C102_legacy_partial 5 h_fs (fun _ => 7) g_env (b "base") (NDir h_tree) 2 empty_archive l ar (fill "?"%char ar) cat) as (mc & ms & nodes & A1 & A2 & A3 & A4 & A5 & A6); auto; try lia.
  - discriminate.
  - unfold no_byte; cbn; intros F; repeat destruct F as [F|F]; try discriminate F; contradiction.
  - unfold no_byte; cbn; intros F; repeat destruct F as [F|F]; try discriminate F; contradiction.
  - exact Logic.I.
  - exists l, ar, ar', mc, ms, nodes. split; [exact Hr|]. split; [exact Hr'|]. split; [exact A1|]. split; [exact A6|]. split; [exact A5|].
    split; apply A4.
    + split; [constructor|]. split; [constructor|exact Logic.I].
    + split; [econstructor; [right; right; left; reflexivity|constructor]|]. split; [|exact Logic.I]. repeat constructor; intros r X; discriminate X.
Qed.
