(** Property theorem C98: from 0.5.1 to 0.6 by unpacking. *)
From Coq Require Import Permutation.
From Verif Require Import Bytes Outcome TarSpec TarModel Layout LayoutSpec LayoutMore Mover MoverSpec Boss BossProofs BossMore BossRuns Assemble
  Spider SpiderSpec SpiderProofs SpiderMore Samples PropertiesScan Program ProgramProofs EndSpec EndProofs EndMore PropertiesEnd MembersSpec Members UnpackSpec Unpack
  Legacy LegacyLayout LegacyScan LegacyCodec LegacyWrite LegacyCreate LegacySpec LegacyEndSpec LegacyTreeSpec PropertiesLegacyScan LegacyCreateProofs PropertiesLegacyEnd
  PropertiesUnpack PropertiesTarget RepackSpec Repack PropertiesRepack.

(** the members of an archive with spacers, without the spacers *)
Lemma inter_split {A} (Q : A -> member -> Prop) sp l ms : interspersed Q sp l ms -> exists c, interspersed eq sp c ms /\ Forall2 Q l c.
Proof.
  induction 1 as [|m l ms Hs _ (c & I1 & I2)|e m l ms He _ (c & I1 & I2)].
  - exists []. split; constructor.
  - exists c. split; [apply In_spacer; auto|exact I2].
  - exists (m :: c). split; [apply In_entry; auto|constructor; auto].
Qed.

(** what [unpack] makes of an archive of 0.5.1, and nothing else below the base *)
Lemma legacy_made fuel fs clock ev base t R prior l ar a cat S0 ms S :
  base <> [] -> ends_with_slash base = false -> no_byte NUL base -> no_byte TAB base -> wf_node t -> is_dir_node t -> shows fs base t -> tab_free t ->
  (forall p n, reached t p n -> still ev base p n) -> manageable base t -> (1 <= R)%nat ->
  create_run fuel fs clock ev base R prior l ar -> zlen l <= 4000000 -> total_size l <= 8000000000000000 ->
  concretises a ar -> list_to_buffer l L_BUCKET true = Ok (Some cat) -> (1024 + zlen cat) mod L_BUCKET <> 0 ->
  ~ In (b "..") (components base) -> components base <> [] -> room_for S0 (components base) -> is_directory (S0 []) = true ->
  (forall x, x = b ".parfu_catalog" \/ x = b ".parfu_spacer " -> hd_error (components base) <> Some x /\ is_directory (S0 [x]) = false) ->
  tar_list a = Some ms -> unpack S0 ms = Some S ->
  (forall p n, reached t p n -> exists m, S (components base ++ p) = Some (Made m) /\ describes ev base p n m) /\
  (forall p m, S (components base ++ p) = Some (Made m) -> exists n, reached t p n).
Proof.
  intros A1 A2 A3 A4 A5 A6 A7 A8 A9 A10 A11 A12 A13 A14 A15 A16 A17 Hdd Hne Hroom H0 Hx Hms HS.
  destruct (create_ordered _ _ _ _ _ _ _ _ _ _ _ _ A1 A2 A3 A4 A5 A6 A7 A8 A9 A10 A11 A12 A13 A14 A15 A16 A17) as (mc & ms1 & nodes & _ & _ & _ & In1 & _).
  destruct (C70_legacy_unpack_partial _ _ _ _ _ _ _ _ _ _ _ _ S0 A1 A2 A3 A4 A5 A6 A7 A8 A9 A10 A11 A12 A13 A14 A15 A16 A17 Hdd Hroom H0 Hx) as (ms2 & S1 & T2 & HS1 & M & Mo).
  assert (ms2 = ms) by congruence. subst ms2. assert (S1 = S) by congruence. subst S1. split; [exact M|].
  intros p m E.
  assert (Hc : (exists n, reached t p n) \/ (forall q n, reached t q n -> components base ++ p <> components base ++ q)).
  { destruct (in_dec (list_eq_dec (list_eq_dec Ascii.ascii_dec)) p (map fst nodes)) as [Hin|Hni].
    - left. apply in_map_iff in Hin as ([q y] & E1 & Hin). cbn in E1. subst q. exists y. apply In1. exact Hin.
    - right. intros q n Hr Eq. apply app_inv_head in Eq. subst q. apply Hni. apply in_map_iff. exists (p, n). split; auto. apply In1. exact Hr. }
  destruct Hc as [Hc|Hno]; [exact Hc|]. exfalso.
  assert (Hfirst : forall x, hd_error (components base) <> Some x -> components base ++ p <> [x]).
  { intros y Hy Ey. destruct (components base) as [|z c]; [congruence|]. injection Ey as -> _. apply Hy. reflexivity. }
  rewrite (Mo (components base ++ p)) in E.
  - destruct p as [|y p].
    + apply (Hno [] t); auto. split; [constructor|]. split; [constructor|]. destruct t; try destruct A6; exact Logic.I.
    + destruct Hroom as (_ & _ & Hr). rewrite (Hr (y :: p)) in E by discriminate. discriminate E.
  - intros q n Hr. apply (Hno q n Hr).
  - apply Hfirst. apply Hx. auto.
  - apply Hfirst. apply Hx. auto.
Qed.

(** *** C98.  The archive [a] was made by parfu 0.5.1 of the tree [t] and unpacked
    in a place with room for it; [t'] (shown by [fs'] and [ev']) is the tree that
    is there now.  Archiving it with parfu 0.6, with any bucket size, order
    limit, ranks and schedules, gives an archive with exactly the members of the
    old one, metadata and contents included, but for the catalog and the spacers
    0.5.1 puts in.  Partial: the conditions of C50 for the first tree, those of
    C19 for the second (no tabs follows). *)
Theorem C98_migrate_partial : forall fuel fs clock ev base t R prior l ar a cat S0 m0 ms S,
  (* parfu 0.5.1 *)
  base <> [] -> ends_with_slash base = false -> no_byte NUL base -> no_byte TAB base -> wf_node t -> is_dir_node t -> shows fs base t -> tab_free t ->
  (forall p n, reached t p n -> still ev base p n) -> manageable base t -> (1 <= R)%nat ->
  create_run fuel fs clock ev base R prior l ar -> zlen l <= 4000000 -> total_size l <= 8000000000000000 ->
  concretises a ar -> list_to_buffer l L_BUCKET true = Ok (Some cat) -> (1024 + zlen cat) mod L_BUCKET <> 0 ->
  (* unpacked *)
  ~ In (b "..") (components base) -> components base <> [] -> room_for S0 (components base) -> is_directory (S0 []) = true ->
  (forall x, x = b ".parfu_catalog" \/ x = b ".parfu_spacer " -> hd_error (components base) <> Some x /\ is_directory (S0 [x]) = false) ->
  tar_list a = Some (m0 :: ms) -> unpack S0 (m0 :: ms) = Some S ->
  (* parfu 0.6 *)
  forall fs' sort t' ev' fuel' bucket maxo bs path R' n' s' a',
  wf_node t' -> shows fs' base t' -> unpacked_as S ev' base t' -> short_paths base t' ->
  (forall p n, at_path t' p n -> still ev' base p n) ->
  (forall p n, at_path t' p n -> is_dir_node n -> p <> [] -> slash_safe (node_path base p)) ->
  plan fuel' fs' sort base bucket maxo = Ok (Some bs) -> (forall l, order_files l (sort l)) ->
  100000 <= bucket -> bucket mod 512 = 0 -> (1 <= R')%nat ->
  run (length bs) R' (fun o => succeeds (jobs ev' bucket path base bs o)) n' s' -> boss s' = BEnd ->
  concretises a' (assemble (jobs ev' bucket path base bs) (map snd (log s'))) ->
  is_catalog cat m0 /\
  exists common ms', interspersed eq is_spacer common ms /\ tar_list a' = Some ms' /\ Permutation common ms'.
Proof.
  intros fuel fs clock ev base t R prior l ar a cat S0 m0 ms S A1 A2 A3 A4 A5 A6 A7 A8 A9 A10 A11 A12 A13 A14 A15 A16 A17 Hdd Hne Hroom H0 Hx Hms HS
    fs' sort t' ev' fuel' bucket maxo bs path R' n' s' a' B1 B2 [U1 U2] Bsh B4 Bsl B5 B6 B7 B8 B9 B10 B11 B12.
  destruct (create_ordered _ _ _ _ _ _ _ _ _ _ _ _ A1 A2 A3 A4 A5 A6 A7 A8 A9 A10 A11 A12 A13 A14 A15 A16 A17) as (mc & ms1 & nodes & T & Bc & N & In1 & I & _).
  assert (m0 = mc /\ ms = ms1) as [-> ->] by (split; congruence). split; [exact Bc|].
  destruct (legacy_made _ _ _ _ _ _ _ _ _ _ _ _ _ _ _ A1 A2 A3 A4 A5 A6 A7 A8 A9 A10 A11 A12 A13 A14 A15 A16 A17 Hdd Hne Hroom H0 Hx Hms HS) as [M Mo].
  assert (There : forall p n, reached t p n -> exists n' m, at_path t' p n' /\ describes ev base p n m /\ describes ev' base p n' m /\ kind_of n = kind_of n').
  { intros p n Hr. destruct (M p n Hr) as (m & E & D). destruct (U2 p m E) as (x & Ha). destruct (U1 p x Ha) as (m' & E' & D'). assert (m' = m) by congruence. subst m'.
    exists x, m. do 3 (split; auto). eapply described_kind; eauto. }
  assert (Back : forall p x, at_path t' p x -> exists n m, reached t p n /\ describes ev base p n m /\ describes ev' base p x m /\ kind_of n = kind_of x).
  { intros p x Ha. destruct (U1 p x Ha) as (m & E & D'). destruct (Mo p m E) as (n & Hr). destruct (M p n Hr) as (m' & E' & D).
    assert (m' = m) by congruence. subst m'. exists n, m. do 3 (split; auto). eapply described_kind; eauto. }
  assert (Tab' : tab_free t').
  { intros p x Ha. destruct (Back p x Ha) as (n & m & (Hr & _) & _ & _ & K). destruct (A8 p n Hr) as [X1 X2]. split; auto.
    destruct n, x; cbn in *; try discriminate; auto. injection K as <-. auto. }
  assert (Dir' : is_dir_node t').
  { destruct (Back [] t' (At_here t')) as (n & m & (Ha & _) & _ & _ & K). assert (E : n = t) by (apply (at_path_det _ _ _ _ Ha A5 (At_here t))). rewrite E in K. exact (kind_dir _ _ K A6). }
  destruct (C19_lemma _ _ _ _ _ _ _ _ _ _ _ _ _ _ B5 B6 A1 A3 Dir' B1 B2 Bsh Tab' B7 B8 (fun p n H _ => B4 p n H) Bsl B9 B10 B11 B12) as (ms' & nodes' & T' & N' & In1' & F').
  destruct (inter_split _ _ _ _ I) as (common & I1 & F). exists common, ms'. split; [exact I1|]. split; [exact T'|].
  assert (P : Permutation (map fst nodes) (map fst nodes')).
  { apply NoDup_Permutation; auto. intros p. rewrite !in_map_iff. split.
    - intros ([q x] & <- & Hin). cbn [fst]. apply In1 in Hin. destruct (There q x Hin) as (x' & m & Ha' & _ & _ & K).
      exists (q, x'). split; auto. apply In1'. split; auto. eapply kind_arch; [exact K|apply Hin].
    - intros ([q x] & <- & Hin). cbn [fst]. apply In1' in Hin as [Ha _]. destruct (Back q x Ha) as (x' & m & Hr & _).
      exists (q, x'). split; auto. apply In1. exact Hr. }
  assert (G : forall (Y : list bytes -> node -> Prop) v (nd : list (list bytes * node)) k, (forall p n, In (p, n) nd -> Y p n) ->
    Forall2 (fun pn m => describes v base (fst pn) (snd pn) m) nd k -> Forall2 (fun p m => exists n, Y p n /\ describes v base p n m) (map fst nd) k).
  { clear. intros Y v nd k Hin F. induction F as [|[p n] m nd k H F IH]; cbn [map fst]; constructor.
    - exists n. split; [apply Hin; left; auto|exact H].
    - apply IH. intros. apply Hin. right. auto. }
  assert (F1 := G (reached t) ev nodes common (fun p n H => proj1 (In1 p n) H) F).
  assert (F1' := G (at_path t') ev' nodes' ms' (fun p n H => proj1 (proj1 (In1' p n) H)) F').
  destruct (Permutation_Forall2 P F1) as (k & Pk & Fk).
  assert (k = ms'); [|subst; auto].
  clear P Pk F F' G T T' N N' In1 In1' F1 I I1 Hms HS. revert ms' F1'. induction Fk as [|p m ps k H Fk IH]; intros ms' F'; inversion F' as [|? m' ? ? H' F'' ]; subst; auto.
  f_equal; [|apply IH; auto]. destruct H as (x & (Ha & _) & Dn), H' as (x' & Ha' & Dn').
  destruct (Back p x' Ha') as (y & m1 & (Hy & _) & D1 & D2 & _). rewrite (at_path_det _ _ _ _ Ha A5 Hy) in Dn.
  rewrite (det _ _ _ _ _ _ Dn D1). exact (det _ _ _ _ _ _ D2 Dn').
Qed.
Print Assumptions C98_migrate_partial.

(** witness: the sample tree of C50, its archive made over an old file by three
    ranks, unpacked in an empty directory (no hidden files, no device) and
    archived again by 0.6, both bundles written by worker 1 *)
Definition mg_tree : node := NDir [(b "lnk", NLink (b "target")); (b "dir", NDir [(b "file", NFile 1234)])].
Definition mg_readdir (p : bytes) : option (list bytes) :=
  if bytes_eqb p (b "base") then Some [b "lnk"; b "."; b ".."; b "dir"]
  else if bytes_eqb p (b "base/dir") then Some [b "."; b ".."; b "file"]
  else None.
Definition mg_fs : fsys := {| f_readdir := mg_readdir; f_lstat := h_lstat; f_heap := fun _ => NUL |}.
Definition mg_plan : list (list order) := match plan 9 mg_fs isort (b "base") 204800 2 with Ok (Some bs) => bs | _ => [] end.
Example mg_wf : wf_node mg_tree.
Proof.
  unfold mg_tree. repeat (apply Wf_dir; [nodup|repeat apply Forall_cons; try apply Forall_nil; cbn [fst]; apply h_good; cbn; tauto|repeat apply Forall_cons; try apply Forall_nil; cbn [snd]]);
    try (constructor; try lia; try discriminate; cbn; intros F; repeat destruct F as [F|F]; try discriminate; contradiction).
Qed.
Example mg_shows : shows mg_fs (b "base") mg_tree.
Proof.
  eapply Sh_dir; [vm_compute; reflexivity|reflexivity|vm_compute; reflexivity|vm_compute; reflexivity|].
  repeat apply Forall_cons; try apply Forall_nil; cbn [fst snd].
  - eapply Sh_link; vm_compute; reflexivity.
  - eapply Sh_dir; [vm_compute; reflexivity|reflexivity|vm_compute; reflexivity|vm_compute; reflexivity|].
    repeat apply Forall_cons; try apply Forall_nil; cbn [fst snd]. eapply (Sh_file mg_fs _ (st_reg 1234)); vm_compute; reflexivity.
Qed.
Example mg_still : forall p n, at_path mg_tree p n -> still g_env (b "base") p n.
Proof.
  intros p n H. unfold mg_tree in H. paths; unfold still;
    (do 2 eexists; split; [vm_compute; reflexivity|]; cbn; repeat split; try lia; try discriminate; try reflexivity; try (eexists; split; [vm_compute; reflexivity|vm_compute; reflexivity]); congruence).
Qed.
Example mg_short : short_paths (b "base") mg_tree.
Proof. intros p n H. unfold mg_tree in H. paths; (split; [vm_compute; discriminate|]); try exact I; vm_compute; discriminate. Qed.
Example mg_safe : forall p n, at_path mg_tree p n -> is_dir_node n -> p <> [] -> slash_safe (node_path (b "base") p).
Proof. intros p n H Hd Hp. unfold mg_tree in H. paths; try destruct Hd; try congruence; vm_compute; reflexivity. Qed.
Definition mg_prior : archive := {| ar_size := 7; ar_cell := fun _ => Byte "!"%char |}.
Example C98_witness : exists l cat ar a m0 ms S n' s' a',
  (forall p n, reached (NDir h_tree) p n -> still g_env (b "base") p n) /\ manageable (b "base") (NDir h_tree) /\
  create_run 5 h_fs (fun _ => 7) g_env (b "base") 3 mg_prior l ar /\ zlen l = 4 /\ total_size l = 1234 /\
  concretises a ar /\ list_to_buffer l L_BUCKET true = Ok (Some cat) /\ (1024 + zlen cat) mod L_BUCKET <> 0 /\
  tar_list a = Some (m0 :: ms) /\ unpack empty_dir (m0 :: ms) = Some S /\
  wf_node mg_tree /\ shows mg_fs (b "base") mg_tree /\ unpacked_as S g_env (b "base") mg_tree /\ short_paths (b "base") mg_tree /\
  (forall p n, at_path mg_tree p n -> still g_env (b "base") p n) /\
  (forall p n, at_path mg_tree p n -> is_dir_node n -> p <> [] -> slash_safe (node_path (b "base") p)) /\
  plan 9 mg_fs isort (b "base") 204800 2 = Ok (Some mg_plan) /\ length mg_plan = 2%nat /\
  run (length mg_plan) 2 (fun o => succeeds (jobs g_env 204800 (b "new") (b "base") mg_plan o)) n' s' /\ boss s' = BEnd /\
  concretises a' (assemble (jobs g_env 204800 (b "new") (b "base") mg_plan) (map snd (log s'))).
Proof.
  destruct C50_witness as (W1 & W2 & W3 & W4 & W5 & l & cat & L1 & L2 & L3 & L4 & L5).
  destruct (L5 (fun _ => 7) 3%nat mg_prior ltac:(vm_compute; discriminate)) as (ar & Hr & Ca). set (a := fill "?"%char ar) in *.
  destruct C70_witness as (V1 & V2 & V3 & V4).
  assert (Nb : no_byte NUL (b "base")) by (unfold no_byte; vm_compute; intros F; repeat destruct F as [F|F]; try discriminate F; contradiction).
  assert (Tb : no_byte TAB (b "base")) by (unfold no_byte; vm_compute; intros F; repeat destruct F as [F|F]; try discriminate F; contradiction).
  assert (Bn : b "base" <> []) by discriminate. assert (Cn : components (b "base") <> []) by (vm_compute; discriminate). assert (R1 : (1 <= 3)%nat) by lia.
  assert (Zl : zlen l = 4) by (unfold zlen; rewrite <- (map_length l_rel), L1; reflexivity).
  assert (Zl' : zlen l <= 4000000) by lia. assert (Tl : total_size l <= 8000000000000000) by lia.
  destruct (create_ordered _ _ _ _ _ _ _ _ _ _ _ _ Bn eq_refl Nb Tb W2 I W1 W3 W5 W4 R1 Hr Zl' Tl Ca L3 L4) as (m0 & ms & nodes & T & _).
  destruct (C70_legacy_unpack_partial _ _ _ _ _ _ _ _ _ _ _ _ empty_dir Bn eq_refl Nb Tb W2 I W1 W3 W5 W4 R1 Hr Zl' Tl Ca L3 L4 V1 V2 V3 V4) as (ms2 & S & T2 & U & _).
  assert (ms2 = m0 :: ms) by congruence. subst ms2.
  destruct (legacy_made _ _ _ _ _ _ _ _ _ _ _ _ _ _ _ Bn eq_refl Nb Tb W2 I W1 W3 W5 W4 R1 Hr Zl' Tl Ca L3 L4 V1 Cn V2 V3 V4 T U) as [M1 M2].
  assert (K : forall o, (o < 2)%nat -> succeeds (jobs g_env 204800 (b "new") (b "base") mg_plan o) = true) by (intros [|[|o]] H; try lia; vm_compute; reflexivity).
  destruct (run_single (fun o => succeeds (jobs g_env 204800 (b "new") (b "base") mg_plan o))) as (n' & s' & Q1 & Q2 & Q3); try (apply K; lia).
  exists l, cat, ar, a, m0, ms, S, n', s', (fill "?"%char (assemble (jobs g_env 204800 (b "new") (b "base") mg_plan) [0; 1]%nat)).
  split; [exact W5|]. split; [exact W4|]. split; [exact Hr|]. split; [exact Zl|]. split; [exact L2|]. split; [exact Ca|]. split; [exact L3|]. split; [exact L4|].
  split; [exact T|]. split; [exact U|]. split; [exact mg_wf|]. split; [exact mg_shows|]. split; [|split; [exact mg_short|split; [exact mg_still|split; [exact mg_safe|]]]].
  - split.
    + assert (G : forall p n, at_path mg_tree p n -> exists n0, reached (NDir h_tree) p n0 /\ kind_of n0 = kind_of n).
      { intros p x H. unfold mg_tree in H. paths; unfold h_tree;
          (eexists; split; [split; [first [apply At_here|repeat (eapply At_below; [cbn [In]; eauto 12|]); apply At_here]|split; [repeat constructor; intros r X; discriminate X|exact I]]|reflexivity]). }
      intros p x H. destruct (G p x H) as (n0 & H0 & E). destruct (M1 p n0 H0) as (m & Em & D). exists m. split; [exact Em|].
      destruct n0, x; cbn in E; try discriminate E; try exact D; injection E as <-; exact D.
    + intros p m Em. destruct (M2 p m Em) as (x & Hx). apply g_reached in Hx. destruct Hx as [[-> _]|[[-> _]|[[-> _]|[-> _]]]]; unfold mg_tree;
        (eexists; first [apply At_here|repeat (eapply At_below; [cbn [In]; eauto 12|]); apply At_here]).
  - split; [vm_compute; reflexivity|]. split; [vm_compute; reflexivity|]. split; [exact Q1|]. split; [exact Q2|]. rewrite Q3. apply fill_ok. vm_compute. discriminate.
Qed.
