(** A file that outgrew its blocks hides the next one from a tar reader (C89). *)
From Coq Require Import Permutation Sorted Lia.
From Verif Require Import Bytes Outcome TarSpec TarModel TarProofs TarMore Layout Mover MoverSpec MoverProofs AssembleProofs EndSpec EndProofs EndMore Spider SpiderSpec SpiderProofs MembersSpec DriftSpec Samples
  Legacy LegacyProofs LegacyLayout LegacySpec LegacyLayoutProofs LegacyRanks LegacyMore LegacyCodec LegacyCodecProofs LegacyWrite LegacySeats LegacyImage LegacyArchive LegacyEndSpec LegacyDriftSpec LegacyWalk LegacySend LegacyEnd LegacyRun
  LegacyScan LegacyScanProofs LegacyCreate PropertiesScan PropertiesEnd PropertiesLegacyScan LegacyTreeSpec LegacyCreateProofs LegacyTotal LegacyBridge PropertiesLegacyEnd LegacyMpiSpec LegacyDrift.

(** *** two sorted lists with the same elements *)
Lemma sorted_same {A} (le : A -> A -> Prop) l1 : forall l2, Permutation l1 l2 -> StronglySorted le l1 -> StronglySorted le l2 ->
  (forall x y, In x l1 -> In y l1 -> le x y -> le y x -> x = y) -> l1 = l2.
Proof.
  induction l1 as [|x l1 IH]; intros l2 Hp H1 H2 Ha; [apply Permutation_nil in Hp; auto|].
  destruct l2 as [|y l2]; [apply Permutation_sym, Permutation_nil in Hp; discriminate|].
  inversion H1 as [|? ? S1 F1]; subst. inversion H2 as [|? ? S2 F2]; subst. rewrite Forall_forall in F1, F2.
  assert (E : x = y).
  { assert (I1 : In y (x :: l1)) by (eapply Permutation_in; [apply Permutation_sym; exact Hp|left; reflexivity]).
    assert (I2 : In x (y :: l2)) by (eapply Permutation_in; [exact Hp|left; reflexivity]).
    destruct I1 as [?|I1]; auto. destruct I2 as [?|I2]; auto. apply Ha; [left; auto|right; exact I1|apply F1; exact I1|apply F2; exact I2]. }
  subst y. f_equal. apply IH; auto; [eapply Permutation_cons_inv; exact Hp|]. intros a c Ia Ic. apply Ha; right; auto.
Qed.

(** *** base/A had 100 bytes and has 600, base/B has 2000 NULs *)
Definition u_ch (k : Z) : list (bytes * node) := [(b "A", NFile k); (b "B", NFile 2000)].
Definition u_stat (k : Z) (p : bytes) : option (stat * bytes) :=
  if bytes_eqb p (b "base") then Some (st_dir, []) else if bytes_eqb p (b "base/") then Some (st_dir, [])
  else if bytes_eqb p (b "base/A") then Some (st_reg k, []) else if bytes_eqb p (b "base/B") then Some (st_reg 2000, []) else None.
Definition u_readdir (p : bytes) : option (list bytes) := if bytes_eqb p (b "base") then Some [b "."; b ".."; b "A"; b "B"] else None.
Definition u_fs : fsys := {| f_readdir := u_readdir; f_lstat := u_stat 100; f_heap := fun _ => NUL |}.
Definition u_env : env := {| e_names := a_names; e_lstat := u_stat 600;
  e_data := fun p => if bytes_eqb p (b "base/A") then Some (repeat "q"%char 600) else if bytes_eqb p (b "base/B") then Some (repeat NUL 2000) else None |}.
Definition u_nodes : list (list bytes * node) := [([], NDir (u_ch 100)); ([b "A"], NFile 100); ([b "B"], NFile 2000)].

Lemma u_good : forall l, In l [b "A"; b "B"] -> good_name l.
Proof.
  intros l H. unfold good_name, no_byte. cbn in H. repeat destruct H as [<-|H]; try contradiction;
    repeat split; try discriminate; cbn; intros F; repeat destruct F as [F|F]; try discriminate; contradiction.
Qed.
Lemma u_wf k : 0 <= k < 2 ^ 63 -> wf_node (NDir (u_ch k)).
Proof.
  intros Hk. unfold u_ch. apply Wf_dir; [nodup|repeat constructor; cbn [fst]; apply u_good; cbn; tauto|].
  repeat apply Forall_cons; try apply Forall_nil; cbn [snd]; constructor; [exact Hk|lia].
Qed.
Lemma u_shows : shows u_fs (b "base") (NDir (u_ch 100)).
Proof.
  eapply Sh_dir; [vm_compute; reflexivity|reflexivity|vm_compute; reflexivity|vm_compute; reflexivity|].
  repeat apply Forall_cons; try apply Forall_nil; cbn [fst snd].
  - eapply (Sh_file u_fs _ (st_reg 100)); vm_compute; reflexivity.
  - eapply (Sh_file u_fs _ (st_reg 2000)); vm_compute; reflexivity.
Qed.
Lemma u_at k p n : at_path (NDir (u_ch k)) p n <-> In (p, n) [([], NDir (u_ch k)); ([b "A"], NFile k); ([b "B"], NFile 2000)].
Proof.
  split.
  - intros H. unfold u_ch in H. walk_tree; cbn [In]; auto.
  - intros [E|[E|[E|[]]]]; injection E as <- <-; [constructor| |].
    + econstructor; [left; reflexivity|constructor].
    + econstructor; [right; left; reflexivity|constructor].
Qed.
Lemma u_reached k p n : In (p, n) [([], NDir (u_ch k)); ([b "A"], NFile k); ([b "B"], NFile 2000)] <-> reached (NDir (u_ch k)) p n.
Proof.
  unfold reached. rewrite u_at. split; [|intros (H & _); exact H]. intros H. split; [exact H|].
  destruct H as [E|[E|[E|[]]]]; injection E as <- <-; (split; [|exact I]); repeat constructor; intros q X; discriminate X.
Qed.
Lemma u_tab k : tab_free (NDir (u_ch k)).
Proof. intros p n H. apply u_at in H as [E|[E|[E|[]]]]; injection E as <- <-; (split; [nb|exact I]). Qed.
Lemma u_short : short_names (b "base") (NDir (u_ch 100)).
Proof. intros p n H. apply u_reached in H as [E|[E|[E|[]]]]; injection E as <- <-; (split; [vm_compute; reflexivity|]); try exact I; vm_compute; discriminate. Qed.
Lemma u_open : forall p, Forall PropertiesLegacyScan.plain p -> ~ at_path (NDir (u_ch 100)) p NLocked.
Proof. intros p _ H. apply u_at in H as [E|[E|[E|[]]]]; discriminate E. Qed.
Lemma u_resized : resized (NDir (u_ch 100)) (NDir (u_ch 600)).
Proof.
  intros p. split; intros n H; apply u_at in H as [E|[E|[E|[]]]]; injection E as <- <-; eexists; (split; [apply u_at; cbn [In]; auto|]); cbn [kin bare]; auto; right; split; unfold MAX_FILE_SIZE; lia.
Qed.
Lemma u_still p n : reached (NDir (u_ch 600)) p n -> still u_env (b "base") p n.
Proof.
  intros H. apply u_reached in H as [E|[E|[E|[]]]]; injection E as <- <-; unfold still; (eexists; eexists; (split; [vm_compute; reflexivity|]));
    cbn [st_uid st_gid st_mtime st_size st_kind st_dir st_reg st_lnk u_env e_names];
    change (2 ^ 21) with 2097152; change (2 ^ 33) with 8589934592; change (2 ^ 63) with 9223372036854775808;
    repeat (split; [lia|]); (split; [vm_compute; discriminate|]); (split; [vm_compute; discriminate|]).
  - split; auto.
  - split; auto. split; auto. split; auto. eexists. split; [reflexivity|vm_compute; reflexivity].
  - split; auto. split; auto. split; auto. eexists. split; [reflexivity|vm_compute; reflexivity].
Qed.

(** *** the list and its layout *)
Definition u_list : list lent := map (ent (b "base")) u_nodes.
Definition u_split : list lent * list lent * Z := match set_offsets_and_split 512 L_BUCKET L_PAD u_list with Ok (Some x) => x | _ => ([], [], 0) end.
Lemma u_split_ok : set_offsets_and_split 512 L_BUCKET L_PAD u_list = Ok (Some u_split).
Proof. vm_compute. reflexivity. Qed.
Definition u_frags : list lent := snd (fst u_split).
Lemma u_frags_ok : map (fun f => (l_rel f, l_type f, l_orig f, l_loc f, l_size f, frag_start f)) u_frags =
  [(b "base/", LDir, 0, 512, l_size (nth 0 u_list (ent [] ([], NOther))), 0); (b "base/A", LReg, 0, 1024, 100, 512); (b "base/B", LReg, 0, 2048, 2000, 1536)].
Proof. vm_compute. reflexivity. Qed.

Lemma u_sorted : sorted u_list.
Proof. unfold sorted, u_list, u_nodes. cbn [map]. repeat constructor; vm_compute; discriminate. Qed.
Lemma u_prune : map (ent (b "base")) (map (fun x => (fst x, prune (snd x))) u_nodes) = u_list.
Proof. vm_compute. reflexivity. Qed.
Lemma u_unique fuel clock R prior l ar : create_run fuel u_fs clock u_env (b "base") R prior l ar -> l = u_list /\ legacy_run 512 L_BUCKET L_PAD clock u_env l R prior ar.
Proof.
  intros Hc. destruct (run_list fuel u_fs clock u_env (b "base") (NDir (u_ch 100)) R prior l ar ltac:(discriminate) eq_refl (u_wf 100 ltac:(lia)) I u_shows Hc) as (N & nodes & El & F & Nd & Hn & Hso & Hr).
  split; [|exact Hr]. symmetry. apply (sorted_same (fun x y => compare_entries x y <= 0)).
  - rewrite El, <- u_prune. apply Permutation_map.
    assert (EN : N = map (fun x => (fst x, prune (snd x))) nodes).
    { clear - F. induction F as [|x y ? ? (A & B & _) _ IH]; cbn [map]; [reflexivity|]. rewrite <- IH, <- A, <- B. destruct x; reflexivity. }
    rewrite EN. apply Permutation_map. apply NoDup_Permutation.
    + repeat constructor; cbn [In]; intuition discriminate.
    + eapply NoDup_map_inv. exact Nd.
    + intros [p n]. rewrite Hn. apply (u_reached 100).
  - exact u_sorted.
  - exact Hso.
  - intros x y Hx Hy H1 H2. unfold u_list, u_nodes in Hx, Hy. cbn [map In] in Hx, Hy.
    destruct Hx as [<-|[<-|[<-|[]]]], Hy as [<-|[<-|[<-|[]]]]; try reflexivity; exfalso; first [revert H1; vm_compute; intros H1; apply H1; reflexivity|revert H2; vm_compute; intros H2; apply H2; reflexivity].
Qed.
Lemma u_present : present L_BUCKET L_PAD u_env u_list.
Proof.
  apply (tree_present (b "base") (NDir (u_ch 100)) eq_refl ltac:(nb) ltac:(nb) (u_wf 100 ltac:(lia)) (u_tab 100) (or_introl u_short) u_env u_list u_nodes eq_refl).
  - intros [p n] Hx. exists n. split; [apply (u_reached 100); exact Hx|]. destruct Hx as [E|[E|[E|[]]]]; injection E as <- <-; reflexivity.
  - exact u_sorted.
  - vm_compute. discriminate.
  - vm_compute. discriminate.
  - intros e He. unfold u_list in He. apply in_map_iff in He as ([p n] & <- & Hx).
    assert (En : n = prune n) by (destruct Hx as [E|[E|[E|[]]]]; injection E as <- <-; reflexivity). rewrite En.
    apply (node_there u_env (b "base") (NDir (u_ch 100)) (NDir (u_ch 600)) eq_refl ltac:(nb) ltac:(nb) (u_wf 600 ltac:(lia)) I (u_tab 100) u_still); auto.
    + left. apply (resized_short _ _ _ u_resized u_short).
    + exact u_resized.
    + apply (u_reached 100). exact Hx.
Qed.
(** headers as the reader sees them *)
Lemma u_header p n : reached (NDir (u_ch 600)) p n -> exists h, file_header u_env (node_path (b "base") p) = Some h /\ zlen h = 512 /\
  forall rest, exists u, read_header (h ++ rest) = Some (u, rest) /\ u_size u = known n /\
    (u_name u = node_path (b "base") p \/ u_name u = node_path (b "base") p ++ [SLASH]).
Proof.
  intros Hr.
  pose proof (node_listed u_env (b "base") (NDir (u_ch 600)) eq_refl ltac:(nb) ltac:(nb) (u_wf 600 ltac:(lia)) I (u_tab 600) u_still (or_introl (resized_short _ _ _ u_resized u_short)) p n (prune n) Hr (or_introl eq_refl)) as L.
  destruct (ent_fields (b "base") p (prune n) eq_refl) as (E1 & _ & _ & E2 & _ & _ & _ & _ & _ & _ & _ & _ & E3); [apply archivable_prune; apply Hr|].
  destruct (entry_listed0 _ _ L) as (((h & A1 & A2 & A3 & A4 & A5) & _ & _) & _ & Lz). rewrite E1 in A1. exists h. split; [exact A1|].
  assert (H5 : zlen h = 512 /\ Z.max 0 (l_size (ent (b "base") (p, prune n))) = known n).
  { rewrite A2. apply u_reached in Hr as [E|[E|[E|[]]]]; injection E as <- <-; split; vm_compute; reflexivity. }
  split; [apply H5|]. intros rest. destruct (A5 rest) as (u & U1 & U2 & U3). exists u. split; [exact U1|]. split; [rewrite U3, Lz; apply H5|].
  destruct U2 as (s & tg & _ & _ & _ & _ & _ & _ & K). rewrite E1 in K.
  destruct (l_type _); try contradiction K; destruct K as (K & _); cbn [member_of m_path] in K; try (left; exact K).
  destruct (ends_with_slash _) in K; [left|right]; exact K.
Qed.

(** *** reading it *)
Lemma step_any a pos h fuel z (Q : uhdr -> Prop) : 0 <= pos -> at_bytes a pos h -> (forall rest, exists u, read_header (h ++ rest) = Some (u, rest) /\ u_size u = z /\ Q u) -> 0 < zlen h -> 0 <= z ->
  pos + zlen h + round512 z <= zlen a -> exists u d, Q u /\ forall ms, read_archive fuel (skipn (Z.to_nat (pos + zlen h + round512 z)) a) = Some ms ->
    read_archive (S fuel) (skipn (Z.to_nat pos) a) = Some (member_of u d :: ms).
Proof.
  intros Hp Ha Hh Hz H0 Hl. destruct (Hh (skipn (Z.to_nat (pos + zlen h)) a)) as (u & U1 & U2 & U3).
  exists u, (firstn (Z.to_nat (u_size u)) (skipn (Z.to_nat (pos + zlen h)) a)). split; [exact U3|]. intros ms E.
  rewrite (read_step1 a pos h u fuel Hp Ha U1 Hz ltac:(lia) ltac:(rewrite U2; exact Hl)). rewrite U2, E. reflexivity.
Qed.

Lemma hidden fuel clock R prior l ar a : (1 <= R)%nat -> create_run fuel u_fs clock u_env (b "base") R prior l ar -> concretises a ar ->
  exists ms, tar_list a = Some ms /\ forall m, In m ms -> m_path m <> b "base/B".
Proof.
  intros HR Hc Ha. destruct (u_unique _ _ _ _ _ _ Hc) as (-> & Hrun). pose proof u_present as Hp. destruct Hrun as [ws0 D text starts wss ws Hpro Hf Hi].
  destruct (u_split) as [[es fs] nb] eqn:Es. pose proof u_split_ok as Hsp. rewrite Es in Hsp.
  assert (Ef : u_frags = fs) by (unfold u_frags; rewrite Es; reflexivity).
  destruct (run_parts_split L_BUCKET L_PAD clock u_env u_list R _ _ _ _ _ _ _ Hp Hpro Hsp) as (cat & Hpa). destruct (run_writes _ _ _ _ _ _ _ _ _ _ _ _ _ _ HR Hpa Hf Hi) as (W1 & W2).
  destruct Hpa as (E1 & E2 & E3 & E4 & E5 & E6 & E7 & _).
  destruct Hp as [HP HPb Hpad Hlen Hsend Hlisted Hfirst Hhdr Hroom Hvol].
  set (ar := fold_left write_at (ws0 ++ ws) prior) in *. assert (Har : ar = fold_left write_at (ws0 ++ ws) prior) by reflexivity. clearbody ar.
  pose proof (fact4 L_BUCKET D clock u_env u_list fs starts cat ws0 ws prior ar HP HPb E3 Hvol Hlisted E4 E5 E2 E6 E7 W1 W2 Har a Ha) as (A4 & A5).
  pose proof (starts_pos L_BUCKET D clock u_env u_list fs starts cat ws E3 E4 E5 W1 W2) as Hpos.
  pose proof (offs L_BUCKET D clock u_env fs starts cat ws HP HPb E2 E6 W2) as (O1 & O2 & O3 & O4).
  assert (F : forall k x, nth_error (map (fun f => (l_rel f, l_type f, l_orig f, l_loc f, l_size f, frag_start f)) u_frags) k = Some x ->
    exists f, In f fs /\ (l_rel f, l_type f, l_orig f, l_loc f, l_size f, frag_start f) = x).
  { intros k x Hk. apply nth_error_In in Hk. apply in_map_iff in Hk as (f & E & I). exists f. rewrite <- Ef. auto. }
  rewrite u_frags_ok in F.
  destruct (F 0%nat _ eq_refl) as (f0 & I0 & X0). destruct (F 1%nat _ eq_refl) as (f1 & I1 & X1). destruct (F 2%nat _ eq_refl) as (f2 & I2 & X2).
  injection X0 as X01 X02 X03 X04 X05 X06. injection X1 as X11 X12 X13 X14 X15 X16. injection X2 as X21 X22 X23 X24 X25 X26.
  assert (Lc : zlen cat <= 1000).
  { pose proof (cat_len _ _ _ _ E1 ltac:(unfold L_BUCKET; change (10 ^ 10) with 10000000000; lia)) as C. assert (C' : zlen (concat (map (line true) u_list)) <= 900) by (vm_compute; discriminate). lia. }
  assert (HDP : D = L_BUCKET).
  { pose proof (Z.div_mod D L_BUCKET ltac:(unfold L_BUCKET; lia)) as Q. rewrite O2 in Q. unfold L_BUCKET in *. lia. }
  destruct (to_data L_BUCKET D clock u_env u_list fs starts cat ws0 ws prior ar HP HPb E3 Hvol Hlisted E4 E5 E2 E6 E7 W1 W2 Har a Ha ltac:(rewrite HDP; unfold L_BUCKET; lia)) as (mc & sp & fu & T1 & T2 & T3 & T4).
  assert (La : D + L_BUCKET <= zlen a) by (unfold L_BUCKET in *; lia).
  destruct (u_header [] (NDir (u_ch 600))) as (h0 & H01 & H02 & H03); [apply u_reached; cbn [In]; auto|].
  destruct (u_header [b "A"] (NFile 600)) as (h1 & H11 & H12 & H13); [apply u_reached; cbn [In]; auto|].
  change (node_path (b "base") []) with (b "base/") in *. change (node_path (b "base") [b "A"]) with (b "base/A") in *.
  pose proof (fact1 L_BUCKET D clock u_env u_list fs starts cat ws0 ws prior ar HP HPb E3 Hvol Hlisted E4 E5 E2 E6 E7 W1 W2 Har a Ha f0 h0 I0 X03 ltac:(rewrite X01; exact H01)) as A0.
  pose proof (fact1 L_BUCKET D clock u_env u_list fs starts cat ws0 ws prior ar HP HPb E3 Hvol Hlisted E4 E5 E2 E6 E7 W1 W2 Har a Ha f1 h1 I1 X13 ltac:(rewrite X11; exact H11)) as A1.
  pose proof (fact2 L_BUCKET D clock u_env u_list fs starts cat ws0 ws prior ar HP HPb E3 Hvol Hlisted E4 E5 E2 E6 E7 W1 W2 Har a Ha f2 (repeat NUL 2000) I2 X22 ltac:(lia) ltac:(rewrite X21; reflexivity)) as A2.
  rewrite X06, Z.add_0_r in A0. rewrite X16 in A1. rewrite X23, X24, X25 in A2.
  assert (DP : 0 <= D) by (rewrite HDP; unfold L_BUCKET; lia). clear - T1 T2 T3 T4 La A0 A1 A2 H02 H03 H12 H13 DP.
  assert (F3 : (3 <= fu)%nat).
  { rewrite skipn_length in T3. unfold zlen, L_BUCKET in *. lia. }
  destruct fu as [|[|[|fu]]]; [lia|lia|lia|].
  destruct (step_any a D h0 (S (S fu)) 0 _ ltac:(unfold L_BUCKET in *; lia) A0 H03 ltac:(lia) ltac:(lia) ltac:(rewrite H02; change (round512 0) with 0; unfold L_BUCKET in *; lia)) as (u0 & d0 & Q0 & S0).
  destruct (step_any a (D + 512) h1 (S fu) 600 _ ltac:(unfold L_BUCKET in *; lia) A1 H13 ltac:(lia) ltac:(lia) ltac:(rewrite H12; change (round512 600) with 1024; unfold L_BUCKET in *; lia)) as (u1 & d1 & Q1 & S1).
  rewrite H02 in S0. rewrite H12 in S1. change (round512 0) with 0 in S0. change (round512 600) with 1024 in S1.
  replace (D + 512 + 0) with (D + 512) in S0 by lia. replace (D + 512 + 512 + 1024) with (D + 2048) in S1 by lia.
  assert (Z0 : read_archive (S fu) (skipn (Z.to_nat (D + 2048)) a) = Some []).
  { assert (E : read_at (repeat NUL 2000) 0 2000 = repeat NUL 512 ++ repeat NUL 1488) by (vm_compute; reflexivity). rewrite E in A2.
    rewrite (skip_at a (D + 2048) _ ltac:(unfold L_BUCKET in *; lia) A2). rewrite <- app_assoc. apply read_zero. }
  specialize (S1 _ Z0). specialize (S0 _ S1). specialize (T4 _ S0). eexists. split; [exact T4|].
  intros m [<-|Hm].
  - destruct T1 as (-> & _). vm_compute. discriminate.
  - apply in_app_or in Hm as [Hm|[<-|[<-|[]]]].
    + rewrite Forall_forall in T2. destruct (T2 m Hm) as (-> & _). vm_compute. discriminate.
    + cbn [member_of m_path]. destruct Q0 as [-> | ->]; vm_compute; discriminate.
    + cbn [member_of m_path]. destruct Q1 as [-> | ->]; vm_compute; discriminate.
Qed.
