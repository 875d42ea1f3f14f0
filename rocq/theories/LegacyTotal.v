(** The 0.5.1 create mode gets to its end on every tree within the bounds. *)
From Verif Require Import Bytes Outcome TarSpec TarModel TarProofs TarMore Layout Mover MoverSpec MoverProofs AssembleProofs Spider SpiderSpec SpiderProofs EndSpec EndProofs EndMore
  Legacy LegacyProofs LegacyLayout LegacySpec LegacyLayoutProofs LegacyRanks LegacyMore LegacyScan LegacyScanProofs LegacyCodec LegacyCodecProofs LegacyWrite LegacySeats LegacyImage LegacyArchive LegacyEndSpec LegacyDriftSpec LegacyWalk LegacySend LegacyEnd LegacyRun
  LegacyCreate PropertiesLegacyScan LegacyTreeSpec LegacyCreateProofs.
From Coq Require Import Lia Permutation Sorted.

(** qsort's contract can be met: insertion sort *)
Fixpoint lins (e : lent) (l : list lent) : list lent :=
  match l with [] => [e] | x :: l' => if compare_entries e x <=? 0 then e :: x :: l' else x :: lins e l' end.
Fixpoint lsort (l : list lent) : list lent := match l with [] => [] | e :: l' => lins e (lsort l') end.
Lemma lins_perm e l : Permutation (e :: l) (lins e l).
Proof. induction l as [|x l IH]; cbn [lins]; auto. destruct (_ <=? _); auto. rewrite perm_swap. apply perm_skip. exact IH. Qed.
Lemma lsort_perm l : Permutation l (lsort l).
Proof. induction l as [|x l IH]; cbn [lsort]; auto. rewrite <- lins_perm. apply perm_skip. exact IH. Qed.
Lemma lins_sorted e l : sorted l -> sorted (lins e l).
Proof.
  unfold sorted. induction 1 as [|x l Hs IH Hx]; cbn [lins]; [repeat constructor|]. destruct (Z.leb_spec (compare_entries e x) 0) as [H|H].
  - constructor; [constructor; auto|]. constructor; [lia|]. eapply Forall_impl; [|exact Hx]. cbv beta. intros y Hy. eapply compare_trans; [exact H|exact Hy].
  - constructor; [exact IH|]. apply Forall_forall. intros y Hy. apply (Permutation_in _ (Permutation_sym (lins_perm e l))) in Hy as [<-|Hy].
    + pose proof (compare_opp e x). lia.
    + rewrite Forall_forall in Hx. apply Hx. exact Hy.
Qed.
Lemma lsort_sorted l : sorted (lsort l).
Proof. induction l as [|x l IH]; cbn [lsort]; [constructor|]. apply lins_sorted. exact IH. Qed.

(** *** how long the two texts get *)
Lemma print_int_len z : is_long z -> 0 <= zlen (print_int z) <= 20.
Proof.
  unfold is_long. change (2 ^ 63) with 9223372036854775808. intros H. unfold print_int, print_dec.
  assert (D : forall n, 0 <= n <= 9223372036854775808 -> zlen (print_base 10 n) <= 19).
  { intros n Hn. apply (ndig_le 10 n 19); [lia| |lia]. change (10 ^ 19) with 10000000000000000000. lia. }
  pose proof (zlen_nonneg (print_base 10 (- z))). pose proof (zlen_nonneg (print_base 10 z)).
  destruct (Z.ltb_spec z 0); [|specialize (D z ltac:(lia)); lia]. specialize (D (- z) ltac:(lia)).
  match goal with |- context [zlen (?c :: ?l)] => change (zlen (c :: l)) with (zlen ([c] ++ l)) end.
  rewrite zlen_app. change (zlen [_]) with 1. lia.
Qed.
Lemma full_line_len e : sendable e -> zlen (full_line e) <= zlen (l_rel e) + zlen (l_arc e) + zlen (l_tgt e) + zlen (pad_text (l_pname e)) + 216.
Proof.
  intros (_ & (L1 & L2 & L3 & L4 & L5 & L6 & L7) & I1 & I2 & I3). apply int_long in I1, I2, I3. unfold full_line. rewrite !zlen_app.
  change (zlen [TAB]) with 1. change (zlen [LF]) with 1. change (zlen [type_char (l_type e)]) with 1.
  pose proof (print_int_len _ L1). pose proof (print_int_len _ L2). pose proof (print_int_len _ L3). pose proof (print_int_len _ L4). pose proof (print_int_len _ L5).
  pose proof (print_int_len _ L6). pose proof (print_int_len _ L7). pose proof (print_int_len _ I1). pose proof (print_int_len _ I2). pose proof (print_int_len _ I3). lia.
Qed.
Lemma archive_line_len e : sendable e -> zlen (archive_line e) <= zlen (l_arc e) + zlen (l_tgt e) + 67.
Proof.
  intros (_ & (L1 & L2 & L3 & _) & _). unfold archive_line. rewrite !zlen_app.
  change (zlen [TAB]) with 1. change (zlen [LF]) with 1. change (zlen [type_char (l_type e)]) with 1.
  pose proof (print_int_len _ L1). pose proof (print_int_len _ L2). pose proof (print_int_len _ L3). lia.
Qed.
Lemma lines_len (f : lent -> bytes) K l : 0 <= K -> Forall (fun e => zlen (f e) <= K) l -> zlen (concat (map f l)) <= K * zlen l.
Proof.
  intros HK. induction 1 as [|e l He _ IH]; [cbn; lia|]. cbn [map concat]. rewrite zlen_app. replace (zlen (e :: l)) with (1 + zlen l) by (unfold zlen; cbn [length]; lia). lia.
Qed.

(** *** how many fragments there are *)
Lemma follows_count P e s i w o g i' w' o' : follows 512 P e s i w o g i' w' o' -> i' = i + zlen g.
Proof. induction 1 as [|i o f g i' w' o' _ _ _ _ _ _ _ _ _ IH]; [cbn; lia|]. replace (zlen (f :: g)) with (1 + zlen g) by (unfold zlen; cbn [length]; lia). lia. Qed.
Lemma seated_count P i w l fs : 0 < P -> seated 512 P i w l fs -> Forall (fun e => 0 < l_hdr e) l -> 0 < w <= P -> P * zlen fs <= volume P l.
Proof.
  intros HP. induction 1 as [|i w e l f g fs j u i' w' total Hj Hu Hsf Hb Ho Hloc Hneg Hpos Hf Hend Hw' Hse IH]; intros Hh Hw; [cbn; lia|].
  inversion Hh as [|? ? He Hh']; subst. specialize (IH Hh' Hw'). cbn [volume].
  pose proof (follows_count _ _ _ _ _ _ _ _ _ _ Hf) as Hc.
  assert (Hbs : 0 <= bsz 512 f). { unfold bsz. pose proof (blocked_bounds 512 (Z.max 0 (l_size f) + (if l_orig f =? 0 then l_hdr f else 0)) ltac:(lia)). assert (l_hdr f = l_hdr e) by apply Hsf. destruct (l_orig f =? 0); lia. }
  replace (zlen (f :: g ++ fs)) with (1 + zlen g + zlen fs) by (unfold zlen; cbn [length]; rewrite app_length; lia).
  assert (P * zlen g <= P + blocked_up 512 (sum_size e)) by nia. lia.
Qed.

(** what the nodes hold *)
Lemma total_size_perm l l' : Permutation l l' -> total_size l = total_size l'.
Proof. induction 1; cbn [total_size]; lia. Qed.

(** the list after the sort *)
Lemma sorted_list top t l : ends_with_slash top = false -> wf_node t -> Permutation (map (ent top) (enum [] (prune t))) l ->
  exists N nodes, l = map (ent top) N /\ Forall2 (fun x y => fst x = fst y /\ snd x = prune (snd y) /\ reached t (fst y) (snd y)) N nodes /\
    NoDup (map fst nodes) /\ (forall p n, In (p, n) nodes <-> reached t p n).
Proof.
  intros H2 Hw P. apply Permutation_sym in P. apply Permutation_map_inv in P as (N & -> & PN).
  assert (Hwp : wf_node (prune t)) by (apply prune_wf; exact Hw).
  assert (HN : forall x, In x N -> exists y, fst x = fst y /\ snd x = prune (snd y) /\ reached t (fst y) (snd y)).
  { intros [p m] Hin. apply (Permutation_in _ (Permutation_sym PN)) in Hin. apply enum_prefix in Hin as (r & -> & Ha & Hm). apply prune_at in Ha as (n & Ha & -> & Hv).
    exists (r, n). cbn [fst snd app]. split; auto. split; auto. split; auto. split; [apply plain_all; auto|apply archivable_prune; auto]. }
  destruct (choose _ _ HN) as (nodes & F). exists N, nodes. split; auto. split; auto.
  assert (Ef : map fst nodes = map fst N). { clear - F. induction F as [|x y ? ? (E & _) _ IH]; cbn [map]; congruence. }
  assert (Hall : forall y, In y nodes -> reached t (fst y) (snd y)). { intros y Hy. destruct (forall2_in _ _ _ F y Hy) as (x & _ & _ & _ & X). exact X. }
  split.
  - rewrite Ef. eapply Permutation_NoDup; [apply Permutation_map; exact PN|]. apply enum_nodup. exact Hwp.
  - intros p n. split; [intros Hin; apply (Hall _ Hin)|]. intros (R1 & R2 & R3).
    assert (Hin : In ([] ++ p, prune n) (enum [] (prune t))). { apply enum_complete; [apply at_prune; auto; apply plain_all; auto|]. apply archivable_prune. exact R3. }
    cbn [app] in Hin. apply (Permutation_in _ PN) in Hin. apply in_map with (f := fst) in Hin. rewrite <- Ef in Hin. cbn [fst] in Hin. apply in_map_iff in Hin as ([p' n'] & Ep & Hin). cbn [fst] in Ep. subst p'.
    destruct (Hall _ Hin) as (S1 & _). cbn [fst snd] in S1. rewrite (at_path_det _ _ _ _ R1 Hw S1). exact Hin.
Qed.

Lemma nodup_of_fst {A B} (l : list (A * B)) : NoDup (map fst l) -> NoDup l.
Proof. apply NoDup_map_inv. Qed.

Lemma nodes_size top t N nodes : ends_with_slash top = false -> Forall2 (fun x y => fst x = fst y /\ snd x = prune (snd y) /\ reached t (fst y) (snd y)) N nodes ->
  wf_node t -> total_size (map (ent top) N) = nodes_bytes nodes /\ zlen N = zlen nodes.
Proof.
  intros Hs F Hw. induction F as [|[p m] [p' n] N nodes (E1 & E2 & E3) F (IH1 & IH2)]; [split; reflexivity|]. cbn [fst snd] in *. subst p' m.
  cbn [map total_size nodes_bytes]. rewrite IH1. unfold zlen in *. cbn [length]. split; [|lia].
  destruct (ent_fields top p (prune n) Hs) as (_ & _ & _ & _ & _ & _ & _ & _ & _ & _ & _ & _ & X); [apply archivable_prune; apply E3|].
  pose proof (wf_at _ _ _ Hw (proj1 E3)) as Hwn.
  destruct n; cbn [prune] in *; destruct X as (_ & _ & ->); unfold SIZE_LNK, SIZE_DIR; try reflexivity; try (destruct E3 as (_ & _ & []));
    change (nodes_bytes (_ :: nodes)) with (nodes_bytes nodes); lia.
Qed.
Lemma nodes_bytes_perm l l' : Permutation l l' -> nodes_bytes l = nodes_bytes l'.
Proof. induction 1 as [|[? []]|[? []] [? []]|]; cbn [nodes_bytes]; lia. Qed.

Lemma cat_len l bkt arch buf : list_to_buffer l bkt arch = Ok (Some buf) -> 0 <= bkt < 10 ^ 10 -> zlen buf <= zlen (concat (map (line arch) l)) + 55.
Proof.
  intros E Hb. destruct (text_count _ _ _ _ E Hb) as (E1 & E2 & E3). assert (H0 : 0 <= zlen buf) by apply zlen_nonneg. assert (H1 : 0 <= zlen l) by apply zlen_nonneg.
  rewrite E1 at 1. rewrite zlen_app. change (2 ^ 31) with 2147483648 in E3.
  assert (zlen (cat_head (zlen buf) bkt (zlen l) arch) = 55); [|lia]. pose proof (cat_head_zlen bkt (zlen l) arch Hb ltac:(change (10 ^ 10) with 10000000000; lia)) as C.
  unfold cat_head in *. rewrite zlen_app in *. unfold zlen at 1. unfold zlen at 1 in C. rewrite ten_length by lia. rewrite ten_length in C by (change (10 ^ 10) with 10000000000; lia). exact C.
Qed.
(** the writer gets through when the two texts fit *)
Lemma run_prologue P pad clock ev l R cat : present P pad ev l -> 2 <= zlen l -> zlen pad <= 100 -> Forall (fun e => zlen (l_tgt e) <= 100) l ->
  list_to_buffer l P true = Ok (Some cat) ->
  (forall es fs nb, set_offsets_and_split 512 P pad l = Ok (Some (es, fs, nb)) -> zlen fs <= 4000000 /\ exists text, list_to_buffer fs P false = Ok (Some text)) ->
  exists ws0 D text starts, prologue 512 P pad clock l = Ok (Some (ws0, D, text, starts)) /\ zlen text <= INT_MAX /\
    forall r, 0 <= r < Z.of_nat R -> exists ws, rank_part 512 P D clock ev text starts (Z.of_nat R) r = Ok (Some ws).
Proof.
  intros Hp Hl Hpd Ht Hc Hx. pose proof (present_hdr _ _ _ _ Hp) as Hh. pose proof Hp as [HP HPb Hpad Hlen Hsend Hlisted Hfirst Hhdr Hroom Hvol].
  destruct (succeeds_lemma 512 P pad l) as (es & fs & nb & E); auto; try lia.
  { unfold MAX_FILE_SIZE. lia. }
  { rewrite Forall_forall in *. intros e He. split; [|apply Ht; auto]. specialize (Hh e He). specialize (Hhdr e He). cbv beta in *. lia. }
  destruct (Hx es fs nb E) as (Hf & text & Et).
  destruct (accepted_lemma 512 P pad l es fs nb) as (st & A1 & A2); auto; try lia.
  destruct (prologue_ok P pad clock l cat es fs nb text st) as (ws0 & Ep); auto.
  exists ws0, (data_offset P (512 + zlen cat)), text, st. split; [exact Ep|]. split.
  - pose proof (text_bound _ _ _ _ Et ltac:(lia) ltac:(lia)). unfold INT_MAX. lia.
  - destruct (present_parts P pad clock ev l R _ _ _ _ Hp Ep) as (cat' & fs' & (_ & _ & _ & _ & _ & _ & _ & Hr)). intros r Hr'. destruct (Hr r Hr') as (ws & W & _). eauto.
Qed.

Lemma short_enough top t : short_names top t -> manageable top t /\ names_to 99 top t.
Proof.
  intros H. split; [left; exact H|]. intros p n R. destruct (H p n R) as (A & B). split; [lia|]. destruct n; auto.
Qed.
Lemma nodes_bytes_nonneg l : 0 <= nodes_bytes l.
Proof. induction l as [|[p []] l IH]; cbn [nodes_bytes]; lia. Qed.
Lemma few_short l : 2 <= zlen l <= 250000 -> nodes_bytes l <= 1000000000000 -> few_enough 99 l.
Proof.
  intros H1 H2. pose proof (nodes_bytes_nonneg l). unfold few_enough. split; [auto|]. split; [auto|].
  assert (9 * zlen l / 4 <= 562500) by (apply Z.div_le_upper_bound; lia). assert (nodes_bytes l / 4194304 <= 240000) by (apply Z.div_le_upper_bound; lia). lia.
Qed.
Lemma create_present M fs clock ev top t nodes :
  top <> [] -> ends_with_slash top = false -> no_byte NUL top -> no_byte TAB top -> wf_node t -> is_dir_node t -> shows fs top t -> tab_free t ->
  (forall p n, reached t p n -> as_there ev (ent top (p, prune n))) -> manageable top t -> names_to M top t -> (forall p, Forall plain p -> ~ at_path t p NLocked) ->
  NoDup (map fst nodes) -> (forall p n, In (p, n) nodes <-> reached t p n) -> few_enough M nodes ->
  exists f0, forall fuel, (f0 <= fuel)%nat -> exists es, list_directory fuel fs top = Ok (Some es) /\
    forall l, Permutation (map (fill_rel top) es) l -> sorted l -> zlen l = zlen nodes /\ total_size l = nodes_bytes nodes /\
      (exists cat, list_to_buffer l L_BUCKET true = Ok (Some cat) /\ zlen cat <= (M + 167) * zlen nodes + 55) /\
      forall R, exists ws0 D text starts, prologue L_BLOCK L_BUCKET L_PAD clock l = Ok (Some (ws0, D, text, starts)) /\ zlen text <= INT_MAX /\
        forall r, 0 <= r < Z.of_nat R -> exists ws, rank_part L_BLOCK L_BUCKET D clock ev text starts (Z.of_nat R) r = Ok (Some ws).
Proof.
  intros H1 H2 H3 H4 Hw Hd Hsh Htf Hst Hman Hshort Hopen Hnd Hin (Hlen & Htot & Hfew).
  destruct t as [| |ch| | |]; try destruct Hd; [|exfalso; apply (Hopen []); constructor].
  assert (Ho : forall q, Forall vis q -> ~ at_path (NDir ch) q NLocked). { intros q Hq. apply Hopen. apply plain_all. exact Hq. }
  destruct (list_directory_ok fs top H1 H2 ch Hsh Hw Ho) as (es0 & f0 & A & E0). subst es0.
  exists f0. intros fuel Hfuel. destruct (A fuel Hfuel) as (es & A1 & A2). exists es. split; [exact A1|]. intros l Pl0 Hso.
  assert (Pl : Permutation (map (ent top) (enum [] (prune (NDir ch)))) l).
  { eapply Permutation_trans; [|exact Pl0]. apply Permutation_trans with (map (fill_rel top) (map (lof top) (enum [] (prune (NDir ch))))); [rewrite map_map; reflexivity|].
    apply Permutation_map. symmetry. exact A2. }
  destruct (sorted_list top (NDir ch) l H2 Hw Pl) as (N & nodes' & El & F & Nd & Hn).
  assert (PN : Permutation nodes' nodes). { apply NoDup_Permutation; [apply nodup_of_fst; auto|apply nodup_of_fst; auto|]. intros [p n]. rewrite Hin. apply Hn. }
  destruct (nodes_size top (NDir ch) N nodes' H2 F Hw) as (S1 & S2).
  assert (Zl : zlen l = zlen nodes). { rewrite El. unfold zlen in *. rewrite map_length. rewrite <- (Permutation_length PN). lia. }
  assert (Tl : total_size l = nodes_bytes nodes) by (rewrite El, S1; apply nodes_bytes_perm; exact PN).
  assert (HN : forall x, In x N -> exists n, reached (NDir ch) (fst x) n /\ snd x = prune n).
  { intros x Hx. destruct (In_nth_error _ _ Hx) as (k & Hk). destruct (forall2_nth _ _ _ F k x Hk) as (y & _ & Y1 & Y2 & Y3). rewrite Y1. eauto. }
  assert (Hp : present L_BUCKET L_PAD ev l).
  { apply (tree_present top (NDir ch) H2 H3 H4 Hw Htf Hman ev l N El HN Hso); try lia. intros e He. rewrite El in He. apply in_map_iff in He as ([p m] & <- & Hx). destruct (HN _ Hx) as (n & Hr & Em). cbn [fst snd] in *. subst m. apply Hst. exact Hr. }
  assert (Hnames : Forall (fun e => zlen (l_rel e) <= M /\ zlen (l_arc e) <= M /\ zlen (l_tgt e) <= 100 /\ l_pname e = None) l).
  { apply Forall_forall. intros e He. rewrite El in He. apply in_map_iff in He as ([p m] & <- & Hx). destruct (HN _ Hx) as (n & Hr & Em). cbn [fst snd] in *. subst m.
    destruct (ent_fields top p (prune n) H2) as (F1 & F2 & F3 & _ & _ & _ & _ & _ & _ & _ & _ & _ & F4); [apply archivable_prune; apply Hr|].
    destruct (Hshort p n Hr) as (B1 & B2). rewrite F1, F2, F3. split; [lia|]. split; [|split; auto].
    - unfold node_path in B1. rewrite !zlen_app in B1. pose proof (zlen_nonneg top). change (zlen [SLASH]) with 1 in B1. lia.
    - destruct n; cbn [prune] in *; destruct F4 as (_ & -> & _); try (change (zlen []) with 0; lia); exact B2. }
  pose proof Hp as [HP HPb Hpad Hl4 Hsend Hlisted Hfirst Hhdr Hroom Hvol]. pose proof (present_hdr _ _ _ _ Hp) as Hh.
  assert (Hh2 : Forall (fun e => 0 < l_hdr e <= 100000) l).
  { apply Forall_forall. intros e He. rewrite El in He. apply in_map_iff in He as ([p m] & <- & Hx). destruct (HN _ Hx) as (n & Hr & Em). cbn [fst snd] in *. subst m.
    eapply node_hdr; eauto. }
  assert (HV : volume L_BUCKET l <= total_size l + zlen l * (2 * L_BUCKET + 200512)) by (eapply volume_le; eauto; exact I).
  assert (M0 : 0 <= M).
  { destruct l as [|e0 l0]; [unfold zlen in Zl; cbn [length] in Zl; unfold zlen in Hlen; lia|]. inversion Hnames as [|? ? (X & _) _]. pose proof (zlen_nonneg (l_rel e0)). lia. }
  pose proof (nodes_bytes_nonneg nodes) as Hb0.
  set (K := 9 * zlen nodes / 4 + nodes_bytes nodes / 4194304 + 2) in *.
  assert (HK : 4194304 * K >= 4194304 * 2 * zlen nodes + 200512 * zlen nodes + nodes_bytes nodes /\ zlen nodes <= K /\ K <= 3800000).
  { unfold K. pose proof (Z.div_mod (9 * zlen nodes) 4 ltac:(lia)). pose proof (Z.mod_pos_bound (9 * zlen nodes) 4 ltac:(lia)).
    pose proof (Z.div_mod (nodes_bytes nodes) 4194304 ltac:(lia)). pose proof (Z.mod_pos_bound (nodes_bytes nodes) 4194304 ltac:(lia)). lia. }
  clearbody K. destruct HK as (HK & HK1 & HK2).
  assert (MN : zlen nodes * (2 * M + 330) <= 499000000 /\ 0 <= zlen nodes * (2 * M + 330)).
  { split; [|apply Z.mul_nonneg_nonneg; lia]. apply Z.le_trans with (K * (2 * M + 330)); [apply Z.mul_le_mono_nonneg_r; lia|exact Hfew]. }
  assert (Q : zlen (concat (map (line true) l)) <= (M + 167) * zlen l).
  { assert (Q : Forall (fun e => zlen (line true e) <= M + 167) l).
    { rewrite Forall_forall in *. intros e He. destruct (Hnames e He) as (_ & X & Y & _). pose proof (archive_line_len e (Hsend e He)). cbn [line]. lia. }
    exact (lines_len (line true) (M + 167) l ltac:(lia) Q). }
  assert (MQ : 0 <= (M + 167) * zlen l <= 499000000) by (rewrite Zl; clear - MN Hlen M0; nia).
  destruct (list_to_buffer_some l L_BUCKET true) as (cat & Hc); [unfold L_BUCKET; lia|lia|lia|].
  split; [exact Zl|]. split; [exact Tl|]. split.
  { exists cat. split; [exact Hc|]. rewrite <- Zl. pose proof (cat_len _ _ _ _ Hc ltac:(unfold L_BUCKET; change (10 ^ 10) with 10000000000; lia)). lia. }
  intros R.
  apply (run_prologue L_BUCKET L_PAD clock ev l R cat Hp); auto.
  - lia.
  - vm_compute. discriminate.
  - eapply Forall_impl; [|exact Hnames]. cbv beta. tauto.
  - intros es1 fs1 nb Hsp. assert (Hse : seated 512 L_BUCKET (-1) L_BUCKET l fs1) by (eapply layout_seated; eauto; unfold L_BUCKET; lia).
    pose proof (seated_count L_BUCKET (-1) L_BUCKET l fs1 ltac:(unfold L_BUCKET; lia) Hse Hh ltac:(unfold L_BUCKET; lia)) as Hcnt.
    pose proof (seated_len _ _ _ _ _ _ Hse) as Hge.
    pose proof (split_sendable L_BUCKET L_PAD l es1 fs1 nb ltac:(unfold L_BUCKET; lia) HPb Hpad Hsp Hse Hsend Hh Hvol) as Hsd.
    assert (Hn1 : zlen fs1 <= K) by (clear - Hcnt HV Hge Zl Tl Hlen HK; unfold L_BUCKET in *; lia).
    assert (Q2 : Forall (fun f => zlen (line false f) <= 2 * M + 330) fs1).
    { pose proof Hsp as Hsp'. apply split_inv in Hsp' as (_ & _ & _ & pp & Hpl & _).
      assert (B1 : Forall (fun f => exists e, In e l /\ pad_sane L_BUCKET L_PAD (2147483640 * L_BUCKET) e f) fs1).
      { eapply (place_all_pad L_BUCKET L_PAD ltac:(unfold L_BUCKET; lia)); [|exact Hh|exact Hpl|cbn [w_all]; lia]. unfold loose. cbn. unfold L_BUCKET. lia. }
      assert (B2 : Forall (fun f => exists e, In e l /\ place_sane L_BUCKET (2147483640 * L_BUCKET) e f) fs1).
      { eapply (seated_sane L_BUCKET ltac:(unfold L_BUCKET; lia)); [exact Hse|unfold L_BUCKET; lia|lia|exact Hh|lia]. }
      rewrite Forall_forall in *. intros f Hf. destruct (B1 f Hf) as (e & Ie & _ & _ & Q3). destruct (B2 f Hf) as (e2 & Ie2 & (R1 & R2 & R3 & R4 & R5) & _).
      destruct (Hnames e Ie) as (_ & _ & _ & X4). destruct (Hnames e2 Ie2) as (X1 & X2 & X3 & _).
      pose proof (full_line_len f (Hsd f Hf)) as L. cbn [line]. rewrite R1, R2, R4 in L.
      assert (zlen (pad_text (l_pname f)) <= 12); [|lia].
      destruct Q3 as [(_ & -> & _)|(_ & -> & _)]; [rewrite X4|]; vm_compute; discriminate. }
    split; [lia|]. apply list_to_buffer_some; [unfold L_BUCKET; lia|lia|]. pose proof (lines_len (line false) (2 * M + 330) fs1 ltac:(lia) Q2).
    assert ((2 * M + 330) * zlen fs1 <= (2 * M + 330) * K) by (apply Z.mul_le_mono_nonneg_l; lia). lia.
Qed.
Lemma create_any M fs clock ev top t nodes :
  top <> [] -> ends_with_slash top = false -> no_byte NUL top -> no_byte TAB top -> wf_node t -> is_dir_node t -> shows fs top t -> tab_free t ->
  (forall p n, reached t p n -> still ev top p n) -> manageable top t -> names_to M top t -> (forall p, Forall plain p -> ~ at_path t p NLocked) ->
  NoDup (map fst nodes) -> (forall p n, In (p, n) nodes <-> reached t p n) -> few_enough M nodes ->
  exists f0, forall fuel, (f0 <= fuel)%nat -> exists es, list_directory fuel fs top = Ok (Some es) /\
    forall l, Permutation (map (fill_rel top) es) l -> sorted l -> zlen l = zlen nodes /\ total_size l = nodes_bytes nodes /\
      (exists cat, list_to_buffer l L_BUCKET true = Ok (Some cat) /\ zlen cat <= (M + 167) * zlen nodes + 55) /\
      forall R, exists ws0 D text starts, prologue L_BLOCK L_BUCKET L_PAD clock l = Ok (Some (ws0, D, text, starts)) /\ zlen text <= INT_MAX /\
        forall r, 0 <= r < Z.of_nat R -> exists ws, rank_part L_BLOCK L_BUCKET D clock ev text starts (Z.of_nat R) r = Ok (Some ws).
Proof.
  intros H1 H2 H3 H4 Hw Hd Hsh Htf Hst Hman Hshort Hopen Hnd Hin Hlen. apply (create_present M fs clock ev top t nodes); auto.
  intros p n Hr. apply found_there, listed_found. apply (node_listed ev top t H2 H3 H4 Hw Hd Htf Hst Hman p n); auto.
Qed.
Lemma create_completes M fs clock ev top t nodes R prior :
  top <> [] -> ends_with_slash top = false -> no_byte NUL top -> no_byte TAB top -> wf_node t -> is_dir_node t -> shows fs top t -> tab_free t ->
  (forall p n, reached t p n -> still ev top p n) -> manageable top t -> names_to M top t -> (forall p, Forall plain p -> ~ at_path t p NLocked) ->
  NoDup (map fst nodes) -> (forall p n, In (p, n) nodes <-> reached t p n) -> few_enough M nodes ->
  exists fuel l ar, create_run fuel fs clock ev top R prior l ar /\ zlen l = zlen nodes /\ total_size l = nodes_bytes nodes.
Proof.
  intros H1 H2 H3 H4 Hw Hd Hsh Htf Hst Hman Hshort Hopen Hnd Hin Hlen.
  destruct (create_any M fs clock ev top t nodes) as (f0 & A); auto. destruct (A f0 (Nat.le_refl _)) as (es & E1 & B).
  destruct (B (lsort (map (fill_rel top) es)) (lsort_perm _) (lsort_sorted _)) as (Zl & Tl & _ & C). destruct (C R) as (ws0 & D & text & starts & C1 & _ & C3).
  assert (X : exists wss, Forall2 (fun r ws => rank_part L_BLOCK L_BUCKET D clock ev text starts (Z.of_nat R) (Z.of_nat r) = Ok (Some ws)) (seq 0 R) wss).
  { apply choose. intros r Hr. apply in_seq in Hr. apply C3. lia. }
  destruct X as (wss & F). exists f0, (lsort (map (fill_rel top) es)). eexists. split; [|split; [exact Zl|exact Tl]].
  apply (Create_run f0 fs clock ev top R prior es (map (fill_rel top) es) (lsort (map (fill_rel top) es))); auto.
  - unfold fill_rels. destruct top; [congruence|reflexivity].
  - apply lsort_perm.
  - apply lsort_sorted.
  - eapply Legacy_run; [exact C1|exact F|apply interleave_concat].
Qed.
