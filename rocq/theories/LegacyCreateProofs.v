(** The create mode of the 0.5.1 program, from the tree to the archive. *)
From Coq Require Import Permutation Sorted Lia.
From Verif Require Import Bytes Outcome TarSpec TarModel TarProofs TarMore Layout LayoutMore Mover MoverSpec MoverProofs Spider SpiderSpec SpiderProofs EndSpec EndProofs EndMore
  Legacy LegacyProofs LegacyLayout LegacySpec LegacyLayoutProofs LegacyRanks LegacyMore LegacyScan LegacyScanProofs LegacyCodec LegacyCodecProofs
  LegacyWrite LegacyEndSpec LegacyDriftSpec LegacyEnd LegacyRun LegacyCreate PropertiesLegacyScan LegacyTreeSpec.

(** *** the listing does not depend on the fuel *)
Lemma list_dirs_fuel fs f : forall q f' r r', list_dirs f fs q = Ok r -> list_dirs f' fs q = Ok r' -> r = r'.
Proof.
  induction f as [|f IH]; intros q f' r r' H H'; destruct q as [|[rel arc] q]; destruct f' as [|f']; cbn [list_dirs] in H, H'; try congruence.
  destruct (f_readdir fs rel) as [names|]; [|congruence]. destruct rel as [|c rel]; [discriminate|].
  destruct (list_entries fs (c :: rel) arc names) as [[es ds]|]; cbn [bind] in H, H'; [|discriminate].
  destruct (list_dirs f fs (q ++ ds)) as [y|] eqn:E; cbn [bind] in H; [|discriminate].
  destruct (list_dirs f' fs (q ++ ds)) as [y'|] eqn:E'; cbn [bind] in H'; [|discriminate].
  assert (y = y') by (eapply IH; eauto). subst y'. destruct y; congruence.
Qed.
Lemma list_directory_fuel fs top f f' r r' : list_directory f fs top = Ok r -> list_directory f' fs top = Ok r' -> r = r'.
Proof.
  unfold list_directory. destruct (legacy_what_is_path fs top); try congruence; rewrite named_ok; cbn [bind];
  (destruct (list_dirs f fs [(top, [])]) as [y|] eqn:E; cbn [bind]; [|discriminate]);
  (destruct (list_dirs f' fs [(top, [])]) as [y'|] eqn:E'; cbn [bind]; [|discriminate]);
  (assert (y = y') by (eapply list_dirs_fuel; eauto); subst y'; destruct y; congruence).
Qed.

(** *** one node *)
Lemma hdr_le name link size h : compute_hdr_size name link size = Ok h -> size < 2 ^ 63 -> zlen name <= 40000 -> zlen link <= 40000 -> h <= 100000.
Proof.
  intros H Hs Hn Hl. destruct (Z_lt_le_dec size 0) as [L|L].
  - assert (X : compute_hdr_size name link 0 = Ok h).
    { rewrite <- H. unfold compute_hdr_size. apply hdr_size_ext; cbn [te_file te_link te_stat]; auto; unfold need_size, is_reg, MAX_FILE_SIZE; cbn [te_stat st_kind st_size andb];
        repeat match goal with |- context [?x <? ?y] => destruct (Z.ltb_spec x y) end; auto; try lia; discriminate. }
    unfold compute_hdr_size in X. apply hdr_size_le in X; [|cbn [te_stat st_size]; lia]. cbn [te_file te_link] in X. lia.
  - unfold compute_hdr_size in H. apply hdr_size_le in H; [|cbn [te_stat st_size]; lia]. cbn [te_file te_link] in H. lia.
Qed.
Lemma hdr_neg name link size : size <= 0 -> compute_hdr_size name link size = compute_hdr_size name link 0.
Proof.
  intros H. unfold compute_hdr_size. apply hdr_size_ext; cbn [te_file te_link te_stat]; auto; unfold need_size, is_reg, MAX_FILE_SIZE; cbn [te_stat st_kind st_size andb];
  repeat match goal with |- context [?x <? ?y] => destruct (Z.ltb_spec x y) end; auto; try lia; discriminate.
Qed.
Lemma compute_ok name link size : exists h, compute_hdr_size name link size = Ok h /\ 0 < h.
Proof. unfold compute_hdr_size. match goal with |- context [hdr_size ?x] => destruct (hdr_size_ok x) as (n & -> & H1 & H2) end. exists n. split; auto. lia. Qed.

Definition ent (top : bytes) (x : list bytes * node) : lent := fill_rel top (lof top x).
Definition hof (top : bytes) (x : list bytes * node) : Z :=
  match compute_hdr_size (dir_path top (join (fst x))) (match snd x with NLink t => t | _ => [] end) (match snd x with NFile s => s | _ => 0 end) with Ok h => h | Err _ => 0 end.
Lemma ent_fields top p n : ends_with_slash top = false -> archivable n ->
  l_rel (ent top (p, n)) = node_path top p /\ l_arc (ent top (p, n)) = join p /\ l_pname (ent top (p, n)) = None /\
  l_hdr (ent top (p, n)) = hof top (p, n) /\
  l_loc (ent top (p, n)) = -1 /\ l_orig (ent top (p, n)) = -1 /\ l_ploc (ent top (p, n)) = -1 /\ l_phdr (ent top (p, n)) = -1 /\ l_psize (ent top (p, n)) = -1 /\
  l_nfrag (ent top (p, n)) = -1 /\ l_fptr (ent top (p, n)) = -1 /\ l_bucket (ent top (p, n)) = -1 /\
  match n with
  | NFile s => l_type (ent top (p, n)) = LReg /\ l_tgt (ent top (p, n)) = [] /\ l_size (ent top (p, n)) = s
  | NLink t => l_type (ent top (p, n)) = LLnk /\ l_tgt (ent top (p, n)) = t /\ l_size (ent top (p, n)) = SIZE_LNK
  | _ => l_type (ent top (p, n)) = LDir /\ l_tgt (ent top (p, n)) = [] /\ l_size (ent top (p, n)) = SIZE_DIR
  end.
Proof.
  intros He Hn. unfold ent, fill_rel, node_path. rewrite He. destruct n; try destruct Hn; cbn [lof named_t stored name_request l_rel l_arc l_type l_tgt l_size l_hdr l_loc l_orig l_ploc l_pname l_phdr l_psize l_nfrag l_fptr l_bucket
    q_rel q_arc q_type q_tgt q_size q_hdr q_loc q_orig q_ploc q_pname q_phdr q_psize q_nfrag q_fptr q_bucket or_empty]; unfold hof; cbn [fst snd]; rewrite <- app_assoc; cbn [app]; repeat split;
    rewrite hdr_neg by (unfold SIZE_LNK, SIZE_DIR; lia); reflexivity.
Qed.

Section tree.
Variables (ev : env) (top : bytes) (t : node).
Hypothesis Htop : top <> [].
Hypothesis Hslash : ends_with_slash top = false.
Hypothesis Hnul : no_byte NUL top.
Hypothesis Htabs : no_byte TAB top.
Hypothesis Hw : wf_node t.
Hypothesis Hdir : is_dir_node t.
Hypothesis Htf : tab_free t.
Hypothesis Hst : forall p n, reached t p n -> still ev top p n.
Hypothesis Hman : manageable top t.

Lemma short_lens p n : reached t p n -> zlen (node_path top p) <= 40000 /\ match n with NLink l => zlen l <= 40000 | _ => True end.
Proof. clear Hst ev. intros H. destruct Hman as [A|A]; specialize (A p n H) as (A1 & A2); destruct n; cbn in A2; lia. Qed.
Lemma slashed p n : reached t p n -> is_dir_node n -> slash_safe (dir_path top (join p)).
Proof. clear Hst ev.
  intros H Hd. destruct Hman as [A|A]; specialize (A p n H) as (A1 & A2).
  - assert (L : zlen (dir_path top (join p)) < 100).
    { unfold node_path in A1. rewrite !zlen_app in A1. change (zlen [SLASH]) with 1 in A1. unfold dir_path. destruct (join p); rewrite ?zlen_app; change (zlen [SLASH]) with 1; [change (zlen []) with 0 in A1; lia|lia]. }
    unfold slash_safe. rewrite !pad_hdr; auto; rewrite ?zlen_app; change (zlen (@nil byte)) with 0; change (zlen [SLASH]) with 1; unfold MAX_FILE_SIZE; lia.
  - destruct n; try destruct Hd; auto.
Qed.
Lemma wf_at t' p n : wf_node t' -> at_path t' p n -> wf_node n.
Proof. intros W H. revert W. induction H as [n|ch name n p n' Hin Ha IH]; intros W; auto. inversion W as [| |? _ _ Hc| | |]; subst. apply IH. rewrite Forall_forall in Hc. exact (Hc _ Hin). Qed.
Lemma path_nul p n : reached t p n -> no_byte NUL (node_path top p) /\ no_byte TAB (node_path top p) /\ no_byte NUL (join p) /\ no_byte TAB (join p).
Proof. clear Hst ev.
  intros (A & B & C). pose proof (at_good _ _ _ Hw A) as G. pose proof (join_nonul _ G) as N. destruct (Htf p n A) as (T & _).
  unfold node_path. repeat split; auto; apply no_byte_app; (split; [auto|]); apply no_byte_app; (split; [|auto]); intros [X|[]]; discriminate X.
Qed.
Lemma path_slash p n : reached t p n -> dir_path top (join p) ++ [SLASH] = if ends_with_slash (node_path top p) then node_path top p else node_path top p ++ [SLASH].
Proof. clear Hst ev.
  intros (A & _). pose proof (at_good _ _ _ Hw A) as G. destruct p as [|x p].
  - unfold node_path. cbn [join dir_path]. rewrite app_nil_r. rewrite EndMore.ends_app by discriminate. reflexivity.
  - assert (J : join (x :: p) <> []) by (apply join_cons_ne; auto; discriminate).
    unfold node_path. rewrite EndMore.ends_app by (intros E; apply app_eq_nil in E as (E & _); discriminate). rewrite EndMore.ends_app by auto.
    rewrite join_no_end by (auto; discriminate). unfold dir_path. destruct (join (x :: p)); [congruence|reflexivity].
Qed.

Lemma node_listed p n m : reached t p n -> m = prune n \/ m = n -> as_listed ev (ent top (p, m)).
Proof.
  intros Hr Hm. assert (Harch : archivable m) by (destruct Hr as (_ & _ & Hr); destruct Hm as [->| ->]; [apply archivable_prune|]; auto).
  destruct (ent_fields top p m Hslash Harch) as (F1 & F2 & F3 & F4 & _ & _ & _ & _ & _ & _ & _ & _ & F5).
  destruct (Hst p n Hr) as (s & target & Hl & U & G & M & Z1 & Z2 & Ng & Nu & K & Kt).
  destruct (path_nul p n Hr) as (N1 & N2 & N3 & N4). destruct (short_lens p n Hr) as (L1 & L2). pose proof (slashed p n Hr) as Hsl. pose proof (path_slash p n Hr) as Hps.
  pose proof (wf_at _ _ _ Hw (proj1 Hr)) as Wn.
  assert (K' : match m with
    | NFile size => st_kind s = KReg /\ st_size s = size /\ exists d, e_data ev (node_path top p) = Some d /\ zlen d = size
    | NLink t => st_kind s = KLnk /\ st_size s = zlen t /\ target = t /\ no_byte NUL t /\ zlen t <= 40000
    | NDir _ | NLocked => st_kind s = KDir /\ slash_safe (dir_path top (join p))
    | NOther | NUnreadable => False
    end).
  { destruct Hm as [->| ->]; destruct n; cbn [prune archivable] in *; try contradiction; try tauto; (try (inversion Wn; subst; tauto)); (split; [tauto|apply Hsl; exact I]). }
  clear K Hsl Wn.
  assert (Htn : no_byte NUL target /\ zlen target < 2 ^ 30).
  { change (2 ^ 30) with 1073741824. destruct m; try contradiction.
    - rewrite Kt by (destruct K' as (-> & _); discriminate). split; [intros []|change (zlen []) with 0; lia].
    - destruct K' as (_ & _ & -> & K1 & K2). split; auto; lia.
    - rewrite Kt by (destruct K' as (-> & _); discriminate). split; [intros []|change (zlen []) with 0; lia].
    - rewrite Kt by (destruct K' as (-> & _); discriminate). split; [intros []|change (zlen []) with 0; lia]. }
  assert (Hkind : st_kind s <> KOther) by (destruct m; try contradiction; destruct K' as (-> & _); discriminate).
  destruct (new_tarentry (e_lstat ev) (node_path top p) 0) as [te|] eqn:Et; cycle 1.
  { exfalso. unfold new_tarentry in Et. rewrite Hl in Et. destruct (st_kind s) eqn:Ek; cbn [bind] in Et; try discriminate.
    destruct m; try contradiction; try (destruct K' as (K' & _); discriminate K').
    destruct K' as (_ & Ks & Kt' & _). subst target. rewrite Ks, Z.eqb_refl in Et. discriminate Et. }
  destruct (make_tar_header (e_names ev) te) as [h|] eqn:Eh; cycle 1.
  { exfalso. destruct (proj2 (C02_lemma (e_names ev) te)) as (h & Hh); [..|congruence];
      apply new_tarentry_inv in Et as (s' & t' & Hl' & Es & _); rewrite Hl in Hl'; assert (s' = s) as -> by congruence; rewrite Es; auto. }
  assert (Hfh : file_header ev (node_path top p) = Some h) by (unfold file_header; rewrite Et, Eh; reflexivity).
  exists s, target. rewrite F1. split; auto. split; auto. split; auto. split; auto. split; auto. split; auto. split; auto.
  split; [change (2 ^ 29) with 536870912; lia|]. split.
  - destruct m; try contradiction; destruct F5 as (-> & F6 & ->).
    + destruct K' as (K1 & K2 & K3). rewrite Kt by (rewrite K1; discriminate). auto.
    + destruct K' as (K1 & K2 & K3 & K4 & K5). subst target. change (2 ^ 30) with 1073741824. unfold SIZE_LNK. repeat split; auto; lia.
    + destruct K' as (K1 & K2). rewrite Kt by (rewrite K1; discriminate). unfold SIZE_DIR. repeat split; auto; lia.
    + destruct K' as (K1 & K2). rewrite Kt by (rewrite K1; discriminate). unfold SIZE_DIR. repeat split; auto; lia.
  - exists h. split; auto. rewrite F4. pose proof (header_exact _ _ _ _ _ _ _ _ Hl Et Eh) as X. unfold hof. cbn [fst snd].
    assert (Dn : ~ is_dir_node m -> dir_path top (join p) = node_path top p).
    { intros Hd. unfold dir_path, node_path. destruct (join p) eqn:Ej; auto. exfalso. destruct p as [|x p]; [|eapply join_cons_ne; [eapply at_good; [exact Hw|apply Hr]|discriminate|exact Ej]].
      destruct Hr as (Hr & _). apply Hd. inversion Hr; subst. destruct Hm as [->| ->]; [destruct n; try destruct Hdir; exact I|exact Hdir]. }
    destruct m; try contradiction.
    + destruct K' as (K1 & K2 & K3). rewrite K1, K2 in X. rewrite Dn by (intros []). rewrite X. reflexivity.
    + destruct K' as (K1 & K2 & K3 & K4 & K5). rewrite K1 in X. subst target. rewrite cstr_id in X by auto. rewrite Dn by (intros []). rewrite X. reflexivity.
    + destruct K' as (K1 & K2). rewrite K1 in X. rewrite K2, Hps, X. reflexivity.
    + destruct K' as (K1 & K2). rewrite K1 in X. rewrite K2, Hps, X. reflexivity.
Qed.

Lemma node_hdr p n m : reached t p n -> m = prune n \/ m = n -> 0 < l_hdr (ent top (p, m)) <= 100000.
Proof. clear Hst ev.
  intros Hr Hm. assert (Harch : archivable m) by (destruct Hr as (_ & _ & Hr); destruct Hm as [->| ->]; [apply archivable_prune|]; auto).
  destruct (ent_fields top p m Hslash Harch) as (F1 & F2 & F3 & F4 & _).
  destruct (short_lens p n Hr) as (L1 & L2). pose proof (wf_at _ _ _ Hw (proj1 Hr)) as Wn.
  rewrite F4. unfold hof. cbn [fst snd]. destruct (compute_ok (dir_path top (join p)) (match m with NLink t => t | _ => [] end) (match m with NFile s => s | _ => 0 end)) as (h & E & Hp). rewrite E. split; auto.
    eapply hdr_le; [exact E|..].
    - destruct Hm as [->| ->]; destruct n; cbn [prune]; try (change (2 ^ 63) with 9223372036854775808; lia); inversion Wn; lia.
    - unfold dir_path, node_path in *. rewrite !zlen_app in L1. change (zlen [SLASH]) with 1 in L1. destruct (join p) eqn:Ej; [change (zlen []) with 0 in L1; lia|]. rewrite <- Ej in *. rewrite !zlen_app. change (zlen [SLASH]) with 1. lia.
    - destruct Hm as [->| ->]; destruct n; cbn [prune]; auto; change (zlen []) with 0; lia.
Qed.
Lemma node_send p n m : reached t p n -> m = prune n \/ m = n -> sendable (ent top (p, m)).
Proof. clear Hst ev.
  intros Hr Hm. assert (Harch : archivable m) by (destruct Hr as (_ & _ & Hr); destruct Hm as [->| ->]; [apply archivable_prune|]; auto).
  destruct (ent_fields top p m Hslash Harch) as (F1 & F2 & F3 & F4 & E1 & E2 & E3 & E4 & E5 & E6 & E7 & E8 & F5).
  destruct (path_nul p n Hr) as (N1 & N2 & N3 & N4). destruct (short_lens p n Hr) as (L1 & L2). pose proof (wf_at _ _ _ Hw (proj1 Hr)) as Wn.
  destruct (Htf p n (proj1 Hr)) as (_ & Tn).
  pose proof (node_hdr p n m Hr Hm) as Hh.
  unfold sendable. rewrite F1, F2, F3, E1, E2, E3, E4, E5, E6, E7, E8.
  assert (A : is_text (l_tgt (ent top (p, m))) /\ l_type (ent top (p, m)) <> LInv /\ is_long (l_size (ent top (p, m)))).
  { unfold is_long. change (2 ^ 63) with 9223372036854775808. destruct Hm as [->| ->]; destruct n; cbn [prune archivable] in *; try contradiction; destruct F5 as (-> & -> & ->);
    unfold SIZE_LNK, SIZE_DIR; try (split; [split; intros []|split; [discriminate|lia]]);
    inversion Wn; subst; change (2 ^ 63) with 9223372036854775808 in *; try (split; [split; intros []|split; [discriminate|lia]]); split; try (split; auto); discriminate || lia. }
  destruct A as (A1 & A2 & A3). unfold is_long, is_int in *. change (2 ^ 63) with 9223372036854775808 in *. change (2 ^ 31) with 2147483648.
  repeat split; auto; try lia; try (apply A1). all: cbn; nb.
Qed.

Lemma node_shown p n m : reached t p n -> entry_shown ev (ent top (p, prune n)) m -> describes ev top p n m.
Proof.
  intros Hr (s & target & Hl & M1 & M2 & M3 & M4 & Mo & K).
  assert (Harch : archivable (prune n)) by (apply archivable_prune; apply Hr).
  destruct (ent_fields top p (prune n) Hslash Harch) as (F1 & F2 & _ & _ & _ & _ & _ & _ & _ & _ & _ & _ & F5).
  rewrite F1 in *. split; [|exists s, target; auto 10].
  destruct (Hst p n Hr) as (s' & target' & Hl' & _ & _ & _ & _ & _ & _ & _ & K' & Kt). assert (s' = s /\ target' = target) as (-> & ->) by (split; congruence).
  destruct n; cbn [prune] in *; try contradiction; destruct F5 as (F5 & F6 & F7); rewrite F5 in K; try rewrite F7 in K; auto.
  - destruct K' as (_ & _ & <-). auto.
  - destruct K as (K0 & K1). split; auto. rewrite K0. pose proof (at_good _ _ _ Hw (proj1 Hr)) as G. destruct p as [|x p].
    + replace (ends_with_slash (node_path top [])) with true; [symmetry; apply app_nil_r|]. unfold node_path. cbn [join]. rewrite app_nil_r, EndMore.ends_app by discriminate. reflexivity.
    + replace (ends_with_slash (node_path top (x :: p))) with false; auto. symmetry.
      unfold node_path. rewrite EndMore.ends_app by (intros E; apply app_eq_nil in E as (E & _); discriminate). rewrite EndMore.ends_app by (apply join_cons_ne; auto; discriminate).
      apply join_no_end; auto; discriminate.
  - destruct K as (K0 & K1). split; auto. rewrite K0. pose proof (at_good _ _ _ Hw (proj1 Hr)) as G. destruct p as [|x p].
    + replace (ends_with_slash (node_path top [])) with true; [symmetry; apply app_nil_r|]. unfold node_path. cbn [join]. rewrite app_nil_r, EndMore.ends_app by discriminate. reflexivity.
    + replace (ends_with_slash (node_path top (x :: p))) with false; auto. symmetry.
      unfold node_path. rewrite EndMore.ends_app by (intros E; apply app_eq_nil in E as (E & _); discriminate). rewrite EndMore.ends_app by (apply join_cons_ne; auto; discriminate).
      apply join_no_end; auto; discriminate.
Qed.

Lemma first_ok l N : l = map (ent top) N -> (forall x, In x N -> exists n, reached t (fst x) n /\ snd x = prune n) -> sorted l ->
  small_first 512 L_BUCKET l /\ Forall (fun e => fits 512 L_BUCKET e \/ room_left 512 L_BUCKET e) l.
Proof. clear Hst ev.
  intros -> HN Hs. destruct Hman as [A|A].
  - assert (F : Forall (fun e => l_hdr e = 512) (map (ent top) N)).
    { apply Forall_forall. intros e He. apply in_map_iff in He as ([p m] & <- & Hin). destruct (HN _ Hin) as (n & Hr & Em). cbn [fst snd] in *. subst m.
      destruct (ent_fields top p (prune n) Hslash) as (F1 & F2 & _ & F4 & _); [apply archivable_prune; apply Hr|]. rewrite F4. unfold hof. cbn [fst snd].
      destruct (A p n Hr) as (A1 & A2). rewrite pad_hdr; auto.
      - unfold node_path in A1. rewrite !zlen_app in A1. change (zlen [SLASH]) with 1 in A1. unfold dir_path. destruct (join p) eqn:Ej; [change (zlen []) with 0 in A1; lia|]. rewrite <- Ej in *. rewrite !zlen_app. change (zlen [SLASH]) with 1. lia.
      - destruct n; cbn [prune]; auto; change (zlen []) with 0; lia.
      - destruct n; cbn [prune]; auto; unfold MAX_FILE_SIZE; lia. }
    split; [eapply sorted_small_first; [lia|exact Hs|exact F]|]. eapply Forall_impl; [|exact F]. intros e He. cbv beta in He. right. apply room_lemma; [lia|unfold L_BUCKET; lia|reflexivity|lia].
  - assert (F : Forall (fits 512 L_BUCKET) (map (ent top) N)).
    { apply Forall_forall. intros e He. apply in_map_iff in He as ([p m] & <- & Hin). destruct (HN _ Hin) as (n & Hr & Em). cbn [fst snd] in *. subst m.
      destruct (ent_fields top p (prune n) Hslash) as (F1 & F2 & _ & F4 & _ & _ & _ & _ & _ & _ & _ & _ & F5); [apply archivable_prune; apply Hr|]. pose proof (node_hdr p n (prune n) Hr (or_introl eq_refl)) as Hh. destruct (A p n Hr) as (A1 & A2).
      unfold fits. destruct (blocked_bounds 512 (sum_size (ent top (p, prune n))) ltac:(lia)) as (B1 & B2).
      assert (sum_size (ent top (p, prune n)) <= 4100000); [|unfold L_BUCKET; lia]. unfold sum_size.
      assert (l_size (ent top (p, prune n)) <= 4000000). { destruct n; cbn [prune] in *; destruct F5 as (_ & _ & ->); unfold SIZE_LNK, SIZE_DIR; lia. }
      destruct (_ <=? _); lia. }
    split; [exists (map (ent top) N), []; rewrite app_nil_r; auto|]. eapply Forall_impl; [|exact F]. intros e He. left. exact He.
Qed.

Lemma volume_le P l : Forall (fun e => 0 < l_hdr e <= 100000) l -> volume P l <= total_size l + zlen l * (2 * P + 200512).
Proof.
  clear.
  induction 1 as [|e l He _ IH]; [cbn; lia|]. cbn [volume total_size]. replace (zlen (e :: l)) with (1 + zlen l) by (unfold zlen; cbn [length]; lia).
  destruct (blocked_bounds 512 (sum_size e) ltac:(lia)) as (B1 & B2). assert (sum_size e = Z.max 0 (l_size e) + l_hdr e) by (unfold sum_size; destruct (Z.leb_spec 0 (l_size e)); lia). nia.
Qed.

Lemma tree_proper l N : l = map (ent top) N -> (forall x, In x N -> exists n, reached t (fst x) n /\ snd x = prune n) -> sorted l ->
  zlen l <= 4000000 -> total_size l <= 8000000000000000 -> proper L_BUCKET L_PAD ev l.
Proof.
  intros El HN Hs Hlen Htot. destruct (first_ok l N El HN Hs) as (F1 & F2).
  assert (All : forall e, In e l -> as_listed ev e /\ sendable e /\ 0 < l_hdr e <= 100000).
  { intros e He. rewrite El in He. apply in_map_iff in He as ([p m] & <- & Hin). destruct (HN _ Hin) as (n & Hr & Em). cbn [fst snd] in *. subst m.
    split; [eapply node_listed; eauto|]. split; [eapply node_send; eauto|eapply node_hdr; eauto]. }
  constructor; auto.
  - unfold L_BUCKET; lia.
  - split; nb.
  - apply Forall_forall. intros e He. apply All; auto.
  - apply Forall_forall. intros e He. apply All; auto.
  - apply Forall_forall. intros e He. destruct (All e He) as (_ & _ & X). unfold L_BUCKET. lia.
  - assert (V : Forall (fun e => 0 < l_hdr e <= 100000) l) by (apply Forall_forall; intros e He; apply All; auto).
    pose proof (volume_le L_BUCKET l V). pose proof (zlen_nonneg l). unfold L_BUCKET in *. lia.
Qed.
(** the same, when only the sizes have changed *)
Lemma tree_present ev' l N : l = map (ent top) N -> (forall x, In x N -> exists n, reached t (fst x) n /\ snd x = prune n) -> sorted l ->
  zlen l <= 4000000 -> total_size l <= 8000000000000000 -> (forall e, In e l -> as_there ev' e) -> present L_BUCKET L_PAD ev' l.
Proof. clear Hst ev.
  intros El HN Hs Hlen Htot Hf. destruct (first_ok l N El HN Hs) as (F1 & F2).
  assert (All : forall e, In e l -> sendable e /\ 0 < l_hdr e <= 100000).
  { intros e He. rewrite El in He. apply in_map_iff in He as ([p m] & <- & Hin). destruct (HN _ Hin) as (n & Hr & Em). cbn [fst snd] in *. subst m.
    split; [eapply node_send; eauto|eapply node_hdr; eauto]. }
  constructor; auto.
  - unfold L_BUCKET; lia.
  - split; nb.
  - apply Forall_forall. intros e He. apply All; auto.
  - apply Forall_forall. intros e He. apply Hf; auto.
  - apply Forall_forall. intros e He. destruct (All e He) as (_ & X). unfold L_BUCKET. lia.
  - assert (V : Forall (fun e => 0 < l_hdr e <= 100000) l) by (apply Forall_forall; intros e He; apply All; auto).
    pose proof (volume_le L_BUCKET l V). pose proof (zlen_nonneg l). unfold L_BUCKET in *. lia.
Qed.
End tree.

Lemma inter_forall2 {A B} (Q : A -> B -> Prop) (f : A -> member -> Prop) (g : B -> member -> Prop) sp ls ms : (forall x y m, Q x y -> f x m -> g y m) ->
  interspersed f sp ls ms -> forall ls', Forall2 Q ls ls' -> interspersed g sp ls' ms.
Proof.
  intros H. induction 1 as [|m l ms Hs _ IH|e m l ms He _ IH]; intros ls' F.
  - inversion F; subst. constructor.
  - apply In_spacer; auto.
  - inversion F as [|? y ? l' Q1 Q2]; subst. apply In_entry; [eapply H; eauto|auto].
Qed.

(** the list of a run *)
Lemma run_list fuel fs clock ev top t R prior l ar : top <> [] -> ends_with_slash top = false -> wf_node t -> is_dir_node t -> shows fs top t ->
  create_run fuel fs clock ev top R prior l ar ->
  exists N nodes, l = map (ent top) N /\ Forall2 (fun x y => fst x = fst y /\ snd x = prune (snd y) /\ reached t (fst y) (snd y)) N nodes /\
    NoDup (map fst nodes) /\ (forall p n, In (p, n) nodes <-> reached t p n) /\ sorted l /\ legacy_run L_BLOCK L_BUCKET L_PAD clock ev l R prior ar.
Proof.
  intros H1 H2 Hw Hd Hs Hc. destruct Hc as [es es' l ar Hl Hf Hp Hso Hr].
  pose proof (open_lemma _ _ _ _ _ H1 H2 Hw Hd Hs Hl) as Ho.
  destruct t as [| |ch| | |]; try destruct Hd; [|exfalso; apply (Ho []); constructor].
  destruct (list_directory_ok fs top H1 H2 ch Hs Hw Ho) as (es0 & f0 & A & E0). destruct (A (max f0 fuel) ltac:(lia)) as (es1 & A1 & A2).
  pose proof (list_directory_fuel _ _ _ _ _ _ Hl A1) as E1. assert (es1 = es) by congruence. subst es1 es0.
  unfold fill_rels in Hf. destruct top as [|c top]; [congruence|]. set (tp := c :: top) in *. assert (es' = map (fill_rel tp) es) by congruence. subst es'.
  assert (P : Permutation (map (ent tp) (enum [] (prune (NDir ch)))) l).
  { rewrite <- Hp. apply Permutation_trans with (map (fill_rel tp) (map (lof tp) (enum [] (prune (NDir ch))))); [rewrite map_map; reflexivity|]. apply Permutation_map. symmetry. exact A2. }
  apply Permutation_sym in P. apply Permutation_map_inv in P as (N & -> & PN).
  assert (Hwp : wf_node (prune (NDir ch))) by (apply prune_wf; exact Hw).
  assert (HN : forall x, In x N -> exists y, fst x = fst y /\ snd x = prune (snd y) /\ reached (NDir ch) (fst y) (snd y)).
  { intros [p m] Hin. apply (Permutation_in _ (Permutation_sym PN)) in Hin. apply enum_prefix in Hin as (r & -> & Ha & Hm). apply prune_at in Ha as (n & Ha & -> & Hv).
    exists (r, n). cbn [fst snd app]. split; auto. split; auto. split; auto. split; [apply plain_all; auto|apply archivable_prune; auto]. }
  destruct (choose _ _ HN) as (nodes & F). exists N, nodes. split; auto. split; auto.
  assert (Ef : map fst nodes = map fst N). { clear - F. induction F as [|x y ? ? (E & _) _ IH]; cbn [map]; congruence. }
  assert (Hall : forall y, In y nodes -> reached (NDir ch) (fst y) (snd y)). { intros y Hy. destruct (forall2_in _ _ _ F y Hy) as (x & _ & _ & _ & X). exact X. }
  split; [|split; [|split; auto]].
  - rewrite Ef. eapply Permutation_NoDup; [apply Permutation_map; exact PN|]. apply enum_nodup. exact Hwp.
  - intros p n. split; [intros Hin; apply (Hall _ Hin)|]. intros (R1 & R2 & R3).
    assert (Hin : In ([] ++ p, prune n) (enum [] (prune (NDir ch)))). { apply enum_complete; [apply at_prune; auto; apply plain_all; auto|]. apply archivable_prune. exact R3. }
    cbn [app] in Hin. apply (Permutation_in _ PN) in Hin. apply in_map with (f := fst) in Hin. rewrite <- Ef in Hin. cbn [fst] in Hin. apply in_map_iff in Hin as ([p' n'] & Ep & Hin). cbn [fst] in Ep. subst p'.
    destruct (Hall _ Hin) as (S1 & _). cbn [fst snd] in S1. rewrite (at_path_det _ _ _ _ R1 Hw S1). exact Hin.
Qed.

Lemma strcmp_longer x y : y <> [] -> strcmp (x ++ y) x = 1.
Proof.
  intros H. induction x as [|c x IH]; [destruct y; [congruence|reflexivity]|]. cbn [app strcmp]. rewrite Z.ltb_irrefl. exact IH.
Qed.
Lemma join_longer p x : good_name x -> exists y, y <> [] /\ join (p ++ [x]) = join p ++ y.
Proof.
  intros (Hx & _). induction p as [|z p IH]; [exists x; auto|]. destruct IH as (y & Hy & E). destruct p as [|z' p].
  - exists (SLASH :: x). split; [discriminate|]. reflexivity.
  - exists y. split; auto. cbn [app] in *. change (join (z :: z' :: p ++ [x])) with (z ++ [SLASH] ++ join (z' :: p ++ [x])).
    change (join (z :: z' :: p)) with (z ++ [SLASH] ++ join (z' :: p)). rewrite E, <- !app_assoc. reflexivity.
Qed.
Lemma sorted_nth l : sorted l -> forall i j x y, (i < j)%nat -> nth_error l i = Some x -> nth_error l j = Some y -> compare_entries x y <= 0.
Proof.
  induction 1 as [|a l Hs IH Hf]; intros i j x y Hij Hi Hj; [destruct i; discriminate|].
  destruct j as [|j]; [lia|]. cbn [nth_error] in Hj. destruct i as [|i]; [|apply (IH i j); auto; lia].
  assert (a = x) by (cbn in Hi; congruence). subst a. rewrite Forall_forall in Hf. apply Hf. eapply nth_error_In; eauto.
Qed.
(** directories sort before links and files, and by name among themselves *)
Lemma sorted_parents top t N nodes : ends_with_slash top = false -> wf_node t ->
  Forall2 (fun x y => fst x = fst y /\ snd x = prune (snd y) /\ reached t (fst y) (snd y)) N nodes ->
  NoDup (map fst nodes) -> (forall p n, In (p, n) nodes <-> reached t p n) -> sorted (map (ent top) N) -> parents_first nodes.
Proof.
  intros Hsl Hw F Nd Hn Hso l p x n r En.
  assert (Hr : reached t (p ++ [x]) n) by (apply Hn; rewrite En; apply in_or_app; right; left; auto).
  destruct (SpiderMore.at_path_wf _ _ _ (proj1 Hr) Hw) as [Wn Gpx]. apply Forall_app in Gpx as [Gp Gx]. assert (Gx' : good_name x) by (inversion Gx; auto).
  destruct (at_path_parent _ _ _ (proj1 Hr) p x eq_refl) as (ch & Hch).
  assert (Hrp : reached t p (NDir ch)) by (split; auto; split; [destruct Hr as (_ & P & _); apply Forall_app in P; apply P|exact I]).
  apply Hn in Hrp. destruct (In_nth_error _ _ Hrp) as (j & Hj).
  assert (Hi : nth_error nodes (length l) = Some (p ++ [x], n)) by (rewrite En, nth_error_app2, Nat.sub_diag by lia; reflexivity).
  exists (NDir ch). split; [|exact I].
  destruct (Nat.lt_trichotomy j (length l)) as [Hlt|[Heq|Hgt]].
  - rewrite En, nth_error_app1 in Hj by auto. eapply nth_error_In; eauto.
  - exfalso. subst j. rewrite Hi in Hj. assert (E : p ++ [x] = p) by congruence. apply (f_equal (@length bytes)) in E. rewrite app_length in E. cbn in E. lia.
  - exfalso. pose proof (Forall2_nth _ _ _ F) as Fn.
    pose proof (Fn (length l)) as F1. rewrite Hi in F1. destruct (nth_error N (length l)) as [[q1 m1]|] eqn:E1; [|contradiction]. destruct F1 as (A1 & B1 & _). cbn [fst snd] in A1, B1. subst q1 m1.
    pose proof (Fn j) as F2. rewrite Hj in F2. destruct (nth_error N j) as [[q2 m2]|] eqn:E2; [|contradiction]. destruct F2 as (A2 & B2 & _). cbn [fst snd] in A2, B2. subst q2 m2.
    pose proof (sorted_nth _ Hso (length l) j _ _ Hgt (map_nth_error (ent top) _ _ E1) (map_nth_error (ent top) _ _ E2)) as C.
    destruct (ent_fields top (p ++ [x]) (prune n) Hsl) as (_ & Fa & _ & _ & _ & _ & _ & _ & _ & _ & _ & _ & Fs).
    { apply archivable_prune. apply Hr. }
    destruct (ent_fields top p (prune (NDir ch)) Hsl I) as (_ & Ga & _ & _ & _ & _ & _ & _ & _ & _ & _ & _ & Gs).
    cbn [prune] in Gs, Ga, C. destruct Gs as (_ & _ & Gs). destruct (join_longer p x Gx') as (y & Hy & Ej).
    unfold compare_entries in C. rewrite Fa, Ga, Gs, Ej, strcmp_longer in C by auto. unfold SIZE_DIR, SIZE_LNK in *.
    destruct n; cbn [prune] in *; try (destruct Hr as (_ & _ & []); fail); destruct Fs as (_ & _ & Fs); rewrite Fs in C; cbn in C; try lia.
    inversion Wn as [s0 Hs0| | | | |]; subst. destruct (Z.ltb_spec (-3) size); lia.
Qed.
Lemma create_ordered fuel fs clock ev top t R prior l ar a cat :
  top <> [] -> ends_with_slash top = false -> no_byte NUL top -> no_byte TAB top -> wf_node t -> is_dir_node t -> shows fs top t -> tab_free t ->
  (forall p n, reached t p n -> still ev top p n) -> manageable top t -> (1 <= R)%nat ->
  create_run fuel fs clock ev top R prior l ar -> zlen l <= 4000000 -> total_size l <= 8000000000000000 ->
  concretises a ar -> list_to_buffer l L_BUCKET true = Ok (Some cat) -> (1024 + zlen cat) mod L_BUCKET <> 0 ->
  exists mc ms nodes, tar_list a = Some (mc :: ms) /\ is_catalog cat mc /\ NoDup (map fst nodes) /\
    (forall p n, In (p, n) nodes <-> reached t p n) /\
    interspersed (fun pn m => describes ev top (fst pn) (snd pn) m) is_spacer nodes ms /\ parents_first nodes.
Proof.
  intros H1 H2 H3 H4 Hw Hd Hs Htf Hst Hman HR Hc Hlen Htot Ha Hcat Hg.
  destruct (run_list _ _ _ _ _ _ _ _ _ _ H1 H2 Hw Hd Hs Hc) as (N & nodes & El & F & Nd & Hn & Hso & Hr).
  assert (HN : forall x, In x N -> exists n, reached t (fst x) n /\ snd x = prune n).
  { intros x Hx. destruct (In_nth_error _ _ Hx) as (k & Hk). destruct (forall2_nth _ _ _ F k x Hk) as (y & _ & Y1 & Y2 & Y3). rewrite Y1. eauto. }
  pose proof (tree_proper ev top t H2 H3 H4 Hw Hd Htf Hst Hman l N El HN Hso Hlen Htot) as Hp.
  destruct (run_readable _ _ _ _ _ _ _ _ _ _ Hp HR Hr Ha Hcat Hg) as (mc & ms & M1 & M2 & M3).
  exists mc, ms, nodes. split; auto. split; auto. split; auto. split; auto. split; [|apply (sorted_parents top t N nodes); auto; rewrite <- El; auto].
  eapply (inter_forall2 (fun e y => exists x, e = ent top x /\ fst x = fst y /\ snd x = prune (snd y) /\ reached t (fst y) (snd y))); [|exact M3|].
  - intros e y m (x & -> & X1 & X2 & X3) Hm. destruct x as [p q], y as [p' n]. cbn [fst snd] in *. subst p' q. eapply node_shown; eauto.
  - rewrite El. clear - F. induction F as [|x y ? ? Q _ IH]; cbn [map]; constructor; auto. exists x. auto.
Qed.
Lemma create_lemma fuel fs clock ev top t R prior l ar a cat :
  top <> [] -> ends_with_slash top = false -> no_byte NUL top -> no_byte TAB top -> wf_node t -> is_dir_node t -> shows fs top t -> tab_free t ->
  (forall p n, reached t p n -> still ev top p n) -> manageable top t -> (1 <= R)%nat ->
  create_run fuel fs clock ev top R prior l ar -> zlen l <= 4000000 -> total_size l <= 8000000000000000 ->
  concretises a ar -> list_to_buffer l L_BUCKET true = Ok (Some cat) -> (1024 + zlen cat) mod L_BUCKET <> 0 ->
  exists mc ms nodes, tar_list a = Some (mc :: ms) /\ is_catalog cat mc /\ NoDup (map fst nodes) /\
    (forall p n, In (p, n) nodes <-> reached t p n) /\
    interspersed (fun pn m => describes ev top (fst pn) (snd pn) m) is_spacer nodes ms.
Proof.
  intros A1 A2 A3 A4 A5 A6 A7 A8 A9 A10 A11 A12 A13 A14 A15 A16 A17.
  destruct (create_ordered _ _ _ _ _ _ _ _ _ _ _ _ A1 A2 A3 A4 A5 A6 A7 A8 A9 A10 A11 A12 A13 A14 A15 A16 A17) as (mc & ms & nodes & B1 & B2 & B3 & B4 & B5 & _).
  exists mc, ms, nodes. auto.
Qed.
