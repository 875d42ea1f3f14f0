(** Lemmas behind the layout properties C09-C15, C47. *)
From Coq Require Import Permutation Sorted.
From Verif Require Import Bytes Outcome TarSpec TarModel TarProofs Layout LayoutSpec LayoutProofs.

(** ** header sizes of scanned entries *)
Lemma pow10_lin k : 0 <= k -> 1 + 9 * k <= 10 ^ k.
Proof.
  intros H. pattern k. apply natlike_ind; auto.
  - change (10 ^ 0) with 1. lia.
  - intros x Hx IH. rewrite Z.pow_succ_r by lia. lia.
Qed.

Lemma record_length_le k v n : record_length k v = Ok n -> 8 * n <= 9 * (zlen k + zlen v + 3) + 8.
Proof.
  intros H. destruct (record_length_ok k v) as (m & E & Hm & Hz). rewrite E in H. injection H as <-.
  rewrite pax_record_zlen in Hz by lia. pose proof (ndig_spec 10 m ltac:(lia) ltac:(lia)) as S.
  destruct S as (S1 & S2 & S3). specialize (S3 ltac:(lia)) || idtac.
  pose proof (pow10_lin (ndig 10 m - 1) ltac:(lia)). lia.
Qed.

Lemma opt_record_length_le c k v n : opt_record_length c k v = Ok n -> 0 <= n /\ 8 * n <= 9 * (zlen k + zlen v + 3) + 8.
Proof.
  unfold opt_record_length. pose proof (zlen_nonneg k). pose proof (zlen_nonneg v). destruct c.
  - intros H1. split; [|apply record_length_le; auto].
    destruct (record_length_ok k v) as (m & E & Hm & _). rewrite E in H1. injection H1 as <-. lia.
  - intros H1. injection H1 as <-. lia.
Qed.

Lemma cstr_zlen l : zlen (cstr l) <= zlen l.
Proof.
  induction l as [|c l IH]; cbn [cstr]; [lia|]. destruct (beq c NUL); rewrite ?zlen_cons; [|lia].
  pose proof (zlen_nonneg l). change (zlen (@nil byte)) with 0. lia.
Qed.

Lemma pax_hdr_sz_le p : 0 <= p -> pax_hdr_sz p <= p + 1023.
Proof.
  intros H. unfold pax_hdr_sz. destruct (Z.ltb_spec 0 p); [|lia].
  rewrite round_to_block_spec. pose proof (round512_bounds (BLOCKSIZE + p)). unfold BLOCKSIZE in *. lia.
Qed.

Lemma hdr_size_le e n : hdr_size e = Ok n -> 0 <= st_size (te_stat e) < 2 ^ 63 ->
  8 * n <= 9 * (zlen (te_file e) + zlen (te_link e)) + 15000.
Proof.
  unfold hdr_size, get_paxsize. intros H Hs.
  destruct (opt_record_length (need_path e) (b "path") (cstr (te_file e))) as [p|] eqn:E1; cbn [bind] in H; [|discriminate].
  destruct (opt_record_length (need_link e) (b "linkpath") (cstr (te_link e))) as [l|] eqn:E2; cbn [bind] in H; [|discriminate].
  destruct (opt_record_length (need_size e) (b "size") (print_dec (st_size (te_stat e)))) as [s|] eqn:E3; cbn [bind] in H; [|discriminate].
  apply opt_record_length_le in E1, E2, E3.
  assert (Hn0 : n = BLOCKSIZE + pax_hdr_sz (p + l + s)) by congruence. clear H.
  change (zlen (b "path")) with 4 in *. change (zlen (b "linkpath")) with 8 in *. change (zlen (b "size")) with 4 in *.
  pose proof (cstr_zlen (te_file e)). pose proof (cstr_zlen (te_link e)).
  change (2 ^ 63) with 9223372036854775808 in Hs.
  assert (Hd : 0 <= st_size (te_stat e) < 10 ^ 19) by (change (10 ^ 19) with 10000000000000000000; lia).
  pose proof (ndig_le 10 (st_size (te_stat e)) 19 ltac:(lia) Hd ltac:(lia)) as Hn. unfold ndig in Hn. fold print_dec in Hn.
  pose proof (pax_hdr_sz_le (p + l + s) ltac:(lia)).
  unfold BLOCKSIZE in Hn0. lia.
Qed.

(** entries recorded by the scan are well formed, and with paths and targets
    below 40000 bytes (PATH_MAX is 4096) their header fits any bucket the
    planner accepts *)
Lemma mk_entry_wf ty base rel target size e :
  mk_entry ty base rel target size = Ok e -> 0 <= size < 2 ^ 63 ->
  wf_item e /\
  (zlen base + 1 + zlen rel <= 40000 -> zlen target <= 40000 -> en_hdr e <= 100000) /\
  en_type e = ty /\ en_base e = base /\ en_rel e = rel /\ en_target e = target /\ en_size e = size.
Proof.
  unfold mk_entry, compute_hdr_size. intros H Hs.
  destruct (hdr_size _) as [h|] eqn:E; cbn [bind] in H; [|discriminate]. injection H as <-.
  cbn [en_hdr en_size en_type en_base en_rel en_target]. split; [|split; [|auto]].
  - destruct (hdr_size_ok {| te_offset := 0;
              te_stat := {| st_kind := KReg; st_perm := 0; st_uid := 0; st_gid := 0; st_size := size; st_mtime := 0 |};
              te_file := cstr (absolute_path base rel); te_link := cstr target |}) as (n & E' & H1 & H2).
    rewrite E in E'. injection E' as <-. repeat split; cbn [en_hdr en_size]; lia.
  - intros H1 H2. apply hdr_size_le in E; [|cbn; lia]. cbn [te_file te_link] in E.
    pose proof (cstr_zlen (absolute_path base rel)) as H3. pose proof (cstr_zlen target).
    unfold absolute_path in H3 at 2. rewrite !zlen_app in H3. change (zlen [SLASH]) with 1 in H3. lia.
Qed.

Lemma mk_entry_ok ty base rel target size : exists e, mk_entry ty base rel target size = Ok e.
Proof.
  unfold mk_entry, compute_hdr_size. match goal with |- context [hdr_size ?x] => destruct (hdr_size_ok x) as (n & -> & _) end.
  cbn [bind]. eauto.
Qed.

(** ** C09 *)
Lemma C09_lemma dirs files d f :
  Forall wf_item (dirs ++ files) -> set_offsets dirs files = (d, f) ->
  map fst d = dirs /\ map fst f = files /\
  (forall e off, nth_error (d ++ f) 0 = Some (e, off) -> off = 0) /\
  (forall e off, In (e, off) (d ++ f) -> off mod 512 = 0) /\
  (forall i e off e' off', nth_error (d ++ f) i = Some (e, off) -> nth_error (d ++ f) (S i) = Some (e', off') ->
     off + en_hdr e + en_size e <= off' < off + en_hdr e + en_size e + 512) /\
  (forall i j e off e' off', (i < j)%nat -> nth_error (d ++ f) i = Some (e, off) -> nth_error (d ++ f) j = Some (e', off') ->
     off + en_hdr e + en_size e <= off').
Proof.
  intros Hwf Hso. destruct (set_offsets_laid _ _ _ _ Hso) as (z & Hl & Md & Mf).
  assert (W : Forall (fun eo => wf_item (fst eo)) (d ++ f)).
  { apply (Forall_fst wf_item (d ++ f) (dirs ++ files)); auto. rewrite map_app. congruence. }
  destruct (laid_facts 0 _ z Hl eq_refl W) as (F1 & F2 & F3 & F4 & F5 & F6 & F7).
  split; auto. split; auto. split; [exact F6|]. split; [intros e off H; apply (F3 e off H)|]. split.
  - intros i e off e' off' H1 H2. rewrite (F4 i e off e' off' H1 H2). pose proof (up512_bounds (off + ext e)).
    unfold ext in *. lia.
  - intros i j e off e' off' Hij H1 H2. pose proof (F5 i j e off e' off' Hij H1 H2). pose proof (up512_bounds (off + ext e)).
    unfold ext in *. lia.
Qed.

(** ** C10: std::sort by its contract *)
Definition strict_weak_order {A} (c : A -> A -> bool) : Prop :=
  (forall x, c x x = false) /\
  (forall x y z, c x y = true -> c y z = true -> c x z = true) /\
  (forall x y z, c x y = false -> c y x = false -> c y z = false -> c z y = false -> c x z = false /\ c z x = false).
(** what the standard promises of std::sort(first,last,comp): if comp is a
    strict weak order the range ends up permuted and with no inversion; nothing
    is promised otherwise.  Any such result is allowed (the sort is unstable). *)
Definition std_sort {A} (c : A -> A -> bool) (l l' : list A) : Prop :=
  strict_weak_order c ->
  Permutation l l' /\
  (forall i j x y, (i < j)%nat -> nth_error l' i = Some x -> nth_error l' j = Some y -> c y x = false).

(** sort_by_size and order_files, parfu_file_system_classes.cc 594-602 *)
Definition sort_by_size (x y : entry) : bool := order_size x <? order_size y.
Definition order_files (files files' : list entry) : Prop := std_sort sort_by_size files files'.

Lemma sort_by_size_swo : strict_weak_order sort_by_size.
Proof.
  unfold strict_weak_order, sort_by_size. repeat split; intros;
    repeat match goal with H : (_ <? _) = true |- _ => apply Z.ltb_lt in H | H : (_ <? _) = false |- _ => apply Z.ltb_ge in H end;
    (apply Z.ltb_lt; lia) || (apply Z.ltb_ge; lia).
Qed.

Lemma C10_lemma files files' :
  Forall (fun e => 0 <= en_size e) files -> order_files files files' ->
  Permutation files files' /\
  (forall i j x y, nth_error files' i = Some x -> nth_error files' j = Some y ->
     en_target x <> [] -> en_target y = [] -> (i < j)%nat) /\
  (forall i j x y, (i < j)%nat -> nth_error files' i = Some x -> nth_error files' j = Some y ->
     en_target x = [] -> en_target y = [] -> en_size x <= en_size y).
Proof.
  intros Hs Ho. destruct (Ho sort_by_size_swo) as [P S]. split; auto.
  assert (Hs' : Forall (fun e => 0 <= en_size e) files').
  { rewrite Forall_forall in *. intros x Hx. apply Hs. apply Permutation_in with files'; auto. apply Permutation_sym; auto. }
  rewrite Forall_forall in Hs'. split.
  - intros i j x y H1 H2 Hx Hy. destruct (Nat.lt_trichotomy i j) as [|[->|Hlt]]; auto.
    + rewrite H1 in H2. injection H2 as ->. contradiction.
    + specialize (S j i y x Hlt H2 H1). unfold sort_by_size in S. apply Z.ltb_ge in S. exfalso.
      pose proof (Hs' y (nth_error_In _ _ H2)). unfold order_size in S. rewrite Hy in S.
      destruct (en_target x); [congruence|]. unfold SIZE_SYMLINK in S. lia.
  - intros i j x y Hij H1 H2 Hx Hy. specialize (S i j x y Hij H1 H2). unfold sort_by_size in S. apply Z.ltb_ge in S.
    unfold order_size in S. rewrite Hx, Hy in S. exact S.
Qed.

(** an executable instance of the contract *)
Fixpoint ins (e : entry) (l : list entry) : list entry :=
  match l with [] => [e] | x :: l' => if sort_by_size x e then x :: ins e l' else e :: l end.
Fixpoint isort (l : list entry) : list entry := match l with [] => [] | e :: l' => ins e (isort l') end.
Lemma ins_perm e l : Permutation (e :: l) (ins e l).
Proof.
  induction l as [|x l IH]; cbn [ins]; auto. destruct (sort_by_size x e); auto.
  rewrite perm_swap. apply perm_skip. auto.
Qed.
Lemma isort_perm l : Permutation l (isort l).
Proof. induction l; cbn [isort]; auto. rewrite <- ins_perm. apply perm_skip. auto. Qed.
Lemma ins_sorted e l : StronglySorted (fun x y => order_size x <= order_size y) l ->
  StronglySorted (fun x y => order_size x <= order_size y) (ins e l).
Proof.
  induction l as [|x l IH]; intros H; cbn [ins]; [repeat constructor|].
  apply StronglySorted_inv in H as [H1 H2]. unfold sort_by_size. destruct (Z.ltb_spec (order_size x) (order_size e)).
  - constructor; auto. apply Forall_forall. intros y Hy. apply Permutation_in with (l' := e :: l) in Hy; [|apply Permutation_sym, ins_perm].
    destruct Hy as [<-|Hy]; [lia|]. rewrite Forall_forall in H2. auto.
  - constructor; [constructor; auto|]. constructor; auto. eapply Forall_impl; [|exact H2]. intros; cbn in *; lia.
Qed.
Lemma isort_sorted l : StronglySorted (fun x y => order_size x <= order_size y) (isort l).
Proof. induction l; cbn [isort]; [constructor|]. apply ins_sorted; auto. Qed.
Lemma ss_nth {A} (R : A -> A -> Prop) l : StronglySorted R l ->
  forall i j x y, (i < j)%nat -> nth_error l i = Some x -> nth_error l j = Some y -> R x y.
Proof.
  induction 1 as [|a l H IH Ha]; intros i j x y Hij H1 H2; [destruct i; discriminate|].
  destruct j as [|j]; [lia|]. destruct i as [|i]; cbn [nth_error] in *.
  - injection H1 as <-. rewrite Forall_forall in Ha. apply Ha. eapply nth_error_In; eauto.
  - eapply IH; [|eauto|eauto]. lia.
Qed.
Lemma isort_order_files l : order_files l (isort l).
Proof.
  intros _. split; [apply isort_perm|]. intros i j x y Hij H1 H2. unfold sort_by_size. apply Z.ltb_ge.
  exact (ss_nth _ _ (isort_sorted l) i j x y Hij H1 H2).
Qed.

(** ** C11-C15 *)
Lemma split_sorted bucket l : StronglySorted (fun x y => ext x <= ext y) l ->
  exists s g, l = s ++ g /\ Forall (fun e => ext e <= bucket) s /\ Forall (fun e => bucket < ext e) g.
Proof.
  induction 1 as [|e l H IH He]; [exists [], []; auto|]. destruct IH as (s & g & -> & Hs & Hg).
  destruct (Z.le_gt_cases (ext e) bucket).
  - exists (e :: s), g. auto.
  - exists [], (e :: s ++ g). split; auto. split; auto. constructor; [lia|].
    eapply Forall_impl; [|exact He]. cbn. intros; lia.
Qed.

(** what the planner's theorems assume of a collection: entries as the scan
    records them, whose header fits in the bucket *)
Definition plannable (bucket : Z) (dirs files : list entry) : Prop :=
  100000 <= bucket /\ bucket mod 512 = 0 /\ dirs ++ files <> [] /\
  Forall (fun e => wf_item e /\ en_hdr e <= bucket) (dirs ++ files) /\
  Forall (fun e => en_size e = 0) dirs.

Lemma plannable_ok idx bucket maxo dirs files d f :
  plannable bucket dirs files -> set_offsets dirs files = (d, f) ->
  exists bs w, create_transfer_orders idx bucket maxo d f = Ok (Some bs) /\
    laid 0 (d ++ f) w /\ chain 0 (concat bs) w /\ Forall (fun B => B <> []) bs /\
    (forall p, orders_at (concat bs) p = layout_at (d ++ f) p) /\
    (0 < maxo -> Forall (fun B => zlen B <= maxo) bs) /\
    Forall (fun B => blen B <= 2 * bucket) bs /\
    Forall (fun o => exists e off, In (e, off) (d ++ f) /\ slice_of idx e o) (concat bs).
Proof.
  intros (H1 & H2 & H3 & H4 & H5) Hso. apply Forall_app in H4 as [H4a H4b].
  apply create_ok with (dirs := dirs) (files := files); auto.
  rewrite Forall_forall in *. intros x Hx. split; auto. apply H4a; auto.
Qed.

Lemma C13_lemma idx bucket maxo dirs files d f bs :
  plannable bucket dirs files -> set_offsets dirs files = (d, f) ->
  StronglySorted (fun x y => en_hdr x + en_size x <= en_hdr y + en_size y) files ->
  create_transfer_orders idx bucket maxo d f = Ok (Some bs) ->
  Forall (fun B => bundle_end B - bundle_start B <= bucket) bs.
Proof.
  intros (H1 & H2 & H3 & H4 & H5) Hso Hs Hc. destruct (split_sorted bucket files Hs) as (s & g & -> & Hsm & Hg).
  apply Forall_app in H4 as [H4a H4b].
  eapply (create_fit idx bucket maxo dirs s g d f bs); eauto.
  rewrite Forall_forall in *. intros x Hx. split; auto. apply H4a; auto.
Qed.

Lemma entry_at_out e off p : 0 <= en_hdr e -> 0 <= en_size e -> p < off \/ off + ext e <= p -> entry_at (e, off) p = [].
Proof.
  intros H1 H2 Hp. unfold entry_at, piece_at, ext in *. cbn [fst snd].
  repeat match goal with |- context [Z.leb ?a ?b] => destruct (Z.leb_spec a b) | |- context [Z.ltb ?a ?b] => destruct (Z.ltb_spec a b) end; cbn [andb]; auto; lia.
Qed.

Lemma layout_below l : forall w z p, laid w l z -> w mod 512 = 0 -> Forall (fun eo => wf_item (fst eo)) l -> p < w -> layout_at l p = [].
Proof.
  induction l as [|[e off] l IH]; intros w z p H Hw Hf Hp; [reflexivity|]. cbn [laid] in H. destruct H as [-> H].
  inversion Hf as [|? ? (A1 & A2 & A3) Hf']; subst. cbn [fst] in *.
  change (layout_at ((e, w) :: l) p) with (entry_at (e, w) p ++ layout_at l p).
  rewrite entry_at_out by lia. cbn [app]. pose proof (up512_bounds (w + ext e)). unfold ext in *.
  eapply IH; eauto; [apply up512_bounds|lia].
Qed.

Lemma layout_at_in l : forall w z e off p, laid w l z -> w mod 512 = 0 -> Forall (fun eo => wf_item (fst eo)) l ->
  In (e, off) l -> off <= p < off + ext e -> layout_at l p = entry_at (e, off) p.
Proof.
  induction l as [|[e0 off0] l IH]; intros w z e off p H Hw Hf Hin Hp; [destruct Hin|]. cbn [laid] in H. destruct H as [-> H].
  inversion Hf as [|? ? (A1 & A2 & A3) Hf']; subst. cbn [fst] in *.
  change (layout_at ((e0, w) :: l) p) with (entry_at (e0, w) p ++ layout_at l p).
  pose proof (up512_bounds (w + ext e0)) as U. destruct Hin as [E|Hin].
  - injection E as -> ->. erewrite layout_below; eauto; [apply app_nil_r|lia|lia].
  - assert (G : up512 (w + ext e0) <= off).
    { apply (laid_facts _ _ _ H (proj2 (proj2 U)) Hf') in Hin || idtac.
      pose proof (laid_facts _ _ _ H ltac:(apply up512_bounds) Hf') as (_ & _ & F & _). apply (F e off Hin). }
    rewrite entry_at_out; [|lia|lia|lia]. cbn [app]. eapply IH; eauto. apply up512_bounds.
Qed.

Lemma C11_lemma idx bucket maxo dirs files d f :
  plannable bucket dirs files -> set_offsets dirs files = (d, f) ->
  exists bs, create_transfer_orders idx bucket maxo d f = Ok (Some bs) /\
    (forall e off k, In (e, off) (d ++ f) ->
      (0 <= k < en_hdr e -> orders_at (concat bs) (off + k) = [CHdr (entry_id e) k]) /\
      (0 <= k < en_size e -> orders_at (concat bs) (off + en_hdr e + k) = [CData (entry_id e) k])) /\
    (forall p, (forall e off, In (e, off) (d ++ f) -> ~ (off <= p < off + en_hdr e + en_size e)) ->
      orders_at (concat bs) p = []).
Proof.
  intros Hp Hso. destruct (plannable_ok idx bucket maxo _ _ _ _ Hp Hso) as (bs & w & E & L & C & N & O & _).
  exists bs. split; auto.
  destruct (set_offsets_laid _ _ _ _ Hso) as (z & _ & Md & Mf). destruct Hp as (_ & _ & _ & W & _).
  assert (Wf : Forall (fun eo => wf_item (fst eo)) (d ++ f)).
  { apply (Forall_fst wf_item (d ++ f) (dirs ++ files)); [rewrite map_app; congruence|].
    eapply Forall_impl; [|exact W]. intros ? []; auto. }
  split.
  - intros e off k Hin. pose proof Wf as W'. rewrite Forall_forall in W'. destruct (W' _ Hin) as (W1 & W2 & W3). cbn [fst] in *.
    split; intros Hk; rewrite O, (layout_at_in (d ++ f) 0 w e off) by (auto; unfold ext; lia); unfold entry_at, piece_at; cbn [fst snd];
    repeat match goal with |- context [Z.leb ?a ?b] => destruct (Z.leb_spec a b) | |- context [Z.ltb ?a ?b] => destruct (Z.ltb_spec a b) end; cbn [andb]; try lia;
    do 2 f_equal; lia.
  - intros p Hout. rewrite O. unfold layout_at. induction (d ++ f) as [|[e off] l IH] in Wf, Hout |- *; auto. cbn [flat_map].
    inversion Wf as [|? ? (A1 & A2 & A3) Wf']; subst. cbn [fst] in *.
    rewrite entry_at_out; [|lia|lia|].
    + cbn [app]. apply IH; auto. intros. apply Hout. right. auto.
    + pose proof (Hout e off (or_introl eq_refl)). unfold ext. lia.
Qed.

Lemma C12_lemma idx bucket maxo dirs files d f :
  plannable bucket dirs files -> set_offsets dirs files = (d, f) ->
  exists bs z, create_transfer_orders idx bucket maxo d f = Ok (Some bs) /\ tiles 0 bs z /\
    (forall e off l', d ++ f = l' ++ [(e, off)] -> z = up512 (off + en_hdr e + en_size e)).
Proof.
  intros Hp Hso. destruct (plannable_ok idx bucket maxo _ _ _ _ Hp Hso) as (bs & w & E & L & C & N & _).
  exists bs, w. split; auto. split; [apply chain_tiles; auto|].
  destruct (set_offsets_laid _ _ _ _ Hso) as (z & _ & Md & Mf). destruct Hp as (_ & _ & _ & W & _).
  assert (Wf : Forall (fun eo => wf_item (fst eo)) (d ++ f)).
  { apply (Forall_fst wf_item (d ++ f) (dirs ++ files)); [rewrite map_app; congruence|].
    eapply Forall_impl; [|exact W]. intros ? []; auto. }
  destruct (laid_facts 0 _ w L eq_refl Wf) as (_ & _ & _ & _ & _ & _ & F7).
  intros e off l' H. rewrite (F7 e off l' H). unfold ext. f_equal. lia.
Qed.

(** [tiles] means: disjoint, in order, and every byte below the end covered *)
Lemma tiles_le bs : forall a z, tiles a bs z -> a <= z.
Proof.
  induction bs as [|B bs IH]; intros a z H; cbn [tiles] in H; [lia|]. destruct H as (_ & E & L & H). apply IH in H.
  pose proof (up512_bounds (bundle_end B - bundle_start B)). lia.
Qed.
Lemma tiles_cover bs : forall a z p, tiles a bs z -> a <= p < z ->
  exists B, In B bs /\ bundle_start B <= p < bundle_start B + up512 (bundle_end B - bundle_start B).
Proof.
  induction bs as [|B bs IH]; intros a z p H Hp; cbn [tiles] in H; [lia|]. destruct H as (_ & E & L & H).
  destruct (Z.lt_ge_cases p (a + up512 (bundle_end B - bundle_start B))).
  - exists B. split; [left; auto|lia].
  - destruct (IH _ _ p H ltac:(lia)) as (B' & I & G). exists B'. split; [right; auto|auto].
Qed.
Lemma tiles_disjoint bs : forall a z i j B B', tiles a bs z -> (i < j)%nat -> nth_error bs i = Some B -> nth_error bs j = Some B' ->
  bundle_start B + up512 (bundle_end B - bundle_start B) <= bundle_start B'.
Proof.
  assert (G : forall bs a z j B', tiles a bs z -> nth_error bs j = Some B' -> a <= bundle_start B').
  { clear. induction bs as [|B bs IH]; intros a z j B' H Hj; [destruct j; discriminate|]. cbn [tiles] in H. destruct H as (_ & E & L & H).
    destruct j; cbn [nth_error] in Hj; [injection Hj as <-; lia|]. apply IH with (j := j) (B' := B') in H; auto.
    pose proof (up512_bounds (bundle_end B - bundle_start B)). lia. }
  induction bs as [|B0 bs IH]; intros a z i j B B' H Hij Hi Hj; [destruct i; discriminate|]. cbn [tiles] in H. destruct H as (_ & E & L & H).
  destruct j as [|j]; [lia|]. destruct i as [|i]; cbn [nth_error] in *.
  - injection Hi as <-. rewrite E at 1. eapply G; eauto.
  - eapply (IH _ _ i j); eauto. lia.
Qed.

Lemma C47_lemma dirs files d f : set_offsets dirs files = (d, f) ->
  (forall e off l', d ++ f = l' ++ [(e, off)] -> Forall wf_item (dirs ++ files) ->
  up512 (fold_left (fun p e => next_available_after_me e p) (dirs ++ files) 0) = up512 (off + en_hdr e + en_size e)) /\
  (forall i e off, nth_error (d ++ f) i = Some (e, off) ->
     next_block_boundary (fold_left (fun p e => next_available_after_me e p) (firstn i (dirs ++ files)) 0) = off).
Proof.
  intros Hso. destruct (set_offsets_laid _ _ _ _ Hso) as (z & L & Md & Mf).
  assert (M : map fst (d ++ f) = dirs ++ files) by (rewrite map_app; congruence).
  rewrite <- M. split.
  - intros e off l' H W.
    assert (Wf : Forall (fun eo => wf_item (fst eo)) (d ++ f)) by (apply (Forall_fst wf_item (d ++ f) _ eq_refl); auto).
    destruct (laid_facts 0 _ z L eq_refl Wf) as (_ & _ & _ & _ & _ & _ & F7).
    replace (off + en_hdr e + en_size e) with (off + ext e) by (unfold ext; lia).
    rewrite <- (F7 e off l' H), <- (next_available_end (d ++ f) 0 z 0 L eq_refl). f_equal.
    generalize 0. clear. induction (d ++ f) as [|x l IH]; intros p; cbn; auto.
  - assert (G : forall l w i e off x, laid w l z -> up512 x = w -> nth_error l i = Some (e, off) ->
       next_block_boundary (fold_left (fun p e => next_available_after_me e p) (firstn i (map fst l)) x) = off).
    { clear. induction l as [|[e0 off0] l IH]; intros w i e off x H Hx Hi; [destruct i; discriminate|]. cbn [laid] in H. destruct H as [-> H].
      destruct i as [|i]; cbn [nth_error firstn map fold_left] in *.
      - injection Hi as -> ->. rewrite nbb_spec. auto.
      - eapply IH; [exact H| |exact Hi]. cbn [fst]. rewrite next_available_spec, Hx. reflexivity. }
    intros i e off Hi. eapply G; eauto.
Qed.

Lemma C15_lemma idx bucket maxo dirs files d f :
  set_offsets dirs files = (d, f) ->
  (bucket < 100000 -> create_transfer_orders idx bucket maxo d f = Ok None) /\
  (dirs ++ files = [] -> create_transfer_orders idx bucket maxo d f = Ok None) /\
  (plannable bucket dirs files ->
   exists bs, create_transfer_orders idx bucket maxo d f = Ok (Some bs) /\ bs <> [] /\ Forall (fun B => B <> []) bs).
Proof.
  intros Hso. split; [|split].
  - intros H. unfold create_transfer_orders. destruct (Z.ltb_spec bucket 100000); [reflexivity|lia].
  - intros H. apply app_eq_nil in H as [-> ->]. unfold set_offsets in Hso. cbn in Hso. injection Hso as <- <-.
    unfold create_transfer_orders. destruct (bucket <? 100000); reflexivity.
  - intros Hp. destruct (plannable_ok idx bucket maxo _ _ _ _ Hp Hso) as (bs & w & E & L & C & N & O & _).
    exists bs. split; auto. split; auto. intros ->. cbn in C. subst w.
    destruct (set_offsets_laid _ _ _ _ Hso) as (z & _ & Md & Mf). destruct Hp as (_ & _ & Hne & W & _).
    assert (Wf : Forall (fun eo => wf_item (fst eo)) (d ++ f)).
    { apply (Forall_fst wf_item (d ++ f) (dirs ++ files)); [rewrite map_app; congruence|].
      eapply Forall_impl; [|exact W]. intros ? []; auto. }
    destruct (d ++ f) as [|[e off] l] eqn:Edf.
    + apply Hne. rewrite <- Md, <- Mf, <- map_app, Edf. reflexivity.
    + destruct (laid_facts 0 _ 0 L eq_refl Wf) as (_ & _ & F3 & _). destruct (F3 e off (or_introl eq_refl)) as (_ & G1 & G2).
      inversion Wf as [|? ? (A1 & A2 & A3) ?]; subst. cbn [fst] in *. unfold ext in G2. lia.
Qed.
