(** Lemmas behind C101: the size of an archive of 0.6. *)
From Coq Require Import Permutation Lia.
From Verif Require Import Bytes Outcome TarSpec TarModel TarProofs TarMore Layout LayoutSpec LayoutProofs LayoutMore OrderCodec OrderCodecProofs OrderMore
  Mover MoverSpec MoverProofs MoverMore Worker WorkerProofs Assemble AssembleProofs Boss BossProofs BossMore
  Spider SpiderSpec SpiderProofs SpiderMore Program ProgramProofs EndSpec EndProofs EndMore SizeSpec.

(** what one node costs; auxiliary, no code of its own: compute_hdr_size is tarentry.cc 324-333 *)
Definition cost_of (base : bytes) (pn : list bytes * node) : Z :=
  match compute_hdr_size (cstr (node_path base (fst pn))) (cstr (target_of (snd pn))) (contents (snd pn)) with Ok h => h + round512 (contents (snd pn)) | _ => 0 end.
(** sum of a list; models nothing in /repo (auxiliary) *)
Definition total (l : list Z) : Z := fold_right Z.add 0 l.
Lemma total_perm l l' : Permutation l l' -> total l = total l'.
Proof. unfold total. induction 1; cbn [fold_right] in *; lia. Qed.

Lemma contents_range t p n : wf_node t -> at_path t p n -> 0 <= contents n < 2 ^ 63.
Proof.
  intros Hw Ha. destruct (at_path_wf _ _ _ Ha Hw) as [Wm _]. destruct n; cbn [contents]; try (split; [lia|reflexivity]). inversion Wm; subst; lia.
Qed.
Lemma laid_total l : forall w z, laid w l z -> w mod 512 = 0 -> Forall (fun eo => wf_item (fst eo)) l ->
  z = w + total (map (fun e => en_hdr e + up512 (en_size e)) (map fst l)).
Proof.
  induction l as [|[e off] l IH]; intros w z H Hw Hf; cbn [laid] in H.
  - subst. cbn. lia.
  - destruct H as [-> H]. inversion Hf as [|? ? W Hf']; subst. cbn [fst] in W. destruct W as (W1 & W2 & W3).
    assert (E : up512 (w + ext e) = w + (en_hdr e + up512 (en_size e))).
    { unfold ext. rewrite up512_add by auto. rewrite (up512_add (en_hdr e)); [reflexivity|]. tauto. }
    rewrite (IH _ _ H); [cbn [map fst total fold_right]; rewrite E; unfold total; lia|apply up512_bounds|auto].
Qed.

Lemma size_cost fuel fs sort base t ev bucket maxo bs path R n s :
  plan fuel fs sort base bucket maxo = Ok (Some bs) ->
  (forall l, order_files l (sort l)) -> base <> [] -> no_byte NUL base -> is_dir_node t -> wf_node t -> shows fs base t ->
  short_paths base t -> tab_free t -> 100000 <= bucket -> bucket mod 512 = 0 ->
  (forall p n, at_path t p n -> archivable n -> still ev base p n) ->
  (forall p n, at_path t p n -> is_dir_node n -> p <> [] -> slash_safe (node_path base p)) ->
  (1 <= R)%nat ->
  run (length bs) R (fun o => succeeds (jobs ev bucket path base bs o)) n s -> boss s = BEnd ->
  exists nodes, NoDup (map fst nodes) /\ (forall p n, In (p, n) nodes <-> at_path t p n /\ archivable n) /\
    ar_size (assemble (jobs ev bucket path base bs) (map snd (log s))) = total (map (cost_of base) nodes).
Proof.
  intros H Hs H2 Hbn H3 H4 H5 Hsh Htab Hb Hm Hst Hsl HR Hrun Hend.
  destruct (tree_ready _ _ _ _ _ _ _ _ _ H Hs H2 Hbn H3 H4 H5 Hsh Htab Hb Hm Hst Hsl) as (dirs & files & d & f & Hsc & Hso & Hc & Hp & Hpl & Hu & Nd & Cm & All).
  destruct (finished ev base path 0 bucket maxo dirs (sort files) d f bs R n s Hp Hso Hc Hpl ltac:(unfold INT_MIN, INT_MAX; lia) Hu HR Hrun Hend) as (z & L & Sz & _).
  destruct (set_offsets_laid _ _ _ _ Hso) as (z0 & _ & Md & Mf).
  assert (Mdf : map fst (d ++ f) = dirs ++ sort files) by (rewrite map_app; congruence).
  assert (Wf : Forall (fun eo => wf_item (fst eo)) (d ++ f)).
  { apply (Forall_fst wf_item (d ++ f) (dirs ++ sort files)); auto. destruct Hp as (_ & _ & _ & W & _). eapply Forall_impl; [|exact W]. intros ? []; auto. }
  destruct (choose (fun e pn => at_path t (fst pn) (snd pn) /\ archivable (snd pn) /\ en_rel e = join (fst pn) /\ en_hdr e + up512 (en_size e) = cost_of base pn) (dirs ++ sort files)) as (nodes & Hn).
  { intros e He. destruct (All e He) as (p & nd & B1 & B2 & B3 & B4 & B5). exists (p, nd). cbn [fst snd]. split; auto. split; [destruct nd; cbn in *; auto|]. split; auto.
    unfold cost_of. cbn [fst snd]. unfold mk_entry in B5. rewrite B4, B2 in B5. change (absolute_path base (join p)) with (node_path base p) in B5.
    assert (T : en_target e = target_of nd /\ en_size e = contents nd) by (destruct nd; cbn in *; tauto). destruct T as [T1 T2]. rewrite T1, T2 in B5.
    destruct (compute_hdr_size _ _ _) as [h|]; cbn [bind] in B5; [|discriminate].
    assert (Eh : en_hdr e = h).
    { assert (E0 : {| en_type := en_type e; en_base := base; en_rel := join p; en_target := target_of nd; en_size := contents nd; en_hdr := h |} = e) by congruence.
      pose proof (f_equal en_hdr E0) as X. cbn [en_hdr] in X. auto. }
    rewrite Eh, T2. reflexivity. }
  exists nodes.
  assert (Hrel : map en_rel (dirs ++ sort files) = map join (map fst nodes)).
  { clear - Hn. induction Hn as [|e pn l l' (_ & _ & E & _) _ IH]; cbn [map]; [reflexivity|]. rewrite E, IH. reflexivity. }
  assert (Hall : forall pn, In pn nodes -> at_path t (fst pn) (snd pn) /\ archivable (snd pn)).
  { clear - Hn. induction Hn as [|e pn l l' (A & B & _) _ IH]; intros x Hx; [destruct Hx|]. destruct Hx as [<-|Hx]; auto. }
  split; [rewrite Hrel in Nd; apply NoDup_map_inv in Nd; exact Nd|]. split.
  - intros p nd. split; [intros Hin; apply (Hall _ Hin)|]. intros [B1 B2]. destruct (Cm p nd B1 B2) as (e & E1 & E2).
    assert (In (en_rel e) (map join (map fst nodes))) as Hj by (rewrite <- Hrel; apply in_map; auto).
    apply in_map_iff in Hj as (p' & J1 & J2). apply in_map_iff in J2 as ([p2 n2] & J2 & J3). cbn [fst] in J2. subst p2.
    destruct (Hall _ J3) as [J4 J5]. cbn [fst snd] in *. destruct (at_path_wf _ _ _ B1 H4) as [_ G1]. destruct (at_path_wf _ _ _ J4 H4) as [_ G2].
    assert (p' = p) as -> by (apply join_inj; auto; congruence). rewrite (at_path_det _ _ _ _ B1 H4 J4). exact J3.
  - rewrite Sz, (laid_total _ _ _ L eq_refl Wf), Mdf. cbn [Z.add]. f_equal.
    clear - Hn. induction Hn as [|e pn l l' (_ & _ & _ & E) _ IH]; cbn [map]; [reflexivity|]. rewrite E, IH. reflexivity.
Qed.

(** one node's cost *)
Lemma cost_bounds base p n : 0 <= contents n < 2 ^ 63 -> exists h, cost_of base (p, n) = h + round512 (contents n) /\ 512 <= h /\ h mod 512 = 0 /\
  (brief base p n -> h = 512) /\ h <= 2 * (zlen (node_path base p) + zlen (target_of n)) + 1875.
Proof.
  intros Hc. unfold cost_of. cbn [fst snd].
  pose proof (cstr_zlen (node_path base p)) as C1. pose proof (cstr_zlen (target_of n)) as C2.
  destruct (compute_hdr_size _ _ _) as [h|] eqn:E.
  - exists h. split; auto. unfold compute_hdr_size in E. pose proof E as E'. apply hdr_size_le in E'; [|cbn; lia]. cbn [te_file te_link] in E'.
    match type of E with hdr_size ?x = _ => destruct (hdr_size_ok x) as (k & Ek & K1 & K2) end. assert (k = h) by congruence. subst k.
    split; [lia|]. split; [auto|]. split.
    + intros (B1 & B2 & B3). rewrite hdr_size_short in E; [congruence|..]; unfold need_path, need_link, need_size, is_reg, MAX_FILE_SIZE; cbn [te_file te_link te_stat st_kind st_size andb].
      * apply Z.ltb_ge. lia.
      * apply Z.ltb_ge. lia.
      * apply Z.ltb_ge. change (2 ^ 33) with 8589934592 in B3. lia.
    + pose proof (zlen_nonneg (node_path base p)). pose proof (zlen_nonneg (target_of n)). lia.
  - exfalso. unfold compute_hdr_size in E. match type of E with hdr_size ?x = _ => destruct (hdr_size_ok x) as (k & Ek & _) end. congruence.
Qed.
Lemma cost_takes base nodes : (forall p n, In (p, n) nodes -> 0 <= contents n < 2 ^ 63) -> takes base nodes (total (map (cost_of base) nodes)).
Proof.
  induction nodes as [|[p n] l IH]; intros H; [constructor|].
  destruct (cost_bounds base p n (H p n (or_introl eq_refl))) as (h & E & A & B & C & D).
  cbn [map total fold_right]. rewrite E. constructor; auto. apply IH. intros; apply (H p0 n0); right; auto.
Qed.
