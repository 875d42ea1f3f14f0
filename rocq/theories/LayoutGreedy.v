(** Lemmas behind C67: the planner fills order sets greedily. *)
From Verif Require Import Bytes Outcome TarModel TarProofs Layout LayoutSpec LayoutProofs LayoutMore.
From Coq Require Import Sorted.

(** every element but the first is related to its predecessor *)
Fixpoint adj {A} (P : A -> A -> Prop) (l : list A) : Prop :=
  match l with
  | x :: r => match r with y :: _ => P x y | [] => True end /\ adj P r
  | [] => True
  end.

Lemma adj_app {A} (P : A -> A -> Prop) l x r : adj P (l ++ [x]) -> adj P (x :: r) -> adj P (l ++ x :: r).
Proof.
  induction l as [|y l IH]; intros H1 H2; cbn [app] in *; auto.
  cbn [adj] in H1. destruct H1 as [H1 H3]. cbn [adj]. split; [|auto].
  destruct l as [|z l]; cbn [app] in *; auto.
Qed.

Lemma adj_replace {A} (P : A -> A -> Prop) l x y : adj P (l ++ [x]) -> (forall z, P z x -> P z y) -> adj P (l ++ [y]).
Proof.
  induction l as [|z l IH]; intros H1 H2; cbn [app] in *.
  - cbn. auto.
  - cbn [adj] in *. destruct H1 as [H1 H3]. split; [|auto]. destruct l as [|v l]; cbn [app] in *; auto.
Qed.

Lemma adj_nth {A} (P : A -> A -> Prop) l : adj P l -> forall i x y, nth_error l i = Some x -> nth_error l (S i) = Some y -> P x y.
Proof.
  induction l as [|z l IH]; intros H i x y H1 H2; [destruct i; discriminate|].
  cbn [adj] in H. destruct H as [H H']. destruct i as [|i].
  - cbn in H1. injection H1 as <-. cbn [nth_error] in H2. destruct l as [|v l]; [discriminate|]. cbn in H2. injection H2 as <-. auto.
  - cbn [nth_error] in *. eauto.
Qed.

(** the first order of [B'] does not fit behind [B] *)
Definition unfit (bucket maxo : Z) (B B' : list order) : Prop :=
  forall o r, B' = o :: r -> (0 < maxo /\ maxo <= zlen B) \/ bucket < o_end o - bundle_start B.

Lemma greedy_small idx bucket maxo st e w :
  bucket mod 512 = 0 -> wf_item e -> ext e <= bucket -> p_count st = zlen (p_cur st) ->
  binv bucket st w true -> adj (unfit bucket maxo) (push_bundle st) ->
  adj (unfit bucket maxo) (push_bundle (plan_small idx bucket maxo st (e, w) (up512 (ext e)))).
Proof.
  intros Hb Hw He Hc I HA. unfold plan_small.
  destruct ((bucket <? p_bpos st + up512 (ext e)) || ((0 <? maxo) && (maxo <=? p_count st))) eqn:E.
  - unfold push_bundle at 1. cbn [p_done p_cur]. unfold push_bundle in *. rewrite <- app_assoc. apply adj_app; auto.
    cbn [app adj]. split; [|auto]. intros o r Ho. injection Ho as <- <-.
    assert (Hne : p_cur st <> []).
    { intros Hn. destruct (bi_cur _ _ _ _ I Hn) as (_ & _ & Hz & _). rewrite Hc, Hn in E.
      change (zlen (@nil order)) with 0 in E. pose proof (up512_le (ext e) bucket He Hb). lia. }
    destruct (bi_nb _ _ _ _ I eq_refl) as [_ N]. specialize (N Hne).
    destruct (cur_len _ _ _ _ I Hne) as (m & C1 & C2 & C3 & C4).
    apply orb_prop in E as [E|E].
    + right. apply Z.ltb_lt in E. unfold o_end, slice_order, raw_order; cbn [o_pos o_hdr o_size fst snd].
      destruct (Z.le_gt_cases (w + en_hdr e + en_size e - bundle_start (p_cur st)) bucket) as [L|L]; [exfalso|lia].
      assert (Hs : p_bpos st mod 512 = 0).
      { pose proof (bi_mod _ _ _ _ I). assert (bundle_start (p_cur st) mod 512 = 0); [|lia].
        rewrite C3. clear - C2. destruct (concat (p_done st)) as [|o os] eqn:Eo; [cbn in C2; subst; reflexivity|].
        assert (Hne : o :: os <> []) by discriminate.
        destruct (chain_bundle _ _ _ C2 Hne) as (_ & <- & _). apply up512_bounds. }
      pose proof (up512_le (ext e) (bucket - p_bpos st)) as U. unfold ext in *. lia.
    + left. apply andb_prop in E as [E1 E2]. lia.
  - unfold push_bundle at 1. cbn [p_done p_cur]. unfold push_bundle in HA.
    destruct (p_cur st) as [|o0 r0] eqn:Ec.
    + destruct (bi_cur _ _ _ _ I Ec) as (-> & _). cbn. auto.
    + eapply adj_replace; [exact HA|]. intros z Hz o r Ho. cbn [app] in Ho. injection Ho as <- <-. eapply Hz; reflexivity.
Qed.

(** a set consisting of one full slice after a non-empty set, or the tail after a full slice *)
Definition full_last (bucket : Z) (st : pstate) : Prop :=
  exists o, p_cur st = [o] /\ 0 < bucket /\ o_hdr o + o_size o = bucket /\ p_arch st = o_pos o + bucket.

Lemma unfit_after bucket maxo o o' : o_pos o + bucket = o_pos o' -> 0 < o_hdr o' + o_size o' -> unfit bucket maxo [o] [o'].
Proof. intros H H' x r E. injection E as <- <-. right. unfold o_end. cbn [bundle_start]. lia. Qed.

Lemma greedy_full fuel idx bucket maxo e : forall st fpos rem st' fpos' rem',
  plan_full fuel idx bucket e st fpos rem = Ok (st', fpos', rem') ->
  full_last bucket st -> adj (unfit bucket maxo) (push_bundle st) ->
  full_last bucket st' /\ adj (unfit bucket maxo) (push_bundle st').
Proof.
  induction fuel as [|f IH]; intros st fpos rem st' fpos' rem' H HE HA; cbn [plan_full] in H.
  - destruct (bucket <? rem); [discriminate|]. injection H as <- <- <-. auto.
  - destruct (bucket <? rem); [|injection H as <- <- <-; auto].
    destruct HE as (o & E1 & E2 & E3 & E4).
    eapply IH; [exact H| |].
    + eexists. cbn [p_cur p_arch]. split; [reflexivity|]. cbn [raw_order o_pos o_hdr o_size]. lia.
    + unfold push_bundle at 1. cbn [p_done p_cur]. unfold push_bundle in *. rewrite E1 in *. rewrite <- app_assoc.
      apply adj_app; auto. cbn [app adj]. split; [|auto]. apply unfit_after; cbn [raw_order o_pos o_hdr o_size]; lia.
Qed.

Lemma greedy_big idx bucket maxo st e w nb st' :
  bucket mod 512 = 0 -> 0 < bucket -> wf_item e -> en_hdr e <= bucket -> bucket < ext e ->
  binv bucket st w nb -> plan_big idx bucket st e = Ok st' ->
  adj (unfit bucket maxo) (push_bundle st) -> adj (unfit bucket maxo) (push_bundle st').
Proof.
  intros Hb Hb0 (Wf1 & Wf2 & Wf3) Hh He I HP HA. unfold plan_big in HP.
  set (o0 := raw_order idx e (bucket - en_hdr e) (en_hdr e) (p_arch st) 0) in *.
  destruct (match p_cur st with [] => (p_done st, [], p_count st) | _ => (push_bundle st, [], 0) end) as [[done0 cur0] count0] eqn:Em.
  assert (Hcur0 : cur0 = []) by (destruct (p_cur st); congruence). subst cur0. cbn [app] in HP.
  match type of HP with (x <- plan_full ?fu _ _ _ ?s1 _ _ ;; _) = _ => set (st1 := s1) in *;
    destruct (plan_full fu idx bucket e st1 (0 + (bucket - en_hdr e)) (en_hdr e + en_size e - bucket)) as [[[st2 fpos] rem]|] eqn:Ef; [|discriminate] end.
  cbn [bind] in HP.
  assert (H1 : full_last bucket st1 /\ adj (unfit bucket maxo) (push_bundle st1)).
  { split.
    - exists o0. unfold st1, o0. cbn [p_cur p_arch raw_order o_pos o_hdr o_size]. repeat split; auto; lia.
    - unfold push_bundle, st1. cbn [p_done p_cur]. destruct (p_cur st) as [|oc rc] eqn:Ec.
      + assert (done0 = p_done st) by congruence. subst done0. destruct (bi_cur _ _ _ _ I Ec) as (-> & _). cbn. auto.
      + assert (done0 = push_bundle st) by congruence. subst done0. unfold push_bundle. rewrite <- app_assoc. apply adj_app; auto.
        cbn [app adj]. split; [|auto]. intros o r Ho. injection Ho as <- <-. right.
        assert (Hne : p_cur st <> []) by congruence.
        destruct (cur_len _ _ _ _ I Hne) as (m & C1 & C2 & C3 & C4).
        destruct (chain_bundle _ _ _ C1 Hne) as (D1 & D2 & D3). pose proof (up512_bounds (bundle_end (p_cur st))).
        pose proof (bi_arch _ _ _ _ I). unfold o_end, o0. cbn [raw_order o_pos o_hdr o_size]. lia. }
  destruct H1 as [H1 H2]. destruct (greedy_full _ _ _ maxo _ _ _ _ _ _ _ Ef H1 H2) as [H3 H4].
  destruct (Z.ltb_spec 0 rem).
  - injection HP as <-. unfold push_bundle at 1. cbn [p_done p_cur]. unfold push_bundle in *.
    destruct H3 as (o & E1 & E2 & E3 & E4). rewrite E1 in *. rewrite <- app_assoc. apply adj_app; auto.
    cbn [app adj]. split; [|auto]. apply unfit_after; cbn [raw_order o_pos o_hdr o_size]; lia.
  - injection HP as <-. exact H4.
Qed.

Lemma greedy_dirs idx bucket maxo ds : bucket mod 512 = 0 ->
  forall L st w z, laid w ds z -> Forall (fun eo => fits bucket (fst eo) /\ en_size (fst eo) = 0) ds ->
  pinv idx maxo L st -> binv bucket st w true -> adj (unfit bucket maxo) (push_bundle st) ->
  adj (unfit bucket maxo) (push_bundle (fold_left (plan_dir idx bucket maxo) ds st)).
Proof.
  intros Hb. induction ds as [|[e off] ds IH]; intros L st w z Hl Hf Hp Hi HA; cbn [laid fold_left] in *; auto.
  destruct Hl as [-> Hl]. inversion Hf as [|? ? [[Hw Hh] Hs] Hf']; subst. cbn [fst] in *.
  assert (E : plan_dir idx bucket maxo st (e, w) = plan_small idx bucket maxo st (e, w) (up512 (ext e))).
  { unfold plan_dir. cbn [fst]. rewrite nbb_spec. unfold ext. rewrite Hs, Z.add_0_r.
    destruct (Z.leb_spec (en_hdr e) bucket); [reflexivity|lia]. }
  rewrite E. eapply (IH (L ++ [(e, w)])); eauto.
  - apply plan_small_inv; auto. cbn [fst]. lia.
  - apply small_step; auto; [unfold ext; lia|apply (pi_count _ _ _ _ Hp)].
  - apply greedy_small; auto; [unfold ext; lia|apply (pi_count _ _ _ _ Hp)].
Qed.

Lemma greedy_files idx bucket maxo : bucket mod 512 = 0 -> 0 < bucket ->
  forall small big L st w z st', laid w (small ++ big) z -> Forall (fun eo => fits bucket (fst eo)) (small ++ big) ->
  Forall (fun eo => ~ is_big bucket (fst eo)) small -> Forall (fun eo => is_big bucket (fst eo)) big ->
  pinv idx maxo L st -> binv bucket st w true -> adj (unfit bucket maxo) (push_bundle st) ->
  plan_files idx bucket maxo st (small ++ big) = Ok st' -> adj (unfit bucket maxo) (push_bundle st').
Proof.
  intros Hb Hb0.
  assert (Hbig : forall big L st w z nb st', laid w big z -> Forall (fun eo => fits bucket (fst eo)) big ->
     Forall (fun eo => is_big bucket (fst eo)) big -> pinv idx maxo L st -> binv bucket st w nb ->
     adj (unfit bucket maxo) (push_bundle st) ->
     plan_files idx bucket maxo st big = Ok st' -> adj (unfit bucket maxo) (push_bundle st')).
  { induction big as [|[e off] big IH]; intros L st w z nb st' Hl Hf Hbg Hp Hi HA HP; cbn [laid plan_files] in *; [congruence|].
    destruct Hl as [-> Hl]. inversion Hf as [|? ? [Hw Hh] Hf']; subst. inversion Hbg; subst. cbn [fst] in *.
    unfold is_big in *. unfold plan_file in HP. cbn [fst] in HP. fold (ext e) in HP. destruct (Z.leb_spec (ext e) bucket); [lia|].
    destruct (big_step idx bucket st e w nb) as (st1 & E & B1 & _); auto; [apply (pi_count _ _ _ _ Hp)|].
    rewrite E in HP. cbn [bind] in HP.
    pose proof (greedy_big idx bucket maxo st e w nb st1 Hb Hb0 Hw Hh ltac:(assumption) Hi E HA) as HA1.
    destruct Hw as (? & ? & ?). eapply IH; [exact Hl|exact Hf'|assumption| |exact B1|exact HA1|exact HP].
    eapply (big_pinv idx bucket maxo L); eauto; try lia; apply (bi_arch _ _ _ _ Hi). }
  induction small as [|[e off] small IH]; intros big L st w z st' Hl Hf Hsm Hbg Hp Hi HA HP.
  - cbn [app] in *. eapply Hbig; eauto.
  - cbn [app laid plan_files] in *.
    destruct Hl as [-> Hl]. inversion Hf as [|? ? [Hw Hh] Hf']; subst. inversion Hsm; subst. cbn [fst] in *.
    unfold is_big in *. unfold plan_file in HP. cbn [fst] in HP. fold (ext e) in HP. destruct (Z.leb_spec (ext e) bucket); [|lia].
    cbn [bind] in HP. rewrite nbb_spec in HP.
    eapply (IH big (L ++ [(e, w)])); [exact Hl|exact Hf'|auto|auto|apply plan_small_inv; [cbn [fst]; destruct Hw as (? & ? & ?); lia|exact Hp]| | |exact HP].
    + apply small_step; auto. apply (pi_count _ _ _ _ Hp).
    + apply greedy_small; auto. apply (pi_count _ _ _ _ Hp).
Qed.

Lemma greedy_create idx bucket maxo dirs files d f bs :
  plannable bucket dirs files -> set_offsets dirs files = (d, f) ->
  StronglySorted (fun x y => en_hdr x + en_size x <= en_hdr y + en_size y) files ->
  create_transfer_orders idx bucket maxo d f = Ok (Some bs) -> adj (unfit bucket maxo) bs.
Proof.
  intros (H1 & H2 & H3 & H4 & H5) Hso Hs Hc. destruct (split_sorted bucket files Hs) as (s & g & -> & Hsm & Hg).
  apply Forall_app in H4 as [H4a H4b].
  assert (Hd : Forall (fun e => fits bucket e /\ en_size e = 0) dirs).
  { rewrite Forall_forall in *. intros x Hx. split; auto. apply H4a; auto. }
  destruct (set_offsets_laid _ _ _ _ Hso) as (z & Hl & Md & Mf).
  assert (Fd : Forall (fun eo => fits bucket (fst eo) /\ en_size (fst eo) = 0) d) by (exact (Forall_fst (fun e => fits bucket e /\ en_size e = 0) _ _ Md Hd)).
  assert (Ff : Forall (fun eo => fits bucket (fst eo)) f) by (exact (Forall_fst _ _ _ Mf H4b)).
  apply laid_app in Hl as (m & Hl1 & Hl2).
  destruct (plan_dirs_ok idx bucket maxo d H2 [] p_init 0 m Hl1 Fd (pinv_init idx maxo) (binv_init bucket ltac:(lia))) as [P1 B1].
  cbn [app] in P1.
  assert (A1 : adj (unfit bucket maxo) (push_bundle (fold_left (plan_dir idx bucket maxo) d p_init))).
  { refine (greedy_dirs idx bucket maxo d H2 [] p_init 0 m Hl1 Fd (pinv_init idx maxo) (binv_init bucket ltac:(lia)) _). cbn. auto. }
  destruct (map_app_inv _ _ _ Mf) as (s' & g' & -> & Ms & Mg).
  unfold create_transfer_orders in Hc. destruct (Z.ltb_spec bucket 100000); [lia|].
  assert (HP : exists st, plan_files idx bucket maxo (fold_left (plan_dir idx bucket maxo) d p_init) (s' ++ g') = Ok st /\ bs = push_bundle st).
  { destruct (plan_files idx bucket maxo (fold_left (plan_dir idx bucket maxo) d p_init) (s' ++ g')) as [st|] eqn:E.
    - exists st. split; auto. destruct d as [|d0 d'], (s' ++ g') as [|f0 f'] eqn:Esg; try discriminate; cbn [bind] in Hc; congruence.
    - destruct d as [|d0 d'], (s' ++ g') as [|f0 f'] eqn:Esg; discriminate. }
  destruct HP as (st & HP & ->).
  eapply (greedy_files idx bucket maxo H2 ltac:(lia) s' g' d); [exact Hl2|exact Ff| | |exact P1|exact B1|exact A1|exact HP].
  - refine (Forall_fst (fun e => ~ is_big bucket e) _ _ Ms _). eapply Forall_impl; [|exact Hsm]. unfold is_big. intros; lia.
  - exact (Forall_fst (is_big bucket) _ _ Mg Hg).
Qed.

(** ** how many order sets there are *)
Lemma count_chain bucket maxo : 0 < bucket -> maxo <= 0 -> forall n bs a z, (length bs <= n)%nat ->
  chain a (concat bs) z -> Forall (fun B => B <> []) bs -> adj (unfit bucket maxo) bs ->
  zlen bs <= 2 * ((z - a) / bucket) + 1.
Proof.
  intros Hb Hm. induction n as [|n IH]; intros bs a z Hn Hc Hne HA.
  - destruct bs; [|cbn in Hn; lia]. cbn [concat chain] in Hc. subst z. change (zlen (@nil (list order))) with 0.
    replace (a - a) with 0 by lia. rewrite Z.div_0_l by lia. lia.
  - assert (Hq : 0 <= (z - a) / bucket) by (apply chain_mono in Hc; apply Z.div_pos; lia).
    destruct bs as [|B [|B' bs]].
    + change (zlen (@nil (list order))) with 0. lia.
    + change (zlen [B]) with 1. lia.
    + cbn [concat] in Hc. rewrite app_assoc in Hc. apply chain_app in Hc as (m' & Hc1 & Hc2).
      apply chain_app in Hc1 as (m & Hc0 & Hc1). cbn [adj] in HA. destruct HA as (HA1 & _ & HA2).
      assert (Hr : zlen bs <= 2 * ((z - m') / bucket) + 1).
      { apply IH; auto; [cbn [length] in Hn; lia|inversion Hne as [|? ? ? Hne']; inversion Hne'; auto]. }
      inversion Hne as [|? ? HneB Hne']; subst. inversion Hne' as [|? ? HneB' _]; subst.
      destruct (chain_bundle _ _ _ Hc0 HneB) as (S1 & _ & _).
      destruct B' as [|o r]; [congruence|]. destruct (HA1 o r eq_refl) as [[Hx _]|Hx]; [lia|].
      cbn [chain] in Hc1. destruct Hc1 as (P1 & P2 & P3 & P4 & P5). apply chain_mono in P5.
      pose proof (up512_bounds (o_end o)).
      rewrite !zlen_cons. assert ((z - m') / bucket + 1 <= (z - a) / bucket); [|lia].
      replace ((z - m') / bucket + 1) with ((z - m' + 1 * bucket) / bucket) by (rewrite Z.div_add; lia).
      apply Z.div_le_mono; lia.
Qed.

Lemma C67_lemma idx bucket maxo dirs files d f bs :
  plannable bucket dirs files -> set_offsets dirs files = (d, f) ->
  StronglySorted (fun x y => en_hdr x + en_size x <= en_hdr y + en_size y) files ->
  create_transfer_orders idx bucket maxo d f = Ok (Some bs) ->
  (forall i B o r, nth_error bs i = Some B -> nth_error bs (S i) = Some (o :: r) ->
     (0 < maxo /\ zlen B = maxo) \/ bucket < o_pos o + o_hdr o + o_size o - bundle_start B) /\
  (maxo <= 0 -> forall e off l, d ++ f = l ++ [(e, off)] ->
     zlen bs <= 2 * (up512 (off + en_hdr e + en_size e) / bucket) + 1).
Proof.
  intros Hp Hso Hs Hc. pose proof (greedy_create _ _ _ _ _ _ _ _ Hp Hso Hs Hc) as HA.
  destruct (plannable_ok idx bucket maxo dirs files d f Hp Hso) as (bs' & w & E & L & C & N & _ & M & _).
  rewrite E in Hc. injection Hc as ->.
  split.
  - intros i B o r H1 H2. destruct (adj_nth _ _ HA _ _ _ H1 H2 o r eq_refl) as [[G1 G2]|G]; [left|right; exact G].
    split; auto. specialize (M G1). rewrite Forall_forall in M. apply nth_error_In in H1. specialize (M _ H1). cbv beta in M. lia.
  - intros Hm e off l Hl.
    assert (Hw : up512 (off + en_hdr e + en_size e) = w).
    { rewrite Hl in L. apply laid_app in L as (m & L1 & L2). cbn [laid] in L2. destruct L2 as [-> <-].
      unfold ext. f_equal. lia. }
    rewrite Hw. destruct Hp as (Hp & _).
    pose proof (count_chain bucket maxo ltac:(lia) Hm (length bs) bs 0 w (le_n _) C N HA) as G.
    rewrite Z.sub_0_r in G. exact G.
Qed.
