(** With buckets up to 10^9 bytes the text of every bundle fits a message: a
    bundle's text is no longer than the bytes it describes, but for its first
    order (C96, and the assumption [texts_fit] of C77, C78). *)
From Coq Require Import Permutation Sorted Lia.
From Verif Require Import Bytes Outcome TarSpec TarModel TarProofs Layout LayoutSpec LayoutProofs LayoutMore OrderCodec
  Spider SpiderSpec SpiderProofs SpiderMore Program ProgramProofs EndSpec EndProofs EndMore MpiSpec LegacyCodecProofs LegacyTotal.

(** all orders of a bundle but the first carry a header *)
Definition headed (B : list order) : Prop := Forall (fun o => 0 < o_hdr o) (tl B).
Lemma headed_one o : headed [o].
Proof. constructor. Qed.
Lemma headed_add B o : headed B -> 0 < o_hdr o -> headed (B ++ [o]).
Proof. unfold headed. destruct B as [|x B]; cbn [app tl]; [constructor|]. intros H1 H2. apply Forall_app. auto. Qed.
Lemma small_headed idx bucket maxo st eo jump : 0 < en_hdr (fst eo) -> Forall headed (push_bundle st) -> Forall headed (push_bundle (Layout.plan_small idx bucket maxo st eo jump)).
Proof.
  intros He H. unfold Layout.plan_small. destruct (_ || _).
  - unfold push_bundle at 1. cbn [p_done p_cur]. apply Forall_app. split; [exact H|]. constructor; [apply headed_one|constructor].
  - unfold push_bundle in *. cbn [p_done p_cur]. apply Forall_app in H as [H1 H2]. apply Forall_app. split; [exact H1|]. constructor; [|constructor].
    apply headed_add; [inversion H2; auto|]. destruct eo. exact He.
Qed.
Lemma full_headed fuel idx bucket e : forall st fpos ext st' fpos' ext', plan_full fuel idx bucket e st fpos ext = Ok (st', fpos', ext') ->
  Forall headed (push_bundle st) -> Forall headed (push_bundle st').
Proof.
  induction fuel as [|f IH]; intros st fpos ex st' fpos' ex' H; cbn [plan_full] in H; destruct (bucket <? ex); try discriminate H; try (injection H as <- _ _; auto; fail).
  intros Hh. eapply IH; [exact H|]. unfold push_bundle at 1. cbn [p_done p_cur]. apply Forall_app. split; [exact Hh|]. constructor; [apply headed_one|constructor].
Qed.
Lemma big_headed idx bucket st e st' : plan_big idx bucket st e = Ok st' -> Forall headed (push_bundle st) -> Forall headed (push_bundle st').
Proof.
  intros H Hh. unfold plan_big in H.
  assert (Hd : Forall headed (p_done st)) by (unfold push_bundle in Hh; apply Forall_app in Hh; tauto).
  set (dc := match p_cur st with [] => (p_done st, [], p_count st) | _ => (push_bundle st, [], 0) end) in H.
  assert (D : exists d n, dc = (d, [], n) /\ Forall headed d) by (unfold dc; destruct (p_cur st); eauto).
  destruct D as (d & n & Ed & D). rewrite Ed in H.
  match type of H with bind (plan_full ?a ?b ?c ?e ?s ?x ?y) _ = _ => destruct (plan_full a b c e s x y) as [[[st2 fp] ex]|] eqn:F; cbn [bind] in H; [|discriminate H] end.
  assert (F2 : Forall headed (push_bundle st2)).
  { eapply full_headed; [exact F|]. unfold push_bundle. cbn [p_done p_cur app]. apply Forall_app. split; [exact D|]. constructor; [apply headed_one|constructor]. }
  destruct (0 <? ex); injection H as <-; [|exact F2]. unfold push_bundle at 1. cbn [p_done p_cur]. apply Forall_app. split; [exact F2|]. constructor; [apply headed_one|constructor].
Qed.
Lemma files_headed idx bucket maxo fs : Forall (fun eo : entry * Z => 0 < en_hdr (fst eo)) fs -> forall st st', plan_files idx bucket maxo st fs = Ok st' ->
  Forall headed (push_bundle st) -> Forall headed (push_bundle st').
Proof.
  induction 1 as [|eo fs He Hf IH]; intros st st' H; cbn [plan_files] in H; [injection H as <-; auto|].
  unfold plan_file in H. destruct (_ <=? bucket); cbn [bind] in H.
  - intros Hh. eapply IH; [exact H|]. apply small_headed; auto.
  - destruct (plan_big idx bucket st (fst eo)) as [st1|] eqn:B; cbn [bind] in H; [|discriminate H]. intros Hh. eapply IH; [exact H|]. eapply big_headed; eauto.
Qed.
Lemma dirs_headed idx bucket maxo ds : Forall (fun eo : entry * Z => 0 < en_hdr (fst eo)) ds -> forall st,
  Forall headed (push_bundle st) -> Forall headed (push_bundle (fold_left (plan_dir idx bucket maxo) ds st)).
Proof.
  induction 1 as [|eo fs He Hf IH]; intros st H; cbn [fold_left]; [exact H|]. apply IH. unfold plan_dir. destruct (_ <=? bucket); [|exact H]. apply small_headed; auto.
Qed.
Lemma create_headed idx bucket maxo d f bs : Forall (fun eo : entry * Z => 0 < en_hdr (fst eo)) (d ++ f) ->
  create_transfer_orders idx bucket maxo d f = Ok (Some bs) -> Forall headed bs.
Proof.
  intros Hh H. apply Forall_app in Hh as [Hd Hf]. unfold create_transfer_orders in H. destruct (bucket <? 100000); [discriminate H|].
  assert (H' : bind (plan_files idx bucket maxo (fold_left (plan_dir idx bucket maxo) d p_init) f) (fun st => Ok (Some (push_bundle st))) = Ok (Some bs)) by (destruct d; [destruct f; [discriminate H|]|]; exact H).
  clear H. destruct (plan_files _ _ _ _ f) as [st|] eqn:E; cbn [bind] in H'; [|discriminate H']. injection H' as <-.
  eapply files_headed; [exact Hf|exact E|]. apply dirs_headed; [exact Hd|]. constructor; constructor.
Qed.

(** a header is longer than a long path or link target *)
Lemma opt_ge c k v n : opt_record_length c k v = Ok n -> 0 <= n /\ (c = true -> zlen v <= n).
Proof.
  unfold opt_record_length. destruct c.
  - intros H. destruct (record_length_ok k v) as (m & E & Hm & Hz). rewrite E in H. injection H as <-. split; [lia|intros _].
    rewrite pax_record_zlen in Hz by lia. pose proof (zlen_nonneg k). pose proof (ndig_spec 10 m ltac:(lia) ltac:(lia)) as (S1 & _). lia.
  - intros H. injection H as <-. split; [lia|discriminate].
Qed.
Lemma hdr_ge name link size h : no_byte NUL name -> no_byte NUL link -> compute_hdr_size name link size = Ok h -> zlen name + zlen link + 312 <= h.
Proof.
  intros Hn Hl. unfold compute_hdr_size, hdr_size, get_paxsize. cbn [te_file te_link te_stat].
  set (e := {| te_offset := 0; te_stat := _; te_file := name; te_link := link |}).
  destruct (opt_record_length (need_path e) (b "path") (cstr name)) as [p|] eqn:E1; cbn [bind]; [|discriminate].
  destruct (opt_record_length (need_link e) (b "linkpath") (cstr link)) as [l|] eqn:E2; cbn [bind]; [|discriminate].
  destruct (opt_record_length (need_size e) _ _) as [s|] eqn:E3; cbn [bind]; [|discriminate]. intros H.
  assert (Eh : h = BLOCKSIZE + pax_hdr_sz (p + l + s)) by congruence. clear H.
  apply opt_ge in E1 as [A1 B1], E2 as [A2 B2], E3 as [A3 _]. rewrite !cstr_id in * by assumption.
  unfold need_path, need_link in *. cbn [te_file te_link e] in *. unfold pax_hdr_sz in Eh.
  pose proof (zlen_nonneg name). pose proof (zlen_nonneg link).
  rewrite round_to_block_spec in Eh. pose proof (round512_bounds (BLOCKSIZE + (p + l + s))). unfold BLOCKSIZE in *.
  destruct (Z.ltb_spec 100 (zlen name)), (Z.ltb_spec 100 (zlen link)), (Z.ltb_spec 0 (p + l + s)); try specialize (B1 eq_refl); try specialize (B2 eq_refl); lia.
Qed.

(** the text of one order *)
Lemma order_text o : 0 <= o_index o < 10 -> 0 <= o_size o < 2 ^ 63 -> 0 <= o_hdr o < 2 ^ 63 -> 0 <= o_pos o < 2 ^ 63 -> 0 <= o_fpos o < 2 ^ 63 ->
  zlen (print_order o) <= zlen (o_rel o) + zlen (o_target o) + 90.
Proof.
  intros H0 H1 H2 H3 H4. unfold print_order. rewrite !zlen_app. change (zlen [TAB]) with 1. change (zlen [LF]) with 1. change (zlen [o_type o]) with 1.
  assert (I : zlen (print_int (o_index o)) <= 1).
  { rewrite print_int_zlen by lia. apply (ndig_le 10 _ 1); lia. }
  assert (L : forall z, 0 <= z < 2 ^ 63 -> zlen (print_int z) <= 20).
  { intros z Hz. apply print_int_len. unfold is_long. change (2 ^ 63) with 9223372036854775808 in *. lia. }
  pose proof (L _ H1). pose proof (L _ H2). pose proof (L _ H3). pose proof (L _ H4). lia.
Qed.

(** the text of a bundle *)
Lemma bundle_text B a z : chain a B z -> Forall (fun o => zlen (print_order o) <= o_hdr o + o_size o) B -> zlen (print_bundle B) <= z - a.
Proof.
  revert a. induction B as [|o B IH]; intros a H F; cbn [chain] in H.
  - subst. cbn. lia.
  - destruct H as (H1 & H2 & H3 & H4 & H5). inversion F as [|? ? F1 F2]; subst. specialize (IH _ H5 F2).
    unfold print_bundle in *. cbn [flat_map]. rewrite zlen_app. pose proof (up512_bounds (o_end o)). unfold o_end in *. lia.
Qed.

(** every bundle of a planned tree has a short text *)
Lemma plan_texts fuel fs sort base t bucket maxo bs : plan fuel fs sort base bucket maxo = Ok (Some bs) ->
  (forall l, order_files l (sort l)) -> base <> [] -> no_byte NUL base -> is_dir_node t -> wf_node t -> shows fs base t -> short_paths base t ->
  100000 <= bucket <= 1000000000 -> bucket mod 512 = 0 -> (forall B o, In B bs -> In o B -> o_pos o < 2 ^ 63) -> texts_fit bs.
Proof.
  intros H Hs H2 Hn H3 H4 H5 Hsh Hb Hm Hpos. apply plan_inv in H as (dirs & files & d & f & Hsc & Hso & Hc).
  pose proof (scan_plannable _ _ _ _ _ _ _ _ Hsc H2 H3 H4 H5 Hsh (Hs files) (proj1 Hb) Hm) as Hp.
  destruct (plannable_ok 0 bucket maxo _ _ _ _ Hp Hso) as (bs' & w & C & La & Ch & Ne & _ & _ & Bl & Sl).
  rewrite Hc in C. assert (E : bs' = bs) by congruence. rewrite E in *. clear E C.
  pose proof (scan_made _ _ _ _ _ Hsc) as Hmk. destruct (scan_any _ _ _ _ _ _ Hsc H2 H3 H4 H5) as (_ & _ & W & _).
  destruct (Hs files sort_by_size_swo) as [Pm _].
  destruct (set_offsets_laid _ _ _ _ Hso) as (zz & _ & Md & Mf).
  assert (Hin : forall e off, In (e, off) (d ++ f) -> In e (dirs ++ files)).
  { intros e off Hi. apply (in_map fst) in Hi. rewrite map_app, Md, Mf in Hi. cbn [fst] in Hi. apply in_app_or in Hi as [Hi|Hi]; apply in_or_app; auto. right. apply (Permutation_in _ (Permutation_sym Pm)), Hi. }
  assert (Hhd : Forall (fun eo : entry * Z => 0 < en_hdr (fst eo)) (d ++ f)).
  { apply Forall_forall. intros [e off] Hi. destruct (W e (Hin _ _ Hi)) as ((W1 & _) & _). cbn [fst]. lia. }
  pose proof (create_headed _ _ _ _ _ _ Hhd Hc) as Hd.
  (* per order: a long text needs a long header *)
  assert (One : forall o, In o (concat bs) -> o_pos o < 2 ^ 63 -> 0 <= o_pos o -> zlen (print_order o) <= 80100 /\ (0 < o_hdr o -> zlen (print_order o) <= o_hdr o + o_size o)).
  { intros o Ho Hpo Hpo0. rewrite Forall_forall in Sl. destruct (Sl o Ho) as (e & off & Hi & (Si & Sx & Sh & S1 & S2 & S3)). apply Hin in Hi.
    destruct (W e Hi) as ((W1 & W2 & W3) & Eb & p & n & Ha & Er & Rn). pose proof (Hmk e Hi) as Mk. destruct (at_path_wf _ _ _ Ha H4) as [Wn Gp]. destruct (Hsh p n Ha) as [L1 L2].
    unfold order_id, entry_id in Si. injection Si as Si1 Si2 Si3.
    assert (Et : no_byte NUL (en_target e) /\ zlen (en_target e) <= 40000 /\ en_size e < 2 ^ 63).
    { change (2 ^ 63) with 9223372036854775808 in *. destruct n; cbn [records] in Rn; try contradiction; destruct Rn as (_ & Esz & ->); cbn; (split; [try (intros []); auto|]); try (split; [lia|]); try lia; inversion Wn; subst; auto; lia. }
    destruct Et as (Et1 & Et2 & Et3).
    assert (Hh : en_hdr e <= 100000 /\ zlen (en_base e) + 1 + zlen (en_rel e) + zlen (en_target e) + 312 <= en_hdr e).
    { split.
      - apply mk_entry_wf in Mk as (_ & Hle & _); [|lia]. apply Hle; [rewrite Eb, Er; lia|exact Et2].
      - unfold mk_entry in Mk. destruct (compute_hdr_size _ _ _) as [h|] eqn:Ec; cbn [bind] in Mk; [|discriminate Mk].
        assert (Eh : en_hdr e = h) by (injection Mk as Mk; rewrite <- Mk; reflexivity).
        assert (Na : no_byte NUL (absolute_path (en_base e) (en_rel e))).
        { unfold absolute_path, no_byte. rewrite !in_app_iff, Eb, Er. intros [X|[X|X]]; [exact (Hn X)|cbn in X; destruct X as [X|[]]; discriminate X|exact (join_nonul _ Gp X)]. }
        rewrite !cstr_id in Ec by assumption. apply hdr_ge in Ec; [|assumption|assumption]. unfold absolute_path in Ec. rewrite !zlen_app in Ec. change (zlen [SLASH]) with 1 in Ec. lia. }
    destruct Hh as (Hh1 & Hh2). change (2 ^ 63) with 9223372036854775808 in *.
    assert (T : zlen (print_order o) <= zlen (o_rel o) + zlen (o_target o) + 90).
    { apply order_text; change (2 ^ 63) with 9223372036854775808; try lia. }
    rewrite Si1, Si3 in T. rewrite Er in *. pose proof (zlen_nonneg (en_base e)). pose proof (zlen_nonneg (en_target e)). pose proof (zlen_nonneg base). split; [lia|].
    intros Hp0. destruct Sh as [Sh|Sh]; lia. }
  intros B HB. destruct (in_split _ _ HB) as (b1 & b2 & Eb). rewrite Eb, concat_app in Ch. cbn [concat] in Ch.
  apply chain_app in Ch as (m1 & Ch1 & Ch). apply chain_app in Ch as (m2 & Ch2 & _).
  rewrite Forall_forall in Bl, Hd, Ne. specialize (Bl B HB). specialize (Hd B HB). specialize (Ne B HB).
  destruct (chain_bundle _ _ _ Ch2 Ne) as (C1 & C2 & C3). pose proof (chain_mono _ _ _ Ch1) as Hm1.
  assert (Pos : forall B a z, chain a B z -> forall o, In o B -> a <= o_pos o).
  { clear. induction B as [|x B IH]; intros a z H o Ho; [destruct Ho|]. cbn [chain] in H. destruct H as (P1 & P2 & P3 & P4 & P5). destruct Ho as [->|Ho]; [lia|].
    specialize (IH _ _ P5 o Ho). pose proof (up512_bounds (o_end x)). unfold o_end in *. lia. }
  assert (One' : forall o, In o B -> zlen (print_order o) <= 80100 /\ (0 < o_hdr o -> zlen (print_order o) <= o_hdr o + o_size o)).
  { intros o Ho. apply One; [apply in_concat; eauto|eapply Hpos; eauto|]. pose proof (Pos _ _ _ Ch2 o Ho). lia. }
  destruct B as [|o B]; [congruence|]. cbn [chain] in Ch2. destruct Ch2 as (P1 & P2 & P3 & P4 & P5).
  assert (T : zlen (print_bundle B) <= m2 - up512 (o_end o)).
  { apply (bundle_text B _ _ P5). unfold headed in Hd. cbn [tl] in Hd. rewrite Forall_forall in Hd |- *. intros x Hx. apply One'; [right; exact Hx|apply Hd, Hx]. }
  unfold print_bundle in *. cbn [flat_map]. rewrite zlen_app. pose proof (proj1 (One' o (or_introl eq_refl))).
  unfold blen in Bl. pose proof (up512_bounds (bundle_end (o :: B))). pose proof (up512_bounds (o_end o)). unfold o_end in *. unfold INT_MAX. lia.
Qed.
