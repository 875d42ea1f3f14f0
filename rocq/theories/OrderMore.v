(** C16 for the bundles the planner produces. *)
From Verif Require Import Bytes Outcome TarModel TarProofs Layout LayoutSpec LayoutProofs LayoutMore OrderCodec OrderCodecProofs.

Lemma chain_pos os : forall a z, chain a os z ->
  Forall (fun o => a <= o_pos o /\ 0 <= o_hdr o /\ 0 <= o_size o /\ o_end o <= z) os.
Proof.
  induction os as [|o os IH]; intros a z H; [constructor|]. cbn [chain] in H. destruct H as (E & H1 & H2 & H3 & H).
  pose proof (up512_bounds (o_end o)) as U.
  assert (Hz : up512 (o_end o) <= z).
  { clear -H. revert H. generalize (up512 (o_end o)). induction os as [|o' os IH]; intros a H; cbn [chain] in H; [lia|].
    destruct H as (E & H1 & H2 & H3 & H). apply IH in H. pose proof (up512_bounds (o_end o')). unfold o_end in *. lia. }
  constructor; [lia|]. specialize (IH _ _ H). eapply Forall_impl; [|exact IH]. cbn. intros. unfold o_end in *. lia.
Qed.

(** names and link targets without a tab *)
Definition clean (e : entry) : Prop := no_byte TAB (en_rel e) /\ no_byte TAB (en_target e).
Lemma type_char_tab t : type_char t <> TAB.
Proof. destruct t; vm_compute; discriminate. Qed.

Lemma slice_clean idx e o : clean e -> slice_of idx e o -> no_byte TAB (o_rel o) /\ o_type o <> TAB /\ no_byte TAB (o_target o).
Proof.
  intros [C1 C2] (Hid & _). unfold order_id, entry_id in Hid. injection Hid as -> -> ->. split; auto. split; auto. apply type_char_tab.
Qed.

Lemma planned_facts idx bucket maxo dirs files d f bs :
  plannable bucket dirs files -> set_offsets dirs files = (d, f) ->
  create_transfer_orders idx bucket maxo d f = Ok (Some bs) ->
  Forall clean (dirs ++ files) -> INT_MIN <= idx <= INT_MAX ->
  exists w, laid 0 (d ++ f) w /\
  Forall (fun o => INT_MIN <= o_index o <= INT_MAX /\ no_byte TAB (o_rel o) /\ o_type o <> TAB /\ no_byte TAB (o_target o) /\
     0 <= o_pos o /\ 0 <= o_hdr o /\ 0 <= o_size o /\ o_end o <= w /\ 0 <= o_fpos o <= w) (concat bs).
Proof.
  intros Hp Hso Hc Hcl Hi.
  destruct (plannable_ok idx bucket maxo _ _ _ _ Hp Hso) as (bs' & w & E & L & C & N & O & _ & _ & Hsl).
  rewrite Hc in E. injection E as <-. exists w. split; auto.
  pose proof (chain_pos _ _ _ C) as P. rewrite Forall_forall in *. intros o Ho.
  destruct (Hsl o Ho) as (e & off & I1 & I2). specialize (P o Ho) as (P1 & P2 & P3 & P4).
  destruct (set_offsets_laid _ _ _ _ Hso) as (z0 & L0 & Md & Mf).
  assert (Hin : In e (dirs ++ files)).
  { rewrite <- Md, <- Mf, <- map_app. apply in_map with (f := fst) in I1. exact I1. }
  destruct (slice_clean idx e o) as (S1 & S2 & S3); auto.
  assert (Wf : Forall (fun eo => wf_item (fst eo)) (d ++ f)).
  { destruct Hp as (_ & _ & _ & W & _). apply (Forall_fst wf_item (d ++ f) (dirs ++ files)); [rewrite map_app; congruence|].
    eapply Forall_impl; [|exact W]. intros ? []; auto. }
  destruct (laid_facts 0 _ w L eq_refl Wf) as (_ & _ & F3 & _). destruct (F3 e off I1) as (_ & G1 & G2).
  rewrite Forall_forall in Wf. destruct (Wf _ I1) as (W1 & W2 & W3). cbn [fst] in *.
  destruct I2 as (J1 & J2 & J3 & J4 & J5 & J6). rewrite J2. unfold ext in G2. repeat split; auto; lia.
Qed.

Lemma C16_planned_lemma idx bucket maxo dirs files d f bs :
  plannable bucket dirs files -> set_offsets dirs files = (d, f) ->
  create_transfer_orders idx bucket maxo d f = Ok (Some bs) ->
  Forall clean (dirs ++ files) -> INT_MIN <= idx <= INT_MAX ->
  (forall e off, In (e, off) (d ++ f) -> off + en_hdr e + en_size e < 2 ^ 31 - 512) ->
  (forall B, In B bs -> zlen (print_bundle B) < 2 ^ 32 - 2) ->
  forall B, In B bs -> parse_bundle (print_bundle B) = Ok B.
Proof.
  intros Hp Hso Hc Hcl Hi Hlim Hlen B HB.
  destruct (planned_facts idx bucket maxo dirs files d f bs Hp Hso Hc Hcl Hi) as (w & L & P).
  assert (Hw : w <= INT_MAX).
  { assert (Wf : Forall (fun eo => wf_item (fst eo)) (d ++ f)).
    { destruct (set_offsets_laid _ _ _ _ Hso) as (z0 & L0 & Md & Mf).
      destruct Hp as (_ & _ & _ & W & _). apply (Forall_fst wf_item (d ++ f) (dirs ++ files)); [rewrite map_app; congruence|].
      eapply Forall_impl; [|exact W]. intros ? []; auto. }
    destruct (laid_facts 0 _ w L eq_refl Wf) as (_ & _ & _ & _ & _ & _ & F7).
    destruct (list_eq_dec Z.eq_dec (map snd (d ++ f)) []) as [E|E].
    - apply map_eq_nil in E. rewrite E in L. cbn in L. subst. vm_compute. discriminate.
    - assert (Hne : d ++ f <> []) by (intros X; apply E; rewrite X; reflexivity).
      destruct (exists_last Hne) as (l & [e off] & El). pose proof (F7 e off l El).
      pose proof (Hlim e off ltac:(rewrite El; apply in_or_app; right; left; reflexivity)).
      pose proof (up512_bounds (off + ext e)). unfold ext in *. change (2 ^ 31) with 2147483648 in *. unfold INT_MAX. lia. }
  apply C16_lemma; [|apply Hlen; auto].
  rewrite Forall_forall in *. intros o Ho. destruct (P o) as (A1 & A2 & A3 & A4 & A5 & A6 & A7 & A8 & A9); [apply in_concat; exists B; auto|].
  unfold sendable, int31. unfold o_end in A8. repeat split; auto; lia.
Qed.

Lemma first_bad B : Forall (fun o => sendable o \/ too_big o) B -> Exists too_big B ->
  exists pre o post, B = pre ++ o :: post /\ Forall sendable pre /\ too_big o.
Proof.
  induction B as [|o B IH]; intros H He; [inversion He|]. inversion H as [|? ? [Hs|Hb] H']; subst.
  - destruct IH as (pre & o' & post & -> & H1 & H2); auto.
    + inversion He as [? ? Hb|]; subst; auto. exfalso.
      destruct Hs as (_ & _ & _ & _ & S1 & S2 & S3 & S4), Hb as (_ & _ & _ & _ & _ & _ & _ & _ & Hb). unfold int31 in *. lia.
    + exists (o :: pre), o', post. auto.
  - exists [], o, B. auto.
Qed.

Lemma C16_two_gib_lemma idx bucket maxo dirs files d f bs e off :
  plannable bucket dirs files -> set_offsets dirs files = (d, f) ->
  create_transfer_orders idx bucket maxo d f = Ok (Some bs) ->
  Forall clean (dirs ++ files) -> INT_MIN <= idx <= INT_MAX ->
  (forall B, In B bs -> zlen (print_bundle B) < 2 ^ 32 - 2) ->
  In (e, off) (d ++ f) -> 2 ^ 31 <= off ->
  exists B, In B bs /\ parse_bundle (print_bundle B) = Err EThrow.
Proof.
  intros Hp Hso Hc Hcl Hi Hlen Hin Hoff.
  destruct (planned_facts idx bucket maxo dirs files d f bs Hp Hso Hc Hcl Hi) as (w & L & P).
  destruct (C11_lemma idx bucket maxo dirs files d f Hp Hso) as (bs' & E & Hcov & _). rewrite Hc in E. injection E as <-.
  assert (W : wf_item e).
  { destruct (set_offsets_laid _ _ _ _ Hso) as (z0 & L0 & Md & Mf). destruct Hp as (_ & _ & _ & W & _).
    rewrite Forall_forall in W. apply W. rewrite <- Md, <- Mf, <- map_app. apply in_map with (f := fst) in Hin. exact Hin. }
  destruct W as (W1 & W2 & W3).
  destruct (Hcov e off 0 Hin) as (Hh & _). specialize (Hh ltac:(lia)). rewrite Z.add_0_r in Hh.
  assert (Ho : exists o, In o (concat bs) /\ o_pos o = off).
  { assert (I : In (CHdr (entry_id e) 0) (orders_at (concat bs) off)) by (rewrite Hh; left; reflexivity).
    unfold orders_at in I. apply in_flat_map in I as (o & I1 & I2). exists o. split; auto.
    unfold order_at, piece_at in I2. destruct (Z.leb_spec (o_pos o) off), (Z.ltb_spec off (o_pos o + o_hdr o)); cbn [andb] in I2.
    - destruct I2 as [I2|[]]. injection I2 as _ I2. lia.
    - destruct (_ && _) in I2; cbn [In] in I2; intuition discriminate.
    - destruct (_ && _) in I2; cbn [In] in I2; intuition discriminate.
    - destruct (_ && _) in I2; cbn [In] in I2; intuition discriminate. }
  destruct Ho as (o & Ho & Hpos). apply in_concat in Ho as (B & HB & HoB). exists B. split; auto.
  assert (Hall : forall x, In x B -> sendable x \/ too_big x).
  { intros x Hx. rewrite Forall_forall in P. destruct (P x) as (A1 & A2 & A3 & A4 & A5 & A6 & A7 & A8 & A9); [apply in_concat; exists B; auto|].
    unfold sendable, too_big, int31.
    destruct (Z.le_gt_cases (o_size x) INT_MAX); [|right; repeat split; auto; lia].
    destruct (Z.le_gt_cases (o_hdr x) INT_MAX); [|right; repeat split; auto; lia].
    destruct (Z.le_gt_cases (o_pos x) INT_MAX); [|right; repeat split; auto; lia].
    destruct (Z.le_gt_cases (o_fpos x) INT_MAX); [|right; repeat split; auto; lia].
    left; repeat split; auto; lia. }
  destruct (first_bad B) as (pre & o' & post & -> & F1 & F2).
  - apply Forall_forall. auto.
  - apply Exists_exists. exists o. split; auto. destruct (Hall o HoB) as [S|T]; auto. exfalso.
    destruct S as (_ & _ & _ & _ & _ & _ & S3 & _). unfold int31, INT_MAX in S3. change (2 ^ 31) with 2147483648 in Hoff. lia.
  - apply C16_over_lemma; auto.
Qed.
