(** Lemmas behind C55: every planned bundle can be moved. *)
From Coq Require Import Permutation Sorted.
From Verif Require Import Bytes Outcome TarSpec TarModel TarProofs TarMore Layout LayoutSpec LayoutProofs LayoutMore OrderCodec OrderCodecProofs OrderMore
  Mover MoverSpec MoverProofs MoverMore Worker WorkerProofs Assemble AssembleProofs Boss BossProofs BossMore
  Spider SpiderSpec SpiderProofs SpiderMore Program ProgramProofs EndSpec EndProofs EndMore WholeSpec.

(** *** every job of a plan that can be sent succeeds *)
Lemma jobs_ok ev path base idx bucket maxo dirs files d f bs :
  plannable bucket dirs files -> set_offsets dirs files = (d, f) ->
  create_transfer_orders idx bucket maxo d f = Ok (Some bs) ->
  Forall plain (dirs ++ files) -> INT_MIN <= idx <= INT_MAX ->
  Forall (unchanged ev base) (dirs ++ files) ->
  (forall e off, In (e, off) (d ++ f) -> off + en_hdr e + en_size e < 2 ^ 31 - 512) ->
  (forall B, In B bs -> zlen (print_bundle B) < INT_MAX - 1 /\ bundle_end B - bundle_start B <= bucket) ->
  forall o, (o < length bs)%nat -> succeeds (jobs ev bucket path base bs o) = true.
Proof.
  intros Hp Hso Hc Hpl Hi Hu Hlim Hb o Ho.
  destruct (nth_error bs o) as [B|] eqn:En; [|apply nth_error_None in En; lia].
  assert (HB : In B bs) by (eapply nth_error_In; eauto). destruct (Hb B HB) as [HT HF].
  rewrite jobs_eq. rewrite (nth_error_nth bs o [] En).
  pose proof (planned_nonul idx bucket maxo dirs files d f bs B Hp Hso Hc Hpl HB) as Hnul.
  rewrite (deliver_ok (b "C") (print_bundle B) nonul_C Hnul) by (change (zlen (b "C")) with 1; lia).
  assert (Hpar : parse_bundle (print_bundle B) = Ok B).
  { eapply (C16_planned_lemma idx bucket maxo dirs files d f bs); eauto; [apply plain_clean; auto|].
    intros B' HB'. destruct (Hb B' HB') as [X _]. unfold INT_MAX in X. change (2 ^ 32) with 4294967296. lia. }
  destruct (bundle_image ev base idx bucket maxo dirs files d f bs B Hp Hso Hc Hu HB HF) as (w & Hw & _).
  unfold job. rewrite (on_create (fun _ => false) ev bucket path base B w); auto. destruct Hp as (Hp & _). lia.
Qed.

(** *** how long an order text can be *)
Lemma print_int_short z : 0 <= z < 10 ^ 10 -> zlen (print_int z) <= 10.
Proof. intros H. rewrite print_int_zlen by lia. apply ndig_le; lia. Qed.
Lemma print_order_short o : o_index o = 0 -> zlen (o_rel o) <= 100 -> zlen (o_target o) <= 100 ->
  0 <= o_size o < 10 ^ 10 -> 0 <= o_hdr o < 10 ^ 10 -> 0 <= o_pos o < 10 ^ 10 -> 0 <= o_fpos o < 10 ^ 10 ->
  zlen (print_order o) <= 260.
Proof.
  intros E R T H1 H2 H3 H4. unfold print_order. rewrite !zlen_app, E.
  pose proof (print_int_short _ H1). pose proof (print_int_short _ H2). pose proof (print_int_short _ H3). pose proof (print_int_short _ H4).
  change (zlen (print_int 0)) with 1. change (zlen [TAB]) with 1. change (zlen [o_type o]) with 1. change (zlen [LF]) with 1. lia.
Qed.
Lemma chain_count os : forall a z, chain a os z -> a mod 512 = 0 -> a + 512 * zlen os <= z.
Proof.
  induction os as [|o os IH]; intros a z H Ha; cbn [chain] in H.
  - change (zlen (@nil order)) with 0. lia.
  - destruct H as (E & H1 & H2 & H3 & H). destruct (up512_bounds (o_end o)) as [U1 U2]. specialize (IH _ _ H U2). rewrite zlen_cons.
    assert (X : a + 512 <= up512 (o_end o)).
    { unfold o_end in *. rewrite E in *. set (x := up512 _) in *. clearbody x. clear -U1 U2 Ha H1 H2 H3.
      pose proof (Z.div_mod x 512 ltac:(lia)). pose proof (Z.div_mod a 512 ltac:(lia)). lia. }
    lia.
Qed.
Lemma text_bound os k : Forall (fun o => zlen (print_order o) <= k) os -> zlen (print_bundle os) <= k * zlen os.
Proof.
  induction 1 as [|o os H _ IH]; [change (zlen (print_bundle [])) with 0; change (zlen (@nil order)) with 0; lia|].
  change (print_bundle (o :: os)) with (print_order o ++ print_bundle os). rewrite zlen_app, zlen_cons. lia.
Qed.
Lemma in_concat_len {A} (bs : list (list A)) B : In B bs -> zlen B <= zlen (concat bs).
Proof.
  induction bs as [|C bs IH]; intros H; [destruct H|]. cbn [concat]. rewrite zlen_app. pose proof (zlen_nonneg C). pose proof (zlen_nonneg (concat bs)).
  destruct H as [->|H]; [lia|]. specialize (IH H). lia.
Qed.

(** *** weights *)
Definition node_weight (n : node) : Z := match n with NFile size => 512 + up512 size | NLink _ | NLocked | NDir _ => 512 | _ => 0 end.
Definition wsum (l : list (list bytes * node)) : Z := fold_right (fun pn s => node_weight (snd pn) + s) 0 l.
Lemma wsum_app x y : wsum (x ++ y) = wsum x + wsum y.
Proof. induction x as [|a x IH]; cbn [app wsum fold_right]; [reflexivity|]. unfold wsum in IH. rewrite IH. unfold wsum. lia. Qed.
Lemma enum_sum n : forall p, wsum (enum p n) = tree_bytes n.
Proof.
  induction n as [s|t|ch IH| | |] using node_ind'; intros p; cbn [enum tree_bytes]; try (cbn [wsum fold_right node_weight snd]; lia).
  change (wsum ((p, NDir ch) :: flat_map (fun c => enum (p ++ [fst c]) (snd c)) ch)) with (512 + wsum (flat_map (fun c => enum (p ++ [fst c]) (snd c)) ch)).
  f_equal. induction IH as [|c ch Hc _ IHc]; [reflexivity|]. cbn [flat_map fold_right]. rewrite wsum_app, Hc, IHc. reflexivity.
Qed.
Lemma wsum_incl l : forall l', NoDup l -> incl l l' -> (forall pn, In pn l' -> 0 <= node_weight (snd pn)) -> wsum l <= wsum l'.
Proof.
  induction l as [|a l IH]; intros l' Hn Hi Hw.
  - cbn [wsum fold_right]. clear -Hw. induction l' as [|x l' IH]; cbn [wsum fold_right]; [lia|].
    pose proof (Hw x (or_introl eq_refl)). specialize (IH (fun pn H => Hw pn (or_intror H))). unfold wsum in IH. lia.
  - inversion Hn as [|? ? Na Nl]; subst. destruct (in_split a l' (Hi a (or_introl eq_refl))) as (x & y & ->).
    specialize (IH (x ++ y) Nl). rewrite wsum_app in IH |- *. cbn [wsum fold_right]. unfold wsum in IH |- *. 
    assert (G : incl l (x ++ y)).
    { intros z Hz. specialize (Hi z (or_intror Hz)). apply in_app_or in Hi as [Hi|[<-|Hi]]; [apply in_or_app; auto|contradiction|apply in_or_app; auto]. }
    specialize (IH G). lapply IH; [lia|]. intros pn Hpn. apply Hw. apply in_app_or in Hpn as [X|X]; apply in_or_app; [left|right; right]; auto.
Qed.
Lemma node_weight_pos n : wf_node n -> 0 <= node_weight n.
Proof. intros H. destruct H; cbn [node_weight]; try lia. pose proof (up512_bounds s). lia. Qed.

Definition entry_weight (e : entry) : Z := 512 + up512 (en_size e).
Definition esum (l : list entry) : Z := fold_right (fun e s => entry_weight e + s) 0 l.
Lemma laid_sum l : forall a z, laid a l z -> a mod 512 = 0 -> Forall (fun eo => en_hdr (fst eo) = 512 /\ 0 <= en_size (fst eo)) l ->
  z = a + esum (map fst l).
Proof.
  induction l as [|[e off] l IH]; intros a z H Ha Hf; cbn [laid] in H.
  - cbn. lia.
  - destruct H as [-> H]. inversion Hf as [|? ? [F1 F2] Hf']; subst. cbn [fst] in *.
    destruct (up512_bounds (a + ext e)) as [U1 U2]. rewrite (IH _ _ H U2 Hf'). cbn [map fst]. change (esum (e :: map fst l)) with (entry_weight e + esum (map fst l)).
    enough (E : up512 (a + ext e) = a + entry_weight e) by (rewrite E; lia).
    rewrite up512_add by auto. unfold entry_weight, ext. rewrite F1. rewrite (up512_add 512 (en_size e)) by reflexivity. reflexivity.
Qed.

(** *** trees *)
Lemma short_header path target size : zlen path <= 100 -> zlen target <= 100 -> 0 <= size <= MAX_FILE_SIZE ->
  compute_hdr_size path target size = Ok 512.
Proof.
  intros H1 H2 H3. unfold compute_hdr_size. apply hdr_size_short; unfold need_path, need_link, need_size, is_reg; cbn [te_file te_link te_stat st_kind st_size].
  - apply Z.ltb_ge. lia.
  - apply Z.ltb_ge. lia.
  - apply Bool.andb_false_iff. right. apply Z.ltb_ge. lia.
Qed.
Lemma small_short base t : small_tree base t -> short_paths base t.
Proof.
  intros [H _] p n Ha. destruct (H p n Ha) as [A B]. unfold node_path in A. rewrite !zlen_app in A. change (zlen [SLASH]) with 1 in A.
  split; [lia|]. destruct n; auto. lia.
Qed.
Lemma small_slash base t : small_tree base t -> forall p n, at_path t p n -> is_dir_node n -> p <> [] -> slash_safe (node_path base p).
Proof.
  intros [H _] p n Ha _ _. destruct (H p n Ha) as [A _]. unfold slash_safe. rewrite !short_header; auto; rewrite ?zlen_app; change (zlen [SLASH]) with 1;
    change (zlen (@nil byte)) with 0; unfold MAX_FILE_SIZE; lia.
Qed.
Lemma nth_sorted {A} (R : A -> A -> Prop) l :
  (forall i j x y, (i < j)%nat -> nth_error l i = Some x -> nth_error l j = Some y -> R x y) -> StronglySorted R l.
Proof.
  induction l as [|a l IH]; intros H; [constructor|]. constructor.
  - apply IH. intros i j x y Hij H1 H2. apply (H (S i) (S j) x y); auto. lia.
  - apply Forall_forall. intros x Hx. apply In_nth_error in Hx as (i & Hi). apply (H 0%nat (S i) a x); auto. lia.
Qed.

Lemma no_dup_fst {A B} (l : list (A * B)) : NoDup (map fst l) -> NoDup l.
Proof. apply NoDup_map_inv. Qed.

(** the nodes behind a list of entries *)
Lemma choose_nodes (P : entry -> list bytes -> node -> Prop) (es : list entry) :
  (forall e, In e es -> exists p n, P e p n) -> exists l, Forall2 (fun e pn => P e (fst pn) (snd pn)) es l.
Proof.
  induction es as [|e es IH]; intros H; [exists []; constructor|].
  destruct (H e (or_introl eq_refl)) as (p & n & Hp). destruct IH as (l & Hl); [intros; apply H; right; auto|].
  exists ((p, n) :: l). constructor; auto.
Qed.

Lemma tree_completes fuel fs sort base t ev bucket maxo bs path :
  plan fuel fs sort base bucket maxo = Ok (Some bs) ->
  (forall l, order_files l (sort l)) -> base <> [] -> no_byte NUL base -> is_dir_node t -> wf_node t -> shows fs base t ->
  small_tree base t -> tab_free t -> 100000 <= bucket -> bucket mod 512 = 0 ->
  (forall p n, at_path t p n -> archivable n -> still ev base p n) ->
  forall o, (o < length bs)%nat -> succeeds (jobs ev bucket path base bs o) = true.
Proof.
  intros Hpl Hs Hb Hbn Hd Hw Hsh Hsm Htab Hbk Hbm Hst.
  destruct (tree_ready fuel fs sort base t ev bucket maxo bs Hpl Hs Hb Hbn Hd Hw Hsh (small_short _ _ Hsm) Htab Hbk Hbm Hst (small_slash _ _ Hsm))
    as (dirs & files & d & f & Hsc & Hso & Hc & Hp & Hplain & Hu & Hnd & _ & Hall).
  assert (Hent : forall e, In e (dirs ++ sort files) -> en_hdr e = 512 /\ 0 <= en_size e /\ zlen (en_rel e) <= 100 /\ zlen (en_target e) <= 100 /\
     exists p n, at_path t p n /\ en_rel e = join p /\ entry_weight e = node_weight n /\ (en_target e = [] \/ en_size e = 0)).
  { intros e He. destruct (Hall e He) as (p & n & A1 & A2 & A3 & A4 & A5).
    destruct Hsm as [S1 S2]. destruct (S1 p n A1) as [S3 S4]. destruct (at_path_wf _ _ _ A1 Hw) as [Wn Gp].
    assert (Hsz : 0 <= en_size e <= 2 ^ 31).
    { assert (Hw1 : node_weight n <= tree_bytes t).
      { rewrite <- (enum_sum t []). assert (Ha : archivable n) by (destruct n; cbn in A3 |- *; auto).
        pose proof (enum_complete t p n A1 Ha []) as I0. cbn [app] in I0.
        pose proof (wsum_incl [(p, n)] (enum [] t)) as X. cbn [wsum fold_right snd] in X. rewrite Z.add_0_r in X. apply X.
        - constructor; [intros []|constructor].
        - intros z [<-|[]]. exact I0.
        - intros [q m] Hq. cbn [snd]. apply enum_prefix in Hq as (r & _ & Hr & _). apply node_weight_pos. apply (at_path_wf _ _ _ Hr Hw). }
      destruct n; cbn in A3; try contradiction; destruct A3 as (_ & -> & _); try (change (2 ^ 31) with 2147483648; lia).
      cbn [node_weight] in Hw1. pose proof (up512_bounds size). inversion Wn; subst. change (2 ^ 31) with 2147483648 in *. lia. }
    assert (Hrl : zlen (en_rel e) <= 100).
    { rewrite A2. unfold node_path in S3. rewrite !zlen_app in S3. change (zlen [SLASH]) with 1 in S3. pose proof (zlen_nonneg base). lia. }
    assert (Htl : zlen (en_target e) <= 100).
    { destruct n; cbn in A3; try contradiction; destruct A3 as (_ & _ & ->); auto; change (zlen (@nil byte)) with 0; lia. }
    split; [|split; [lia|split; [auto|split; [auto|]]]].
    - unfold mk_entry in A5. rewrite short_header in A5.
      + cbn [bind] in A5. apply (f_equal (fun o => match o with Ok x => en_hdr x | Err _ => 0 end)) in A5. cbn in A5. auto.
      + rewrite A4, A2. change (absolute_path base (join p)) with (node_path base p). pose proof (cstr_zlen (node_path base p)). lia.
      + pose proof (cstr_zlen (en_target e)). lia.
      + unfold MAX_FILE_SIZE. change (2 ^ 31) with 2147483648 in *. lia.
    - exists p, n. split; auto. split; auto. unfold entry_weight. destruct n; cbn in A3; try contradiction; destruct A3 as (_ & -> & ->); auto. }
  destruct (plannable_ok 0 bucket maxo _ _ _ _ Hp Hso) as (bs' & z & E & L & C & Nn & _ & _ & _ & Hsl).
  rewrite Hc in E. injection E as <-.
  destruct (set_offsets_laid _ _ _ _ Hso) as (z0 & L0 & Md & Mf).
  assert (Mdf : map fst (d ++ f) = dirs ++ sort files) by (rewrite map_app; congruence).
  assert (Hz : z <= 2 ^ 31 - 1024).
  { assert (Ez : z = 0 + esum (map fst (d ++ f))).
    { eapply laid_sum; eauto. apply Forall_forall. intros eo Heo. apply (in_map fst) in Heo. rewrite Mdf in Heo.
      destruct (Hent _ Heo) as (X1 & X2 & _). auto. }
    rewrite Mdf in Ez. destruct Hsm as [_ Htot].
    destruct (choose_nodes (fun e p n => at_path t p n /\ en_rel e = join p /\ entry_weight e = node_weight n /\ archivable n) (dirs ++ sort files)) as (l & Hl).
    { intros e He. destruct (Hall e He) as (p & n & A1 & A2 & A3 & _). exists p, n. split; auto. split; auto.
      split; [|destruct n; cbn in A3 |- *; auto]. unfold entry_weight. destruct n; cbn in A3; try contradiction; destruct A3 as (_ & -> & _); reflexivity. }
    assert (Hsum : esum (dirs ++ sort files) = wsum l).
    { clear -Hl. induction Hl as [|e pn es l (_ & _ & X & _) _ IH]; [reflexivity|]. cbn [esum wsum fold_right]. unfold esum, wsum in IH. rewrite X, IH. reflexivity. }
    assert (Hle : wsum l <= wsum (enum [] t)).
    { apply wsum_incl.
      - apply no_dup_fst. apply NoDup_map_inv with (f := join). rewrite map_map.
        replace (map (fun x => join (fst x)) l) with (map en_rel (dirs ++ sort files)); auto.
        clear -Hl. induction Hl as [|e pn es l (_ & X & _) _ IH]; [reflexivity|]. cbn [map]. rewrite X, IH. reflexivity.
      - intros pn Hin. destruct pn as [p n]. assert (G : at_path t p n /\ archivable n).
        { clear -Hl Hin. induction Hl as [|e pn es l (X & _ & _ & Y) _ IH]; [destruct Hin|]. destruct Hin as [->|Hin]; auto. }
        pose proof (enum_complete t p n (proj1 G) (proj2 G) []) as I0. exact I0.
      - intros [q m] Hq. cbn [snd]. apply enum_prefix in Hq as (r & _ & Hr & _). apply node_weight_pos. apply (at_path_wf _ _ _ Hr Hw). }
    rewrite enum_sum in Hle. lia. }
  assert (Wf : Forall (fun eo => wf_item (fst eo)) (d ++ f)).
  { apply (Forall_fst wf_item (d ++ f) (dirs ++ sort files)); auto. destruct Hp as (_ & _ & _ & W & _). eapply Forall_impl; [|exact W]. intros ? []; auto. }
  destruct (laid_facts 0 _ z L eq_refl Wf) as (_ & _ & F3 & _).
  eapply (jobs_ok ev path base 0 bucket maxo dirs (sort files) d f bs); eauto.
  - unfold INT_MIN, INT_MAX. lia.
  - intros e off He. destruct (F3 e off He) as (_ & _ & X). unfold ext in X. change (2 ^ 31) with 2147483648 in *. lia.
  - assert (Hfit : Forall (fun B => bundle_end B - bundle_start B <= bucket) bs).
    { eapply (C13_lemma 0 bucket maxo dirs (sort files) d f bs); eauto. apply nth_sorted. intros i j x y Hij H1 H2.
      destruct (Hs files sort_by_size_swo) as [_ Hso2]. specialize (Hso2 i j x y Hij H1 H2).
      assert (Ix : In x (dirs ++ sort files)) by (apply in_or_app; right; eapply nth_error_In; eauto).
      assert (Iy : In y (dirs ++ sort files)) by (apply in_or_app; right; eapply nth_error_In; eauto).
      destruct (Hent x Ix) as (X1 & X2 & _ & _ & px & nx & _ & _ & _ & X3).
      destruct (Hent y Iy) as (Y1 & Y2 & _ & _ & py & ny & _ & _ & _ & Y3).
      unfold sort_by_size in Hso2. apply Z.ltb_ge in Hso2. unfold order_size, SIZE_SYMLINK in Hso2. rewrite X1, Y1.
      destruct (en_target x) as [|cx tx]; destruct (en_target y) as [|cy ty]; try lia;
        destruct X3 as [X3|X3]; try discriminate X3; destruct Y3 as [Y3|Y3]; try discriminate Y3; lia. }
    intros B HB. rewrite Forall_forall in Hfit. split; [|apply Hfit; auto].
    assert (Hcount : 512 * zlen B <= z).
    { pose proof (chain_count _ _ _ C eq_refl). pose proof (in_concat_len bs B HB). lia. }
    assert (Ht : zlen (print_bundle B) <= 260 * zlen B).
    { apply text_bound. apply Forall_forall. intros o Ho. assert (Hoc : In o (concat bs)) by (apply in_concat; exists B; auto).
      rewrite Forall_forall in Hsl. destruct (Hsl o Hoc) as (e & off & I1 & I2).
      pose proof (chain_pos _ _ _ C) as P. rewrite Forall_forall in P. destruct (P o Hoc) as (P1 & P2 & P3 & P4).
      assert (Ie : In e (dirs ++ sort files)) by (rewrite <- Mdf; apply (in_map fst) in I1; exact I1).
      destruct (Hent e Ie) as (E1 & E2 & E3 & E4 & _). destruct (F3 e off I1) as (_ & G1 & G2). unfold ext in G2.
      destruct I2 as (J1 & J2 & J3 & J4 & J5 & J6). unfold order_id, entry_id in J1.
      assert (o_rel o = en_rel e /\ o_target o = en_target e) as [R1 R2] by (split; congruence).
      unfold o_end in P4. change (2 ^ 31) with 2147483648 in *.
      apply print_order_short; rewrite ?R1, ?R2; auto; change (10 ^ 10) with 10000000000; lia. }
    unfold INT_MAX. change (2 ^ 31) with 2147483648 in *. lia.
Qed.

(** *** trees that never complete *)
Lemma node_bytes_eq e n : records n e -> entry_weight e = node_weight n.
Proof. unfold entry_weight. destruct n; cbn; try contradiction; intros (_ & -> & _); reflexivity. Qed.

Lemma laid_last l e off : forall a z, laid a (l ++ [(e, off)]) z -> a mod 512 = 0 -> Forall (fun eo => wf_item (fst eo)) l ->
  a + esum (map fst l) <= off.
Proof.
  induction l as [|[x offx] l IH]; intros a z H Ha Hf; cbn [app laid] in H.
  - destruct H as [-> _]. cbn [map esum fold_right]. lia.
  - destruct H as [-> H]. inversion Hf as [|? ? (F1 & F2 & F3) Hf']; subst. cbn [fst] in *.
    destruct (up512_bounds (a + ext x)) as [U1 U2]. specialize (IH _ _ H U2 Hf').
    cbn [map fst]. change (esum (x :: map fst l)) with (entry_weight x + esum (map fst l)).
    enough (E : a + entry_weight x <= up512 (a + ext x)) by lia.
    rewrite up512_add by auto. unfold entry_weight, ext. rewrite (up512_add (en_hdr x) (en_size x)) by auto. lia.
Qed.

Lemma scan_entries fuel fs base t dirs files files' :
  scan fuel fs base = Ok (dirs, files) -> base <> [] -> is_dir_node t -> wf_node t -> shows fs base t -> tab_free t ->
  order_files files files' ->
  Forall plain (dirs ++ files') /\
  exists l, Forall2 (fun e pn => en_rel e = join (fst pn) /\ records (snd pn) e) (dirs ++ files') l /\ wsum l = tree_bytes t.
Proof.
  intros Hsc H2 H3 H4 H5 Htab Ho.
  destruct (scan_any _ _ _ _ _ _ Hsc H2 H3 H4 H5) as (_ & Nd & W & Cm & _). destruct (Ho sort_by_size_swo) as [Pm _].
  assert (PP : Permutation (dirs ++ files) (dirs ++ files')) by (apply Permutation_app_head; auto).
  assert (Hall : forall e, In e (dirs ++ files') -> exists p n, at_path t p n /\ en_rel e = join p /\ records n e).
  { intros e He. apply (Permutation_in _ (Permutation_sym PP)) in He. destruct (W e He) as (_ & _ & X). exact X. }
  split.
  - apply Forall_forall. intros e He. destruct (Hall e He) as (p & n & A & B & C).
    destruct (Htab p n A) as [T1 T2]. destruct (at_path_wf _ _ _ A H4) as [Wn Gp]. unfold plain. rewrite B. split; auto.
    destruct n; cbn in C; try contradiction; destruct C as (_ & _ & ->).
    + split; [intros []|]. split; [apply join_nonul; auto|intros []].
    + split; auto. split; [apply join_nonul; auto|]. inversion Wn; auto.
    + split; [intros []|]. split; [apply join_nonul; auto|intros []].
    + split; [intros []|]. split; [apply join_nonul; auto|intros []].
  - destruct (choose_nodes (fun e p n => at_path t p n /\ en_rel e = join p /\ records n e) (dirs ++ files') Hall) as (l & Hl).
    exists l. split. { clear -Hl. induction Hl as [|e pn es l (_ & X & Y) _ IH]; constructor; auto. }
    assert (Hin : forall p n, In (p, n) l <-> at_path t p n /\ archivable n).
    { intros p n. split.
      - intros Hin. clear -Hl Hin. induction Hl as [|e pn es l (X & _ & Y) _ IH]; [destruct Hin|]. destruct Hin as [->|Hin]; auto.
        split; auto. cbn [snd] in Y. destruct n; cbn in *; auto.
      - intros [A B]. destruct (Cm p n A B) as (e & I1 & I2 & I3). apply (Permutation_in _ PP) in I1.
        assert (G : exists q m, In (q, m) l /\ at_path t q m /\ en_rel e = join q).
        { clear -Hl I1. induction Hl as [|e0 [q m] es l (X & Y & _) _ IH]; [destruct I1|]. destruct I1 as [->|I1].
          - exists q, m. split; [left; auto|auto].
          - destruct (IH I1) as (q' & m' & J1 & J2). exists q', m'. split; [right; auto|auto]. }
        destruct G as (q & m & G1 & G2 & G3).
        assert (q = p). { apply join_inj; [apply (at_path_wf _ _ _ G2 H4)|apply (at_path_wf _ _ _ A H4)|congruence]. }
        subst q. rewrite (at_path_det t p n m A H4 G2). exact G1. }
    assert (Nl : NoDup l).
    { apply no_dup_fst. apply NoDup_map_inv with (f := join). rewrite map_map.
      replace (map (fun x => join (fst x)) l) with (map en_rel (dirs ++ files')); [eapply Permutation_NoDup; [apply Permutation_map; exact PP|exact Nd]|].
      clear -Hl. induction Hl as [|e pn es l (_ & X & _) _ IH]; [reflexivity|]. cbn [map]. rewrite X, IH. reflexivity. }
    assert (Ne : NoDup (enum [] t)) by (apply no_dup_fst, enum_nodup; auto).
    assert (He : forall p n, In (p, n) (enum [] t) <-> at_path t p n /\ archivable n).
    { intros p n. split.
      - intros X. apply enum_prefix in X as (r & E & X & Y). cbn in E. subst r. auto.
      - intros [A B]. exact (enum_complete t p n A B []). }
    assert (Wp : forall pn, In pn l \/ In pn (enum [] t) -> 0 <= node_weight (snd pn)).
    { intros [p n] X. cbn [snd]. apply node_weight_pos.
      assert (A : at_path t p n) by (destruct X as [X|X]; [apply Hin in X|apply He in X]; tauto). apply (at_path_wf _ _ _ A H4). }
    rewrite <- (enum_sum t []). apply Z.le_antisymm; apply wsum_incl; auto; intros [p n] X; [apply He, Hin, X|apply Hin, He, X].
Qed.

Lemma jobs_dead ev bucket path base idx maxo dirs files d f bs e off :
  plannable bucket dirs files -> set_offsets dirs files = (d, f) ->
  create_transfer_orders idx bucket maxo d f = Ok (Some bs) ->
  Forall plain (dirs ++ files) -> INT_MIN <= idx <= INT_MAX ->
  In (e, off) (d ++ f) -> 2 ^ 31 <= off ->
  exists o, (o < length bs)%nat /\ succeeds (jobs ev bucket path base bs o) = false.
Proof.
  intros Hp Hso Hc Hpl Hi Hin Hoff.
  assert (D : (forall B, In B bs -> zlen (b "C") + zlen (print_bundle B) < INT_MAX) \/ exists B, In B bs /\ INT_MAX <= zlen (b "C") + zlen (print_bundle B)).
  { clear. induction bs as [|B bs [IH|(B' & I1 & I2)]]; [left; intros ? []| |right; exists B'; split; [right|]; auto].
    destruct (Z.lt_ge_cases (zlen (b "C") + zlen (print_bundle B)) INT_MAX).
    - left. intros B' [<-|X]; auto.
    - right. exists B. split; [left|]; auto. }
  destruct D as [D|(B & I1 & I2)].
  - destruct (C16_two_gib_lemma idx bucket maxo dirs files d f bs e off Hp Hso Hc (plain_clean _ Hpl) Hi) as (B & IB & PB); auto.
    { intros B IB. apply small_text. apply D, IB. }
    apply In_nth_error in IB as IB'. destruct IB' as (o & Ho). exists o. split; [apply nth_error_Some; congruence|].
    rewrite jobs_eq, (nth_error_nth bs o [] Ho).
    rewrite (deliver_ok (b "C") (print_bundle B) nonul_C (planned_nonul idx bucket maxo dirs files d f bs B Hp Hso Hc Hpl IB) (D B IB)).
    unfold job. rewrite on_C_eq. destruct Hp as (Hp & _). destruct (Z.eqb_spec bucket 0); [lia|]. rewrite PB. reflexivity.
  - apply In_nth_error in I1 as (o & Ho). exists o. split; [apply nth_error_Some; congruence|].
    rewrite jobs_eq, (nth_error_nth bs o [] Ho), (deliver_long _ _ I2). reflexivity.
Qed.

Lemma tree_hangs fuel fs sort base t ev bucket maxo bs path R n s :
  plan fuel fs sort base bucket maxo = Ok (Some bs) ->
  (forall l, order_files l (sort l)) -> base <> [] -> is_dir_node t -> wf_node t -> shows fs base t ->
  short_paths base t -> tab_free t -> 100000 <= bucket -> bucket mod 512 = 0 ->
  (forall p m, at_path t p m -> archivable m -> 2 ^ 31 + (match m with NFile size => 512 + up512 size | _ => 512 end) <= tree_bytes t) ->
  (1 <= R)%nat -> run (length bs) R (fun o => succeeds (jobs ev bucket path base bs o)) n s -> boss s <> BEnd.
Proof.
  intros Hpl Hs Hb Hd Hw Hsh Hsm Htab Hbk Hbm Hbig HR Hrun.
  apply plan_inv in Hpl as (dirs & files & d & f & Hsc & Hso & Hc).
  pose proof (scan_plannable _ _ _ _ _ _ _ _ Hsc Hb Hd Hw Hsh Hsm (Hs files) Hbk Hbm) as Hp.
  destruct (scan_entries _ _ _ _ _ _ _ Hsc Hb Hd Hw Hsh Htab (Hs files)) as (Hplain & l & Hl & Hsum).
  destruct (set_offsets_laid _ _ _ _ Hso) as (z & L & Md & Mf).
  assert (Mdf : map fst (d ++ f) = dirs ++ sort files) by (rewrite map_app; congruence).
  assert (Wf : Forall (fun eo => wf_item (fst eo)) (d ++ f)).
  { apply (Forall_fst wf_item (d ++ f) (dirs ++ sort files)); auto. destruct Hp as (_ & _ & _ & W & _). eapply Forall_impl; [|exact W]. intros ? []; auto. }
  assert (Hne : d ++ f <> []). { intros E. rewrite E in Mdf. destruct Hp as (_ & _ & Hne & _). apply Hne. symmetry. exact Mdf. }
  destruct (exists_last Hne) as (l' & [e off] & El).
  assert (Hes : esum (dirs ++ sort files) = tree_bytes t).
  { rewrite <- Hsum. clear -Hl. induction Hl as [|x pn es l (_ & X) _ IH]; [reflexivity|]. cbn [esum wsum fold_right]. unfold esum, wsum in IH.
    rewrite (node_bytes_eq _ _ X), IH. reflexivity. }
  rewrite <- Mdf, El, map_app in Hes. cbn [map fst] in Hes.
  assert (Happ : forall x y, esum (x ++ y) = esum x + esum y).
  { clear. induction x as [|a x IH]; intros y; [reflexivity|]. cbn [app]. change (entry_weight a + esum (x ++ y) = entry_weight a + esum x + esum y). rewrite IH. lia. }
  rewrite Happ in Hes. change (esum [e]) with (entry_weight e + 0) in Hes.
  rewrite El in L, Wf. apply Forall_app in Wf as [Wf1 _]. pose proof (laid_last l' e off 0 z L eq_refl Wf1) as Ho.
  assert (He : In e (dirs ++ sort files)) by (rewrite <- Mdf, El, map_app; apply in_or_app; right; left; reflexivity).
  assert (Hwe : 2 ^ 31 + entry_weight e <= tree_bytes t).
  { destruct (scan_any _ _ _ _ _ _ Hsc Hb Hd Hw Hsh) as (_ & _ & W & _). destruct (Hs files sort_by_size_swo) as [Pm _].
    assert (He' : In e (dirs ++ files)). { apply in_app_or in He as [He|He]; apply in_or_app; auto. right. eapply Permutation_in; [apply Permutation_sym|]; eauto. }
    destruct (W e He') as (_ & _ & p & m & A1 & _ & A3). assert (Ha : archivable m) by (destruct m; cbn in A3 |- *; auto).
    pose proof (Hbig p m A1 Ha) as X. rewrite (node_bytes_eq _ _ A3). destruct m; cbn in A3; try contradiction; exact X. }
  destruct (jobs_dead ev bucket path base 0 maxo dirs (sort files) d f bs e off) as (o & O1 & O2); auto.
  - unfold INT_MIN, INT_MAX. lia.
  - rewrite El. apply in_or_app. right. left. reflexivity.
  - lia.
  - exact (crash_hangs _ R _ n s o HR O1 O2 Hrun).
Qed.

(** *** exactly when a bundle can be moved *)
Lemma jobs_exact ev path base idx bucket maxo dirs files d f bs o B :
  plannable bucket dirs files -> set_offsets dirs files = (d, f) ->
  create_transfer_orders idx bucket maxo d f = Ok (Some bs) ->
  Forall plain (dirs ++ files) -> INT_MIN <= idx <= INT_MAX ->
  Forall (unchanged ev base) (dirs ++ files) ->
  nth_error bs o = Some B ->
  (succeeds (jobs ev bucket path base bs o) = true <-> movable bucket B).
Proof.
  intros Hp Hso Hc Hpl Hi Hu En.
  assert (HB : In B bs) by (eapply nth_error_In; eauto).
  pose proof (planned_nonul idx bucket maxo dirs files d f bs B Hp Hso Hc Hpl HB) as Hnul.
  destruct (planned_facts idx bucket maxo dirs files d f bs Hp Hso Hc (plain_clean _ Hpl) Hi) as (z & _ & P).
  assert (HP : Forall (fun x => INT_MIN <= o_index x <= INT_MAX /\ no_byte TAB (o_rel x) /\ o_type x <> TAB /\ no_byte TAB (o_target x) /\
     0 <= o_pos x /\ 0 <= o_hdr x /\ 0 <= o_size x /\ 0 <= o_fpos x) B).
  { rewrite Forall_forall in P |- *. intros x Hx. destruct (P x) as (A1 & A2 & A3 & A4 & A5 & A6 & A7 & A8 & A9); [apply in_concat; exists B; auto|].
    repeat split; auto; lia. }
  unfold movable. rewrite zlen_app. rewrite jobs_eq, (nth_error_nth bs o [] En). split.
  - intros Hj. destruct (Z.lt_ge_cases (zlen (b "C") + zlen (print_bundle B)) INT_MAX) as [Hl|Hl]; cycle 1.
    { rewrite (deliver_long _ _ Hl) in Hj. discriminate. }
    rewrite (deliver_ok (b "C") (print_bundle B) nonul_C Hnul Hl) in Hj.
    destruct (job ev (ready bucket path base) (b "C" ++ print_bundle B)) as [w|] eqn:Ej; [|discriminate].
    destruct (job_C ev bucket path base (print_bundle B) w Ej) as (os & P1 & P2).
    assert (Hall : Forall (fun x => sendable x \/ too_big x) B).
    { eapply Forall_impl; [|exact HP]. cbv beta. intros x (A1 & A2 & A3 & A4 & A5 & A6 & A7 & A8). unfold sendable, too_big, int31.
      destruct (Z.le_gt_cases (o_size x) INT_MAX); [|right; repeat split; auto; lia].
      destruct (Z.le_gt_cases (o_hdr x) INT_MAX); [|right; repeat split; auto; lia].
      destruct (Z.le_gt_cases (o_pos x) INT_MAX); [|right; repeat split; auto; lia].
      destruct (Z.le_gt_cases (o_fpos x) INT_MAX); [|right; repeat split; auto; lia].
      left; repeat split; auto; lia. }
    destruct (all_or_bad B Hall) as [Hs|He].
    + rewrite (C16_lemma B Hs (small_text _ Hl)) in P1. assert (os = B) by congruence. subst os.
      split; auto. split; [eapply move_data_fits; eauto|]. eapply Forall_impl; [|exact Hs]. cbv beta. unfold sendable, int31. intros x Hx. lia.
    + exfalso. destruct (first_bad B Hall He) as (pre & x & post & -> & S1 & S2). rewrite C16_over_lemma in P1; auto; [discriminate|]. apply small_text; auto.
  - intros (Hl & Hf & Hs). rewrite (deliver_ok (b "C") (print_bundle B) nonul_C Hnul Hl).
    assert (Hs' : Forall sendable B).
    { rewrite Forall_forall in *. intros x Hx. destruct (HP x Hx) as (A1 & A2 & A3 & A4 & A5 & A6 & A7 & A8). destruct (Hs x Hx) as (B1 & B2 & B3 & B4).
      unfold sendable, int31. repeat split; auto; lia. }
    destruct (bundle_image ev base idx bucket maxo dirs files d f bs B Hp Hso Hc Hu HB Hf) as (w & Hw & _).
    unfold job. rewrite (on_create (fun _ => false) ev bucket path base B w); auto; [destruct Hp as (Hp & _); lia|].
    apply (C16_lemma B Hs' (small_text _ Hl)).
Qed.

Lemma forall_nth {A} (P : A -> Prop) (l : list A) : (forall o x, nth_error l o = Some x -> P x) <-> Forall P l.
Proof.
  split.
  - intros H. apply Forall_forall. intros x Hx. apply In_nth_error in Hx as (o & Ho). eauto.
  - intros H o x Ho. rewrite Forall_forall in H. apply H. eapply nth_error_In; eauto.
Qed.

Lemma completes_iff ev path base idx bucket maxo dirs files d f bs R :
  plannable bucket dirs files -> set_offsets dirs files = (d, f) ->
  create_transfer_orders idx bucket maxo d f = Ok (Some bs) ->
  Forall plain (dirs ++ files) -> INT_MIN <= idx <= INT_MAX ->
  Forall (unchanged ev base) (dirs ++ files) -> (2 <= R)%nat ->
  let okb o := succeeds (jobs ev bucket path base bs o) in
  (Forall (movable bucket) bs -> forall n s, run (length bs) R okb n s -> exists s', leads (length bs) R okb s s' /\ boss s' = BEnd) /\
  (~ Forall (movable bucket) bs -> forall n s, run (length bs) R okb n s -> boss s <> BEnd).
Proof.
  intros Hp Hso Hc Hpl Hi Hu HR okb.
  assert (X : forall o B, nth_error bs o = Some B -> (okb o = true <-> movable bucket B)).
  { intros o B HB. eapply jobs_exact; eauto. }
  split.
  - intros Hm n s H. refine (finishes _ R okb HR _ _ n s H eq_refl). intros o Ho.
    destruct (nth_error bs o) as [B|] eqn:En; [|apply nth_error_None in En; lia]. apply (X o B En). apply (proj2 (forall_nth _ _) Hm o B En).
  - intros Hm n s H E. apply Hm. apply forall_nth. intros o B En. apply (X o B En). destruct (okb o) eqn:Eo; auto.
    exfalso. assert (Ho : (o < length bs)%nat) by (apply nth_error_Some; rewrite En; discriminate). apply (crash_hangs _ R okb n s o ltac:(lia) Ho Eo H E).
Qed.
