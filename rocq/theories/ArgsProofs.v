(** Lemmas behind C30. *)
From Verif Require Import Bytes Outcome Layout LayoutSpec LayoutProofs OrderCodec Args ArgsSpec.

(** arguments as exec delivers them are far below 4 GiB *)
Definition short (a : bytes) : Prop := zlen a < 2 ^ 32 - 1.

Lemma split_eq a : is_target a \/ exists f v, is_flag a f v.
Proof.
  induction a as [|c a IH]; [left; intros []|]. destruct (Ascii.eqb_spec c EQ) as [->|Hc].
  - right. exists [], a. split; [intros []|reflexivity].
  - destruct IH as [H|(f & v & H1 & ->)].
    + left. intros [E|E]; [congruence|]. apply H; auto.
    + right. exists (c :: f), v. split; [|reflexivity]. intros [E|E]; [congruence|]. apply H1; auto.
Qed.
Lemma flag_unique a f v f' v' : is_flag a f v -> is_flag a f' v' -> f = f' /\ v = v'.
Proof.
  intros [H1 ->] [H2 E]. pose proof (find_byte_app EQ f v H1) as E1. pose proof (find_byte_app EQ f' v' H2) as E2.
  cbn [app] in E. rewrite E in E1. rewrite E1 in E2. assert (L : length f' = length f) by congruence.
  assert (X : f = f').
  { apply (f_equal (firstn (length f))) in E. rewrite firstn_app, Nat.sub_diag, firstn_all, app_nil_r in E. rewrite E.
    rewrite <- L. rewrite firstn_app, Nat.sub_diag, firstn_all, app_nil_r. reflexivity. }
  subst f'. split; auto. apply app_inv_head in E. congruence.
Qed.
Lemma target_not_flag a f v : is_target a -> is_flag a f v -> False.
Proof. intros H [_ ->]. apply H. apply in_or_app. right. left. reflexivity. Qed.

Lemma parse_target o a : short a -> is_target a -> parse_arg o a = Ok (inl a).
Proof.
  intros Hs H. unfold parse_arg, equals_position. rewrite (find_byte_none EQ a H). unfold short in Hs.
  destruct (Z.ltb_spec (zlen a) (2 ^ 32 - 1)); [reflexivity|lia].
Qed.
Lemma parse_flag o a f v : short a -> is_flag a f v -> parse_arg o a =
    if bytes_eqb f (b "maxorders") then
      n <- get_stoi v ;; Ok (inr (Some {| op_bucket := op_bucket o; op_maxo := to_uint n; op_archive := op_archive o |}))
    else if bytes_eqb f (b "bucketsize") then
      n <- get_stoi v ;; Ok (inr (Some {| op_bucket := next_block_boundary (to_ulong n) mod 2 ^ 64; op_maxo := op_maxo o; op_archive := op_archive o |}))
    else if bytes_eqb f (b "archivefile") then
      Ok (inr (Some {| op_bucket := op_bucket o; op_maxo := op_maxo o; op_archive := v |}))
    else Ok (inr None).
Proof.
  intros Hs [H ->]. unfold short in Hs. rewrite !zlen_app in Hs. change (zlen [EQ]) with 1 in Hs. pose proof (zlen_nonneg v). pose proof (zlen_nonneg f).
  unfold parse_arg. assert (E : equals_position (f ++ [EQ] ++ v) = zlen f).
  { unfold equals_position. cbn [app]. rewrite find_byte_app by auto. change (Z.of_nat (length f)) with (zlen f). apply Z.mod_small. lia. }
  rewrite E, !zlen_app. change (zlen [EQ]) with 1. destruct (Z.ltb_spec (zlen f + (1 + zlen v)) (zlen f)); [lia|].
  assert (N : Z.to_nat (zlen f) = length f) by (unfold zlen; lia). rewrite N.
  assert (F : firstn (length f) (f ++ [EQ] ++ v) = f) by (rewrite firstn_app, Nat.sub_diag, firstn_all, app_nil_r; reflexivity).
  assert (G : skipn (S (length f)) (f ++ [EQ] ++ v) = v).
  { rewrite skipn_app, skipn_all2 by lia. replace (S (length f) - length f)%nat with 1%nat by lia. reflexivity. }
  rewrite F, G. reflexivity.
Qed.

(** what one acceptable argument does *)
Definition step_ok (o o' : opts) (a : bytes) (ts : list bytes) : Prop :=
  (is_target a /\ ts = [a] /\ o' = o) \/
  (exists v, is_flag a (b "archivefile") v /\ ts = [] /\ op_bucket o' = op_bucket o /\ op_maxo o' = op_maxo o /\ op_archive o' = v) \/
  (exists v n, is_flag a (b "maxorders") v /\ ts = [] /\ stoi v = Some n /\ op_bucket o' = op_bucket o /\ op_maxo o' = n mod 2 ^ 32 /\ op_archive o' = op_archive o) \/
  (exists v n, is_flag a (b "bucketsize") v /\ ts = [] /\ stoi v = Some n /\ op_bucket o' = up512 (n mod 2 ^ 64) mod 2 ^ 64 /\ op_maxo o' = op_maxo o /\ op_archive o' = op_archive o).
Lemma parse_arg_cases o a : short a ->
  (exists o' ts, step_ok o o' a ts /\ parse_arg o a = Ok (match ts with [] => inr (Some o') | _ => inl a end)) \/
  (unknown_flag a /\ parse_arg o a = Ok (inr None)) \/
  (bad_number a /\ parse_arg o a = Err EThrow).
Proof.
  intros Hs. destruct (split_eq a) as [Ht|(f & v & Hf)].
  - left. exists o, [a]. split; [left; auto|]. apply parse_target; auto.
  - rewrite (parse_flag o a f v Hs Hf). unfold get_stoi, of_option.
    destruct (bytes_eqb f (b "maxorders")) eqn:E1; [apply bytes_eqb_spec in E1; subst f|].
    { destruct (stoi v) as [n|] eqn:E; cbn [bind].
      - left. exists {| op_bucket := op_bucket o; op_maxo := to_uint n; op_archive := op_archive o |}, []. split; auto.
        right. right. left. exists v, n. repeat split; auto; apply Hf.
      - right. right. split; auto. exists (b "maxorders"), v. auto. }
    destruct (bytes_eqb f (b "bucketsize")) eqn:E2; [apply bytes_eqb_spec in E2; subst f|].
    { destruct (stoi v) as [n|] eqn:E; cbn [bind].
      - left. exists {| op_bucket := next_block_boundary (to_ulong n) mod 2 ^ 64; op_maxo := op_maxo o; op_archive := op_archive o |}, []. split; auto.
        right. right. right. exists v, n. rewrite nbb_spec. repeat split; auto; apply Hf.
      - right. right. split; auto. exists (b "bucketsize"), v. auto. }
    destruct (bytes_eqb f (b "archivefile")) eqn:E3; [apply bytes_eqb_spec in E3; subst f|].
    { left. exists {| op_bucket := op_bucket o; op_maxo := op_maxo o; op_archive := v |}, []. split; auto. right. left. exists v. repeat split; auto; apply Hf. }
    right. left. split; auto. exists f, v. split; auto. repeat split; intros ->; rewrite bytes_eqb_refl in *; discriminate.
Qed.

Lemma step_ts o o' a ts : step_ok o o' a ts -> (is_target a /\ ts = [a] /\ o' = o) \/ (ts = [] /\ exists f v, is_flag a f v).
Proof. intros [H|[(v & H & -> & _)|[(v & n & H & -> & _)|(v & n & H & -> & _)]]]; auto; right; split; eauto. Qed.

Inductive steps : opts -> list bytes -> opts -> list bytes -> Prop :=
| St_nil o : steps o [] o []
| St_cons o o1 o2 a args ts1 ts2 : step_ok o o1 a ts1 -> steps o1 args o2 ts2 -> steps o (a :: args) o2 (ts1 ++ ts2).

Lemma parse_args_inv args : forall o o' ts, Forall short args -> parse_args o args = Ok (Some (o', ts)) -> steps o args o' ts.
Proof.
  induction args as [|a args IH]; intros o o' ts Hs H; cbn [parse_args] in H.
  - assert (o' = o /\ ts = []) as [-> ->] by (split; congruence). constructor.
  - inversion Hs as [|? ? Ha Hr]; subst. destruct (parse_arg_cases o a Ha) as [(o1 & t1 & S1 & E)|[(_ & E)|(_ & E)]]; rewrite E in H; cbn [bind] in H; try discriminate.
    destruct (step_ts _ _ _ _ S1) as [(T & -> & ->)|(-> & _)].
    + destruct (parse_args o args) as [[[o2 ts2]|]|] eqn:P; cbn [bind] in H; try discriminate.
      assert (o' = o2 /\ ts = a :: ts2) as [-> ->] by (split; congruence). change (a :: ts2) with ([a] ++ ts2). econstructor; eauto.
    + change ts with ([] ++ ts). econstructor; eauto.
Qed.
Lemma step_acceptable o o' a ts : step_ok o o' a ts -> acceptable a.
Proof.
  intros [(H & _)|[(v & H & _)|[(v & n & H & _ & E & _)|(v & n & H & _ & E & _)]]]; [left; auto|right; left; eauto|..];
    right; right; do 3 eexists; split; [left|..|right|]; eauto.
Qed.
Lemma steps_fwd args : forall o, Forall short args -> Forall acceptable args -> exists o' ts, parse_args o args = Ok (Some (o', ts)).
Proof.
  induction args as [|a args IH]; intros o Hs Ha; [do 2 eexists; reflexivity|]. inversion Hs; inversion Ha; subst. cbn [parse_args].
  destruct (parse_arg_cases o a H1) as [(o1 & t1 & S1 & E)|[((f & v & Hf & N1 & N2 & N3) & E)|((f & v & Hm & Hf & Hn) & E)]]; rewrite E; cbn [bind].
  - destruct t1; [apply IH; auto|]. destruct (IH o H2 H6) as (o' & ts & ->). cbn [bind]. eauto.
  - exfalso. destruct H5 as [T|[(w & Hw)|(g & w & n & Hg & Hw & _)]].
    + eapply target_not_flag; eauto. + destruct (flag_unique _ _ _ _ _ Hf Hw). auto.
    + destruct (flag_unique _ _ _ _ _ Hf Hw) as [-> _]. destruct Hg; auto.
  - exfalso. destruct H5 as [T|[(w & Hw)|(g & w & n & Hg & Hw & En)]].
    + eapply target_not_flag; eauto.
    + destruct (flag_unique _ _ _ _ _ Hf Hw) as [-> _]. destruct Hm as [X|X]; vm_compute in X; discriminate X.
    + destruct (flag_unique _ _ _ _ _ Hf Hw) as [_ ->]. congruence.
Qed.
Lemma parse_stops good : forall o a rest, Forall short (good ++ [a]) -> Forall acceptable good ->
  (unknown_flag a -> parse_args o (good ++ a :: rest) = Ok None) /\ (bad_number a -> parse_args o (good ++ a :: rest) = Err EThrow).
Proof.
  induction good as [|g good IH]; intros o a rest Hs Ha.
  - inversion Hs; subst. cbn [app parse_args]. destruct (parse_arg_cases o a H1) as [(o1 & t1 & S1 & E)|[((f & v & Hf & N1 & N2 & N3) & E)|((f & v & Hm & Hf & Hn) & E)]]; rewrite E; cbn [bind].
    + apply step_acceptable in S1. split; intros X; exfalso.
      * destruct X as (f & v & Hf & N1 & N2 & N3). destruct S1 as [T|[(w & Hw)|(g & w & n & Hg & Hw & _)]]; [eapply target_not_flag; eauto|..];
          destruct (flag_unique _ _ _ _ _ Hf Hw) as [-> _]; auto. destruct Hg; auto.
      * destruct X as (f & v & Hm & Hf & Hn). destruct S1 as [T|[(w & Hw)|(g & w & n & Hg & Hw & En)]]; [eapply target_not_flag; eauto|..].
        -- destruct (flag_unique _ _ _ _ _ Hf Hw) as [-> _]. destruct Hm as [X|X]; vm_compute in X; discriminate X.
        -- destruct (flag_unique _ _ _ _ _ Hf Hw) as [_ ->]. congruence.
    + split; auto. intros (f' & v' & Hm & Hf' & _). destruct (flag_unique _ _ _ _ _ Hf Hf') as [-> _]. exfalso. destruct Hm; auto.
    + split; auto. intros (f' & v' & Hf' & N1 & N2 & _). destruct (flag_unique _ _ _ _ _ Hf Hf') as [-> _]. exfalso. destruct Hm; auto.
  - cbn [app] in *. inversion Hs as [|? ? Hg Hs']; inversion Ha as [|? ? Ag Ar]; subst. cbn [parse_args].
    destruct (parse_arg_cases o g Hg) as [(o1 & t1 & S1 & E)|[((f & v & Hf & N1 & N2 & N3) & E)|((f & v & Hm & Hf & Hn) & E)]]; rewrite E; cbn [bind].
    + destruct t1; [apply IH; auto|]. destruct (IH o a rest Hs' Ar) as [I1 I2]. split; intros X; [rewrite (I1 X)|rewrite (I2 X)]; reflexivity.
    + exfalso. destruct Ag as [T|[(w & Hw)|(g' & w & n & Hg' & Hw & _)]]; [eapply target_not_flag; eauto|..];
        destruct (flag_unique _ _ _ _ _ Hf Hw) as [-> _]; auto. destruct Hg'; auto.
    + exfalso. destruct Ag as [T|[(w & Hw)|(g' & w & n & Hg' & Hw & En)]]; [eapply target_not_flag; eauto|..].
      * destruct (flag_unique _ _ _ _ _ Hf Hw) as [-> _]. destruct Hm as [X|X]; vm_compute in X; discriminate X.
      * destruct (flag_unique _ _ _ _ _ Hf Hw) as [_ ->]. congruence.
Qed.

Lemma steps_targets o args o' ts : steps o args o' ts -> targets args ts.
Proof.
  induction 1 as [|o o1 o2 a args t1 t2 S1 _ IH]; [constructor|].
  destruct (step_ts _ _ _ _ S1) as [(T & -> & ->)|(-> & f & v & Hf)]; cbn [app]; [constructor; auto|econstructor 3; eauto].
Qed.
Lemma steps_acceptable o args o' ts : steps o args o' ts -> Forall acceptable args.
Proof. induction 1; constructor; auto. eapply step_acceptable; eauto. Qed.

(** generic "last one wins": [g] is the component a flag sets *)
Section Last.
Context {A : Type} (flag : bytes) (g : opts -> A) (val : bytes -> A -> Prop).
Hypothesis Hflag : no_byte EQ flag.
Hypothesis Hset : forall o o' a v ts, step_ok o o' a ts -> is_flag a flag v -> val v (g o').
Hypothesis Hkeep : forall o o' a ts, step_ok o o' a ts -> (forall v, ~ is_flag a flag v) -> g o' = g o.
Lemma steps_last o args o' ts : steps o args o' ts ->
  (forall v, last_value flag args v -> val v (g o')) /\ (never_given flag args -> g o' = g o).
Proof.
  induction 1 as [o|o o1 o2 a args t1 t2 S1 S2 [IH1 IH2]].
  - split; auto. intros v (pre & post & E & _). destruct pre; discriminate.
  - split.
    + intros v (pre & post & E & Hl). destruct pre as [|x pre].
      * cbn [app] in E. injection E as -> ->. rewrite IH2; [|exact Hl]. eapply Hset; eauto. split; auto.
      * cbn [app] in E. injection E as _ ->. apply IH1. exists pre, post. auto.
    + intros N. rewrite IH2 by (intros w Hw; apply (N w); right; auto). eapply Hkeep; eauto. intros v [_ ->]. apply (N v). left. reflexivity.
Qed.
End Last.

Ltac nofl := vm_compute; let F := fresh in intros F; repeat destruct F as [F|F]; try discriminate F; try contradiction.
Lemma nf_arch : no_byte EQ (b "archivefile"). Proof. nofl. Qed.
Lemma nf_max : no_byte EQ (b "maxorders"). Proof. nofl. Qed.
Lemma nf_bkt : no_byte EQ (b "bucketsize"). Proof. nofl. Qed.

Ltac other_flag Hf Hw := exfalso; destruct (flag_unique _ _ _ _ _ Hf Hw) as [X _]; vm_compute in X; discriminate X.
Lemma steps_archive o args o' ts : steps o args o' ts ->
  (forall v, last_value (b "archivefile") args v -> op_archive o' = v) /\ (never_given (b "archivefile") args -> op_archive o' = op_archive o).
Proof.
  intros S. apply (steps_last (b "archivefile") op_archive (fun v x => x = v) nf_arch) with (ts := ts) (args := args); auto; clear.
  - intros o o' a v ts [(H & _)|[(w & H & _ & _ & _ & E)|[(w & n & H & _)|(w & n & H & _)]]] Hf.
    + exfalso; eapply target_not_flag; eauto. + destruct (flag_unique _ _ _ _ _ Hf H). congruence. + other_flag Hf H. + other_flag Hf H.
  - intros o o' a ts [(_ & _ & ->)|[(w & H & _)|[(w & n & _ & _ & _ & _ & _ & E)|(w & n & _ & _ & _ & _ & _ & E)]]] Hn; auto. exfalso. eapply Hn; eauto.
Qed.
Lemma steps_maxo o args o' ts : steps o args o' ts ->
  (forall v, last_value (b "maxorders") args v -> exists n, stoi v = Some n /\ op_maxo o' = n mod 2 ^ 32) /\
  (never_given (b "maxorders") args -> op_maxo o' = op_maxo o).
Proof.
  intros S. apply (steps_last (b "maxorders") op_maxo (fun v x => exists n, stoi v = Some n /\ x = n mod 2 ^ 32) nf_max) with (ts := ts) (args := args); auto; clear.
  - intros o o' a v ts [(H & _)|[(w & H & _)|[(w & n & H & _ & E & _ & E' & _)|(w & n & H & _)]]] Hf.
    + exfalso; eapply target_not_flag; eauto. + other_flag Hf H. + destruct (flag_unique _ _ _ _ _ Hf H) as [_ ->]. eauto. + other_flag Hf H.
  - intros o o' a ts [(_ & _ & ->)|[(w & _ & _ & _ & E & _)|[(w & n & H & _)|(w & n & _ & _ & _ & _ & E & _)]]] Hn; auto. exfalso. eapply Hn; eauto.
Qed.
Lemma steps_bucket o args o' ts : steps o args o' ts ->
  (forall v, last_value (b "bucketsize") args v -> exists n, stoi v = Some n /\ op_bucket o' = up512 (n mod 2 ^ 64) mod 2 ^ 64) /\
  (never_given (b "bucketsize") args -> op_bucket o' = op_bucket o).
Proof.
  intros S. apply (steps_last (b "bucketsize") op_bucket (fun v x => exists n, stoi v = Some n /\ x = up512 (n mod 2 ^ 64) mod 2 ^ 64) nf_bkt) with (ts := ts) (args := args); auto; clear.
  - intros o o' a v ts [(H & _)|[(w & H & _)|[(w & n & H & _)|(w & n & H & _ & E & E' & _)]]] Hf.
    + exfalso; eapply target_not_flag; eauto. + other_flag Hf H. + other_flag Hf H. + destruct (flag_unique _ _ _ _ _ Hf H) as [_ ->]. eauto.
  - intros o o' a ts [(_ & _ & ->)|[(w & _ & _ & E & _)|[(w & n & _ & _ & _ & E & _)|(w & n & H & _)]]] Hn; auto. exfalso. eapply Hn; eauto.
Qed.

Lemma stoi_range v n : stoi v = Some n -> INT_MIN <= n <= INT_MAX.
Proof.
  unfold stoi. destruct (scan_int v) as [[x r]|]; [|discriminate]. destruct (Z.leb_spec INT_MIN x), (Z.leb_spec x INT_MAX); cbn [andb]; try discriminate.
  intros E. injection E as <-. lia.
Qed.
Lemma round_bucket v n : stoi v = Some n -> 0 <= n ->
  n <= up512 (n mod 2 ^ 64) mod 2 ^ 64 < n + 512 /\ (up512 (n mod 2 ^ 64) mod 2 ^ 64) mod 512 = 0.
Proof.
  intros H Hn. apply stoi_range in H. unfold INT_MAX in H. rewrite (Z.mod_small n) by lia. pose proof (up512_bounds n).
  rewrite Z.mod_small by lia. lia.
Qed.
Lemma round_negative v n : stoi v = Some n -> n < 0 ->
  let q := up512 (n mod 2 ^ 64) mod 2 ^ 64 in q = 0 \/ INT_MAX < q.
Proof.
  intros H Hn. apply stoi_range in H. unfold INT_MIN, INT_MAX in *. cbv zeta.
  assert (E : n mod 2 ^ 64 = n + 2 ^ 64) by (rewrite <- (Z.mod_small (n + 2 ^ 64) (2 ^ 64)) by lia; symmetry; rewrite <- Z.add_mod_idemp_r, Z.mod_same, Z.add_0_r by lia; reflexivity).
  rewrite E. pose proof (up512_bounds (n + 2 ^ 64)) as [B M]. pose proof (up512_le (n + 2 ^ 64) (2 ^ 64) ltac:(lia) eq_refl) as U.
  destruct (Z.eq_dec (up512 (n + 2 ^ 64)) (2 ^ 64)) as [X|X]; [left; rewrite X; apply Z.mod_same; lia|right].
  rewrite Z.mod_small by lia. change (2 ^ 64) with 18446744073709551616 in *. lia.
Qed.
