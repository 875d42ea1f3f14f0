(** Where the 0.5.1 layout puts the fragments: bucket by bucket, packed from
    the beginning of each bucket. *)
From Verif Require Import Bytes Outcome TarModel Legacy LegacyProofs LegacyLayout LegacySpec LegacyLayoutProofs LegacyRanks.
From Coq Require Import Lia.

Section seats.
Variables (blk P : Z) (pad : bytes).
Hypothesis Hblk : 0 < blk.
Hypothesis HP : 0 < P.
Hypothesis HPb : P mod blk = 0.

(** the room a fragment takes in its bucket *)
Definition bsz (f : lent) : Z := blocked_up blk (Z.max 0 (l_size f) + (if l_orig f =? 0 then l_hdr f else 0)).

(** later fragments of entry [e] (first byte of its header at [s]): each at the
    start of the next bucket, the one before being full.  State: bucket, end of the
    data in it, offset in the file. *)
Inductive follows (e : lent) (s : Z) : Z -> Z -> Z -> list lent -> Z -> Z -> Z -> Prop :=
| Fo_nil i w o : follows e s i w o [] i w o
| Fo_cons i o f g i' w' o' :
    same_file e f -> l_bucket f = i + 1 -> l_loc f = (i + 1) * P -> l_loc f = s + l_hdr e + o -> l_orig f = o -> 0 < o -> 0 <= l_size f ->
    bsz f <= P -> follows e s (i + 1) (bsz f) (o + l_size f) g i' w' o' -> follows e s i P o (f :: g) i' w' o'.

(** entries and their fragments, from bucket [i] with [w] bytes used *)
Inductive seated : Z -> Z -> list lent -> list lent -> Prop :=
| Se_nil i w : seated i w [] []
| Se_cons i w e l f g fs j u i' w' total :
    (j = i /\ u = w) \/ (j = i + 1 /\ u = 0) -> u + bsz f <= P ->
    same_file e f -> l_bucket f = j -> l_orig f = 0 -> l_loc f = j * P + u + l_hdr e ->
    (l_size e < 0 -> g = [] /\ l_size f = l_size e) -> (0 <= l_size e -> 0 <= l_size f /\ l_size e <= total) ->
    follows e (j * P + u) j (u + bsz f) (l_size f) g i' w' total ->
    i' * P + w' = j * P + u + blocked_up blk (sum_size e) -> 0 < w' <= P ->
    seated i' w' l fs -> seated i w (e :: l) (f :: g ++ fs).

(** *** the buckets *)
Fixpoint sumb (es : list lent) : Z := match es with [] => 0 | e :: es' => bsz e + sumb es' end.
Fixpoint packed (base w : Z) (es : list lent) : Prop :=
  match es with [] => True | e :: es' => frag_start e = base + w /\ packed base (w + bsz e) es' end.
Definition bucket_of (j : Z) (fs : list lent) : list lent := filter (fun e => l_bucket e =? j) fs.
Definition from (i w j : Z) : Z := if j =? i then w else 0.
Definition good (i w : Z) (fs : list lent) : Prop :=
  Forall (fun f => i <= l_bucket f) fs /\
  forall j, i <= j -> packed (j * P) (from i w j) (bucket_of j fs) /\ from i w j + sumb (bucket_of j fs) <= P.

Lemma bucket_of_none j fs : Forall (fun f => j < l_bucket f) fs -> bucket_of j fs = [].
Proof. intros H. apply filter_none. eapply Forall_impl; [|exact H]. cbn. intros a Ha. lia. Qed.
Lemma bucket_of_same f fs : bucket_of (l_bucket f) (f :: fs) = f :: bucket_of (l_bucket f) fs.
Proof. unfold bucket_of. cbn [filter]. rewrite Z.eqb_refl. reflexivity. Qed.
Lemma bucket_of_other j f fs : l_bucket f <> j -> bucket_of j (f :: fs) = bucket_of j fs.
Proof. intros H. unfold bucket_of. cbn [filter]. destruct (Z.eqb_spec (l_bucket f) j); [congruence|reflexivity]. Qed.

Lemma good_step i w f fs j u : w <= P -> (j = i /\ u = w) \/ (j = i + 1 /\ u = 0) -> l_bucket f = j -> frag_start f = j * P + u ->
  good j (u + bsz f) fs -> good i w (f :: fs).
Proof.
  intros Hw Hj Hb Hs (F & G). split.
  - constructor; [lia|]. eapply Forall_impl; [|exact F]. cbn. intros; lia.
  - intros k Hk. destruct (Z.eq_dec k j) as [->|N].
    + subst j. rewrite bucket_of_same. cbn [packed sumb]. destruct (G _ (Z.le_refl _)) as (G1 & G2).
      unfold from in *. rewrite Z.eqb_refl in G1, G2.
      assert (E : (if l_bucket f =? i then w else 0) = u) by (destruct Hj as [(-> & ->)|(-> & ->)]; [rewrite Z.eqb_refl; auto|destruct (Z.eqb_spec (i + 1) i); lia]).
      rewrite E. repeat split; auto. lia.
    + rewrite bucket_of_other by lia. destruct (Z.le_gt_cases j k) as [L|L].
      * destruct (G k L) as (G1 & G2). unfold from in *. destruct (Z.eqb_spec k j); [lia|]. destruct (Z.eqb_spec k i); [lia|]. auto.
      * assert (k = i) by lia. subst k. rewrite bucket_of_none by (eapply Forall_impl; [|exact F]; cbn; intros; lia).
        cbn [packed sumb]. unfold from. rewrite Z.eqb_refl. split; auto. lia.
Qed.
Lemma follows_good e s i w o g i' w' o' fs : follows e s i w o g i' w' o' -> good i' w' fs -> good i w (g ++ fs).
Proof.
  induction 1 as [|i o f g i' w' o' S1 S2 S3 S4 S5 S6 S7 S8 _ IH]; intros Hg; [exact Hg|]. cbn [app].
  apply (good_step i P f (g ++ fs) (i + 1) 0); [lia|right; split; reflexivity|exact S2| |rewrite Z.add_0_l; exact (IH Hg)].
  unfold frag_start. destruct (Z.eqb_spec (l_orig f) 0); lia.
Qed.
Lemma seated_good i w l fs : seated i w l fs -> w <= P -> good i w fs.
Proof.
  induction 1 as [i w|i w e l f g fs j u i' w' total Hj Hu Hsf Hb Ho Hl _ _ Hf _ Hw' _ IH]; intros Hw.
  - split; [constructor|]. intros j Hj. cbn. unfold from. destruct (j =? i); split; auto; lia.
  - specialize (IH ltac:(lia)). apply (good_step i w f (g ++ fs) j u); auto.
    + unfold frag_start. rewrite Ho, Z.eqb_refl. destruct Hsf as (_ & _ & _ & _ & ->). lia.
    + eapply follows_good; eauto.
Qed.

(** *** the layout is seated *)
Lemma blocked_add s m : m mod blk = 0 -> blocked_up blk (s + m) = blocked_up blk s + m.
Proof.
  intros Hm. destruct (blocked_bounds blk s Hblk) as (A & B). destruct (blocked_bounds blk (s + m) Hblk) as (C & D).
  assert (E : (blocked_up blk s + m) mod blk = 0) by (rewrite Z.add_mod, B, Hm by lia; apply Z.mod_0_l; lia).
  assert (L1 : blocked_up blk (s + m) <= blocked_up blk s + m) by (apply blocked_le; auto; lia).
  assert (F : (blocked_up blk (s + m) - m) mod blk = 0) by (rewrite Zminus_mod, D, Hm; apply Z.mod_0_l; lia).
  assert (L2 : blocked_up blk s <= blocked_up blk (s + m) - m) by (apply blocked_le; auto; lia). lia.
Qed.
Lemma blocked_id s : s mod blk = 0 -> blocked_up blk s = s.
Proof. intros H. unfold blocked_up. rewrite H. reflexivity. Qed.

Definition posn (p : lpos) (i w : Z) : Prop :=
  0 < w <= P /\ w_all p = i * P + w /\ ((w_bucket p = i /\ w_rank p = w) \/ (w = P /\ w_bucket p = i + 1 /\ w_rank p = 0)).

Lemma sum_size_pos e : 0 < l_hdr e -> 0 < sum_size e.
Proof. unfold sum_size. destruct (Z.leb_spec 0 (l_size e)); lia. Qed.
Lemma sum_size_max e : sum_size e = Z.max 0 (l_size e) + l_hdr e.
Proof. unfold sum_size. destruct (Z.leb_spec 0 (l_size e)); lia. Qed.

(** one small entry *)
Lemma small_seat p i w e e1 fs1 p1 : posn p i w -> fits blk P e -> place_one blk P pad p e = Ok (Some (e1, fs1, p1)) ->
  exists i' w', posn p1 i' w' /\ 0 < w' <= P /\ forall l fs, seated i' w' l fs -> seated i w (e :: l) (fs1 ++ fs).
Proof.
  intros (Hw & Ha & Hp) Hf. unfold fits in Hf. unfold place_one. destruct (Z.leb_spec (l_hdr e) 0) as [|Hh]; [discriminate|].
  destruct (blocked_bounds blk (sum_size e) Hblk) as (B1 & B2). pose proof (sum_size_pos e Hh) as Hs.
  assert (Eb : forall f, l_size f = l_size e -> l_hdr f = l_hdr e -> l_orig f = 0 -> bsz f = blocked_up blk (sum_size e)).
  { intros f E1 E2 E3. unfold bsz. rewrite E1, E2, E3, Z.eqb_refl, sum_size_max. reflexivity. }
  set (bs := blocked_up blk (sum_size e)) in *.
  destruct (Z.leb_spec bs P) as [_|]; [|lia].
  assert (Core : forall (f : lent) j u, (j = i /\ u = w) \/ (j = i + 1 /\ u = 0) -> u + bs <= P -> same_file e f -> l_bucket f = j -> l_orig f = 0 ->
     l_loc f = j * P + u + l_hdr e -> l_size f = l_size e -> forall l fs, seated j (u + bs) l fs -> seated i w (e :: l) ([f] ++ fs)).
  { intros f j u Hj Hu Hsf Hb Ho Hl Hz l fs Hse. change ([f] ++ fs) with (f :: [] ++ fs).
    assert (Eq : bsz f = bs) by (apply Eb; auto; apply Hsf).
    apply (Se_cons i w e l f [] fs j u j (u + bs) (l_size f)); auto; try lia. rewrite Eq. constructor. }
  destruct (Z.leb_spec (w_rank p + bs) P) as [HA|HA].
  - intros E. injection E as <- <- <-.
    destruct Hp as [(Hp1 & Hp2)|(Hp0 & Hp1 & Hp2)].
    + exists i, (w + bs). rewrite Hp2 in *. split; [|split; [lia|]].
      * unfold posn. cbn [w_all w_rank w_bucket]. destruct (Z.eqb_spec bs P); [lia|]. repeat split; try lia.
      * apply (Core _ i w); auto; try lia; cbn; try (repeat split; reflexivity). lia.
    + exists (i + 1), bs. split; [|split; [lia|]].
      * unfold posn. cbn [w_all w_rank w_bucket]. rewrite Hp1, Hp2. destruct (Z.eqb_spec bs P); repeat split; lia.
      * intros l fs Hse. replace bs with (0 + bs) in Hse by lia. revert l fs Hse. apply (Core _ (i + 1) 0); auto; try lia; cbn; try (repeat split; reflexivity). lia.
  - destruct (set_pad blk pad ((w_bucket p + 1) * P - w_all p) (w_all p) (set_loc e ((w_bucket p + 1) * P))) as [[e0|]|] eqn:Ep; cbn [bind]; try discriminate.
    intros E. injection E as <- <- <-. destruct Hp as [(Hp1 & Hp2)|(Hp0 & Hp1 & Hp2)]; [|lia].
    destruct (set_pad_same blk pad _ _ _ _ Ep) as (Hsf & Hz).
    exists (i + 1), bs. rewrite Hp1 in *. split; [|split; [lia|]].
    + unfold posn. cbn [w_all w_rank w_bucket]. destruct (Z.eqb_spec bs P); repeat split; lia.
    + intros l fs Hse. replace bs with (0 + bs) in Hse by lia. revert l fs Hse. apply (Core _ (i + 1) 0); auto; try lia; cbn. lia.
Qed.

Lemma follows_app e s i w o g i1 w1 o1 g2 i2 w2 o2 : follows e s i w o g i1 w1 o1 -> follows e s i1 w1 o1 g2 i2 w2 o2 -> follows e s i w o (g ++ g2) i2 w2 o2.
Proof. induction 1; intros HH; cbn [app]; auto. eapply Fo_cons; eauto. Qed.

Lemma same_trans e f g : same_file e f -> same_file f g -> same_file e g.
Proof. unfold same_file. intuition congruence. Qed.

(** whole buckets of a big file *)
Lemma whole_follows e e1 nt n : same_file e e1 -> 0 < l_hdr e < P -> forall j b0, 1 <= j ->
  follows e ((b0 - j) * P) (b0 - 1) P (P * j - l_hdr e) (whole_frags P e1 nt n j b0) (b0 + Z.of_nat n - 1) P (P * (j + Z.of_nat n) - l_hdr e).
Proof.
  intros Hsf Hh. induction n as [|n IH]; intros j b0 Hj.
  - cbn [whole_frags]. replace (b0 + Z.of_nat 0 - 1) with (b0 - 1) by lia. replace (P * (j + Z.of_nat 0) - l_hdr e) with (P * j - l_hdr e) by lia. constructor.
  - cbn [whole_frags]. destruct (Z.eqb_spec j 0); [lia|].
    assert (Hhe : l_hdr e1 = l_hdr e) by apply Hsf.
    assert (Ho : 0 < P * j - l_hdr e) by nia.
    assert (Ez : bsz (frag e1 P (b0 * P) (P * j - l_hdr e1) nt b0) = P).
    { unfold bsz. cbn [frag stored mod_request q_size q_orig l_size l_orig]. rewrite Hhe. destruct (Z.eqb_spec (P * j - l_hdr e) 0); [lia|].
      rewrite Z.max_r, Z.add_0_r by lia. apply blocked_id. exact HPb. }
    set (f := frag e1 P (b0 * P) (P * j - l_hdr e1) nt b0) in *.
    assert (F1 : l_bucket f = b0) by reflexivity. assert (F2 : l_loc f = b0 * P) by reflexivity.
    assert (F3 : l_orig f = P * j - l_hdr e1) by reflexivity. assert (F4 : l_size f = P) by reflexivity.
    apply Fo_cons; try lia.
    + eapply same_trans; [exact Hsf|]. repeat split; reflexivity.
    + rewrite F4.
      rewrite Ez. specialize (IH (j + 1) (b0 + 1) ltac:(lia)).
      replace (b0 + 1 - (j + 1)) with (b0 - j) in IH by lia. replace (b0 + 1 - 1) with b0 in IH by lia.
      replace (b0 - 1 + 1) with b0 by lia. replace (P * j - l_hdr e + P) with (P * (j + 1) - l_hdr e) by lia.
      replace (b0 + Z.of_nat (S n) - 1) with (b0 + 1 + Z.of_nat n - 1) by lia. replace (j + Z.of_nat (S n)) with (j + 1 + Z.of_nat n) by lia. exact IH.
Qed.

Lemma big_seat p i w e e1 fs1 p1 : near P i p -> ~ fits blk P e -> l_hdr e < P -> room_left blk P e ->
  place_one blk P pad p e = Ok (Some (e1, fs1, p1)) ->
  exists i' w', near P i' p1 /\ 0 < w' <= P /\ forall l fs, seated i' w' l fs -> seated i w (e :: l) (fs1 ++ fs).
Proof.
  intros Hn Hf HhP Hr. unfold fits in Hf. unfold place_one. destruct (Z.leb_spec (l_hdr e) 0) as [|Hh]; [discriminate|].
  unfold room_left in Hr. destruct (blocked_bounds blk (sum_size e) Hblk) as (B1 & B2).
  set (bs := blocked_up blk (sum_size e)) in *. destruct (Z.leb_spec bs P) as [|Hbig]; [lia|].
  assert (Hsz : 0 <= l_size e /\ sum_size e = l_size e + l_hdr e).
  { unfold sum_size in *. destruct (Z.leb_spec 0 (l_size e)); [lia|]. exfalso.
    assert (bs <= P); [|lia]. unfold bs. apply blocked_le; auto. lia. }
  set (bkt := if w_all p mod P =? 0 then w_all p / P else w_all p / P + 1).
  assert (Hb : bkt = i + 1).
  { unfold bkt, near in *. pose proof (Z.mod_pos_bound (w_all p) P HP) as G1. pose proof (Z.div_mod (w_all p) P ltac:(lia)) as G2.
    clear - G1 G2 Hn HP. set (q := w_all p / P) in *; set (r := w_all p mod P) in *; clearbody q r. destruct (Z.eqb_spec r 0); nia. }
  clearbody bkt. subst bkt.
  destruct (set_pad blk pad ((i + 1) * P - w_all p) (w_all p) (set_loc e ((i + 1) * P))) as [[e0|]|] eqn:Ep; cbn [bind]; try discriminate.
  destruct (set_pad_same blk pad _ _ _ _ Ep) as (Hsf & _). assert (Hsf' : same_file e e0) by (eapply same_trans; [|exact Hsf]; repeat split; reflexivity).
  assert (Hhe : l_hdr e0 = l_hdr e) by apply Hsf'.
  assert (Hnw : 1 <= bs / P) by (apply Z.div_le_lower_bound; lia).
  pose proof (Z.mod_pos_bound bs P HP) as Hmp. pose proof (Z.div_mod bs P ltac:(lia)) as Hdm.
  assert (Ebs : bs = blocked_up blk (sum_size e)) by reflexivity.
  set (nw := bs / P) in *. set (r := bs mod P) in *. clearbody nw r.
  set (nt := if negb (r =? 0) then nw + 1 else nw).
  destruct (Z.to_nat nw) as [|n] eqn:En; [lia|]. cbn [whole_frags]. change (0 =? 0) with true. cbv iota. change (0 + 1) with 1.
  set (f0 := frag e0 (P - l_hdr e0) ((i + 1) * P + l_hdr e0) 0 nt (i + 1)).
  assert (Ez0 : bsz f0 = P).
  { unfold bsz, f0. cbn [frag stored mod_request q_size q_orig q_hdr l_size l_orig l_hdr]. rewrite Z.eqb_refl, Hhe, Z.max_r by lia.
    replace (P - l_hdr e + l_hdr e) with P by lia. apply blocked_id. exact HPb. }
  pose proof (whole_follows e e0 nt n Hsf' (conj Hh HhP) 1 (i + 1 + 1) ltac:(lia)) as Hwf.
  replace (i + 1 + 1 - 1) with (i + 1) in Hwf by lia. replace (1 + Z.of_nat n) with nw in Hwf by lia. replace (i + 1 + 1 + Z.of_nat n - 1) with (i + nw) in Hwf by lia.
  replace (P * 1 - l_hdr e) with (P - l_hdr e) in Hwf by lia.
  set (wf := whole_frags P e0 nt n 1 (i + 1 + 1)) in *. clearbody wf.
  assert (Hnn : 0 <= P * nw - l_hdr e) by nia.
  destruct (Z.eqb_spec r 0) as [Er|Er]; cbn [negb]; intros E; injection E as <- <- <-.
  - exists (i + nw), P. split; [unfold near; cbn [w_all]; nia|]. split; [lia|]. intros l fs Hse. cbn [app].
    eapply (Se_cons i w e l f0 wf fs (i + 1) 0 (i + nw) P (P * nw - l_hdr e)); auto; try lia; try (unfold f0; cbn; lia).
    + rewrite Ez0. replace (l_size f0) with (P - l_hdr e) by (unfold f0; cbn; lia). rewrite !Z.add_0_r, !Z.add_0_l. exact Hwf.
  - set (fl := frag e0 (l_size e - (nw * P - l_hdr e)) ((i + 1 + nw) * P) (P * nw - l_hdr e) nt (i + 1 + nw)).
    assert (Hrem : nw * P < sum_size e). { apply (blocked_mult blk); auto; [|fold bs; nia]. apply Z.mod_divide in HPb; [|lia]. destruct HPb as (q & Eq). rewrite Eq. rewrite Z.mul_assoc. apply Z.mod_mul. lia. }
    assert (Ho : 0 < P * nw - l_hdr e) by nia.
    assert (Ezl : bsz fl = r).
    { unfold bsz, fl. cbn [frag stored mod_request q_size q_orig l_size l_orig]. destruct (Z.eqb_spec (P * nw - l_hdr e) 0); [lia|].
      rewrite Z.max_r, Z.add_0_r by lia.
      assert (X : blocked_up blk (sum_size e) = blocked_up blk (l_size e - (nw * P - l_hdr e)) + nw * P).
      { rewrite <- blocked_add; [f_equal; lia|]. apply Z.mod_divide in HPb; [|lia]. destruct HPb as (q & Eq). rewrite Eq. rewrite Z.mul_assoc. apply Z.mod_mul. lia. }
      lia. }
    exists (i + 1 + nw), r. split; [unfold near; cbn [w_all]; nia|]. split; [lia|]. intros l fs Hse. cbn [app]. 
    eapply (Se_cons i w e l f0 (wf ++ [fl]) fs (i + 1) 0 (i + 1 + nw) r (l_size e)); auto; try lia; try (unfold f0; cbn; lia).
    + rewrite Ez0. replace (l_size f0) with (P - l_hdr e) by (unfold f0; cbn; lia). rewrite !Z.add_0_r, !Z.add_0_l.
      eapply follows_app; [exact Hwf|]. 
      apply Fo_cons; try lia; try (unfold fl; cbn; lia).
      * unfold fl. repeat split; cbn; apply Hsf'.
      * rewrite Ezl. replace (i + nw + 1) with (i + 1 + nw) by lia. replace (P * nw - l_hdr e + l_size fl) with (l_size e) by (unfold fl; cbn; lia). constructor.
Qed.

Lemma smalls_seat l : forall p i w es fs p1, posn p i w -> Forall (fits blk P) l -> place_all blk P pad p l = Ok (Some (es, fs, p1)) ->
  exists i' w', posn p1 i' w' /\ forall l2 fs2, seated i' w' l2 fs2 -> seated i w (l ++ l2) (fs ++ fs2).
Proof.
  induction l as [|e l IH]; intros p i w es fs p1 Hp F; cbn [place_all].
  - intros E. injection E as <- <- <-. exists i, w. auto.
  - inversion F as [|? ? Fe Fl]; subst. destruct (place_one blk P pad p e) as [[[[e1 fs1] p2]|]|] eqn:E1; cbn [bind]; try discriminate.
    destruct (place_all blk P pad p2 l) as [[[[es2 fs2] p3]|]|] eqn:E2; cbn [bind]; try discriminate.
    intros E. injection E as <- <- <-. destruct (small_seat _ _ _ _ _ _ _ Hp Fe E1) as (i2 & w2 & P2 & W2 & S2).
    destruct (IH _ _ _ _ _ _ P2 Fl E2) as (i3 & w3 & P3 & S3). exists i3, w3. split; auto. intros l2 fs3 H. cbn [app]. rewrite <- app_assoc. apply S2. apply S3. exact H.
Qed.
Lemma bigs_seat l : forall p i w es fs p1, near P i p -> Forall (fun e => ~ fits blk P e) l -> Forall (fun e => l_hdr e < P) l -> Forall (room_left blk P) l ->
  place_all blk P pad p l = Ok (Some (es, fs, p1)) -> seated i w l fs.
Proof.
  induction l as [|e l IH]; intros p i w es fs p1 Hp F Fh Fr; cbn [place_all].
  - intros E. injection E as <- <- <-. constructor.
  - inversion F as [|? ? Fe Fl]; subst. inversion Fh as [|? ? He Hl]; subst. inversion Fr as [|? ? Re Rl]; subst.
    destruct (place_one blk P pad p e) as [[[[e1 fs1] p2]|]|] eqn:E1; cbn [bind]; try discriminate.
    destruct (place_all blk P pad p2 l) as [[[[es2 fs2] p3]|]|] eqn:E2; cbn [bind]; try discriminate.
    intros E. injection E as <- <- <-. destruct (big_seat p i w e e1 fs1 p2) as (i2 & w2 & P2 & W2 & S2); auto.
    apply S2. eapply IH; eauto.
Qed.
End seats.

Lemma layout_seated blk P pad l es fs nb : 0 < blk -> 0 < P -> P mod blk = 0 -> small_first blk P l ->
  Forall (fun e => l_hdr e < P) l -> Forall (fun e => fits blk P e \/ room_left blk P e) l ->
  set_offsets_and_split blk P pad l = Ok (Some (es, fs, nb)) -> seated blk P (-1) P l fs.
Proof.
  intros Hb HP HPb (l1 & l2 & -> & F1 & F2) Fh Fr H. apply split_inv in H as (Hl & _ & _ & p & H & ->).
  apply place_all_app in H as (es1 & fs1 & p1 & es2 & fs2 & E1 & E2 & -> & ->).
  apply Forall_app in Fr as (_ & Fr). apply Forall_app in Fh as (_ & Fh).
  destruct (smalls_seat blk P pad Hb HP l1 {| w_all := 0; w_rank := 0; w_bucket := 0 |} (-1) P es1 fs1 p1) as (i & w & Hp & S); auto.
  { unfold posn. cbn [w_all w_rank w_bucket]. lia. }
  apply S. eapply bigs_seat; eauto.
  - destruct Hp as (Hw & Ha & _). unfold near. lia.
  - rewrite Forall_forall in *. intros x Hx. destruct (Fr x Hx) as [A|A]; auto. destruct (F2 x Hx A).
Qed.
