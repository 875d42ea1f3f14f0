(** Lemmas about the 0.5.1 layout. *)
From Verif Require Import Bytes Outcome TarModel Legacy LegacyLayout LegacySpec.
From Coq Require Import ZifyBool ZifyNat ZifyN.
Ltac Zify.zify_post_hook ::= Z.div_mod_to_equations.

Lemma blocked_bounds blk s : 0 < blk -> s <= blocked_up blk s < s + blk /\ blocked_up blk s mod blk = 0.
Proof.
  intros H. unfold blocked_up. destruct (Z.eqb_spec (s mod blk) 0) as [E|E]; [lia|].
  pose proof (Z.mod_pos_bound s blk H). pose proof (Z.div_mod s blk ltac:(lia)).
  split; [nia|]. apply Z.mod_mul. lia.
Qed.
Lemma blocked_mult blk s m : 0 < blk -> m mod blk = 0 -> m < blocked_up blk s -> m < s.
Proof.
  intros H Hm Hl. destruct (blocked_bounds blk s H) as (B1 & B2).
  apply Z.mod_divide in Hm; [|lia]. apply Z.mod_divide in B2; [|lia]. destruct Hm as (x & ->). destruct B2 as (y & E). rewrite E in *.
  assert (x < y) by (apply (Z.mul_lt_mono_pos_r blk); lia). assert ((x + 1) * blk <= y * blk) by (apply Z.mul_le_mono_nonneg_r; lia). lia.
Qed.
Lemma blocked_le blk s m : 0 < blk -> m mod blk = 0 -> s <= m -> blocked_up blk s <= m.
Proof. intros H Hm Hs. destruct (Z_le_gt_dec (blocked_up blk s) m); auto. pose proof (blocked_mult blk s m H Hm). lia. Qed.

Lemma apart_app l1 l2 m : apart l1 -> apart l2 -> Forall (fun f => frag_end f <= m) l1 -> Forall (fun f => m <= frag_start f) l2 -> apart (l1 ++ l2).
Proof.
  intros H1 H2 F1 F2 i j f g Hij Hi Hj. rewrite Forall_forall in F1, F2.
  destruct (Nat.lt_ge_cases j (length l1)) as [Lj|Lj].
  - rewrite nth_error_app1 in Hi by lia. rewrite nth_error_app1 in Hj by lia. exact (H1 i j f g Hij Hi Hj).
  - rewrite nth_error_app2 in Hj by lia. destruct (Nat.lt_ge_cases i (length l1)) as [Li|Li].
    + rewrite nth_error_app1 in Hi by lia. apply nth_error_In in Hi. apply nth_error_In in Hj. specialize (F1 _ Hi). specialize (F2 _ Hj). cbn in *. lia.
    + rewrite nth_error_app2 in Hi by lia. eapply H2; [|exact Hi|exact Hj]. lia.
Qed.
Lemma apart_one f : apart [f].
Proof. intros i j x y H Hi Hj. destruct i as [|i]; [|destruct i; discriminate]. destruct j as [|[|j]]; try lia; discriminate. Qed.
Lemma apart_nil : apart [].
Proof. intros i j x y _ H. destruct i; discriminate. Qed.

Section one.
Variables (blk P : Z) (pad : bytes).
Hypothesis Hblk : 0 < blk.
Hypothesis HP : 0 < P.
Hypothesis HPb : P mod blk = 0.

Lemma set_pad_same sp at_ e e1 : set_pad blk pad sp at_ e = Ok (Some e1) -> same_file e e1 /\ l_size e1 = l_size e.
Proof.
  unfold set_pad. destruct (blk <=? sp).
  - destruct (compute_hdr_size pad (l_tgt e) sp) as [h|]; [|discriminate]. cbn [bind]. destruct (sp <? h); [discriminate|].
    destruct (compute_hdr_size pad (l_tgt e) (sp - h)) as [h2|]; [|discriminate]. cbn [bind]. destruct (h2 =? h); [|discriminate].
    intros E. injection E as <-. repeat split.
  - intros E. injection E as <-. repeat split.
Qed.

(** what a placed group of fragments satisfies *)
Definition placed (lo hi : Z) (fs : list lent) : Prop :=
  Forall (in_bucket P) fs /\ apart fs /\ Forall (fun f => lo <= frag_start f) fs /\ Forall (fun f => frag_end f <= hi) fs.
Lemma placed_app lo mid hi a c : lo <= mid -> mid <= hi -> placed lo mid a -> placed mid hi c -> placed lo hi (a ++ c).
Proof.
  intros H1 H2 (A1 & A2 & A3 & A4) (B1 & B2 & B3 & B4). split; [apply Forall_app; auto|]. split; [eapply apart_app; eauto|].
  split; apply Forall_app; split; auto.
  - eapply Forall_impl; [|exact B3]. cbn. intros; lia.
  - eapply Forall_impl; [|exact A4]. cbn. intros; lia.
Qed.
Lemma placed_one lo hi f : in_bucket P f -> lo <= frag_start f -> frag_end f <= hi -> placed lo hi [f].
Proof. intros. split; [auto|]. split; [apply apart_one|]. auto. Qed.

(** invariant while only entries that fit have been placed *)
Definition tight (p : lpos) : Prop := w_all p = w_bucket p * P + w_rank p /\ 0 <= w_rank p <= P.

Lemma place_small p e e1 fs p1 : tight p -> fits blk P e -> place_one blk P pad p e = Ok (Some (e1, fs, p1)) ->
  tight p1 /\ w_all p <= w_all p1 /\ placed (w_all p) (w_all p1) fs /\ split_of blk P e fs.
Proof.
  intros (T1 & T2) Hf. unfold fits in Hf. unfold place_one. destruct (Z.leb_spec (l_hdr e) 0) as [|Hh]; [discriminate|].
  destruct (blocked_bounds blk (sum_size e) Hblk) as (B1 & B2).
  assert (Hs : sum_size e = Z.max 0 (l_size e) + l_hdr e) by (unfold sum_size; destruct (Z.leb_spec 0 (l_size e)); lia).
  destruct (Z.leb_spec (blocked_up blk (sum_size e)) P) as [_|]; [|lia].
  destruct (Z.leb_spec (w_rank p + blocked_up blk (sum_size e)) P) as [HA|HA].
  - intros E. injection E as <- <- <-. cbn [w_all w_rank w_bucket].
    split; [|split; [lia|split]].
    + unfold tight; cbn [w_all w_rank w_bucket]. destruct (Z.eqb_spec (blocked_up blk (sum_size e)) P); lia.
    + apply placed_one; unfold in_bucket, frag_start, frag_end; cbn; lia.
    + split; [constructor; [repeat split|constructor]|]. split; [constructor; [reflexivity|constructor]|]. split; [intros _|intros F; destruct (F Hf)].
      eexists. split; [reflexivity|]. split; reflexivity.
  - destruct (set_pad blk pad ((w_bucket p + 1) * P - w_all p) (w_all p) (set_loc e ((w_bucket p + 1) * P))) as [[e0|]|] eqn:Ep; cbn [bind]; try discriminate.
    apply set_pad_same in Ep as ((S1 & S2 & S3 & S4 & S5) & S6). cbn in S1, S2, S3, S4, S5, S6.
    intros E. injection E as <- <- <-. cbn [w_all w_rank w_bucket].
    split; [|split; [lia|split]].
    + unfold tight; cbn [w_all w_rank w_bucket]. destruct (Z.eqb_spec (blocked_up blk (sum_size e)) P); lia.
    + apply placed_one; unfold in_bucket, frag_start, frag_end; cbn; lia.
    + split; [constructor; [repeat split; cbn; auto|constructor]|]. split; [constructor; [reflexivity|constructor]|]. split; [intros _|intros F; destruct (F Hf)].
      eexists. split; [reflexivity|]. split; reflexivity.
Qed.

Lemma whole_frags_len e nt n : forall j b, length (whole_frags P e nt n j b) = n.
Proof. induction n as [|n IH]; intros j b; cbn [whole_frags length]; auto. Qed.
Lemma whole_frags_ok e nt n : forall j b, 0 <= j -> 0 < l_hdr e < P ->
  placed (b * P) ((b + Z.of_nat n) * P) (whole_frags P e nt n j b) /\
  Forall (same_file e) (whole_frags P e nt n j b) /\ Forall (fun f => l_nfrag f = nt) (whole_frags P e nt n j b) /\
  consecutive (if j =? 0 then 0 else P * j - l_hdr e) (whole_frags P e nt n j b)
    (if (j =? 0) && (n =? 0)%nat then 0 else P * (j + Z.of_nat n) - l_hdr e).
Proof.
  induction n as [|n IH]; intros j b Hj Hh.
  - cbn [whole_frags]. split; [split; [constructor|split; [apply apart_nil|split; constructor]]|]. split; [constructor|]. split; [constructor|].
    cbn [consecutive]. destruct (j =? 0) eqn:E; cbn [andb Nat.eqb]; lia.
  - destruct (IH (j + 1) (b + 1) ltac:(lia) Hh) as (I1 & I2 & I3 & I4). replace (j + 1 =? 0) with false in I4 by lia. cbn [andb] in I4.
    cbn [whole_frags].
    set (f := if j =? 0 then frag e (P - l_hdr e) (b * P + l_hdr e) 0 nt b else frag e P (b * P) (P * j - l_hdr e) nt b).
    assert (Hf : frag_start f = b * P /\ frag_end f = (b + 1) * P /\ l_bucket f = b /\ same_file e f /\ l_nfrag f = nt /\
                 l_orig f = (if j =? 0 then 0 else P * j - l_hdr e) /\ 0 <= l_size f /\ l_orig f + l_size f = P * (j + 1) - l_hdr e).
    { unfold f. destruct (Z.eqb_spec j 0) as [Ej|Ej]; unfold frag_start, frag_end, same_file; cbn.
      - repeat split; lia.
      - assert (P * j - l_hdr e =? 0 = false) by nia. rewrite H. repeat split; lia. }
    destruct Hf as (F1 & F2 & F3 & F4 & F5 & F6 & F7 & F8). clearbody f.
    split; [|split; [constructor; auto|split; [constructor; auto|]]].
    + apply (placed_app _ ((b + 1) * P) _ [f]); try nia.
      * apply placed_one; unfold in_bucket; rewrite ?F1, ?F2, ?F3; lia.
      * replace ((b + Z.of_nat (S n)) * P) with ((b + 1 + Z.of_nat n) * P) by nia. exact I1.
    + cbn [consecutive]. split; [exact F6|]. split; [exact F7|]. replace ((j =? 0) && (S n =? 0)%nat) with false by (destruct (j =? 0); reflexivity).
      rewrite <- F6, F8. replace (P * (j + Z.of_nat (S n)) - l_hdr e) with (P * (j + 1 + Z.of_nat n) - l_hdr e) by nia. exact I4.
Qed.

Lemma consecutive_app fs gs : forall o m t, consecutive o fs m -> consecutive m gs t -> consecutive o (fs ++ gs) t.
Proof. induction fs as [|f fs IH]; intros o m t; cbn [consecutive app]; [intros ->; auto|]. intros (A & B & C) D. split; auto. split; auto. eapply IH; eauto. Qed.

Lemma place_big p e e1 fs p1 : 0 <= w_all p -> ~ fits blk P e -> 0 < l_hdr e < P -> place_one blk P pad p e = Ok (Some (e1, fs, p1)) ->
  w_all p <= w_all p1 /\ placed (w_all p) (w_all p1) fs /\ split_of blk P e fs.
Proof.
  intros Hw Hf Hh. unfold fits in Hf. unfold place_one. destruct (Z.leb_spec (l_hdr e) 0) as [|_]; [lia|].
  destruct (blocked_bounds blk (sum_size e) Hblk) as (B1 & B2).
  assert (Hs : sum_size e = Z.max 0 (l_size e) + l_hdr e) by (unfold sum_size; destruct (Z.leb_spec 0 (l_size e)); lia).
  set (bs := blocked_up blk (sum_size e)) in *.
  assert (Hsz : 0 <= l_size e).
  { destruct (Z_le_gt_dec 0 (l_size e)); auto. exfalso. apply Hf. unfold bs. apply blocked_le; auto; lia. }
  destruct (Z.leb_spec bs P) as [|Hbig]; [lia|].
  set (bkt := if w_all p mod P =? 0 then w_all p / P else w_all p / P + 1).
  assert (Hb : w_all p <= bkt * P /\ 0 <= bkt).
  { unfold bkt. pose proof (Z.mod_pos_bound (w_all p) P HP) as G1. pose proof (Z.div_mod (w_all p) P ltac:(lia)) as G2. pose proof (Z.div_pos (w_all p) P Hw HP) as G3.
    destruct (Z.eqb_spec (w_all p mod P) 0) as [G4|G4]; clear - G1 G2 G3 G4 HP; set (q := w_all p / P) in *; set (r := w_all p mod P) in *; clearbody q r; split; nia. }
  destruct Hb as (Hb & Hb0). clearbody bkt.
  destruct (set_pad blk pad (bkt * P - w_all p) (w_all p) (set_loc e (bkt * P))) as [[e0|]|] eqn:Ep; cbn [bind]; try discriminate.
  apply set_pad_same in Ep as (S & Ssz). assert (S5 : l_hdr e0 = l_hdr e) by apply S.
  assert (Hn : 1 <= bs / P) by (apply Z.div_le_lower_bound; lia).
  pose proof (Z.div_mod bs P ltac:(lia)) as Hdm. pose proof (Z.mod_pos_bound bs P HP) as Hmp.
  set (nw := bs / P) in *. set (rem := bs mod P) in *.
  assert (Tr : forall f, same_file e0 f -> same_file e f).
  { intros f (A1 & A2 & A3 & A4 & A5). destruct S as (C1 & C2 & C3 & C4 & C5). cbn in *. repeat split; congruence. }
  destruct (whole_frags_ok e0 (if negb (rem =? 0) then nw + 1 else nw) (Z.to_nat nw) 0 bkt ltac:(lia) ltac:(rewrite S5; lia)) as (W1 & W2 & W3 & W4).
  replace ((0 =? 0) && (Z.to_nat nw =? 0)%nat) with false in W4 by lia. rewrite Z2Nat.id in W1, W4 by lia. change (0 =? 0) with true in W4. cbv iota in W4.
  rewrite S5 in W4. replace (0 + nw) with nw in W4 by lia.
  pose proof (whole_frags_len e0 (if negb (rem =? 0) then nw + 1 else nw) (Z.to_nat nw) 0 bkt) as WL.
  set (wf := whole_frags P e0 (if negb (rem =? 0) then nw + 1 else nw) (Z.to_nat nw) 0 bkt) in *. clearbody wf.
  destruct (Z.eqb_spec rem 0) as [Er|Er]; cbn [negb] in *.
  - intros E. injection E as <- <- <-. cbn [w_all w_rank w_bucket].
    split; [nia|]. split.
    + replace wf with ([] ++ wf) by reflexivity. apply (placed_app _ (bkt * P)); try lia; try nia; auto.
      split; [constructor|split; [apply apart_nil|split; constructor]].
    + split; [eapply Forall_impl; [exact Tr|exact W2]|]. split; [eapply Forall_impl; [|exact W3]; cbn; intros a ->; unfold zlen; lia|].
      split; [intros F; destruct (Hf F)|]. intros _. exists (P * nw - l_hdr e). split; [exact W4|]. split; [nia|]. intros F. destruct (F Er).
  - intros E. injection E as <- <- <-. cbn [w_all w_rank w_bucket].
    assert (Hdata : 0 < l_size e - (nw * P - l_hdr e) <= P).
    { assert (nw * P < sum_size e); [|split; nia].
      apply (blocked_mult blk); auto; [|fold bs; nia]. apply Z.mod_divide; [lia|]. apply Z.mod_divide in HPb; [|lia]. apply Z.divide_mul_r; auto. }
    split; [nia|]. split.
    + assert (W0 : placed (w_all p) ((bkt + nw) * P) wf).
      { replace wf with ([] ++ wf) by reflexivity. apply (placed_app _ (bkt * P)); try lia; try nia; auto.
        split; [constructor|split; [apply apart_nil|split; constructor]]. }
      apply (placed_app _ ((bkt + nw) * P)); try nia; auto.
      apply placed_one; unfold in_bucket, frag_start, frag_end; cbn; replace (P * nw - l_hdr e =? 0) with false by nia; nia.
    + split; [apply Forall_app; split; [eapply Forall_impl; [exact Tr|exact W2]|constructor; [apply Tr; repeat split|constructor]]|].
      split; [apply Forall_app; split; [eapply Forall_impl; [|exact W3]; cbn; intros a ->|constructor; [|constructor]]; rewrite zlen_app; unfold zlen; cbn; lia|].
      split; [intros F; destruct (Hf F)|]. intros _. exists (l_size e). split; [|lia].
      eapply consecutive_app; [exact W4|]. cbn. split; [reflexivity|]. split; lia.
Qed.

Lemma place_smalls l : forall p es fs p1, tight p -> Forall (fits blk P) l -> place_all blk P pad p l = Ok (Some (es, fs, p1)) ->
  tight p1 /\ w_all p <= w_all p1 /\ placed (w_all p) (w_all p1) fs /\ exists groups, fs = concat groups /\ Forall2 (split_of blk P) l groups.
Proof.
  induction l as [|e l IH]; intros p es fs p1 T F; cbn [place_all].
  - intros E. injection E as <- <- <-. split; auto. split; [lia|]. split; [split; [constructor|split; [apply apart_nil|split; constructor]]|].
    exists []. split; auto.
  - inversion F as [|? ? Fe Fl]; subst. destruct (place_one blk P pad p e) as [[[[e1 fs1] p2]|]|] eqn:E1; cbn [bind]; try discriminate.
    destruct (place_all blk P pad p2 l) as [[[[es2 fs2] p3]|]|] eqn:E2; cbn [bind]; try discriminate.
    intros E. injection E as <- <- <-. destruct (place_small _ _ _ _ _ T Fe E1) as (T2 & L2 & P2 & S2).
    destruct (IH _ _ _ _ T2 Fl E2) as (T3 & L3 & P3 & groups & -> & G). split; auto. split; [lia|].
    split; [eapply placed_app; [| |exact P2|exact P3]; auto|]. exists (fs1 :: groups). split; auto.
Qed.
Lemma place_bigs l : forall p es fs p1, 0 <= w_all p -> Forall (fun e => ~ fits blk P e) l -> Forall (fun e => l_hdr e < P) l ->
  place_all blk P pad p l = Ok (Some (es, fs, p1)) ->
  w_all p <= w_all p1 /\ placed (w_all p) (w_all p1) fs /\ exists groups, fs = concat groups /\ Forall2 (split_of blk P) l groups.
Proof.
  induction l as [|e l IH]; intros p es fs p1 T F Fh; cbn [place_all].
  - intros E. injection E as <- <- <-. split; [lia|]. split; [split; [constructor|split; [apply apart_nil|split; constructor]]|].
    exists []. split; auto.
  - inversion F as [|? ? Fe Fl]; subst. inversion Fh as [|? ? He Hl]; subst.
    destruct (place_one blk P pad p e) as [[[[e1 fs1] p2]|]|] eqn:E1; cbn [bind]; try discriminate.
    destruct (place_all blk P pad p2 l) as [[[[es2 fs2] p3]|]|] eqn:E2; cbn [bind]; try discriminate.
    assert (0 < l_hdr e) by (unfold place_one in E1; destruct (Z.leb_spec (l_hdr e) 0); [discriminate|lia]).
    intros E. injection E as <- <- <-. destruct (place_big p e e1 fs1 p2) as (L2 & P2 & S2); auto.
    destruct (IH p2 es2 fs2 p3) as (L3 & P3 & groups & -> & G); auto; [lia|]. split; [lia|].
    split; [eapply placed_app; [| |exact P2|exact P3]; auto|]. exists (fs1 :: groups). split; auto.
Qed.
Lemma place_all_app l1 l2 : forall p es fs p', place_all blk P pad p (l1 ++ l2) = Ok (Some (es, fs, p')) ->
  exists es1 fs1 p1 es2 fs2, place_all blk P pad p l1 = Ok (Some (es1, fs1, p1)) /\ place_all blk P pad p1 l2 = Ok (Some (es2, fs2, p')) /\
    es = es1 ++ es2 /\ fs = fs1 ++ fs2.
Proof.
  induction l1 as [|e l1 IH]; intros p es fs p'; cbn [app place_all].
  - intros E. do 5 eexists. split; [reflexivity|]. split; [exact E|]. auto.
  - destruct (place_one blk P pad p e) as [[[[e1 f1] p2]|]|]; cbn [bind]; try discriminate.
    destruct (place_all blk P pad p2 (l1 ++ l2)) as [[[[es2 fs2] p3]|]|] eqn:E2; cbn [bind]; try discriminate.
    intros E. injection E as <- <- <-. apply IH in E2 as (a & c & q & d & g & -> & E3 & -> & ->). cbn [bind].
    do 5 eexists. split; [reflexivity|]. split; [exact E3|]. cbn [app]. rewrite app_assoc. auto.
Qed.
End one.

Lemma split_inv blk P pad l es fs nb : set_offsets_and_split blk P pad l = Ok (Some (es, fs, nb)) ->
  2 <= zlen l /\ blk <> 0 /\ P <> 0 /\ exists p, place_all blk P pad {| w_all := 0; w_rank := 0; w_bucket := 0 |} l = Ok (Some (es, fs, p)) /\ nb = w_bucket p.
Proof.
  unfold set_offsets_and_split, create_list. destruct (Z.ltb_spec (zlen l) 1) as [|H1]; [discriminate|]. destruct (Z.ltb_spec (zlen l) 2) as [|H2]; [discriminate|].
  cbn [bind]. destruct (Z.eqb_spec blk 0); [discriminate|]. destruct (Z.eqb_spec P 0); [discriminate|]. cbn [orb].
  destruct (place_all _ _ _ _ _) as [[[[a c] q]|]|]; cbn [bind]; try discriminate. intros E. injection E as <- <- <-.
  split; auto. split; auto. split; auto. exists q. auto.
Qed.

Lemma C38_lemma blk P pad l es fs nb :
  0 < blk -> 0 < P -> P mod blk = 0 -> Forall (fun e => l_hdr e < P) l -> small_first blk P l ->
  set_offsets_and_split blk P pad l = Ok (Some (es, fs, nb)) ->
  Forall (in_bucket P) fs /\ apart fs /\ Forall (fun f => 0 <= frag_start f) fs /\
  exists groups, fs = concat groups /\ Forall2 (split_of blk P) l groups.
Proof.
  intros Hb HP HPb Hh (l1 & l2 & -> & F1 & F2) H. apply split_inv in H as (_ & _ & _ & p & H & ->).
  apply place_all_app in H as (es1 & fs1 & p1 & es2 & fs2 & E1 & E2 & -> & ->).
  apply Forall_app in Hh as (Hh1 & Hh2).
  destruct (place_smalls blk P pad Hb HP l1 {| w_all := 0; w_rank := 0; w_bucket := 0 |} _ _ _ ltac:(unfold tight; cbn; lia) F1 E1) as (T & L & P1 & g1 & -> & G1). cbn [w_all] in *.
  destruct (place_bigs blk P pad Hb HP HPb l2 p1 es2 fs2 p ltac:(lia) F2 Hh2 E2) as (L2 & P2 & g2 & -> & G2).
  assert (PP : placed P 0 (w_all p) (concat g1 ++ concat g2)) by (eapply placed_app; eauto). destruct PP as (A & B & C & _).
  split; auto. split; auto. split; auto. exists (g1 ++ g2). split; [symmetry; apply concat_app|]. apply Forall2_app; auto.
Qed.
