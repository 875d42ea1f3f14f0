(** The split list of the 0.5.1 layout survives the broadcast. *)
From Verif Require Import Bytes Outcome TarModel TarProofs Legacy LegacyProofs LegacyLayout LegacySpec LegacyLayoutProofs LegacyRanks LegacyMore LegacyCodec LegacyCodecProofs LegacySeats LegacyEndSpec.
From Coq Require Import Lia.

(** *** size of the text *)
Lemma room_bound fuel : forall size total need s, room fuel size total need = Some s -> 0 <= total -> 0 <= need -> total + 1 <= size <= 1000000000 -> total + need + 1 <= s <= 1000000000 /\ size <= s.
Proof.
  induction fuel as [|f IH]; intros size total need s; cbn [room]; intros H H1 H2 H3;
    rewrite wrap32_id in H by (unfold is_int; change (2 ^ 31) with 2147483648; lia); destruct (Z.ltb_spec (size - total) (need + 1)); try discriminate.
  - assert (s = size) by congruence. lia.
  - unfold MAX_BUFFER in H. destruct (Z.ltb_spec 1000000000 (size * 2)); [discriminate|]. apply IH in H; lia.
  - assert (s = size) by congruence. lia.
Qed.
Lemma add_lines_bound ls : forall size out r, add_lines size out ls = Ok (Some r) -> zlen out + 1 <= size <= 1000000000 -> zlen r < 1000000000.
Proof.
  induction ls as [|x ls IH]; intros size out r; cbn [add_lines].
  - intros E H. assert (r = out) by congruence. subst. lia.
  - destruct (room 40 size (zlen out) (zlen x)) as [s'|] eqn:Er; [|discriminate]. destruct (s' <? _); [discriminate|]. intros E H.
    pose proof (zlen_nonneg out). pose proof (zlen_nonneg x). apply room_bound in Er; try lia.
    apply (IH _ _ _ E). rewrite zlen_app. lia.
Qed.
Lemma text_bound l bkt arch buf : list_to_buffer l bkt arch = Ok (Some buf) -> 0 <= bkt < 10 ^ 10 -> zlen l <= 4000000 -> zlen buf < 1000000000.
Proof.
  intros H Hb Hl. unfold list_to_buffer in H. destruct (INT_MAX <? _) in H; [discriminate|]. destruct (Z.ltb_spec ((if arch then 512 else 0) + 200 * zlen l) 56); [discriminate|].
  pose proof (zlen_nonneg l).
  assert (C : zlen (cat_head 0 bkt (zlen l) arch) = 55) by (apply cat_head_zlen; [auto|change (10 ^ 10) with 10000000000; lia]).
  destruct (add_lines _ _ _) as [[out|]|] eqn:A in H; cbn [bind] in H; try discriminate.
  assert (B : zlen out < 1000000000).
  { eapply add_lines_bound; [exact A|]. rewrite C. destruct arch; lia. }
  apply add_lines_out in A.
  destruct (Z.eqb_spec (zlen (ten (zlen out))) 10) as [T|T]; [|discriminate].
  assert (X : buf = ten (zlen out) ++ skipn 10 out) by congruence. rewrite X, zlen_app, T. unfold zlen. rewrite skipn_length.
  assert (55 <= zlen out) by (rewrite A, zlen_app, C; pose proof (zlen_nonneg (concat (map (line arch) l))); lia). unfold zlen in *. lia.
Qed.

(** *** bounds of the fields *)
Section bounds.
Variables (P : Z) (pad : bytes).
Hypothesis HP : 512 <= P.

Definition room_of (e : lent) : Z := 2 * P + blocked_up 512 (sum_size e) + l_hdr e.

Definition pad_sane (B : Z) (e f : lent) : Prop :=
  l_fptr f = -1 /\ 1 <= l_nfrag f <= B / P + 1 /\
  ((l_ploc f = l_ploc e /\ l_pname f = l_pname e /\ l_phdr f = l_phdr e /\ l_psize f = l_psize e) \/
   (0 <= l_ploc f <= B /\ l_pname f = Some pad /\ 0 <= l_phdr f <= 2 * P /\ 0 <= l_psize f <= 2 * P)).
Definition loose (p : lpos) : Prop := 0 <= w_all p /\ 0 <= w_bucket p /\ w_bucket p * P <= w_all p + P.

Lemma set_pad_fields sp at_ e e1 : set_pad 512 pad sp at_ e = Ok (Some e1) -> 0 <= sp <= 2 * P -> same_file e e1 /\ l_nfrag e1 = l_nfrag e /\
  ((l_ploc e1 = l_ploc e /\ l_pname e1 = l_pname e /\ l_phdr e1 = l_phdr e /\ l_psize e1 = l_psize e) \/
   (l_ploc e1 = at_ /\ l_pname e1 = Some pad /\ 0 <= l_phdr e1 <= 2 * P /\ 0 <= l_psize e1 <= 2 * P)).
Proof.
  intros H Hsp. split; [destruct (set_pad_same _ _ _ _ _ _ H) as (X & _); exact X|]. revert H. unfold set_pad. destruct (Z.leb_spec 512 sp).
  - destruct (compute_hdr_size pad (l_tgt e) sp) as [h|] eqn:Eh; [|discriminate]. cbn [bind]. destruct (Z.ltb_spec sp h); [discriminate|].
    destruct (compute_hdr_size pad (l_tgt e) (sp - h)) as [h2|]; [|discriminate]. cbn [bind]. destruct (h2 =? h); [|discriminate].
    intros E. assert (X : e1 = {| l_rel := l_rel e; l_arc := l_arc e; l_type := l_type e; l_tgt := l_tgt e; l_size := l_size e; l_hdr := l_hdr e;
                  l_loc := l_loc e; l_orig := l_orig e; l_ploc := at_; l_pname := Some pad; l_phdr := h; l_psize := sp - h;
                  l_nfrag := l_nfrag e; l_fptr := l_fptr e; l_bucket := l_bucket e |}) by congruence. subst e1. cbn [l_ploc l_pname l_phdr l_psize l_nfrag].
    split; auto. right. assert (0 <= h) by (revert Eh; unfold compute_hdr_size; match goal with |- context [hdr_size ?x] => destruct (hdr_size_ok x) as (n & -> & Hn) end; intros Eh; assert (n = h) by congruence; destruct Hn; subst; lia). repeat split; try lia.
  - intros E. assert (e1 = e) by congruence. subst. split; [reflexivity|left; auto].
Qed.

Lemma place_pad p e e1 fs p1 B : loose p -> place_one 512 P pad p e = Ok (Some (e1, fs, p1)) -> w_all p + room_of e <= B ->
  loose p1 /\ w_all p1 <= w_all p + room_of e /\ Forall (pad_sane B e) fs.
Proof.
  intros (L1 & L2 & L3) H HB. unfold place_one in H. destruct (Z.leb_spec (l_hdr e) 0) as [|Hh]; [discriminate|].
  pose proof (blocked_bounds 512 (sum_size e) ltac:(lia)) as (B1 & _). pose proof (sum_size_pos 512 P eq_refl e Hh) as Hs.
  unfold room_of in *. set (bs := blocked_up 512 (sum_size e)) in *.
  assert (BP : 0 <= B / P) by (apply Z.div_pos; lia).
  destruct (Z.leb_spec bs P) as [Lp|Lp].
  - destruct (Z.leb_spec (w_rank p + bs) P).
    + match type of H with Ok (Some (_, ?x, ?y)) = _ => assert (E1 : fs = x) by congruence; assert (E2 : p1 = y) by congruence end.
      subst fs p1. unfold loose. cbn [w_all w_bucket]. split; [|split; [lia|]].
      * destruct (Z.eqb_spec bs P); nia.
      * constructor; [|constructor]. unfold pad_sane. cbn [l_ploc l_pname l_phdr l_psize l_nfrag l_fptr frag stored mod_request set_place set_loc q_ploc q_pname q_phdr q_psize q_nfrag q_fptr]. split; [lia|]. split; [lia|]. left. auto.
    + destruct (set_pad 512 pad _ _ _) as [[e0|]|] eqn:Ep in H; cbn [bind] in H; try discriminate.
      match type of H with Ok (Some (_, ?x, ?y)) = _ => assert (E1 : fs = x) by congruence; assert (E2 : p1 = y) by congruence end.
      subst fs p1. unfold loose. cbn [w_all w_bucket].
      assert (Lw : w_all p <= (w_bucket p + 1) * P \/ (w_bucket p + 1) * P < w_all p) by lia.
      split; [|split; [nia|]].
      * destruct (Z.eqb_spec bs P); nia.
      * destruct (Z.le_gt_cases 0 ((w_bucket p + 1) * P - w_all p)) as [Lsp|Lsp].
        -- apply set_pad_fields in Ep as (_ & _ & Ep); [|lia]. constructor; [|constructor]. unfold pad_sane. cbn [l_ploc l_pname l_phdr l_psize l_nfrag l_fptr frag stored mod_request set_place set_loc q_ploc q_pname q_phdr q_psize q_nfrag q_fptr]. split; [lia|]. split; [lia|].
           cbn [l_ploc l_pname l_phdr l_psize l_nfrag l_fptr frag stored mod_request set_place set_loc q_ploc q_pname q_phdr q_psize q_nfrag q_fptr] in Ep. destruct Ep as [(-> & -> & -> & ->)|(-> & -> & ? & ?)]; [left; auto|right; repeat split; lia].
        -- unfold set_pad in Ep. destruct (Z.leb_spec 512 ((w_bucket p + 1) * P - w_all p)); [lia|].
           assert (e0 = set_loc e ((w_bucket p + 1) * P)) by congruence. subst e0. constructor; [|constructor]. unfold pad_sane. cbn [l_ploc l_pname l_phdr l_psize l_nfrag l_fptr frag stored mod_request set_place set_loc q_ploc q_pname q_phdr q_psize q_nfrag q_fptr]. split; [lia|]. split; [lia|]. left. auto.
  - set (bkt := if w_all p mod P =? 0 then w_all p / P else w_all p / P + 1) in *.
    assert (Hb : 0 <= bkt /\ 0 <= bkt * P - w_all p <= P).
    { unfold bkt. pose proof (Z.mod_pos_bound (w_all p) P ltac:(lia)) as G1. pose proof (Z.div_mod (w_all p) P ltac:(lia)) as G2.
      pose proof (Z.div_pos (w_all p) P L1 ltac:(lia)) as G3.
      clear - G1 G2 G3 HP. set (q := w_all p / P) in *; set (r := w_all p mod P) in *; clearbody q r. destruct (Z.eqb_spec r 0); nia. }
    clearbody bkt.
    destruct (set_pad 512 pad _ _ _) as [[e0|]|] eqn:Ep in H; cbn [bind] in H; try discriminate.
    apply set_pad_fields in Ep as (_ & _ & Ep); [|lia]. cbn [l_ploc l_pname l_phdr l_psize l_nfrag l_fptr frag stored mod_request set_place set_loc q_ploc q_pname q_phdr q_psize q_nfrag q_fptr] in Ep.
    pose proof (Z.div_mod bs P ltac:(lia)) as Hdm. pose proof (Z.mod_pos_bound bs P ltac:(lia)) as Hmp.
    assert (Hq : bs / P <= B / P) by (apply Z.div_le_mono; lia). assert (Hq1 : 1 <= bs / P) by (apply Z.div_le_lower_bound; lia).
    set (q := bs / P) in *. set (r := bs mod P) in *.
    assert (Wf : forall n nt j b0, 1 <= nt <= B / P + 1 -> Forall (pad_sane B e) (whole_frags P e0 nt n j b0)).
    { induction n as [|n IHn]; intros nt j b0 Hnt; cbn [whole_frags]; constructor; auto.
      unfold pad_sane. destruct (j =? 0); cbn [l_ploc l_pname l_phdr l_psize l_nfrag l_fptr frag stored mod_request set_place set_loc q_ploc q_pname q_phdr q_psize q_nfrag q_fptr]; (split; [lia|]; split; [lia|]; destruct Ep as [(-> & -> & -> & ->)|(-> & -> & ? & ?)]; [left; auto|right; repeat split; lia]). }
    destruct (Z.eqb_spec r 0) as [Er|Er]; cbn [negb] in H;
      (match type of H with Ok (Some (_, ?x, ?y)) = _ => assert (E1 : fs = x) by congruence; assert (E2 : p1 = y) by congruence end);
      subst fs p1; unfold loose; cbn [w_all w_bucket].
    + split; [nia|]. split; [nia|]. apply Wf. lia.
    + split; [nia|]. split; [nia|]. apply Forall_app. split; [apply Wf; lia|]. constructor; [|constructor].
      unfold pad_sane. cbn [l_ploc l_pname l_phdr l_psize l_nfrag l_fptr frag stored mod_request set_place set_loc q_ploc q_pname q_phdr q_psize q_nfrag q_fptr]. split; [lia|]. split; [lia|]. destruct Ep as [(-> & -> & -> & ->)|(-> & -> & ? & ?)]; [left; auto|right; repeat split; lia].
Qed.

Lemma room_of_pos e : 0 < l_hdr e -> 0 < room_of e.
Proof.
  intros H. unfold room_of. pose proof (blocked_bounds 512 (sum_size e) ltac:(lia)) as (B1 & _). pose proof (sum_size_pos 512 P eq_refl e H). lia.
Qed.
Lemma volume_nonneg l : Forall (fun e => 0 < l_hdr e) l -> 0 <= volume P l.
Proof. induction 1 as [|e l H _ IH]; cbn [volume]; [lia|]. pose proof (room_of_pos e H). unfold room_of in *. lia. Qed.

Lemma place_all_pad l : forall p es fs p1 B, loose p -> Forall (fun e => 0 < l_hdr e) l -> place_all 512 P pad p l = Ok (Some (es, fs, p1)) -> w_all p + volume P l <= B ->
  Forall (fun f => exists e, In e l /\ pad_sane B e f) fs.
Proof.
  induction l as [|e l IH]; intros p es fs p1 B Hp Hl; cbn [place_all volume].
  - intros H _. assert (fs = []) by congruence. subst. constructor.
  - inversion Hl as [|? ? He Hl']; subst. pose proof (volume_nonneg l Hl') as Hr.
    destruct (place_one 512 P pad p e) as [[[[e1 fs1] p2]|]|] eqn:E1; cbn [bind]; try discriminate.
    destruct (place_all 512 P pad p2 l) as [[[[es2 fs2] p3]|]|] eqn:E2; cbn [bind]; try discriminate.
    intros H HB. assert (X : fs = fs1 ++ fs2) by congruence. subst fs.
    destruct (place_pad p e e1 fs1 p2 B Hp E1 ltac:(unfold room_of; lia)) as (A1 & A2 & A3). unfold room_of in A2.
    apply Forall_app. split.
    + eapply Forall_impl; [|exact A3]. intros f Hf. exists e. split; [left; auto|auto].
    + eapply Forall_impl; [|eapply (IH p2 es2 fs2 p3 B); eauto; lia]. intros f (x & I & Hx). exists x. split; [right; auto|auto].
Qed.

(** places, from the seats *)
Definition place_sane (B : Z) (e f : lent) : Prop :=
  same_file e f /\ -1 <= l_bucket f /\ l_bucket f * P <= B /\ - P <= l_loc f <= B /\ 0 <= l_orig f <= B + P /\ (l_size f = l_size e \/ 0 <= l_size f <= P).

Lemma bsz_size f : 0 <= l_size f -> 0 <= l_hdr f -> l_size f <= bsz 512 f.
Proof.
  intros H H1. unfold bsz. pose proof (blocked_bounds 512 (Z.max 0 (l_size f) + (if l_orig f =? 0 then l_hdr f else 0)) ltac:(lia)).
  destruct (l_orig f =? 0); lia.
Qed.
Lemma follows_sane e s i w o g i' w' o' B : follows 512 P e s i w o g i' w' o' -> 0 < l_hdr e -> -1 <= i -> - P <= s -> 0 <= w -> i' * P + w' <= B ->
  i * P <= i' * P + w' /\ Forall (place_sane B e) g.
Proof.
  induction 1 as [i w o|i o f g i' w' o' S1 S2 S3 S4 S5 S6 S7 S8 Fo IH]; intros Hh Hi Hs Hw HB; [split; [lia|constructor]|].
  assert (Hhf : l_hdr f = l_hdr e) by apply S1. pose proof (bsz_size f S7 ltac:(lia)) as Hz.
  destruct (IH Hh ltac:(lia) Hs ltac:(lia) HB) as (A & A2). split; [nia|]. constructor; auto.
  unfold place_sane. split; auto. rewrite S2. split; [lia|]. split; [lia|]. split; [nia|]. split; [lia|]. right. lia.
Qed.
Lemma seated_sane l : forall i w fs B, seated 512 P i w l fs -> 0 < w <= P -> -1 <= i -> Forall (fun e => 0 < l_hdr e) l -> i * P + w + volume P l <= B ->
  Forall (fun f => exists e, In e l /\ place_sane B e f) fs.
Proof.
  induction l as [|e l IH]; intros i w fs B H Hw Hi Hl HB; inversion H as [|? ? ? ? f g fs0 j u i' w' total Hj Hu Hsf Hb Ho Hloc Hneg Hpos Hf Hend Hw' Hse]; subst; [constructor|]. cbn [volume] in HB.
  inversion Hl as [|? ? He Hl']; subst. pose proof (volume_nonneg l Hl') as Hr. pose proof (room_of_pos e He) as Hre. unfold room_of in HB, Hre.
  pose proof (blocked_bounds 512 (sum_size e) ltac:(lia)) as (B1 & _). pose proof (sum_size_max 512 P eq_refl e) as Hm.
  assert (Hju : l_bucket f * P + u <= i * P + w + P) by (destruct Hj as [(-> & ->)|(-> & ->)]; lia).
  assert (Hhf : l_hdr f = l_hdr e) by apply Hsf.
  assert (Hu0 : 0 <= u) by lia.
  assert (Hb0 : 0 <= u + bsz 512 f). { unfold bsz. rewrite Ho. cbn [Z.eqb]. pose proof (blocked_bounds 512 (Z.max 0 (l_size f) + l_hdr f) ltac:(lia)). lia. }
  destruct (follows_sane _ _ _ _ _ _ _ _ _ B Hf He ltac:(lia) ltac:(nia) Hb0 ltac:(lia)) as (G1 & G2).
  constructor.
  - exists e. split; [left; auto|]. unfold place_sane. split; auto. split; [lia|]. split; [lia|]. rewrite Hloc, Ho. split; [nia|]. split; [nia|].
    destruct (Z.lt_ge_cases (l_size e) 0) as [Ln|Ln]; [left; apply Hneg; auto|]. destruct (Hpos Ln) as (Hp1 & _). right. pose proof (bsz_size f Hp1 ltac:(lia)). lia.
  - apply Forall_app. split.
    + eapply Forall_impl; [|exact G2]. intros x Hx. exists e. split; [left; auto|auto].
    + pose proof (sum_size_pos 512 P eq_refl e He) as Hsp.
      assert (Hi' : l_bucket f <= i') by (assert (Q : l_bucket f * P < (i' + 1) * P) by lia; assert (l_bucket f < i' + 1) by (apply (Z.mul_lt_mono_pos_r P); lia); lia).
      pose proof (IH i' w' fs0 B Hse Hw' ltac:(lia) Hl' ltac:(lia)) as X.
      eapply Forall_impl; [|exact X]. intros x (y & I & Hy). exists y. split; [right; auto|auto].
Qed.
End bounds.

(** *** the split list can be sent *)
Lemma split_sendable P pad l es fs nb : 512 <= P < 2147483648 -> P mod 512 = 0 -> is_text pad ->
  set_offsets_and_split 512 P pad l = Ok (Some (es, fs, nb)) -> seated 512 P (-1) P l fs -> Forall sendable l -> Forall (fun e => 0 < l_hdr e) l ->
  volume P l <= 2147483640 * P -> Forall sendable fs.
Proof.
  intros HP HPb Hpad H Hs Hl Hh Hv. apply split_inv in H as (_ & _ & _ & p & H & _).
  assert (A1 : Forall (fun f => exists e, In e l /\ pad_sane P pad (2147483640 * P) e f) fs).
  { eapply (place_all_pad P pad ltac:(lia)); [|exact Hh|exact H|cbn [w_all]; lia]. unfold loose. cbn. lia. }
  assert (A2 : Forall (fun f => exists e, In e l /\ place_sane P (2147483640 * P) e f) fs).
  { eapply (seated_sane P ltac:(lia)); [exact Hs|lia|lia|exact Hh|lia]. }
  rewrite Forall_forall in *. intros f Hf. destruct (A1 f Hf) as (e & Ie & Q1 & Q2 & Q3). destruct (A2 f Hf) as (e2 & Ie2 & S1 & S2 & S3 & S4 & S5 & S6).
  assert (Hq : 2147483640 * P / P = 2147483640) by (apply Z.div_mul; lia). rewrite Hq in Q2.
  assert (Hbu : l_bucket f <= 2147483640) by (apply (Z.mul_le_mono_pos_r _ _ P); lia).
  destruct (Hl e Ie) as ((T1 & T2 & T3 & T4 & T5) & (L1 & L2 & L3 & L4 & L5 & L6 & L7) & I1 & I2 & I3).
  destruct (Hl e2 Ie2) as ((T1' & T2' & T3' & T4' & T5') & (L1' & L2' & L3' & L4' & L5' & L6' & L7') & I1' & I2' & I3').
  destruct S1 as (R1 & R2 & R3 & R4 & R5).
  assert (Hlong : forall z, - P <= z <= 2147483640 * P + P -> is_long z) by (intros z Hz; unfold is_long; change (2 ^ 63) with 9223372036854775808; nia).
  unfold sendable. rewrite R1, R2, R3, R4, R5. split; [split; auto; split; auto; split; auto; split; auto|].
  - destruct Q3 as [(_ & -> & _)|(_ & -> & _)]; auto.
  - split; [split; [|split; [auto|split; [|split; [|split; [|split]]]]]|].
    + destruct S6 as [->|S6]; auto. apply Hlong. nia.
    + apply Hlong. nia.
    + apply Hlong. lia.
    + destruct Q3 as [(-> & _)|(Q & _)]; auto. apply Hlong. nia.
    + destruct Q3 as [(_ & _ & -> & _)|(_ & _ & Q & _)]; auto. apply Hlong. nia.
    + destruct Q3 as [(_ & _ & _ & ->)|(_ & _ & _ & Q)]; auto. apply Hlong. nia.
    + unfold is_int. change (2 ^ 31) with 2147483648. lia.
Qed.
