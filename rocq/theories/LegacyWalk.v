(** A tar reader on an archive of the 0.5.1 writer. *)
From Verif Require Import Bytes Outcome TarSpec TarModel TarProofs Layout Mover MoverSpec MoverProofs AssembleProofs EndSpec EndProofs
  Legacy LegacyProofs LegacyLayout LegacySpec LegacyLayoutProofs LegacyRanks LegacyCodec LegacyCodecProofs LegacyWrite LegacySeats LegacyImage LegacyArchive LegacyEndSpec.
From Coq Require Import Lia.

Definition at_bytes (a : bytes) (pos : Z) (l : bytes) : Prop :=
  forall k, 0 <= k < zlen l -> nth_error a (Z.to_nat (pos + k)) = nth_error l (Z.to_nat k).

Lemma skip_at a pos l : 0 <= pos -> at_bytes a pos l -> skipn (Z.to_nat pos) a = l ++ skipn (Z.to_nat (pos + zlen l)) a.
Proof.
  intros Hp H. rewrite (slice_eq a l); [f_equal; f_equal; unfold zlen; lia|]. intros k Hk.
  specialize (H (Z.of_nat k)). replace (Z.to_nat (pos + Z.of_nat k)) with (Z.to_nat pos + k)%nat in H by lia. rewrite Nat2Z.id in H. apply H. unfold zlen. lia.
Qed.

Lemma read_step1 a pos h u fuel : 0 <= pos -> at_bytes a pos h -> read_header (h ++ skipn (Z.to_nat (pos + zlen h)) a) = Some (u, skipn (Z.to_nat (pos + zlen h)) a) -> 0 < zlen h -> 0 <= u_size u ->
  pos + zlen h + round512 (u_size u) <= zlen a ->
  read_archive (S fuel) (skipn (Z.to_nat pos) a) =
    match read_archive fuel (skipn (Z.to_nat (pos + zlen h + round512 (u_size u))) a) with
    | Some ms => Some (member_of u (firstn (Z.to_nat (u_size u)) (skipn (Z.to_nat (pos + zlen h)) a)) :: ms)
    | None => None
    end.
Proof.
  intros Hp Ha Hh Hz Hu Hl. rewrite (skip_at a pos h Hp Ha). set (R := skipn (Z.to_nat (pos + zlen h)) a) in *.
  cbn [read_archive]. destruct (h ++ R) as [|c L] eqn:EL; [destruct h; [unfold zlen in Hz; cbn in Hz; lia|discriminate]|].
  rewrite (read_header_nonzero _ _ Hh), Bool.andb_false_r. unfold read_member. rewrite Hh.
  pose proof (round512_bounds (u_size u) Hu) as Rb.
  assert (LR : zlen R = zlen a - (pos + zlen h)) by (unfold R, zlen in *; rewrite skipn_length; lia).
  destruct (Nat.ltb_spec (length R) (Z.to_nat (round512 (u_size u)))); [unfold zlen in *; lia|].
  replace (skipn (Z.to_nat (round512 (u_size u))) R) with (skipn (Z.to_nat (pos + zlen h + round512 (u_size u))) a); [reflexivity|].
  unfold R. rewrite skipn_skipn. f_equal. lia.
Qed.
Lemma read_step a pos h u fuel : 0 <= pos -> at_bytes a pos h -> (forall rest, read_header (h ++ rest) = Some (u, rest)) -> 0 < zlen h -> 0 <= u_size u ->
  pos + zlen h + round512 (u_size u) <= zlen a ->
  read_archive (S fuel) (skipn (Z.to_nat pos) a) =
    match read_archive fuel (skipn (Z.to_nat (pos + zlen h + round512 (u_size u))) a) with
    | Some ms => Some (member_of u (firstn (Z.to_nat (u_size u)) (skipn (Z.to_nat (pos + zlen h)) a)) :: ms)
    | None => None
    end.
Proof. intros Hp Ha Hh. apply read_step1; auto. Qed.
Lemma data_at a pos d : 0 <= pos -> at_bytes a pos d -> firstn (Z.to_nat (zlen d)) (skipn (Z.to_nat pos) a) = d.
Proof.
  intros Hp H. rewrite (skip_at a pos d Hp H). unfold zlen. rewrite Nat2Z.id, firstn_app, Nat.sub_diag, firstn_all. cbn. apply app_nil_r.
Qed.
Lemma read_end a pos fuel : 0 <= pos -> at_bytes a pos (repeat NUL 1024) -> read_archive (S fuel) (skipn (Z.to_nat pos) a) = Some [].
Proof.
  intros Hp H. rewrite (skip_at a pos _ Hp H). change (repeat NUL 1024) with (NUL :: repeat NUL 511 ++ repeat NUL 512).
  rewrite <- app_comm_cons. cbn [read_archive]. rewrite <- app_assoc.
  assert (F : firstn 512 (NUL :: repeat NUL 511 ++ repeat NUL 512 ++ skipn (Z.to_nat (pos + zlen (NUL :: repeat NUL 511 ++ repeat NUL 512))) a) = repeat NUL 512).
  { change (firstn 512 (?x :: ?l)) with (x :: firstn 511 l). rewrite firstn_app. change (length (repeat NUL 511)) with 511%nat. rewrite Nat.sub_diag. reflexivity. }
  rewrite F. replace (512 <=? _)%nat with true; [reflexivity|]. symmetry. apply Nat.leb_le. cbn [length]. rewrite !app_length, !repeat_length. lia.
Qed.

Lemma last_bucket_ge c fs : forall d, Forall (fun f => c <= l_bucket f) fs -> c <= d -> c <= last_bucket d fs.
Proof. induction fs as [|f fs IH]; intros d F H; cbn [last_bucket]; auto. inversion F; subst. apply IH; auto. Qed.

Lemma nth_firstn {A} (l : list A) : forall k n, (k < n)%nat -> nth_error (firstn n l) k = nth_error l k.
Proof. induction l as [|x l IH]; intros [|k] [|n] H; cbn; auto; try lia. apply IH. lia. Qed.
Lemma nth_skipn {A} off : forall (l : list A) k, nth_error (skipn off l) k = nth_error l (off + k).
Proof. induction off as [|off IH]; intros l k; cbn; auto. destruct l; cbn; auto. destruct k; auto. Qed.
Lemma read_at_nth d o n k : 0 <= o -> 0 <= k < n -> nth_error (read_at d o n) (Z.to_nat k) = nth_error d (Z.to_nat (o + k)).
Proof.
  intros Ho Hk. unfold read_at. rewrite nth_firstn by lia. rewrite nth_skipn. f_equal. lia.
Qed.
Lemma read_at_zlen d o n : 0 <= o -> 0 <= n -> zlen (read_at d o n) = Z.max 0 (Z.min n (zlen d - o)).
Proof. intros Ho Hn. unfold read_at, zlen. rewrite firstn_length, skipn_length. lia. Qed.

Lemma firstn_pointwise {A} n : forall (x y : list A), (forall k, (k < n)%nat -> nth_error x k = nth_error y k) -> firstn n x = firstn n y.
Proof.
  induction n as [|n IH]; intros x y H; auto. pose proof (H 0%nat ltac:(lia)) as H0. destruct x as [|c x], y as [|c' y]; cbn in H0; try discriminate; auto.
  cbn [firstn]. assert (c' = c) by congruence. subst c'. f_equal. apply IH. intros k Hk. apply (H (S k)). lia.
Qed.

Section walk.
Variables (P D nb : Z) (clock : Z -> Z) (ev : env) (fs0 : list lent) (a : bytes).
Variables (F : lent -> uhdr -> Prop) (Dt : lent -> bytes).
Hypothesis HP : 512 <= P < 2147483648.
Hypothesis HPb : P mod 512 = 0.
Hypothesis HD : 0 <= D.
Hypothesis Hlast : last_bucket (-1) fs0 = nb - 1.
Definition E (j : Z) : Z := if j =? -1 then P else sumb 512 (bucket_of j fs0).
Hypothesis F1 : forall f h, In f fs0 -> l_orig f = 0 -> file_header ev (l_rel f) = Some h -> at_bytes a (D + frag_start f) h.
Hypothesis F2 : forall f d, In f fs0 -> l_type f = LReg -> 0 < l_size f -> e_data ev (l_rel f) = Some d -> at_bytes a (D + l_loc f) (read_at d (l_orig f) (l_size f)).
Hypothesis F3 : forall j, 0 <= j < nb -> E j < P -> at_bytes a (D + j * P + E j) (space_header (P - E j - 512) (clock j)).
Hypothesis F4 : at_bytes a (D + nb * P) (repeat NUL 1024).
Hypothesis F5 : D + nb * P + 1024 <= zlen a.
(** entries *)
Definition listed (e : lent) : Prop :=
  (exists h, file_header ev (l_rel e) = Some h /\ zlen h = l_hdr e /\ 0 < l_hdr e /\ l_hdr e mod 512 = 0 /\
    forall rest, exists u, read_header (h ++ rest) = Some (u, rest) /\ F e u /\ u_size u = zlen (Dt e)) /\
  round512 (zlen (Dt e)) = round512 (Z.max 0 (l_size e)) /\
  (0 < l_size e -> l_type e = LReg /\ e_data ev (l_rel e) = Some (Dt e)).
Definition shown (e : lent) (m : member) : Prop := exists u x, F e u /\ m = member_of u x /\ zlen x = zlen (Dt e) /\
  firstn (Z.to_nat (l_size e)) x = firstn (Z.to_nat (l_size e)) (Dt e).

Lemma follows_last e s i w o g i' w' o' fs : follows 512 P e s i w o g i' w' o' -> last_bucket i (g ++ fs) = last_bucket i' fs.
Proof. induction 1 as [|i o f g i' w' o' S1 S2 S3 S4 S5 S6 S7 S8 _ IH]; auto. cbn [app last_bucket]. rewrite S2. exact IH. Qed.

Lemma follows_data e s i w o g i' w' o' : follows 512 P e s i w o g i' w' o' -> l_type e = LReg -> e_data ev (l_rel e) = Some (Dt e) -> (forall f, In f g -> In f fs0) ->
  forall k, o <= k < o' -> k < zlen (Dt e) -> nth_error a (Z.to_nat (D + (s + l_hdr e) + k)) = nth_error (Dt e) (Z.to_nat k).
Proof.
  induction 1 as [|i o f g i' w' o' S1 S2 S3 S4 S5 S6 S7 S8 _ IH]; intros Ht Hd Hin k Hk Hz; [lia|].
  destruct (Z.lt_ge_cases k (o + l_size f)) as [L|L].
  - assert (Hr : l_rel f = l_rel e) by apply S1. assert (Hty : l_type f = LReg) by (rewrite <- Ht; apply S1).
    rewrite <- Hr in Hd. pose proof (F2 f (Dt e) (Hin f (or_introl eq_refl)) Hty ltac:(lia) Hd) as A.
    specialize (A (k - o)). rewrite read_at_zlen in A by lia. rewrite S5 in A. specialize (A ltac:(lia)).
    rewrite read_at_nth in A by lia. replace (o + (k - o)) with k in A by lia. rewrite S4 in A.
    replace (D + (s + l_hdr e) + k) with (D + (s + l_hdr e + o) + (k - o)) by lia. exact A.
  - apply IH; auto; [|lia]. intros x Hx. apply Hin. right. exact Hx.
Qed.
Lemma follows_bucket e s i w o g i' w' o' fs : follows 512 P e s i w o g i' w' o' -> w <= P -> good 512 P i' w' fs ->
  (forall j, i <= j -> from i w j + sumb 512 (bucket_of j (g ++ fs)) = E j) -> forall j, i' <= j -> from i' w' j + sumb 512 (bucket_of j fs) = E j.
Proof.
  induction 1 as [|i o f g i' w' o' S1 S2 S3 S4 S5 S6 S7 S8 Fo IH]; intros Hw G Hj; auto.
  apply IH; [lia|exact G|]. intros j Hge. specialize (Hj j ltac:(lia)). cbn [app] in Hj. unfold from in *.
  destruct (Z.eqb_spec j i) as [|N1]; [lia|]. destruct (Z.eqb_spec j (i + 1)) as [->|N2].
  - rewrite <- S2 in Hj |- *. rewrite bucket_of_same in Hj. cbn [sumb] in Hj. rewrite S2 in *. lia.
  - rewrite bucket_of_other in Hj by lia. exact Hj.
Qed.
Lemma follows_ge e s i w o g i' w' o' : follows 512 P e s i w o g i' w' o' -> i <= i'.
Proof. induction 1; lia. Qed.

Lemma blocked_round n : 0 <= n -> blocked_up 512 n = round512 n.
Proof. intros H. pose proof (round512_bounds n H). pose proof (blocked_bounds 512 n ltac:(lia)). lia. Qed.

(** the spacer of a bucket *)
Lemma spacer_step i fuel : 0 <= i < nb -> 0 <= E i < P -> E i + 512 <= P ->
  (length (skipn (Z.to_nat (D + i * P + E i)) a) < S fuel)%nat ->
  (length (skipn (Z.to_nat (D + (i + 1) * P)) a) < fuel)%nat /\
  exists m, is_spacer m /\ read_archive (S fuel) (skipn (Z.to_nat (D + i * P + E i)) a) =
    match read_archive fuel (skipn (Z.to_nat (D + (i + 1) * P)) a) with Some ms => Some (m :: ms) | None => None end.
Proof.
  intros Hi He He2 Hf. assert (Hn : (i + 1) * P <= nb * P) by nia. assert (H0 : 0 <= i * P) by nia.
  split. { rewrite skipn_length in *. unfold zlen in *. lia. }
  assert (Hw : wrap32 (P - E i - 512) = P - E i - 512) by (apply wrap32_id; unfold is_int; change (2 ^ 31) with 2147483648; lia).
  pose proof (F3 i Hi ltac:(lia)) as A. unfold space_header in A. rewrite Hw in A.
  destruct (fixed_header_read (b ".parfu_spacer ") (P - E i - 512) (clock i)) as (Ln & t & Rd).
  { cbn. intros H. repeat destruct H as [H|H]; try discriminate; contradiction. }
  { cbn; lia. }
  { change (8 ^ 11) with 8589934592; lia. }
  set (u := {| u_name := b ".parfu_spacer "; u_mode := 384; u_uid := 0; u_gid := 0; u_size := P - E i - 512; u_mtime := t; u_type := REGTYPE; u_link := []; u_uname := b "root"; u_gname := b "root" |}) in *.
  set (h := fixed_header (b ".parfu_spacer ") (P - E i - 512) (clock i)) in *.
  assert (Lh : zlen h = 512) by (unfold zlen; lia).
  assert (Rn : round512 (P - E i - 512) = P - E i - 512).
  { assert (Em : E i mod 512 = 0) by (unfold E; destruct (i =? -1); [exact HPb|apply sumb_mod]). clear - He2 He Em HPb.
    unfold round512. pose proof (Z.div_mod (E i) 512 ltac:(lia)). pose proof (Z.div_mod P 512 ltac:(lia)).
    set (x := E i) in *. clearbody x. replace (P - x - 512 + 511) with ((P / 512 - x / 512 - 1) * 512 + 511) by lia.
    rewrite Z.div_add_l by lia. change (511 / 512) with 0. lia. }
  eexists. split; [|rewrite (read_step a (D + i * P + E i) h u fuel); auto; try lia].
  2:{ change (u_size u) with (P - E i - 512). rewrite Rn, Lh. replace (D + i * P + E i + 512 + (P - E i - 512)) with (D + (i + 1) * P) by lia. reflexivity. }
  2:{ unfold u. cbn [u_size]. lia. }
  2:{ unfold u. cbn [u_size]. rewrite Rn. lia. }
  split; [reflexivity|]. split; reflexivity.
Qed.

Lemma walk_seated i w l fs : seated 512 P i w l fs -> 0 < w <= P -> -1 <= i -> (i = -1 -> w = P) -> last_bucket i fs = nb - 1 ->
  (forall j, i <= j -> from i w j + sumb 512 (bucket_of j fs) = E j) -> (forall f, In f fs -> In f fs0) -> Forall listed l ->
  forall fuel, (length (skipn (Z.to_nat (D + i * P + w)) a) < fuel)%nat ->
  exists ms, read_archive fuel (skipn (Z.to_nat (D + i * P + w)) a) = Some ms /\ interspersed shown is_spacer l ms.
Proof.
  intros Hs. induction Hs as [i w|i w e l f g fs j u i' w' total Hj Hu Hsf Hb Ho Hl Hneg Hpos Hf Hend Hw' Hrest IH]; intros Hw Hi Hm1 Hlb HE Hin Hli fuel Hfu.
  - (* end *)
    cbn [last_bucket] in Hlb. specialize (HE i ltac:(lia)). cbn in HE. unfold from in HE. rewrite Z.eqb_refl in HE.
    destruct (Z.eq_dec w P) as [->|Nw].
    + replace (D + i * P + P) with (D + nb * P) in * by nia. destruct fuel as [|fuel]; [lia|]. exists []. split; [|constructor]. apply read_end; [nia|exact F4].
    + assert (0 <= i). { destruct (Z.eq_dec i (-1)) as [->|]; [|lia]. exfalso. unfold E in HE. cbn in HE. lia. }
      replace (D + i * P + w) with (D + i * P + E i) in * by lia. destruct fuel as [|fuel]; [lia|].
      assert (Em : E i mod 512 = 0) by (unfold E; destruct (i =? -1); [exact HPb|apply sumb_mod]).
      assert (He : E i + 512 <= P) by (clear - Em HPb HE Hw Nw; pose proof (Z.div_mod (E i) 512 ltac:(lia)); pose proof (Z.div_mod P 512 ltac:(lia)); lia).
      destruct (spacer_step i fuel ltac:(lia) ltac:(lia) He Hfu) as (Hfu2 & m & Hm & Er). rewrite Er.
      replace (D + (i + 1) * P) with (D + nb * P) in * by nia. destruct fuel as [|fuel]; [lia|].
      rewrite read_end by (auto; nia). exists [m]. split; auto. constructor; auto. constructor.
  - inversion Hli as [|? ? He0 Hli']; subst.
    assert (Gd : good 512 P i' w' fs) by (apply (seated_good 512 P eq_refl ltac:(lia) i' w' l fs); [assumption|lia]).
    (* position of the entry *)
    assert (Hpart : forall fuel, (length (skipn (Z.to_nat (D + l_bucket f * P + u)) a) < fuel)%nat -> -1 < l_bucket f ->
       last_bucket (l_bucket f) (g ++ fs) = nb - 1 ->
       (forall k, l_bucket f <= k -> from (l_bucket f) (u + bsz 512 f) k + sumb 512 (bucket_of k (g ++ fs)) = E k) ->
       exists ms, read_archive fuel (skipn (Z.to_nat (D + l_bucket f * P + u)) a) = Some ms /\ interspersed shown is_spacer (e :: l) ms).
    { clear fuel Hfu. intros fuel Hfu Hi0 Hlb2 HE2. set (j := l_bucket f) in *.
      assert (Hu0 : 0 <= u) by lia.
      destruct He0 as ((h & Eh & Lh & Hh0 & Hh & Rd) & LD & HDat).
      rewrite (follows_last _ _ _ _ _ _ _ _ _ fs Hf) in Hlb2.
      pose proof (follows_ge _ _ _ _ _ _ _ _ _ Hf) as Hge.
      assert (Hi' : i' <= nb - 1) by (rewrite <- Hlb2; apply last_bucket_ge; [apply Gd|lia]).
      assert (Hhe : l_hdr f = l_hdr e) by apply Hsf. assert (Hre : l_rel f = l_rel e) by apply Hsf.
      assert (Fst : frag_start f = j * P + u) by (unfold frag_start; rewrite Ho; cbn [Z.eqb]; lia).
      pose proof (F1 f h (Hin f (or_introl eq_refl)) Ho ltac:(rewrite Hre; exact Eh)) as A1. rewrite Fst in A1.
      replace (D + (j * P + u)) with (D + j * P + u) in A1 by lia.
      assert (Hpos0 : 0 <= D + j * P + u) by nia.
      destruct (Rd (skipn (Z.to_nat (D + j * P + u + zlen h)) a)) as (uh & Eu & Fu & Su).
      assert (Hsum : sum_size e = l_hdr e + Z.max 0 (l_size e)) by (rewrite (sum_size_max 512 P ltac:(lia)); lia).
      assert (Hbl : blocked_up 512 (sum_size e) = l_hdr e + round512 (u_size uh)).
      { rewrite Hsum, Su, Z.add_comm. rewrite (blocked_add 512 P ltac:(lia)) by (auto; lia). rewrite blocked_round by lia. lia. }
      assert (Hend2 : D + j * P + u + zlen h + round512 (u_size uh) = D + i' * P + w') by lia.
      assert (Hlen : D + i' * P + w' <= D + nb * P) by nia.
      (* the data *)
      assert (A2 : forall k, 0 <= k < zlen (Dt e) -> k < l_size e -> nth_error a (Z.to_nat (D + j * P + u + zlen h + k)) = nth_error (Dt e) (Z.to_nat k)).
      { intros k Hk Hk2. assert (Hsz : 0 < l_size e) by lia. destruct (HDat Hsz) as (Ht & Hd). destruct (Hpos ltac:(lia)) as (Hp1 & Hp2).
        replace (D + j * P + u + zlen h + k) with (D + (j * P + u + l_hdr e) + k) by lia.
        destruct (Z.lt_ge_cases k (l_size f)) as [L|L].
        - assert (Hty : l_type f = LReg) by (rewrite <- Ht; apply Hsf). 
          pose proof (F2 f (Dt e) (Hin f (or_introl eq_refl)) Hty ltac:(lia) ltac:(rewrite Hre; exact Hd) k) as A.
          rewrite Ho, read_at_zlen in A by lia. specialize (A ltac:(lia)). rewrite read_at_nth in A by lia. rewrite Hl in A. exact A.
        - eapply follows_data; eauto; [|lia|lia]. intros x Hx. apply Hin. right. apply in_or_app. auto. }
      destruct fuel as [|fuel]; [lia|].
      pose proof (zlen_nonneg (Dt e)) as LD0.
      set (x := firstn (Z.to_nat (u_size uh)) (skipn (Z.to_nat (D + j * P + u + zlen h)) a)).
      assert (Lx : zlen x = zlen (Dt e)).
      { pose proof (round512_bounds (u_size uh) ltac:(lia)) as Rb. unfold x, zlen in *. rewrite firstn_length, skipn_length. lia. }
      assert (Fx : firstn (Z.to_nat (l_size e)) x = firstn (Z.to_nat (l_size e)) (Dt e)).
      { apply firstn_pointwise. intros k Hk. destruct (Z.lt_ge_cases (Z.of_nat k) (zlen (Dt e))) as [Lk|Lk].
        - specialize (A2 (Z.of_nat k) ltac:(lia) ltac:(lia)). rewrite Nat2Z.id in A2. rewrite <- A2. unfold x. rewrite nth_firstn by lia. rewrite nth_skipn. f_equal. lia.
        - rewrite (proj2 (nth_error_None _ _)), (proj2 (nth_error_None _ _)); auto; unfold zlen in *; lia. }
      assert (Step : read_archive (S fuel) (skipn (Z.to_nat (D + j * P + u)) a) =
        match read_archive fuel (skipn (Z.to_nat (D + i' * P + w')) a) with Some ms => Some (member_of uh x :: ms) | None => None end).
      { rewrite (skip_at a _ h Hpos0 A1). cbn [read_archive].
        destruct (h ++ skipn (Z.to_nat (D + j * P + u + zlen h)) a) as [|c L] eqn:EL; [destruct h; [unfold zlen in Lh; cbn in Lh; lia|discriminate]|].
        rewrite (read_header_nonzero _ _ Eu), Bool.andb_false_r. unfold read_member. rewrite Eu.
        pose proof (round512_bounds (u_size uh) ltac:(lia)) as Rb.
        assert (LR : zlen (skipn (Z.to_nat (D + j * P + u + zlen h)) a) = zlen a - (D + j * P + u + zlen h)) by (unfold zlen in *; rewrite skipn_length; lia).
        destruct (Nat.ltb_spec (length (skipn (Z.to_nat (D + j * P + u + zlen h)) a)) (Z.to_nat (round512 (u_size uh)))) as [Hlt|_]; [unfold zlen in *; lia|].
        rewrite skipn_skipn. replace (Z.to_nat (round512 (u_size uh)) + Z.to_nat (D + j * P + u + zlen h))%nat with (Z.to_nat (D + i' * P + w')) by lia.
        reflexivity. }
      destruct (IH ltac:(lia) ltac:(lia) ltac:(lia) Hlb2) with (fuel := fuel) as (ms & M1 & M2); auto.
      - eapply follows_bucket; eauto.
      - intros y Hy. apply Hin. right. apply in_or_app. auto.
      - pose proof (round512_bounds (u_size uh) ltac:(lia)). rewrite skipn_length in *. unfold zlen in *. lia.
      - exists (member_of uh x :: ms). rewrite Step, M1. split; auto. apply In_entry; auto. exists uh, x. auto. }
    cbn [last_bucket] in Hlb.
    destruct Hj as [(Hj1 & ->)|(Hj1 & ->)].
    + rewrite <- Hj1 in *. destruct (Z.eq_dec (l_bucket f) (-1)) as [Em|Nm].
      * exfalso. 
        assert (0 < bsz 512 f). { unfold bsz. rewrite Ho. cbn [Z.eqb]. pose proof (blocked_bounds 512 (Z.max 0 (l_size f) + l_hdr f) ltac:(lia)).
          destruct He0 as ((h & _ & _ & Hh0 & _) & _). assert (l_hdr f = l_hdr e) by apply Hsf. lia. }
        specialize (Hm1 Em). lia.
      * apply Hpart; auto; [lia|]. intros k Hk. specialize (HE k Hk). unfold from in *. destruct (Z.eqb_spec k (l_bucket f)) as [Ek|Nk].
        -- rewrite Ek in *. rewrite bucket_of_same in HE. cbn [sumb] in HE. lia.
        -- rewrite bucket_of_other in HE by lia. exact HE.
    + assert (Hno : bucket_of i (f :: g ++ fs) = []).
      { rewrite bucket_of_other by lia. apply (bucket_of_none 512 P eq_refl). assert (G2 : good 512 P (l_bucket f) (0 + bsz 512 f) (g ++ fs)) by (eapply (follows_good 512 P eq_refl); eauto).
        destruct G2 as (G2 & _). eapply Forall_impl; [|exact G2]. cbn. intros; lia. }
      assert (HEi : E i = w). { specialize (HE i ltac:(lia)). rewrite Hno in HE. unfold from in HE. rewrite Z.eqb_refl in HE. cbn [sumb] in HE. lia. }
      assert (HE2 : forall k, l_bucket f <= k -> from (l_bucket f) (0 + bsz 512 f) k + sumb 512 (bucket_of k (g ++ fs)) = E k).
      { intros k Hk. specialize (HE k ltac:(lia)). unfold from in *. destruct (Z.eqb_spec k i); [lia|]. destruct (Z.eqb_spec k (l_bucket f)) as [Ek|Nk].
        - rewrite Ek in *. rewrite bucket_of_same in HE. cbn [sumb] in HE. lia.
        - rewrite bucket_of_other in HE by lia. exact HE. }
      destruct (Z.eq_dec w P) as [Ew|Nw].
      * replace (D + i * P + w) with (D + l_bucket f * P + 0) in * by nia. apply Hpart; auto. lia.
      * assert (Hi0 : 0 <= i) by (destruct (Z.eq_dec i (-1)) as [X|]; [specialize (Hm1 X); lia|lia]).
        assert (Hib : i + 1 <= nb - 1).
        { rewrite <- Hlb, <- Hj1. apply last_bucket_ge; [|lia]. assert (G2 : good 512 P (l_bucket f) (0 + bsz 512 f) (g ++ fs)) by (eapply (follows_good 512 P eq_refl); eauto). apply G2. }
        replace (D + i * P + w) with (D + i * P + E i) in * by lia. destruct fuel as [|fuel]; [lia|].
        assert (Em : E i mod 512 = 0) by (unfold E; destruct (i =? -1); [exact HPb|apply sumb_mod]).
        assert (He : E i + 512 <= P) by (clear - Em HPb HEi Hw Nw; pose proof (Z.div_mod (E i) 512 ltac:(lia)); pose proof (Z.div_mod P 512 ltac:(lia)); lia).
        destruct (spacer_step i fuel ltac:(lia) ltac:(lia) He Hfu) as (Hfu2 & m & Hm & Er).
        replace (D + (i + 1) * P) with (D + l_bucket f * P + 0) in * by nia.
        destruct (Hpart fuel) as (ms & M1 & M2); auto; [lia|]. exists (m :: ms). rewrite Er, M1. split; auto. constructor; auto.
Qed.
End walk.
