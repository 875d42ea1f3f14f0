(** Lemmas about the tarentry.cc model. *)
From Verif Require Import Bytes Outcome TarSpec TarModel.
From Coq Require Import ZifyBool ZifyNat ZifyN.
Ltac Zify.zify_post_hook ::= Z.div_mod_to_equations.

(** ** record lengths (C01) *)
Lemma pax_record_zlen n k v : 0 <= n ->
  zlen (pax_record n k v) = zlen k + zlen v + 3 + ndig 10 n.
Proof.
  intros Hn. unfold pax_record. rewrite !zlen_app, print_int_zlen by auto.
  change (zlen [SP]) with 1. change (zlen [EQ]) with 1. change (zlen [LF]) with 1. lia.
Qed.

Lemma pow10_gt d : 0 <= d -> d < 10 ^ d.
Proof. intros. apply Z.pow_gt_lin_r; lia. Qed.

Lemma record_length_ok k v :
  exists n, record_length k v = Ok n /\ 0 < n /\ zlen (pax_record n k v) = n.
Proof.
  unfold record_length. pose proof (zlen_nonneg k) as Hk. pose proof (zlen_nonneg v) as Hv.
  set (L := zlen k + zlen v + 3).
  replace (zlen k + zlen v + 5) with (L + 2) by (unfold L; lia).
  assert (HL : 3 <= L) by (unfold L; lia).
  assert (F : forall n, 0 <= n -> zlen (pax_record n k v) = L + ndig 10 n)
    by (intros; rewrite pax_record_zlen; unfold L; lia).
  destruct (ndig_spec 10 (L + 2) ltac:(lia) ltac:(lia)) as (D1 & D2 & D3 & _).
  specialize (D3 ltac:(lia)). set (d := ndig 10 (L + 2)) in *.
  cbn [record_length_loop]. rewrite (F (L + 2)) by lia. fold d.
  destruct (Z.eqb_spec (L + 2) (L + d)) as [E1|E1].
  { exists (L + d). split; auto. split; [lia|]. rewrite F by lia. rewrite <- E1. fold d. lia. }
  rewrite (F (L + d)) by lia.
  destruct (Z.eqb_spec (L + d) (L + ndig 10 (L + d))) as [E2|E2].
  { eexists. split; eauto. split; [lia|]. rewrite <- E2. rewrite F by lia. lia. }
  assert (Hd3 : 3 <= d).
  { destruct (Z_le_gt_dec 3 d); auto. exfalso.
    assert (d = 1) as Hd by lia. apply E2. f_equal.
    rewrite Hd in *. symmetry. apply ndig_unique; lia. }
  pose proof (pow10_gt d ltac:(lia)) as Hp.
  assert (Hpow : 10 ^ (d + 1) = 10 * 10 ^ d) by (rewrite Z.pow_add_r by lia; lia).
  assert (E3 : ndig 10 (L + d) = d + 1).
  { destruct (Z_lt_dec (L + d) (10 ^ d)) as [Hlt|Hge].
    - exfalso. apply E2. f_equal. symmetry. apply ndig_unique; lia.
    - apply ndig_unique; try lia. replace (d + 1 - 1) with d by lia. lia. }
  rewrite E3. rewrite (F (L + (d + 1))) by lia.
  assert (E4 : ndig 10 (L + (d + 1)) = d + 1).
  { apply ndig_unique; try lia. replace (d + 1 - 1) with d by lia.
    destruct (Z_lt_dec (L + d) (10 ^ d)) as [Hlt|Hge]; [|lia].
    exfalso. apply E2. f_equal. symmetry. apply ndig_unique; lia. }
  rewrite E4, Z.eqb_refl. eexists. split; eauto. split; [lia|].
  rewrite F by lia. lia.
Qed.

(** ** rounding *)
Lemma round_to_block_spec n : round_to_block n = round512 n.
Proof.
  unfold round_to_block, round512, BLOCKSIZE.
  change (512 - 1) with (Z.ones 9).
  rewrite <- Z.ldiff_land, Z.ldiff_ones_r by lia.
  rewrite Z.shiftl_mul_pow2, Z.shiftr_div_pow2 by lia.
  change (2 ^ 9) with 512. change (Z.ones 9) with 511. reflexivity.
Qed.

Lemma round512_bounds n : 0 <= n -> n <= round512 n < n + 512 /\ round512 n mod 512 = 0.
Proof. intros. unfold round512. split; [lia|]. apply Z.mod_mul. lia. Qed.

Lemma round512_id n : n mod 512 = 0 -> round512 n = n.
Proof. intros. unfold round512. lia. Qed.

(** ** pax sizes: get_paxsize is the length of the records written *)
Lemma opt_record_ok c k v :
  exists r, opt_record c k v = Ok r /\ opt_record_length c k v = Ok (zlen r)
    /\ (c = true -> exists n, r = pax_record n k v /\ zlen r = n /\ 0 < n) /\ (c = false -> r = []).
Proof.
  unfold opt_record, opt_record_length. destruct c.
  - destruct (record_length_ok k v) as (n & H1 & H2 & H3). rewrite H1. cbn [bind].
    exists (pax_record n k v). rewrite H3. repeat split; auto; [|discriminate]. intros _. eauto.
  - exists []. repeat split; auto. discriminate.
Qed.

Definition pax_recs (e : tarentry) (recs : bytes) : Prop :=
  exists r1 r2 r3,
    opt_record (need_path e) (b "path") (cstr (te_file e)) = Ok r1 /\
    opt_record (need_link e) (b "linkpath") (cstr (te_link e)) = Ok r2 /\
    opt_record (need_size e) (b "size") (print_dec (st_size (te_stat e))) = Ok r3 /\
    recs = r1 ++ r2 ++ r3.

Lemma get_paxsize_ok e : exists recs, pax_recs e recs /\ get_paxsize e = Ok (zlen recs).
Proof.
  unfold get_paxsize, pax_recs.
  destruct (opt_record_ok (need_path e) (b "path") (cstr (te_file e))) as (r1 & A1 & B1 & _).
  destruct (opt_record_ok (need_link e) (b "linkpath") (cstr (te_link e))) as (r2 & A2 & B2 & _).
  destruct (opt_record_ok (need_size e) (b "size") (print_dec (st_size (te_stat e)))) as (r3 & A3 & B3 & _).
  rewrite B1, B2, B3. cbn [bind].
  exists (r1 ++ r2 ++ r3). split; [do 3 eexists; eauto|].
  rewrite !zlen_app. f_equal. lia.
Qed.

(** ** fixed fields *)
Lemma field_length w l : length (field w l) = w.
Proof. unfold field. rewrite app_length, firstn_length, repeat_length. lia. Qed.
Lemma sfield_length w l : length (sfield w l) = w.
Proof. apply field_length. Qed.
Lemma octfield_length w n : length (octfield w n) = w.
Proof. apply field_length. Qed.
Lemma chksum_field_length n : length (chksum_field n) = 8%nat.
Proof.
  unfold chksum_field. set (s := firstn 7 (digit 0 :: print_oct n)).
  assert (length s <= 7)%nat by (unfold s; rewrite firstn_length; lia).
  rewrite !app_length, skipn_length, repeat_length. cbn [length]. lia.
Qed.

Lemma cstr_field w l : no_byte NUL l -> cstr (field w l) = firstn w l.
Proof.
  intros H. unfold field.
  assert (Hf : no_byte NUL (firstn w l)).
  { intros Hin. apply H. rewrite <- (firstn_skipn w l). apply in_or_app. auto. }
  destruct (w - length l)%nat as [|k] eqn:E.
  - cbn [repeat]. rewrite app_nil_r. apply cstr_id; auto.
  - cbn [repeat]. apply cstr_app_nul; auto.
Qed.

Lemma cstr_field_short w l : no_byte NUL l -> (length l <= w)%nat -> cstr (field w l) = l.
Proof. intros. rewrite cstr_field by auto. apply firstn_all2. auto. Qed.

Lemma cstr_repeat_nul n : cstr (repeat NUL n) = [].
Proof. destruct n; reflexivity. Qed.

Lemma digit_val_NUL bs : 2 <= bs <= 10 -> digit_val bs NUL = None.
Proof. intros. unfold digit_val. change (byte_val NUL) with 0. reflexivity. Qed.
Lemma digit_val_SP bs : 2 <= bs <= 10 -> digit_val bs SP = None.
Proof. intros. unfold digit_val. change (byte_val SP) with 32. auto. Qed.

(** an octal digit string ended by NUL is read back *)
Lemma oct_field_digits l r : l <> [] -> all_digits 8 l ->
  oct_field (l ++ NUL :: r) = Some (fst (scan_digits 8 l 0)).
Proof.
  intros Hne H. destruct l as [|c l]; [congruence|].
  inversion H as [|? ? [d [Hd ->]] H']; subst.
  unfold oct_field. cbn [app skip_space]. rewrite digit_not_space by lia.
  rewrite digit_val_digit by lia.
  change (digit d :: l ++ NUL :: r) with ((digit d :: l) ++ NUL :: r).
  rewrite scan_digits_app; [|lia|auto|apply digit_val_NUL; lia].
  rewrite beq_refl. reflexivity.
Qed.

Lemma octfield_split w n : (2 <= w)%nat -> 0 <= n -> exists ds,
  octfield w n = ds ++ [NUL] /\ ds = firstn (w - 1) (zpad (w - 1) (print_oct n)) /\ length ds = (w - 1)%nat.
Proof.
  intros Hw Hn. unfold octfield, sfield.
  set (z := zpad (w - 1) (print_oct n)).
  assert (Hz : (w - 1 <= length z)%nat).
  { unfold z, zpad. rewrite app_length, repeat_length. lia. }
  exists (firstn (w - 1) z). split; [|split; auto].
  - unfold field. rewrite firstn_firstn. rewrite firstn_length.
    replace (Nat.min w (w - 1)) with (w - 1)%nat by lia.
    replace (w - Nat.min (w - 1) (length z))%nat with 1%nat by lia. reflexivity.
  - rewrite firstn_length. lia.
Qed.

Lemma all_digits_firstn bs k l : all_digits bs l -> all_digits bs (firstn k l).
Proof.
  intros H. unfold all_digits in *. rewrite <- (firstn_skipn k l) in H.
  apply Forall_app in H. tauto.
Qed.

Lemma octfield_read w n : (2 <= w)%nat -> 0 <= n < 8 ^ Z.of_nat (w - 1) ->
  oct_field (octfield w n) = Some n.
Proof.
  intros Hw Hn. destruct (octfield_split w n Hw ltac:(lia)) as (ds & E & Eds & Hl).
  rewrite E, oct_field_digits.
  - rewrite Eds. rewrite firstn_all2; [|unfold print_oct; rewrite zpad_length by lia; lia].
    unfold print_oct. rewrite zpad_value by lia. reflexivity.
  - intros ->. cbn [length] in Hl. lia.
  - rewrite Eds. apply all_digits_firstn. unfold print_oct. apply zpad_digits; lia.
Qed.

Lemma scan_digits_bound bs l : 2 <= bs <= 10 -> all_digits bs l ->
  0 <= fst (scan_digits bs l 0) < bs ^ zlen l.
Proof.
  intros Hb H. induction H as [|c l [d [Hd ->]] H IH].
  - cbn. lia.
  - rewrite zlen_cons. cbn [scan_digits]. rewrite digit_val_digit by lia.
    rewrite scan_digits_lin by auto.
    assert (bs ^ (1 + zlen l) = bs * bs ^ zlen l).
    { rewrite Z.pow_add_r by (pose proof (zlen_nonneg l); lia). lia. }
    set (P := bs ^ zlen l) in *. nia.
Qed.

(** whatever is put in, an octal field of [w] bytes reads as less than 8^(w-1) *)
Lemma octfield_any w n : (2 <= w)%nat -> 0 <= n ->
  exists v, oct_field (octfield w n) = Some v /\ 0 <= v < 8 ^ Z.of_nat (w - 1).
Proof.
  intros Hw Hn. destruct (octfield_split w n Hw Hn) as (ds & E & Eds & Hl).
  assert (Hd : all_digits 8 ds).
  { rewrite Eds. apply all_digits_firstn. unfold print_oct. apply zpad_digits; lia. }
  rewrite E, oct_field_digits; auto.
  - eexists. split; eauto. rewrite <- Hl. apply scan_digits_bound; auto. lia.
  - intros ->. cbn [length] in Hl. lia.
Qed.

Lemma chksum_read n : 0 <= n < 8 ^ 6 -> oct_field (chksum_field n) = Some n.
Proof.
  intros Hn. unfold chksum_field.
  assert (Hl : ndig 8 n <= 6) by (apply ndig_le; lia). unfold ndig, zlen in Hl.
  rewrite (firstn_all2 (n:=7)) by (cbn [length]; unfold print_oct; lia).
  cbn [app].
  match goal with |- oct_field (digit 0 :: print_oct n ++ NUL :: ?x) = _ =>
    change (digit 0 :: print_oct n ++ NUL :: x) with ((digit 0 :: print_oct n) ++ NUL :: x) end.
  rewrite oct_field_digits; [|discriminate|].
  - cbn [scan_digits]. rewrite digit_val_digit by lia. change (0 * 8 + 0) with 0.
    unfold print_oct. rewrite print_base_value by lia. auto.
  - constructor; [exists 0; split; auto; lia|]. apply print_base_digits; lia.
Qed.

(** ** the block and the reader *)
Lemma split_widths_app w ws a r : length a = w ->
  split_widths (w :: ws) (a ++ r) = a :: split_widths ws r.
Proof.
  intros <-. cbn [split_widths]. rewrite firstn_app, Nat.sub_diag, firstn_all, skipn_app, Nat.sub_diag, skipn_all.
  cbn [firstn skipn]. rewrite app_nil_r. reflexivity.
Qed.
Lemma split_widths_last w a : length a = w -> split_widths [w] a = [a].
Proof. intros <-. cbn [split_widths]. rewrite firstn_all. reflexivity. Qed.

Lemma byte_sum_app l m : byte_sum (l ++ m) = byte_sum l + byte_sum m.
Proof. induction l as [|c l IH]; simpl; [auto|rewrite IH; lia]. Qed.
Lemma byte_sum_bound l : 0 <= byte_sum l <= 255 * zlen l.
Proof.
  induction l as [|c l IH]; [cbn; lia|]. rewrite zlen_cons. cbn [byte_sum fold_right].
  fold (byte_sum l). pose proof (byte_val_range c). lia.
Qed.
Lemma sum_bytes_eq l : sum_bytes l = byte_sum l. Proof. reflexivity. Qed.

(** Any block laid out as the sixteen fields around a correct checksum. *)
Lemma read_block_fields name mode uid gid size mtime typ lnk uname gname dmaj dmin prefix pad m u g s t :
  length name = 100%nat -> length mode = 8%nat -> length uid = 8%nat -> length gid = 8%nat ->
  length size = 12%nat -> length mtime = 12%nat -> length lnk = 100%nat ->
  length uname = 32%nat -> length gname = 32%nat -> length dmaj = 8%nat -> length dmin = 8%nat ->
  length prefix = 155%nat -> length pad = 12%nat -> cstr prefix = [] ->
  oct_field mode = Some m -> oct_field uid = Some u -> oct_field gid = Some g ->
  oct_field size = Some s -> oct_field mtime = Some t ->
  let pre := name ++ mode ++ uid ++ gid ++ size ++ mtime in
  let post := [typ] ++ lnk ++ (b "ustar" ++ [NUL]) ++ b "00" ++ uname ++ gname ++ dmaj ++ dmin ++ prefix ++ pad in
  let blk := pre ++ chksum_field (sum_bytes (pre ++ repeat SP 8 ++ post)) ++ post in
  length blk = 512%nat /\
  read_block blk = Some {| u_name := cstr name; u_mode := m; u_uid := u; u_gid := g; u_size := s;
                           u_mtime := t; u_type := typ; u_link := cstr lnk;
                           u_uname := cstr uname; u_gname := cstr gname |}.
Proof.
  intros L1 L2 L3 L4 L5 L6 L7 L8 L9 L10 L11 L12 L13 Hpre Hm Hu Hg Hs Ht pre post blk.
  assert (Hlen : length blk = 512%nat).
  { unfold blk, pre, post. rewrite !app_length, chksum_field_length. cbn [length b list_ascii_of_string]. lia. }
  split; auto. unfold read_block. rewrite Hlen. cbn [Nat.eqb negb].
  set (sum := sum_bytes (pre ++ repeat SP 8 ++ post)) in *.
  assert (Hsum : sum = byte_sum name + byte_sum mode + byte_sum uid + byte_sum gid + byte_sum size
                 + byte_sum mtime + 8 * 32 + byte_sum [typ] + byte_sum lnk + byte_sum (b "ustar" ++ [NUL])
                 + byte_sum (b "00") + byte_sum uname + byte_sum gname + byte_sum dmaj
                 + byte_sum dmin + byte_sum prefix + byte_sum pad).
  { unfold sum, pre, post. rewrite !sum_bytes_eq, !byte_sum_app.
    change (byte_sum (repeat SP 8)) with (8 * 32). lia. }
  assert (Hb : 0 <= sum < 8 ^ 6).
  { unfold sum. rewrite sum_bytes_eq. pose proof (byte_sum_bound (pre ++ repeat SP 8 ++ post)) as B.
    assert (zlen (pre ++ repeat SP 8 ++ post) = 512) as E.
    { unfold zlen. rewrite !app_length, repeat_length. revert Hlen. unfold blk.
      rewrite !app_length, chksum_field_length. lia. }
    rewrite E in B. lia. }
  unfold blk, pre, post, ustar_widths. rewrite <- !app_assoc.
  do 6 (rewrite split_widths_app by auto).
  rewrite split_widths_app by apply chksum_field_length.
  rewrite split_widths_app by auto.
  rewrite split_widths_app by auto.
  replace (b "ustar" ++ [NUL] ++ b "00" ++ uname ++ gname ++ dmaj ++ dmin ++ prefix ++ pad)
    with ((b "ustar" ++ [NUL]) ++ b "00" ++ uname ++ gname ++ dmaj ++ dmin ++ prefix ++ pad)
    by reflexivity.
  do 7 (rewrite split_widths_app by auto). rewrite split_widths_last by auto.
  rewrite Hm, Hu, Hg, Hs, Ht, chksum_read by auto.
  rewrite Hsum at 1. rewrite Z.eqb_refl, !bytes_eqb_refl. cbn [andb]. rewrite Hpre. reflexivity.
Qed.

(** the reader's view of one block written by make_ustar_header_block *)
Definition z21 : Z := 2097152.      (* 2^21 *)
Definition z33 : Z := 8589934592.   (* 2^33 *)

Lemma land_mask p : 0 <= Z.land p MODE_MASK < 4096.
Proof.
  unfold MODE_MASK. change 4095 with (Z.ones 12). rewrite Z.land_ones by lia.
  change (2 ^ 12) with 4096. apply Z.mod_pos_bound. lia.
Qed.

Lemma ustar_size_range s : (st_kind s = KReg -> 0 <= st_size s) -> 0 <= ustar_size s < z33.
Proof.
  intros H. unfold ustar_size, is_reg, MAX_FILE_SIZE, z33.
  destruct (st_kind s); try (cbn; lia). specialize (H eq_refl).
  destruct (Z.ltb_spec (st_size s) 8589934591); lia.
Qed.

Lemma ustar_block_read nm x s file ln blk :
  ustar_block nm x s file ln = Ok blk ->
  0 <= st_uid s -> 0 <= st_gid s -> (st_kind s = KReg -> 0 <= st_size s) ->
  no_byte NUL file -> no_byte NUL ln ->
  exists gn un u g t,
    group_name nm (st_gid s) = Some gn /\ user_name nm (st_uid s) = Some un /\
    oct_field (octfield 8 (match x with Some _ => 0 | None => st_uid s end)) = Some u /\
    oct_field (octfield 8 (match x with Some _ => 0 | None => st_gid s end)) = Some g /\
    oct_field (octfield 12 (st_mtime s mod 2 ^ 64)) = Some t /\
    length blk = 512%nat /\
    read_block blk = Some {| u_name := firstn 100 file; u_mode := Z.land (st_perm s) MODE_MASK;
        u_uid := u; u_gid := g; u_size := ustar_size s; u_mtime := t; u_type := typeflag x s;
        u_link := match st_kind s with KLnk => firstn 100 ln | _ => [] end;
        u_uname := match x with Some _ => [] | None => firstn 31 (cstr un) end;
        u_gname := match x with Some _ => [] | None => firstn 31 (cstr gn) end |}.
Proof.
  intros H Hu Hg Hs Hf Hln.
  destruct (octfield_any 8 (match x with Some _ => 0 | None => st_uid s end) ltac:(lia)) as (u & Eu & _);
    [destruct x; lia|].
  destruct (octfield_any 8 (match x with Some _ => 0 | None => st_gid s end) ltac:(lia)) as (g & Eg & _);
    [destruct x; lia|].
  destruct (octfield_any 12 (st_mtime s mod 2 ^ 64) ltac:(lia)) as (t & Et & _);
    [apply Z.mod_pos_bound; lia|].
  unfold ustar_block in H.
  assert (exists gn un, group_name nm (st_gid s) = Some gn /\ user_name nm (st_uid s) = Some un) as (gn & un & Egn & Eun).
  { destruct (st_kind s), (group_name nm (st_gid s)), (user_name nm (st_uid s)); try discriminate; eauto. }
  rewrite Egn, Eun in H. exists gn, un, u, g, t. do 5 (split; auto).
  assert (Hsf : forall l, cstr (sfield 32 (cstr l)) = firstn 31 (cstr l)).
  { intros l. unfold sfield. rewrite cstr_field_short; auto.
    - intros Hin. apply (cstr_no_nul l). rewrite <- (firstn_skipn (32 - 1) (cstr l)). apply in_or_app. auto.
    - rewrite firstn_length. lia. }
  pose proof (land_mask (st_perm s)) as Hmask.
  pose proof (ustar_size_range s Hs) as Hsz. unfold z33 in Hsz.
  set (lnk := match st_kind s with KLnk => field 100 ln | _ => repeat NUL 100 end) in *.
  set (un' := match x with Some _ => repeat NUL 32 | None => sfield 32 (cstr un) end) in *.
  set (gn' := match x with Some _ => repeat NUL 32 | None => sfield 32 (cstr gn) end) in *.
  set (dev := match x with Some _ => repeat NUL 8 | None => octfield 8 0 end) in *.
  destruct (read_block_fields (field 100 file) (octfield 8 (Z.land (st_perm s) MODE_MASK))
     (octfield 8 (match x with Some _ => 0 | None => st_uid s end))
     (octfield 8 (match x with Some _ => 0 | None => st_gid s end))
     (octfield 12 (ustar_size s)) (octfield 12 (st_mtime s mod 2 ^ 64)) (typeflag x s) lnk un' gn' dev dev
     (repeat NUL 155) (repeat NUL 12) (Z.land (st_perm s) MODE_MASK) u g (ustar_size s) t) as [HL HR];
   try reflexivity; auto using field_length, octfield_length.
  - unfold lnk. destruct (st_kind s); auto using field_length.
  - unfold un'. destruct x; auto using sfield_length.
  - unfold gn'. destruct x; auto using sfield_length.
  - unfold dev. destruct x; auto using octfield_length.
  - unfold dev. destruct x; auto using octfield_length.
  - apply octfield_read; [lia|]. change (8 ^ Z.of_nat (8 - 1)) with 2097152. lia.
  - apply octfield_read; [lia|]. change (8 ^ Z.of_nat (12 - 1)) with 8589934592. lia.
  - assert (E : blk = (field 100 file ++ octfield 8 (Z.land (st_perm s) MODE_MASK) ++
       octfield 8 (match x with Some _ => 0 | None => st_uid s end) ++
       octfield 8 (match x with Some _ => 0 | None => st_gid s end) ++
       octfield 12 (ustar_size s) ++ octfield 12 (st_mtime s mod 2 ^ 64)) ++
       chksum_field (sum_bytes ((field 100 file ++ octfield 8 (Z.land (st_perm s) MODE_MASK) ++
       octfield 8 (match x with Some _ => 0 | None => st_uid s end) ++
       octfield 8 (match x with Some _ => 0 | None => st_gid s end) ++
       octfield 12 (ustar_size s) ++ octfield 12 (st_mtime s mod 2 ^ 64)) ++ repeat SP 8 ++
       ([typeflag x s] ++ lnk ++ (b "ustar" ++ [NUL]) ++ b "00" ++ un' ++ gn' ++ dev ++ dev ++ repeat NUL 155 ++ repeat NUL 12))) ++
       ([typeflag x s] ++ lnk ++ (b "ustar" ++ [NUL]) ++ b "00" ++ un' ++ gn' ++ dev ++ dev ++ repeat NUL 155 ++ repeat NUL 12)).
    { destruct (st_kind s); try discriminate; injection H as <-; reflexivity. }
    rewrite <- E in HL, HR. split; auto. rewrite HR. f_equal. f_equal.
    + apply cstr_field; auto.
    + unfold lnk. destruct (st_kind s); auto using cstr_repeat_nul. apply cstr_field; auto.
    + unfold un'. destruct x; auto.
    + unfold gn'. destruct x; auto.
Qed.

Lemma ustar_block_length nm x s file ln blk :
  ustar_block nm x s file ln = Ok blk -> length blk = 512%nat.
Proof.
  intros H. unfold ustar_block in H.
  apply (f_equal (fun o => match o with Ok x => length x | _ => 512%nat end)) in H.
  cbv beta iota zeta in H. rewrite <- H. clear H.
  destruct (st_kind s), (group_name nm (st_gid s)), (user_name nm (st_uid s)); cbv beta iota zeta;
    try reflexivity; destruct x;
    repeat (rewrite app_length || rewrite field_length || rewrite sfield_length || rewrite octfield_length
            || rewrite chksum_field_length || rewrite repeat_length);
    cbn [length b list_ascii_of_string]; lia.
Qed.

Lemma ustar_block_ok nm x s file ln : st_kind s <> KOther ->
  group_name nm (st_gid s) <> None -> user_name nm (st_uid s) <> None ->
  exists blk, ustar_block nm x s file ln = Ok blk.
Proof.
  intros Hk Hg Hu. unfold ustar_block.
  destruct (st_kind s); try congruence;
    destruct (group_name nm (st_gid s)); try congruence;
    destruct (user_name nm (st_uid s)); try congruence; eauto.
Qed.

(** ** header length (C02) *)
Lemma pax_hdr_sz_spec p : 0 <= p -> pax_hdr_sz p mod 512 = 0 /\ (0 < p -> 512 + p <= pax_hdr_sz p)
  /\ 0 <= pax_hdr_sz p.
Proof.
  intros H. unfold pax_hdr_sz. destruct (Z.ltb_spec 0 p).
  - rewrite round_to_block_spec. pose proof (round512_bounds (BLOCKSIZE + p)). unfold BLOCKSIZE in *. lia.
  - split; [reflexivity|lia].
Qed.

Lemma hdr_size_ok e : exists n, hdr_size e = Ok n /\ 512 <= n /\ n mod 512 = 0.
Proof.
  unfold hdr_size. destruct (get_paxsize_ok e) as (r & _ & ->). cbn [bind].
  pose proof (pax_hdr_sz_spec (zlen r) (zlen_nonneg r)) as (A & B & C).
  eexists. split; [reflexivity|]. unfold BLOCKSIZE. clear B. set (p := pax_hdr_sz (zlen r)) in *.
  clearbody p. split; lia.
Qed.

(** decomposition of an emitted header *)
Lemma make_tar_header_inv nm e h : make_tar_header nm e = Ok h ->
  exists recs pax blk, pax_recs e recs /\ get_paxsize e = Ok (zlen recs) /\
    ustar_block nm None (te_stat e) (cstr (te_file e)) (cstr (te_link e)) = Ok blk /\ h = pax ++ blk /\
    (recs = [] -> pax = []) /\
    (recs <> [] -> exists pblk,
       ustar_block nm (Some XHDTYPE)
         {| st_kind := KReg; st_perm := 420; st_uid := st_uid (te_stat e); st_gid := st_gid (te_stat e);
            st_size := zlen recs; st_mtime := st_mtime (te_stat e) |} (pax_filename (cstr (te_file e))) [] = Ok pblk /\
       pax = pblk ++ recs ++ repeat NUL (Z.to_nat (round512 (zlen recs) - zlen recs))).
Proof.
  unfold make_tar_header. intros H.
  destruct (get_paxsize_ok e) as (recs & Hrecs & Hp). rewrite Hp in H. cbn [bind] in H.
  destruct recs as [|c recs'].
  - change (zlen (@nil ascii)) with 0 in H. cbn [Z.ltb Z.compare bind] in H.
    destruct (ustar_block nm None _ _ _) as [blk|] eqn:Eb; [|discriminate].
    cbn [bind] in H. injection H as <-.
    exists [], [], blk. repeat (split; auto). congruence.
  - set (recs := c :: recs') in *.
    assert (Hpos : 0 < zlen recs) by (unfold recs; rewrite zlen_cons; pose proof (zlen_nonneg recs'); lia).
    destruct (Z.ltb_spec 0 (zlen recs)); [|lia].
    destruct Hrecs as (r1 & r2 & r3 & E1 & E2 & E3 & E).
    match type of H with context [ustar_block nm (Some XHDTYPE) ?a ?b0 ?c0] =>
      destruct (ustar_block nm (Some XHDTYPE) a b0 c0) as [pblk|] eqn:Ep; [|discriminate] end.
    cbn [bind] in H. rewrite E1, E2, E3 in H. cbn [bind] in H. rewrite <- E in H.
    assert (Ephs : pax_hdr_sz (zlen recs) - BLOCKSIZE = round512 (zlen recs)).
    { unfold pax_hdr_sz. destruct (Z.ltb_spec 0 (zlen recs)); [|lia].
      rewrite round_to_block_spec. unfold BLOCKSIZE, round512. lia. }
    rewrite Ephs in H.
    destruct (Z.leb_spec (zlen recs) (round512 (zlen recs))); [|discriminate].
    cbn [bind] in H.
    destruct (ustar_block nm None _ _ _) as [blk|] eqn:Eb; [|discriminate].
    cbn [bind] in H. injection H as <-.
    exists recs, (pblk ++ recs ++ repeat NUL (Z.to_nat (round512 (zlen recs) - zlen recs))), blk.
    split; [do 3 eexists; eauto|]. repeat (split; auto); [discriminate|]. intros _. eauto.
Qed.

Lemma make_tar_header_length nm e h : make_tar_header nm e = Ok h ->
  hdr_size e = Ok (zlen h).
Proof.
  intros H. apply make_tar_header_inv in H as (recs & pax & blk & _ & Hp & Hb & -> & H0 & H1).
  unfold hdr_size. rewrite Hp. cbn [bind]. f_equal.
  apply ustar_block_length in Hb. rewrite zlen_app.
  assert (Eb : zlen blk = 512) by (unfold zlen; lia). rewrite Eb.
  destruct recs as [|c r].
  - rewrite H0 by auto. reflexivity.
  - destruct H1 as (pblk & Hp1 & ->); [discriminate|]. set (recs := c :: r) in *.
    apply ustar_block_length in Hp1.
    rewrite !zlen_app, zlen_repeat.
    assert (Epb : zlen pblk = 512) by (unfold zlen; lia). rewrite Epb.
    assert (0 < zlen recs) by (unfold recs; rewrite zlen_cons; pose proof (zlen_nonneg r); lia).
    unfold pax_hdr_sz. destruct (Z.ltb_spec 0 (zlen recs)); [|lia].
    rewrite round_to_block_spec. pose proof (round512_bounds (zlen recs)).
    unfold BLOCKSIZE, round512 in *. lia.
Qed.

Lemma make_tar_header_ok nm e : st_kind (te_stat e) <> KOther ->
  group_name nm (st_gid (te_stat e)) <> None -> user_name nm (st_uid (te_stat e)) <> None ->
  exists h, make_tar_header nm e = Ok h.
Proof.
  intros Hk Hg Hu. unfold make_tar_header.
  destruct (get_paxsize_ok e) as (recs & (r1 & r2 & r3 & E1 & E2 & E3 & E) & Hp). rewrite Hp. cbn [bind].
  destruct (ustar_block_ok nm None (te_stat e) (cstr (te_file e)) (cstr (te_link e)) Hk Hg Hu) as (blk & Eb).
  destruct (Z.ltb_spec 0 (zlen recs)) as [Hpos|].
  - destruct (ustar_block_ok nm (Some XHDTYPE) {| st_kind := KReg; st_perm := 420; st_uid := st_uid (te_stat e);
         st_gid := st_gid (te_stat e); st_size := zlen recs; st_mtime := st_mtime (te_stat e) |}
         (pax_filename (cstr (te_file e))) []) as (pb & Ep); auto; [discriminate|].
    rewrite Ep, E1, E2, E3. cbn [bind]. rewrite <- E.
    assert (Hle : zlen recs <= pax_hdr_sz (zlen recs) - BLOCKSIZE).
    { pose proof (pax_hdr_sz_spec (zlen recs) (zlen_nonneg recs)). unfold BLOCKSIZE. lia. }
    destruct (Z.leb_spec (zlen recs) (pax_hdr_sz (zlen recs) - BLOCKSIZE)); [|lia].
    cbn [bind]. rewrite Eb. cbn [bind]. eauto.
  - cbn [bind]. rewrite Eb. cbn [bind]. eauto.
Qed.

(** ** reading pax records *)
Lemma skipn_S_app {A} (k : list A) c v : skipn (S (length k)) (k ++ c :: v) = v.
Proof. induction k as [|x k IH]; cbn; auto. Qed.

Lemma read_pax_one n k v rest f :
  zlen (pax_record n k v) = n -> no_byte EQ k ->
  read_pax (S f) (pax_record n k v ++ rest) =
  match read_pax f rest with Some rs => Some ((k, v) :: rs) | None => None end.
Proof.
  intros Hn Hk.
  assert (Hn0 : 0 <= n) by (rewrite <- Hn; apply zlen_nonneg).
  pose proof (pax_record_zlen n k v Hn0) as HL. rewrite Hn in HL.
  unfold pax_record. unfold print_int. destruct (Z.ltb_spec n 0) as [|_]; [lia|].
  set (body := (k ++ [EQ] ++ v) ++ LF :: rest).
  assert (El : (print_dec n ++ [SP] ++ k ++ [EQ] ++ v ++ [LF]) ++ rest = print_dec n ++ SP :: body).
  { unfold body. rewrite <- !app_assoc. reflexivity. }
  rewrite El.
  destruct (print_base_cons 10 n ltac:(lia) Hn0) as (d & l & Hd & Ed).
  assert (Hlen : (length (print_dec n ++ SP :: body) = length (print_dec n) + 1 + length body)%nat)
    by (rewrite app_length; cbn [length]; lia).
  set (L := print_dec n ++ SP :: body) in *.
  assert (Escan : scan_digits 10 L 0 = (n, SP :: body)).
  { unfold L. rewrite scan_digits_app; [|lia|apply print_base_digits; lia|apply digit_val_SP; lia].
    unfold print_dec. rewrite print_base_value by lia. reflexivity. }
  assert (Ecase : exists c L', L = c :: L' /\ digit_val 10 c = Some d).
  { unfold L, print_dec. rewrite Ed. cbn [app]. do 2 eexists. split; eauto. apply digit_val_digit; lia. }
  destruct Ecase as (c & L' & EL & Ec).
  cbn [read_pax]. rewrite EL. rewrite Ec. rewrite <- EL. rewrite Escan. rewrite beq_refl. cbn [negb].
  replace (length L - length body)%nat with (length (print_dec n) + 1)%nat by lia.
  unfold ndig in HL. fold print_dec in HL.
  assert (Hb : length body = (length k + 1 + length v + 1 + length rest)%nat).
  { unfold body. rewrite !app_length. cbn [length]. lia. }
  unfold zlen in HL.
  assert (E1 : (Z.to_nat n <=? length (print_dec n) + 1)%nat = false) by (apply Nat.leb_gt; lia).
  assert (E2 : (length L <? Z.to_nat n)%nat = false) by (apply Nat.ltb_ge; lia).
  rewrite E1, E2. cbn [orb].
  replace (Z.to_nat n - (length (print_dec n) + 1) - 1)%nat with (length (k ++ [EQ] ++ v))
    by (rewrite !app_length; cbn [length]; lia).
  unfold body at 1. rewrite skipn_app, skipn_all, Nat.sub_diag. cbn [skipn app].
  rewrite beq_refl. cbn [negb].
  unfold body. rewrite firstn_app, Nat.sub_diag, firstn_all. cbn [firstn]. rewrite app_nil_r.
  cbn [app]. rewrite find_byte_app by auto.
  destruct (read_pax f rest); auto. f_equal. f_equal. f_equal.
  - rewrite firstn_app, Nat.sub_diag, firstn_all. cbn [firstn]. apply app_nil_r.
  - apply skipn_S_app.
Qed.

Definition rec_of (r : Z * (bytes * bytes)) : bytes := pax_record (fst r) (fst (snd r)) (snd (snd r)).
Lemma read_pax_list rs fuel :
  Forall (fun r => zlen (rec_of r) = fst r /\ no_byte EQ (fst (snd r))) rs ->
  (length rs <= fuel)%nat ->
  read_pax fuel (flat_map rec_of rs) = Some (map snd rs).
Proof.
  intros H. revert fuel. induction H as [|[n [k v]] rs [H1 H2] H IH]; intros fuel Hf.
  - destruct fuel; reflexivity.
  - cbn [length] in Hf. destruct fuel as [|f]; [lia|].
    cbn [flat_map]. unfold rec_of at 1. cbn [fst snd].
    rewrite read_pax_one by auto. rewrite IH by lia. reflexivity.
Qed.

(** the records of an entry, as the reader sees them *)
Definition opt_kv (c : bool) (k v : bytes) : list (bytes * bytes) := if c then [(k, v)] else [].
Definition entry_kvs (e : tarentry) : list (bytes * bytes) :=
  opt_kv (need_path e) (b "path") (cstr (te_file e)) ++
  opt_kv (need_link e) (b "linkpath") (cstr (te_link e)) ++
  opt_kv (need_size e) (b "size") (print_dec (st_size (te_stat e))).

Lemma opt_record_list c k v r : opt_record c k v = Ok r -> no_byte EQ k ->
  exists rs, r = flat_map rec_of rs /\ map snd rs = opt_kv c k v /\
    Forall (fun r => zlen (rec_of r) = fst r /\ no_byte EQ (fst (snd r))) rs /\ (length rs <= length r)%nat.
Proof.
  intros H Hk. destruct (opt_record_ok c k v) as (r' & H1 & _ & Hc & Hf). rewrite H in H1.
  injection H1 as ->. destruct c.
  - destruct Hc as (n & Er & Hn & Hpos); auto. exists [(n, (k, v))].
    assert (E : r' = flat_map rec_of [(n, (k, v))]) by (cbn; rewrite app_nil_r; auto).
    split; auto. split; auto. split.
    + constructor; [|constructor]. cbn [fst snd]. split; auto. unfold rec_of. cbn [fst snd]. rewrite <- Er. auto.
    + cbn [length]. unfold zlen in Hn. lia.
  - exists []. rewrite Hf by auto. cbn. repeat split; auto.
Qed.

Lemma no_EQ_keys : no_byte EQ (b "path") /\ no_byte EQ (b "linkpath") /\ no_byte EQ (b "size").
Proof. repeat split; intros H; cbn in H; intuition discriminate. Qed.

Lemma read_pax_recs e recs fuel : pax_recs e recs -> (length recs <= fuel)%nat ->
  read_pax fuel recs = Some (entry_kvs e).
Proof.
  intros (r1 & r2 & r3 & E1 & E2 & E3 & ->) Hf. destruct no_EQ_keys as (N1 & N2 & N3).
  apply opt_record_list in E1 as (l1 & F1 & M1 & A1 & S1); auto.
  apply opt_record_list in E2 as (l2 & F2 & M2 & A2 & S2); auto.
  apply opt_record_list in E3 as (l3 & F3 & M3 & A3 & S3); auto.
  unfold entry_kvs. rewrite <- M1, <- M2, <- M3. rewrite !app_length in Hf.
  rewrite F1 at 1. rewrite F2 at 1. rewrite F3 at 1.
  rewrite <- !flat_map_app, <- !map_app. apply read_pax_list.
  - repeat (apply Forall_app; split); auto.
  - rewrite !app_length. lia.
Qed.

Lemma recs_empty e recs : pax_recs e recs -> recs = [] ->
  need_path e = false /\ need_link e = false /\ need_size e = false.
Proof.
  intros (r1 & r2 & r3 & E1 & E2 & E3 & ->) H.
  apply app_eq_nil in H as [H1 H]. apply app_eq_nil in H as [H2 H3]. subst.
  assert (G : forall c k v, opt_record c k v = Ok [] -> c = false).
  { intros c k v H. destruct c; auto. destruct (opt_record_ok true k v) as (r & A & _ & B & _).
    rewrite H in A. injection A as <-. destruct B as (n & _ & B & C); auto. cbn in B. lia. }
  repeat split; eapply G; eauto.
Qed.

Lemma dec_value_print n : 0 <= n -> dec_value (print_dec n) = Some n.
Proof.
  intros H. unfold dec_value. destruct (print_base_cons 10 n ltac:(lia) H) as (d & l & Hd & E).
  pose proof (scan_digits_all 10 (print_dec n) 0 ltac:(lia) ltac:(apply print_base_digits; lia)) as S1.
  unfold print_dec in *. rewrite print_base_value in S1 by lia. rewrite E in *. rewrite S1. reflexivity.
Qed.

(** bound on a record's length *)
Lemma rec_bound n k v : zlen (pax_record n k v) = n -> n <= 2 * (zlen k + zlen v + 3) + 2.
Proof.
  intros Hn. assert (Hn0 : 0 <= n) by (rewrite <- Hn; apply zlen_nonneg).
  pose proof (pax_record_zlen n k v Hn0) as HL. rewrite Hn in HL.
  pose proof (zlen_nonneg k). pose proof (zlen_nonneg v).
  destruct (ndig_spec 10 n ltac:(lia) Hn0) as (D1 & _ & D3 & _). specialize (D3 ltac:(lia)).
  assert (2 * (ndig 10 n - 1) <= 10 ^ (ndig 10 n - 1)).
  { set (x := ndig 10 n - 1) in *. destruct (Z.eq_dec x 0) as [->|]; [cbn; lia|].
    pose proof (pow10_gt (x - 1) ltac:(lia)).
    replace x with ((x - 1) + 1) at 2 by lia. rewrite Z.pow_add_r by lia. lia. }
  lia.
Qed.

Definition z30 : Z := 1073741824.  (* 2^30 *)
Definition z63 : Z := 9223372036854775808.

Lemma cstr_zlen l : zlen (cstr l) <= zlen l.
Proof.
  induction l as [|c l IH]; [cbn; lia|]. cbn [cstr]. destruct (beq c NUL); rewrite ?zlen_cons; [|lia].
  change (zlen (@nil ascii)) with 0. pose proof (zlen_nonneg l). lia.
Qed.

Lemma opt_record_bound c k v r : opt_record c k v = Ok r -> zlen r <= 2 * (zlen k + zlen v + 3) + 2.
Proof.
  intros H. destruct (opt_record_ok c k v) as (r' & H1 & _ & Hc & Hf). rewrite H in H1. injection H1 as ->.
  pose proof (zlen_nonneg k). pose proof (zlen_nonneg v). destruct c.
  - destruct Hc as (n & -> & Hn & _); auto. rewrite Hn. apply rec_bound; auto.
  - rewrite Hf by auto. change (zlen (@nil ascii)) with 0. lia.
Qed.

Lemma recs_bound e recs : pax_recs e recs -> zlen (te_file e) < z30 -> zlen (te_link e) < z30 ->
  0 <= st_size (te_stat e) < z63 -> zlen recs < MAX_FILE_SIZE.
Proof.
  intros (r1 & r2 & r3 & E1 & E2 & E3 & ->) Hf Hl Hs.
  apply opt_record_bound in E1, E2, E3. rewrite !zlen_app.
  pose proof (cstr_zlen (te_file e)). pose proof (cstr_zlen (te_link e)).
  assert (zlen (print_dec (st_size (te_stat e))) <= 20).
  { unfold print_dec. fold (ndig 10 (st_size (te_stat e))). apply ndig_le; try lia.
    unfold z63 in Hs. change (10 ^ 20) with 100000000000000000000. lia. }
  cbn [b list_ascii_of_string] in *.
  repeat match goal with H : context [zlen (?a :: ?l)] |- _ => rewrite !zlen_cons in H end.
  change (zlen (@nil ascii)) with 0 in *. unfold z30, MAX_FILE_SIZE in *. lia.
Qed.

(** ** header round trip (C03) *)
Definition wf_entry (e : tarentry) : Prop :=
  no_byte NUL (te_file e) /\ no_byte NUL (te_link e) /\
  zlen (te_file e) < z30 /\ zlen (te_link e) < z30 /\
  0 <= st_uid (te_stat e) /\ 0 <= st_gid (te_stat e) /\ 0 <= st_size (te_stat e) < z63 /\
  (st_kind (te_stat e) <> KLnk -> te_link e = []).

Definition eff_size (e : tarentry) : Z :=
  if is_reg (te_stat e) && (st_size (te_stat e) =? MAX_FILE_SIZE) then 0 else get_filesize e.

Ltac nb := let H := fresh in intros H; cbn in H; repeat destruct H as [H|H]; solve [discriminate H | destruct H].
Lemma no_byte_pax_filename l : no_byte NUL l -> no_byte NUL (pax_filename l).
Proof.
  intros H.
  assert (Hstrip : forall r, no_byte NUL r -> no_byte NUL (strip_slashes_rev r)).
  { induction r as [|c r IH]; cbn; auto. intros Hr. destruct (beq c SLASH); auto. apply IH.
    intros Hin. apply Hr. right. auto. }
  assert (Hupto : forall r, no_byte NUL r -> no_byte NUL (upto_slash_rev r)).
  { induction r as [|c r IH]; cbn; auto. intros Hr. destruct (beq c SLASH); [intros []|].
    intros [->|Hin]; [apply Hr; left; auto|]. apply IH; auto. intros H2. apply Hr. right. auto. }
  assert (Hrev : forall r, no_byte NUL r -> no_byte NUL (rev r)).
  { intros r Hr Hin. apply Hr. apply in_rev. auto. }
  assert (Hb : forall x y, NUL <> x -> NUL <> y -> no_byte NUL [x; y]).
  { intros x y Hx Hy [E|[E|[]]]; congruence. }
  unfold pax_filename. apply no_byte_app. split; [|apply no_byte_app; split; [|apply no_byte_app; split]].
  - unfold dirname.
    set (r := strip_slashes_rev (rev l)).
    assert (Hr : no_byte NUL r) by (apply Hstrip, Hrev; auto).
    assert (Hs : no_byte NUL (skipn (length (upto_slash_rev r)) r)).
    { intros Hin. apply Hr. rewrite <- (firstn_skipn (length (upto_slash_rev r)) r). apply in_or_app. auto. }
    destruct (skipn (length (upto_slash_rev r)) r) as [|c r'] eqn:E.
    + destruct l as [|c l']; [nb|]. destruct (beq c SLASH); nb.
    + destruct (strip_slashes_rev (c :: r')) as [|c2 r2] eqn:E2; [nb|].
      apply Hrev. rewrite <- E2. apply Hstrip; auto.
  - intros [E|[]]. discriminate.
  - unfold basename. destruct l as [|c l']; [nb|].
    destruct (strip_slashes_rev (rev (c :: l'))) as [|c2 r2] eqn:E2; [nb|].
    apply Hrev, Hupto. rewrite <- E2. apply Hstrip, Hrev; auto.
  - nb.
Qed.

Lemma firstn_len_app {A} (l r : list A) n : length l = n -> firstn n (l ++ r) = l.
Proof. intros <-. rewrite firstn_app, Nat.sub_diag, firstn_all. cbn [firstn]. apply app_nil_r. Qed.
Lemma skipn_len_app {A} (l r : list A) n : length l = n -> skipn n (l ++ r) = r.
Proof. intros <-. rewrite skipn_app, Nat.sub_diag, skipn_all. reflexivity. Qed.

Lemma bytes_eqb_neq x y : x <> y -> bytes_eqb x y = false.
Proof. intros H. destruct (bytes_eqb x y) eqn:E; auto. apply bytes_eqb_spec in E. congruence. Qed.

Lemma pax_get_entry e :
  pax_get (b "path") (entry_kvs e) = (if need_path e then Some (cstr (te_file e)) else None) /\
  pax_get (b "linkpath") (entry_kvs e) = (if need_link e then Some (cstr (te_link e)) else None) /\
  pax_get (b "size") (entry_kvs e) = (if need_size e then Some (print_dec (st_size (te_stat e))) else None).
Proof.
  unfold entry_kvs, opt_kv.
  destruct (need_path e), (need_link e), (need_size e); repeat split; reflexivity.
Qed.

Lemma read_header_ok nm e h rest : make_tar_header nm e = Ok h -> wf_entry e ->
  exists gn un u g t,
    group_name nm (st_gid (te_stat e)) = Some gn /\ user_name nm (st_uid (te_stat e)) = Some un /\
    oct_field (octfield 8 (st_uid (te_stat e))) = Some u /\
    oct_field (octfield 8 (st_gid (te_stat e))) = Some g /\
    oct_field (octfield 12 (st_mtime (te_stat e) mod 2 ^ 64)) = Some t /\
    read_header (h ++ rest) = Some ({| u_name := te_file e; u_mode := Z.land (st_perm (te_stat e)) MODE_MASK;
        u_uid := u; u_gid := g; u_size := eff_size e; u_mtime := t; u_type := typeflag None (te_stat e);
        u_link := te_link e; u_uname := firstn 31 (cstr un); u_gname := firstn 31 (cstr gn) |}, rest).
Proof.
  intros H (Wf & Wl & Wfl & Wll & Wu & Wg & Ws & Wk).
  apply make_tar_header_inv in H as (recs & pax & blk & Hrecs & _ & Hb & -> & H0 & H1).
  rewrite (cstr_id (te_file e)) in Hb, H1 by auto. rewrite (cstr_id (te_link e)) in Hb by auto.
  pose proof Hb as Hb'.
  destruct (ustar_block_read _ _ _ _ _ _ Hb Wu Wg) as (gn & un & u & g & t & Egn & Eun & Eu & Eg & Et & Lb & Rb); auto; [intros; lia|].
  exists gn, un, u, g, t. do 5 (split; auto).
  assert (Htype : typeflag None (te_stat e) <> "x"%char).
  { unfold typeflag. destruct (st_kind (te_stat e)); discriminate. }
  (* what the pax-less fields are *)
  assert (Ename : need_path e = false -> firstn 100 (te_file e) = te_file e).
  { unfold need_path. intros. apply firstn_all2. unfold zlen in *. lia. }
  assert (Elink : need_link e = false ->
     match st_kind (te_stat e) with KLnk => firstn 100 (te_link e) | _ => [] end = te_link e).
  { intros Hn. destruct (st_kind (te_stat e)) eqn:Ek; try (symmetry; apply Wk; congruence).
    apply firstn_all2. unfold need_link, zlen in *. lia. }
  assert (Esize : need_size e = false -> ustar_size (te_stat e) = eff_size e).
  { unfold need_size, eff_size, ustar_size, get_filesize, MAX_FILE_SIZE.
    destruct (is_reg (te_stat e)); cbn [andb]; [|reflexivity]. intros Hn.
    destruct (Z.eqb_spec (st_size (te_stat e)) 8589934591), (Z.ltb_spec (st_size (te_stat e)) 8589934591); lia. }
  assert (Esize2 : need_size e = true -> st_size (te_stat e) = eff_size e).
  { unfold need_size, eff_size, get_filesize, MAX_FILE_SIZE.
    destruct (is_reg (te_stat e)); cbn [andb]; [|discriminate]. intros Hn.
    destruct (Z.eqb_spec (st_size (te_stat e)) 8589934591); lia. }
  destruct recs as [|c recs'].
  - rewrite H0 by auto. cbn [app]. destruct (recs_empty _ _ Hrecs eq_refl) as (Np & Nl & Ns).
    unfold read_header. rewrite firstn_len_app, skipn_len_app by auto. rewrite Rb. cbn [u_type].
    rewrite beq_neq by auto. f_equal. f_equal. f_equal; auto.
  - destruct H1 as (pblk & Hp & ->); [discriminate|].
    set (recs := c :: recs') in *.
    pose proof (recs_bound e recs Hrecs Wfl Wll Ws) as Hbd.
    assert (Hpos : 0 < zlen recs) by (unfold recs; rewrite zlen_cons; pose proof (zlen_nonneg recs'); lia).
    destruct (ustar_block_read _ _ _ _ _ _ Hp) as (gn' & un' & u' & g' & t' & _ & _ & _ & _ & _ & Lp & Rp); cbn [st_uid st_gid st_kind st_size]; auto.
    { intros; lia. } { apply no_byte_pax_filename; auto. } { intros []. }
    set (pad := repeat NUL (Z.to_nat (round512 (zlen recs) - zlen recs))) in *.
    assert (Eassoc : ((pblk ++ recs ++ pad) ++ blk) ++ rest = pblk ++ (recs ++ (pad ++ (blk ++ rest))))
      by (rewrite <- !app_assoc; reflexivity).
    rewrite Eassoc. unfold read_header. rewrite firstn_len_app, skipn_len_app by auto.
    rewrite Rp. cbn [u_type typeflag]. rewrite beq_refl.
    cbn [u_size]. unfold ustar_size at 1 2 3 4. cbn [is_reg st_kind st_size].
    destruct (Z.ltb_spec (zlen recs) MAX_FILE_SIZE); [|lia].
    replace (Z.to_nat (zlen recs)) with (length recs) by (unfold zlen; lia).
    assert (E1 : (length (recs ++ pad ++ blk ++ rest) <? length recs)%nat = false).
    { apply Nat.ltb_ge. rewrite app_length. lia. }
    rewrite E1. rewrite firstn_len_app by auto.
    rewrite (read_pax_recs e) by (auto; lia).
    assert (E2 : skipn (Z.to_nat (round512 (zlen recs))) (recs ++ pad ++ blk ++ rest) = blk ++ rest).
    { rewrite app_assoc. apply skipn_len_app. rewrite app_length. unfold pad. rewrite repeat_length.
      pose proof (round512_bounds (zlen recs)). unfold zlen in *. lia. }
    unfold ustar_size. cbn [is_reg st_kind st_size].
    destruct (Z.ltb_spec (zlen recs) MAX_FILE_SIZE); [|lia].
    rewrite E2. rewrite firstn_len_app, skipn_len_app by auto. rewrite Rb.
    unfold apply_pax. destruct (pax_get_entry e) as (P1 & P2 & P3). rewrite P1, P2, P3.
    cbn [u_name u_size u_link u_mode u_uid u_gid u_mtime u_type u_uname u_gname].
    rewrite (cstr_id (te_file e)), (cstr_id (te_link e)) by auto.
    assert (Esz : (if need_size e then Some (print_dec (st_size (te_stat e))) else None) =
                  (if need_size e then Some (print_dec (st_size (te_stat e))) else None)) by auto.
    destruct (need_size e) eqn:Ns.
    + rewrite dec_value_print by lia. rewrite Esize2 by auto.
      f_equal. f_equal. f_equal.
      * destruct (need_path e); auto.
      * destruct (need_link e); auto.
    + fold (ustar_size (te_stat e)). rewrite Esize by auto. f_equal. f_equal. f_equal.
      * destruct (need_path e); auto.
      * destruct (need_link e); auto.
Qed.

(** ** checksums (C04) *)
Lemma ustar_block_shape nm x s file ln blk : ustar_block nm x s file ln = Ok blk ->
  exists pre post, length pre = 148%nat /\ length post = 356%nat /\
    blk = pre ++ chksum_field (sum_bytes (pre ++ repeat SP 8 ++ post)) ++ post.
Proof.
  intros H. pose proof (ustar_block_length _ _ _ _ _ _ H) as HL. unfold ustar_block in H.
  destruct (st_kind s) eqn:Ek; try discriminate;
  destruct (group_name nm (st_gid s)); try discriminate;
  destruct (user_name nm (st_uid s)); try discriminate; cbv beta iota zeta in H.
  all: match type of H with Ok (?p ++ chksum_field ?c ++ ?q) = _ => exists p, q end.
  all: match goal with |- length ?p = _ /\ _ => assert (Lp : length p = 148%nat);
       [rewrite !app_length, !field_length, !octfield_length; reflexivity|] end.
  all: split; [exact Lp|].
  all: assert (E := f_equal (fun o => match o with Ok x => x | _ => [] end) H); cbv beta iota in E; subst blk.
  all: split; [|reflexivity].
  all: rewrite app_length, (app_length (chksum_field _)), chksum_field_length, Lp in HL; lia.
Qed.

Lemma ustar_block_checksum nm x s file ln blk : ustar_block nm x s file ln = Ok blk -> checksum_ok blk.
Proof.
  intros H. pose proof (ustar_block_length _ _ _ _ _ _ H) as HL. split; auto.
  apply ustar_block_shape in H as (pre & post & L1 & L2 & ->).
  rewrite (skipn_len_app pre), (firstn_len_app pre) by auto.
  rewrite (firstn_len_app (chksum_field _)) by apply chksum_field_length.
  rewrite (app_assoc pre (chksum_field _) post), (skipn_len_app (pre ++ _)) by (rewrite app_length, chksum_field_length; lia).
  rewrite !sum_bytes_eq. rewrite chksum_read.
  - f_equal. rewrite !byte_sum_app. change (byte_sum (repeat SP 8)) with (8 * 32). lia.
  - pose proof (byte_sum_bound (pre ++ repeat SP 8 ++ post)) as B.
    unfold zlen in B. rewrite !app_length, repeat_length in B. lia.
Qed.

Lemma header_checksums nm e h : make_tar_header nm e = Ok h ->
  checksum_ok (firstn 512 h) /\ checksum_ok (skipn (length h - 512) h).
Proof.
  intros H. apply make_tar_header_inv in H as (recs & pax & blk & _ & _ & Hb & -> & H0 & H1).
  pose proof (ustar_block_length _ _ _ _ _ _ Hb) as HL.
  apply ustar_block_checksum in Hb. rewrite (skipn_len_app pax) by (rewrite app_length; lia). split; auto.
  destruct recs as [|c r].
  - rewrite H0 by auto. cbn [app]. rewrite firstn_all2 by lia. auto.
  - destruct H1 as (pb & Hp & ->); [discriminate|]. pose proof (ustar_block_length _ _ _ _ _ _ Hp) as HLp.
    rewrite <- !app_assoc, firstn_len_app by auto. eapply ustar_block_checksum; eauto.
Qed.

(** ** planned versus written header size (C07) *)
Lemma hdr_size_ext e1 e2 :
  te_file e1 = te_file e2 -> te_link e1 = te_link e2 ->
  need_size e1 = need_size e2 ->
  (need_size e1 = true -> st_size (te_stat e1) = st_size (te_stat e2)) ->
  hdr_size e1 = hdr_size e2.
Proof.
  intros E1 E2 E3 E4. unfold hdr_size, get_paxsize, need_path, need_link. rewrite E1, E2, <- E3.
  destruct (need_size e1); [rewrite E4 by auto|]; reflexivity.
Qed.

Lemma hdr_size_short e : need_path e = false -> need_link e = false -> need_size e = false -> hdr_size e = Ok 512.
Proof. intros H1 H2 H3. unfold hdr_size, get_paxsize. rewrite H1, H2, H3. reflexivity. Qed.

Definition planned_size (s : stat) : Z := match st_kind s with KReg => st_size s | _ => 0 end.

Lemma new_tarentry_inv lstat fn off e : new_tarentry lstat fn off = Ok e ->
  exists s target, lstat fn = Some (s, target) /\ te_stat e = s /\ te_offset e = off /\
    te_file e = match st_kind s with KDir => if ends_with_slash fn then fn else fn ++ [SLASH] | _ => fn end /\
    te_link e = match st_kind s with KLnk => cstr target | _ => [] end.
Proof.
  unfold new_tarentry. destruct (lstat fn) as [[s target]|]; [|discriminate].
  destruct (st_kind s) eqn:Ek; cbn [bind]; intros H;
    try (injection H as <-; do 2 eexists; rewrite Ek; repeat split; auto).
  destruct (st_size s =? zlen target); [|discriminate]. cbn [bind] in H.
  injection H as <-; do 2 eexists; rewrite Ek; repeat split; auto.
Qed.

Lemma planned_header_file lstat fn off e s target :
  lstat fn = Some (s, target) -> new_tarentry lstat fn off = Ok e ->
  st_kind s = KReg \/ st_kind s = KLnk \/ (st_kind s = KDir /\ (ends_with_slash fn = true \/ zlen fn < 100)) ->
  compute_hdr_size fn (match st_kind s with KLnk => cstr target | _ => [] end) (planned_size s) = hdr_size e.
Proof.
  intros Hl H Hk. apply new_tarentry_inv in H as (s' & target' & Hl' & Es & _ & Ef & El).
  rewrite Hl in Hl'. injection Hl' as <- <-. unfold compute_hdr_size.
  unfold planned_size. destruct Hk as [Hk|[Hk|[Hk Hd]]]; rewrite Hk in *.
  - apply hdr_size_ext; cbn [te_file te_link te_stat]; auto.
    + unfold need_size, is_reg. cbn [te_stat st_kind st_size]. rewrite Es, Hk. auto.
    + intros _. cbn. rewrite Es. auto.
  - apply hdr_size_ext; cbn [te_file te_link te_stat]; auto.
    + unfold need_size, is_reg. cbn [te_stat st_kind st_size]. rewrite Es, Hk. reflexivity.
    + unfold need_size, is_reg. cbn. discriminate.
  - destruct Hd as [Hd|Hd].
    + rewrite Hd in Ef. apply hdr_size_ext; cbn [te_file te_link te_stat]; auto.
      * unfold need_size, is_reg. cbn [te_stat st_kind st_size]. rewrite Es, Hk. reflexivity.
      * unfold need_size, is_reg. cbn. discriminate.
    + rewrite !hdr_size_short; auto; unfold need_path, need_link, need_size, is_reg; cbn [te_file te_link te_stat st_kind st_size].
      * rewrite Ef. destruct (ends_with_slash fn); rewrite ?zlen_app; change (zlen [SLASH]) with 1; lia.
      * rewrite El. reflexivity.
      * rewrite Es, Hk. reflexivity.
      * lia.
Qed.

(** ** serialisation (C08) *)
Lemma le_bytes_length k n : length (le_bytes k n) = k.
Proof. revert n; induction k as [|k IH]; intros n; cbn; auto. Qed.
Lemma le_value_bytes k n : 0 <= n < 256 ^ Z.of_nat k -> le_value (le_bytes k n) = n.
Proof.
  revert n; induction k as [|k IH]; intros n Hn.
  - cbn in *. lia.
  - rewrite Nat2Z.inj_succ, Z.pow_succ_r in Hn by lia. cbn [le_bytes le_value].
    rewrite IH.
    + unfold byte_val. rewrite N_ascii_embedding by lia. lia.
    + set (P := 256 ^ Z.of_nat k) in *. lia.
Qed.

Lemma take_app l r n : zlen l = n -> take n (l ++ r) = Ok (l, r).
Proof.
  intros H. unfold take. rewrite zlen_app. pose proof (zlen_nonneg r).
  destruct (Z.ltb_spec (zlen l + zlen r) n); [lia|].
  unfold zlen in H. rewrite firstn_len_app, skipn_len_app by lia. reflexivity.
Qed.

Definition u64 (n : Z) : Prop := 0 <= n < 18446744073709551616.

Lemma take8 n r : take 8 (le_bytes 8 n ++ r) = Ok (le_bytes 8 n, r).
Proof. apply take_app. unfold zlen. rewrite le_bytes_length. reflexivity. Qed.

Lemma deserialize_serialize e this rest :
  u64 (se_offset e) -> u64 (zlen (serialize e)) ->
  deserialize (zlen (se_stat e)) this (serialize e ++ rest) =
  Ok ({| se_stat := se_stat e; se_offset := se_offset e; se_file := se_file e;
         se_link := match se_link e with [] => se_link this | l => l end |}, zlen (serialize e)).
Proof.
  intros Ho Hs. unfold u64 in *.
  assert (L8 : forall n, zlen (le_bytes 8 n) = 8) by (intros; unfold zlen; rewrite le_bytes_length; reflexivity).
  assert (Esz : zlen (serialize e) = 8 + zlen (se_stat e) + 8 + 8 + zlen (se_file e) + 8 + zlen (se_link e)).
  { unfold serialize. rewrite !zlen_app, !L8. lia. }
  pose proof (zlen_nonneg (se_stat e)). pose proof (zlen_nonneg (se_file e)). pose proof (zlen_nonneg (se_link e)).
  assert (V : forall n, 0 <= n < 18446744073709551616 -> le_value (le_bytes 8 n) = n).
  { intros. apply le_value_bytes. change (256 ^ Z.of_nat 8) with 18446744073709551616. auto. }
  unfold deserialize. set (buf := serialize e ++ rest).
  assert (Eb : buf = le_bytes 8 (zlen (serialize e)) ++ se_stat e ++ le_bytes 8 (se_offset e) ++
     le_bytes 8 (zlen (se_file e)) ++ se_file e ++ le_bytes 8 (zlen (se_link e)) ++ se_link e ++ rest).
  { unfold buf. rewrite Esz. unfold serialize. rewrite <- !app_assoc. reflexivity. }
  rewrite Eb at 1. rewrite take8. cbn [bind].
  rewrite take_app by auto. cbn [bind]. rewrite take8. cbn [bind]. rewrite take8. cbn [bind].
  rewrite (V (zlen (se_file e))) by lia. rewrite take_app by auto. cbn [bind]. rewrite take8. cbn [bind].
  rewrite !V by lia.
  assert (Hbuf : zlen buf = zlen (serialize e) + zlen rest) by (unfold buf; rewrite zlen_app; auto).
  destruct (se_link e) as [|c l] eqn:El.
  - change (zlen (@nil ascii)) with 0 in *. cbn [Z.ltb Z.compare bind app].
    destruct (Z.eqb_spec (zlen (serialize e)) (zlen buf - zlen rest)); [reflexivity|lia].
  - destruct (Z.ltb_spec 0 (zlen (c :: l))) as [|Hc]; [|rewrite zlen_cons in Hc; pose proof (zlen_nonneg l); lia].
    rewrite take_app by auto. cbn [bind].
    destruct (Z.eqb_spec (zlen (serialize e)) (zlen buf - zlen rest)); [reflexivity|lia].
Qed.
