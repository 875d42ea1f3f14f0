(** What the 0.5.1 writer puts into a bucket. *)
From Verif Require Import Bytes Outcome TarSpec TarModel TarProofs Layout Mover MoverSpec MoverProofs AssembleProofs
  Legacy LegacyProofs LegacyLayout LegacySpec LegacyLayoutProofs LegacyRanks LegacyCodec LegacyWrite LegacySeats.
From Coq Require Import Lia.

(** *** the fixed headers *)
Lemma fixed_header_read name size now : no_byte NUL name -> (length name <= 100)%nat -> 0 <= size < 8 ^ 11 ->
  length (fixed_header name size now) = 512%nat /\
  exists t, forall rest, read_header (fixed_header name size now ++ rest) = Some ({| u_name := name; u_mode := 384; u_uid := 0; u_gid := 0; u_size := size; u_mtime := t;
     u_type := REGTYPE; u_link := []; u_uname := b "root"; u_gname := b "root" |}, rest).
Proof.
  intros Hn Hl Hs. destruct (octfield_any 12 (now mod 2 ^ 64) ltac:(lia)) as (t & Et & _); [apply Z.mod_pos_bound; lia|].
  destruct (read_block_fields (field 100 name) (field 8 (b "0000600")) (field 8 (b "0000000")) (field 8 (b "0000000"))
     (octfield 12 (size mod 2 ^ 64)) (octfield 12 (now mod 2 ^ 64)) REGTYPE (repeat NUL 100) (field 32 (b "root")) (field 32 (b "root"))
     (field 8 (b "0000000")) (field 8 (b "0000000")) (repeat NUL 155) (repeat NUL 12) 384 0 0 size t) as [HL HR];
   try reflexivity; auto using field_length, octfield_length.
  { rewrite Z.mod_small by (change (8 ^ 11) with 8589934592 in Hs; change (2 ^ 64) with 18446744073709551616; lia). apply octfield_read; [lia|]. change (8 ^ Z.of_nat (12 - 1)) with (8 ^ 11). lia. }
  assert (E : fixed_header name size now = (field 100 name ++ field 8 (b "0000600") ++ field 8 (b "0000000") ++ field 8 (b "0000000") ++
     octfield 12 (size mod 2 ^ 64) ++ octfield 12 (now mod 2 ^ 64)) ++
     chksum_field (sum_bytes ((field 100 name ++ field 8 (b "0000600") ++ field 8 (b "0000000") ++ field 8 (b "0000000") ++
     octfield 12 (size mod 2 ^ 64) ++ octfield 12 (now mod 2 ^ 64)) ++ repeat SP 8 ++
     ([REGTYPE] ++ repeat NUL 100 ++ (b "ustar" ++ [NUL]) ++ b "00" ++ field 32 (b "root") ++ field 32 (b "root") ++ field 8 (b "0000000") ++ field 8 (b "0000000") ++ repeat NUL 155 ++ repeat NUL 12))) ++
     [REGTYPE] ++ repeat NUL 100 ++ (b "ustar" ++ [NUL]) ++ b "00" ++ field 32 (b "root") ++ field 32 (b "root") ++ field 8 (b "0000000") ++ field 8 (b "0000000") ++ repeat NUL 155 ++ repeat NUL 12) by reflexivity.
  rewrite <- E in HL, HR. clear E. split; [exact HL|]. exists t. intros rest. set (fh := fixed_header name size now) in *. clearbody fh.
  assert (F : firstn 512 (fh ++ rest) = fh) by (rewrite <- HL, firstn_app, Nat.sub_diag, firstn_all; apply app_nil_r).
  assert (K : skipn 512 (fh ++ rest) = rest) by (rewrite <- HL, skipn_app, Nat.sub_diag, skipn_all; reflexivity).
  unfold read_header. rewrite F, HR. change (beq (u_type _) _) with false. cbv iota. rewrite K. do 2 f_equal.
  rewrite cstr_field_short by auto. reflexivity.
Qed.

(** *** memory *)
Definition at_mem (m : mem) (pos : Z) (l : bytes) : Prop :=
  forall k, 0 <= k < zlen l -> exists c, nth_error l (Z.to_nat k) = Some c /\ m (pos + k) = Byte c.
Lemma store_at size m pos l : 0 <= pos -> pos + zlen l <= size ->
  exists m', store size m pos l = Ok m' /\ at_mem m' pos l /\ forall i, ~ (pos <= i < pos + zlen l) -> m' i = m i.
Proof.
  intros H1 H2. destruct (store_ok size m pos l H1 H2) as (m' & E & A & B). exists m'. split; auto. split; auto.
  intros k Hk. destruct (A (pos + k)) as (c & C1 & C2); [lia|]. exists c. replace (pos + k - pos) with k in C1 by lia. auto.
Qed.
Lemma at_mem_same m m' pos l : at_mem m pos l -> (forall i, pos <= i < pos + zlen l -> m' i = m i) -> at_mem m' pos l.
Proof. intros H E k Hk. destruct (H k Hk) as (c & A & B). exists c. split; auto. rewrite E by lia. exact B. Qed.

Lemma put_header_eq ev path size m pos h : file_header ev path = Some h -> put_header ev path size m pos = store size m pos h.
Proof.
  unfold file_header, put_header. destruct (new_tarentry _ _ _) as [e|]; [|discriminate]. cbn [bind].
  destruct (make_tar_header _ _) as [h0|]; [|discriminate]. cbn [bind]. intros E. injection E as ->. reflexivity.
Qed.
Lemma read_at_len d o n : 0 <= n -> zlen (read_at d o n) <= n.
Proof. intros H. unfold read_at, zlen. rewrite firstn_length. lia. Qed.

Section image.
Variables (P : Z) (ev : env).
Hypothesis HP : 0 < P.

(** the file system shows what a fragment needs *)
Definition served (f : lent) : Prop :=
  0 <= l_orig f /\ 0 <= l_hdr f /\
  (l_orig f = 0 -> exists h, file_header ev (l_rel f) = Some h /\ zlen h = l_hdr f) /\
  (l_type f = LReg -> 0 < l_size f -> exists d, e_data ev (l_rel f) = Some d).
(** the bytes of a fragment are in the buffer of a bucket that starts at [base] *)
Definition shows_frag (base : Z) (m : mem) (f : lent) : Prop :=
  (l_orig f = 0 -> forall h, file_header ev (l_rel f) = Some h -> at_mem m (frag_start f - base) h) /\
  (l_type f = LReg -> 0 < l_size f -> forall d, e_data ev (l_rel f) = Some d -> at_mem m (l_loc f - base) (read_at d (l_orig f) (l_size f))).

Lemma entry_image m w f base : 0 <= w -> frag_start f = base + w -> w + bsz 512 f <= P -> served f ->
  exists m', bucket_entry 512 P ev base (m, w) f = Ok (Some (m', w + bsz 512 f)) /\ (forall p, p < w -> m' p = m p) /\ shows_frag base m' f.
Proof.
  intros Hw Hs Hb (S1 & S2 & S3 & S4). unfold bucket_entry. cbv beta iota zeta.
  pose proof (blocked_bounds 512 (Z.max 0 (l_size f) + (if l_orig f =? 0 then l_hdr f else 0)) ltac:(lia)) as (B1 & _).
  fold (bsz 512 f) in *.
  assert (X : exists m1, (if (match l_type f with LReg => true | _ => false end) && (0 <? l_size f)
       then match e_data ev (l_rel f) with
            | Some d => if (l_loc f - base <? 0) || (P <=? l_loc f - base) then Ok None
                        else m1 <- store P m (l_loc f - base) (read_at d (l_orig f) (l_size f)) ;; Ok (Some m1)
            | None => Ok None
            end else Ok (Some m)) = Ok (Some m1) /\ (forall p, p < l_loc f - base -> m1 p = m p) /\
       (l_type f = LReg -> 0 < l_size f -> forall d, e_data ev (l_rel f) = Some d -> at_mem m1 (l_loc f - base) (read_at d (l_orig f) (l_size f)))).
  { destruct (l_type f) eqn:Et; cbn [andb]; try (exists m; split; [reflexivity|]; split; [auto|intros; discriminate]).
    destruct (Z.ltb_spec 0 (l_size f)) as [Hz|Hz]; cbn [andb]; [|exists m; split; [reflexivity|]; split; [auto|intros; lia]].
    destruct (S4 eq_refl Hz) as (d & Ed). rewrite Ed. pose proof (read_at_len d (l_orig f) (l_size f) ltac:(lia)) as Hl.
    assert (Hoff : 0 <= l_loc f - base /\ l_loc f - base + l_size f <= P).
    { unfold frag_start in Hs. destruct (Z.eqb_spec (l_orig f) 0); lia. }
    destruct (Z.ltb_spec (l_loc f - base) 0); [lia|]. destruct (Z.leb_spec P (l_loc f - base)); [lia|]. cbn [orb].
    destruct (store_at P m (l_loc f - base) (read_at d (l_orig f) (l_size f))) as (m1 & E1 & E2 & E3); [lia|lia|].
    exists m1. rewrite E1. cbn [bind]. split; [reflexivity|]. split; [intros p Hp; apply E3; lia|].
    intros _ _ d' Ed'. assert (d' = d) as -> by congruence. exact E2. }
  destruct X as (m1 & -> & X1 & X2). cbn [bind].
  unfold frag_start in Hs. destruct (Z.eqb_spec (l_orig f) 0) as [E0|E0].
  - destruct (S3 E0) as (h & Eh & Lh). rewrite (put_header_eq _ _ _ _ _ _ Eh).
    destruct (store_at P m1 (l_loc f - base - l_hdr f) h) as (m2 & E1 & E2 & E3); [lia|lia|].
    rewrite E1. cbn [bind]. exists m2. split; [reflexivity|]. split; [intros p Hp; rewrite E3 by lia; apply X1; lia|].
    split.
    + intros _ h' Eh'. assert (h' = h) as -> by congruence. unfold frag_start. rewrite E0. cbn [Z.eqb].
      replace (l_loc f - l_hdr f - base) with (l_loc f - base - l_hdr f) by lia. exact E2.
    + intros T1 T2 d Ed. eapply at_mem_same; [exact (X2 T1 T2 d Ed)|]. intros i Hi. apply E3. lia.
  - cbn [bind]. exists m1. split; [reflexivity|]. split; [intros p Hp; apply X1; lia|]. split; [intros; lia|exact X2].
Qed.

Lemma shows_same base m m' f w : 0 <= w -> frag_start f = base + w -> served f -> shows_frag base m f -> (forall p, p < w + bsz 512 f -> m' p = m p) -> shows_frag base m' f.
Proof.
  intros Hw Hs (S1 & S2 & S3 & S4) (A & B) E.
  pose proof (blocked_bounds 512 (Z.max 0 (l_size f) + (if l_orig f =? 0 then l_hdr f else 0)) ltac:(lia)) as (B1 & _).
  fold (bsz 512 f) in *. unfold frag_start in Hs. split.
  - intros H0 h Hh. eapply at_mem_same; [exact (A H0 h Hh)|]. intros i Hi. apply E. destruct (S3 H0) as (h' & Eh' & L). assert (h' = h) as -> by congruence.
    unfold frag_start in Hi. destruct (Z.eqb_spec (l_orig f) 0); lia.
  - intros T1 T2 d Hd. eapply at_mem_same; [exact (B T1 T2 d Hd)|]. intros i Hi. apply E.
    pose proof (read_at_len d (l_orig f) (l_size f) ltac:(lia)). destruct (Z.eqb_spec (l_orig f) 0); lia.
Qed.

Lemma sumb_nonneg es : Forall served es -> 0 <= sumb 512 es.
Proof.
  induction 1 as [|f es (S1 & S2 & _) _ IH]; cbn [sumb]; [lia|].
  pose proof (blocked_bounds 512 (Z.max 0 (l_size f) + (if l_orig f =? 0 then l_hdr f else 0)) ltac:(lia)) as (B1 & _). fold (bsz 512 f) in *.
  destruct (l_orig f =? 0); lia.
Qed.
Lemma sumb_mod es : sumb 512 es mod 512 = 0.
Proof.
  induction es as [|f es IH]; cbn [sumb]; [reflexivity|]. unfold bsz.
  pose proof (blocked_bounds 512 (Z.max 0 (l_size f) + (if l_orig f =? 0 then l_hdr f else 0)) ltac:(lia)) as (_ & B).
  rewrite Z.add_mod, B, IH by lia. reflexivity.
Qed.

Lemma entries_image base es : forall m w, 0 <= w -> packed 512 base w es -> w + sumb 512 es <= P -> Forall served es ->
  exists m', bucket_entries 512 P ev base (m, w) es = Ok (Some (m', w + sumb 512 es)) /\ (forall p, p < w -> m' p = m p) /\ Forall (shows_frag base m') es.
Proof.
  induction es as [|f es IH]; intros m w Hw Hp Hs Hf; cbn [packed sumb bucket_entries] in *.
  - exists m. split; [rewrite Z.add_0_r; reflexivity|]. auto.
  - destruct Hp as (P1 & P2). inversion Hf as [|? ? F1 F2]; subst. pose proof (sumb_nonneg es F2) as Hn.
    destruct (entry_image m w f base Hw P1 ltac:(lia) F1) as (m1 & E1 & A1 & S1). rewrite E1. cbn [bind].
    assert (Hb : 0 <= bsz 512 f). { pose proof (sumb_nonneg [f] ltac:(auto)). cbn [sumb] in *. lia. }
    destruct (IH m1 (w + bsz 512 f)) as (m2 & E2 & A2 & S2); auto; try lia.
    exists m2. rewrite E2. split; [f_equal; f_equal; f_equal; lia|]. split; [intros p Hpp; rewrite A2 by lia; apply A1; lia|].
    constructor; auto. apply (shows_same base m1 m2 f w); auto.
Qed.
End image.
