(** The tar lemmas in the shape the property theorems use. *)
From Verif Require Import Bytes Outcome TarSpec TarModel TarProofs Samples.
From Coq Require Import ZifyBool ZifyNat ZifyN.
Ltac Zify.zify_post_hook ::= Z.div_mod_to_equations.

Lemma C01_lemma key value :
  exists n, record_length key value = Ok n /\
    zlen (print_dec n ++ b " " ++ key ++ b "=" ++ value ++ [LF]) = n.
Proof.
  destruct (record_length_ok key value) as (n & H1 & H2 & H3). exists n. split; auto.
  revert H3. unfold pax_record, print_int. destruct (Z.ltb_spec n 0); [lia|]. auto.
Qed.

Lemma C02_lemma nm e :
  (forall h, make_tar_header nm e = Ok h ->
     hdr_size e = Ok (zlen h) /\ 0 < zlen h /\ zlen h mod 512 = 0) /\
  (st_kind (te_stat e) <> KOther ->
   group_name nm (st_gid (te_stat e)) <> None -> user_name nm (st_uid (te_stat e)) <> None ->
   exists h, make_tar_header nm e = Ok h).
Proof.
  split; [|apply make_tar_header_ok].
  intros h H. pose proof (make_tar_header_length _ _ _ H) as E.
  destruct (hdr_size_ok e) as (n & E' & Hn & Hm). rewrite E in E'. injection E' as <-. split; auto. lia.
Qed.

Lemma entry_wf lstat fn off e s target :
  lstat fn = Some (s, target) -> new_tarentry lstat fn off = Ok e ->
  no_byte NUL fn -> no_byte NUL target -> zlen fn < 2 ^ 30 - 1 -> zlen target < 2 ^ 30 ->
  0 <= st_uid s -> 0 <= st_gid s -> 0 <= st_size s < 2 ^ 63 ->
  wf_entry e /\ te_stat e = s /\
  te_file e = (match st_kind s with KDir => if ends_with_slash fn then fn else fn ++ b "/" | _ => fn end) /\
  te_link e = (match st_kind s with KLnk => target | _ => [] end).
Proof.
  intros Hl H Nf Nt Lf Lt Hu Hg Hs. apply new_tarentry_inv in H as (s' & t' & Hl' & Es & _ & Ef & El).
  rewrite Hl in Hl'. injection Hl' as <- <-.
  assert (El' : te_link e = match st_kind s with KLnk => target | _ => [] end).
  { rewrite El. destruct (st_kind s); auto. apply cstr_id; auto. }
  change (2 ^ 30) with 1073741824 in *. change (2 ^ 63) with 9223372036854775808 in *.
  assert (Hsl : no_byte NUL [SLASH]) by nb.
  split; [|auto]. unfold wf_entry, z30, z63. rewrite Es.
  split. { rewrite Ef. destruct (st_kind s); auto. destruct (ends_with_slash fn); auto. apply no_byte_app; auto. }
  split. { rewrite El'. destruct (st_kind s); auto; intros []. }
  split. { rewrite Ef. destruct (st_kind s); try lia.
    destruct (ends_with_slash fn); [lia|]. rewrite zlen_app. change (zlen [SLASH]) with 1. lia. }
  split. { rewrite El'. destruct (st_kind s); auto; change (zlen (@nil ascii)) with 0; lia. }
  repeat split; try lia. intros Hk. rewrite El'. destruct (st_kind s); congruence.
Qed.

(** everything the reader recovers, in one statement *)
Lemma read_full nm lstat fn off e h rest s target :
  lstat fn = Some (s, target) ->
  new_tarentry lstat fn off = Ok e -> make_tar_header nm e = Ok h ->
  no_byte NUL fn -> no_byte NUL target -> zlen fn < 2 ^ 30 - 1 -> zlen target < 2 ^ 30 ->
  0 <= st_uid s -> 0 <= st_gid s -> 0 <= st_size s < 2 ^ 63 ->
  exists u,
    read_header (h ++ rest) = Some (u, rest) /\
    u_name u = (match st_kind s with
                | KDir => if ends_with_slash fn then fn else fn ++ b "/"
                | _ => fn end) /\
    u_link u = (match st_kind s with KLnk => target | _ => [] end) /\
    u_type u = (match st_kind s with KLnk => "2" | KDir => "5" | _ => "0" end)%char /\
    u_mode u = st_perm s mod 2 ^ 12 /\
    oct_field (octfield 8 (st_uid s)) = Some (u_uid u) /\
    oct_field (octfield 8 (st_gid s)) = Some (u_gid u) /\
    oct_field (octfield 12 (st_mtime s mod 2 ^ 64)) = Some (u_mtime u) /\
    u_size u = (match st_kind s with KReg => if st_size s =? 2 ^ 33 - 1 then 0 else st_size s | _ => 0 end) /\
    exists un gn, user_name nm (st_uid s) = Some un /\ group_name nm (st_gid s) = Some gn /\
      u_uname u = firstn 31 (cstr un) /\ u_gname u = firstn 31 (cstr gn).
Proof.
  intros Hl Hn Hh Nf Nt Lf Lt Hu Hg Hs.
  destruct (entry_wf _ _ _ _ _ _ Hl Hn Nf Nt Lf Lt Hu Hg Hs) as (W & Es & Ef & El).
  destruct (read_header_ok nm e h rest Hh W) as (gn & un & u & g & t & E1 & E2 & E3 & E4 & E5 & E6).
  rewrite Es in *. eexists. split; [exact E6|].
  cbn [u_name u_link u_type u_mode u_uid u_gid u_mtime u_size u_uname u_gname].
  split; [exact Ef|]. split; [exact El|]. split; [unfold typeflag; destruct (st_kind s); reflexivity|].
  split. { unfold MODE_MASK. change 4095 with (Z.ones 12). rewrite Z.land_ones by lia. reflexivity. }
  split; [exact E3|]. split; [exact E4|]. split; [exact E5|]. split; [|exists un, gn; auto].
  unfold eff_size, get_filesize, is_reg, MAX_FILE_SIZE. rewrite Es. change (2 ^ 33 - 1) with 8589934591.
  destruct (st_kind s); auto.
Qed.

Lemma id_iff n v : 0 <= n -> oct_field (octfield 8 n) = Some v -> (v = n <-> n < 2 ^ 21).
Proof.
  intros Hn H. change (2 ^ 21) with 2097152. split.
  - intros <-. destruct (octfield_any 8 v ltac:(lia) Hn) as (w & E & B). rewrite H in E. injection E as <-.
    change (8 ^ Z.of_nat (8 - 1)) with 2097152 in B. lia.
  - intros Hlt. rewrite octfield_read in H; [congruence|lia|].
    change (8 ^ Z.of_nat (8 - 1)) with 2097152. lia.
Qed.

Lemma C03_lemma nm lstat fn off e h rest s target :
  lstat fn = Some (s, target) ->
  new_tarentry lstat fn off = Ok e -> make_tar_header nm e = Ok h ->
  no_byte NUL fn -> no_byte NUL target -> zlen fn < 2 ^ 30 - 1 -> zlen target < 2 ^ 30 ->
  0 <= st_uid s < 2 ^ 21 -> 0 <= st_gid s < 2 ^ 21 -> 0 <= st_mtime s < 2 ^ 33 ->
  0 <= st_size s < 2 ^ 63 -> st_size s <> 2 ^ 33 - 1 ->
  exists u,
    read_header (h ++ rest) = Some (u, rest) /\
    u_name u = (match st_kind s with
                | KDir => if ends_with_slash fn then fn else fn ++ b "/"
                | _ => fn end) /\
    u_link u = (match st_kind s with KLnk => target | _ => [] end) /\
    u_type u = (match st_kind s with KLnk => "2" | KDir => "5" | _ => "0" end)%char /\
    u_mode u = st_perm s mod 2 ^ 12 /\
    u_uid u = st_uid s /\ u_gid u = st_gid s /\ u_mtime u = st_mtime s /\
    u_size u = (match st_kind s with KReg => st_size s | _ => 0 end).
Proof.
  intros Hl Hn Hh Nf Nt Lf Lt Hu Hg Hm Hs Hns.
  destruct (read_full nm lstat fn off e h rest s target) as (u & R & A1 & A2 & A3 & A4 & A5 & A6 & A7 & A8 & _); auto; try lia.
  exists u. repeat (split; auto).
  - eapply id_iff; eauto; lia.
  - eapply id_iff; eauto; lia.
  - rewrite Z.mod_small in A7 by lia. rewrite octfield_read in A7; [congruence|lia|].
    change (8 ^ Z.of_nat (12 - 1)) with (2 ^ 33). lia.
  - rewrite A8. destruct (st_kind s); auto. destruct (Z.eqb_spec (st_size s) (2 ^ 33 - 1)); congruence.
Qed.

Lemma C03_names_lemma nm lstat fn off e h rest s target un gn :
  lstat fn = Some (s, target) ->
  new_tarentry lstat fn off = Ok e -> make_tar_header nm e = Ok h ->
  no_byte NUL fn -> no_byte NUL target -> zlen fn < 2 ^ 30 - 1 -> zlen target < 2 ^ 30 ->
  0 <= st_uid s -> 0 <= st_gid s -> 0 <= st_size s < 2 ^ 63 ->
  user_name nm (st_uid s) = Some un -> group_name nm (st_gid s) = Some gn ->
  no_byte NUL un -> no_byte NUL gn -> (length un <= 31)%nat -> (length gn <= 31)%nat ->
  exists u, read_header (h ++ rest) = Some (u, rest) /\ u_uname u = un /\ u_gname u = gn.
Proof.
  intros Hl Hn Hh Nf Nt Lf Lt Hu Hg Hs Eun Egn Nun Ngn Lun Lgn.
  destruct (read_full nm lstat fn off e h rest s target) as (u & R & _ & _ & _ & _ & _ & _ & _ & _ & un' & gn' & B1 & B2 & B3 & B4); auto.
  rewrite Eun in B1. rewrite Egn in B2. injection B1 as <-. injection B2 as <-.
  exists u. split; auto. rewrite B3, B4, !cstr_id by auto. split; apply firstn_all2; auto.
Qed.

Lemma C03_mtime_lemma nm lstat fn off e h rest s target u :
  lstat fn = Some (s, target) -> st_mtime s < 0 ->
  new_tarentry lstat fn off = Ok e -> make_tar_header nm e = Ok h ->
  no_byte NUL fn -> no_byte NUL target -> zlen fn < 2 ^ 30 - 1 -> zlen target < 2 ^ 30 ->
  0 <= st_uid s -> 0 <= st_gid s -> 0 <= st_size s < 2 ^ 63 ->
  read_header (h ++ rest) = Some (u, rest) -> u_mtime u <> st_mtime s.
Proof.
  intros Hl Hm Hn Hh Nf Nt Lf Lt Hu Hg Hs R.
  destruct (read_full nm lstat fn off e h rest s target) as (u' & R' & _ & _ & _ & _ & _ & _ & A7 & _); auto.
  rewrite R in R'. injection R' as <-.
  destruct (octfield_any 12 (st_mtime s mod 2 ^ 64) ltac:(lia)) as (t & E & B); [apply Z.mod_pos_bound; lia|].
  rewrite A7 in E. injection E as <-. lia.
Qed.

Lemma C05_lemma nm lstat fn off e h rest s target :
  lstat fn = Some (s, target) ->
  new_tarentry lstat fn off = Ok e -> make_tar_header nm e = Ok h ->
  no_byte NUL fn -> no_byte NUL target -> zlen fn < 2 ^ 30 - 1 -> zlen target < 2 ^ 30 ->
  0 <= st_uid s -> 0 <= st_gid s -> 0 <= st_size s < 2 ^ 63 ->
  exists u, read_header (h ++ rest) = Some (u, rest) /\
    (u_uid u = st_uid s <-> st_uid s < 2 ^ 21) /\ (u_gid u = st_gid s <-> st_gid s < 2 ^ 21).
Proof.
  intros Hl Hn Hh Nf Nt Lf Lt Hu Hg Hs.
  destruct (read_full nm lstat fn off e h rest s target) as (u & R & _ & _ & _ & _ & A5 & A6 & _); auto.
  exists u. split; auto. split; apply id_iff; auto.
Qed.

Lemma C05_refuted_lemma : exists nm lstat fn e h u,
  new_tarentry lstat fn 0 = Ok e /\ make_tar_header nm e = Ok h /\
  read_header h = Some (u, []) /\
  (st_uid (te_stat e) = 3000000 /\ u_uid u = 375000) /\ (st_gid (te_stat e) = 3000000 /\ u_gid u = 375000).
Proof.
  exists a_names, a_lstat, (b "base/biguid"). do 3 eexists.
  split; [vm_compute; reflexivity|]. split; [vm_compute; reflexivity|]. split; [vm_compute; reflexivity|].
  vm_compute. auto.
Qed.

Lemma C06_lemma nm lstat fn off e h rest s target :
  lstat fn = Some (s, target) -> st_kind s = KReg ->
  new_tarentry lstat fn off = Ok e -> make_tar_header nm e = Ok h ->
  no_byte NUL fn -> no_byte NUL target -> zlen fn < 2 ^ 30 - 1 -> zlen target < 2 ^ 30 ->
  0 <= st_uid s -> 0 <= st_gid s -> 0 <= st_size s < 2 ^ 63 ->
  exists u, read_header (h ++ rest) = Some (u, rest) /\
    (u_size u = st_size s <-> st_size s <> 2 ^ 33 - 1) /\ (st_size s = 2 ^ 33 - 1 -> u_size u = 0).
Proof.
  intros Hl Hk Hn Hh Nf Nt Lf Lt Hu Hg Hs.
  destruct (read_full nm lstat fn off e h rest s target) as (u & R & _ & _ & _ & _ & _ & _ & _ & A8 & _); auto.
  exists u. split; auto. rewrite Hk in A8. rewrite A8.
  destruct (Z.eqb_spec (st_size s) (2 ^ 33 - 1)) as [E|E]; split; try tauto.
  - rewrite E. split; [discriminate|congruence].
Qed.

Lemma C06_refuted_lemma : exists nm lstat fn e h u,
  new_tarentry lstat fn 0 = Ok e /\ make_tar_header nm e = Ok h /\
  read_header h = Some (u, []) /\ st_kind (te_stat e) = KReg /\
  st_size (te_stat e) = 8589934591 /\ u_size u = 0.
Proof.
  exists a_names, a_lstat, (b "base/max"). do 3 eexists.
  split; [vm_compute; reflexivity|]. split; [vm_compute; reflexivity|]. split; [vm_compute; reflexivity|].
  vm_compute. auto.
Qed.

Lemma C07_lemma nm lstat fn off e h s target :
  lstat fn = Some (s, target) -> new_tarentry lstat fn off = Ok e -> make_tar_header nm e = Ok h ->
  (st_kind s = KDir -> ends_with_slash fn = true \/ zlen fn < 100) ->
  compute_hdr_size fn (match st_kind s with KLnk => cstr target | _ => [] end)
                      (match st_kind s with KReg => st_size s | _ => 0 end) = Ok (zlen h).
Proof.
  intros Hl Hn Hh Hd. rewrite <- (make_tar_header_length _ _ _ Hh).
  apply (planned_header_file lstat fn off e s target Hl Hn).
  destruct (st_kind s) eqn:Ek; auto.
  exfalso. apply new_tarentry_inv in Hn as (s' & t' & Hl' & Es & _). rewrite Hl in Hl'. injection Hl' as <- <-.
  apply make_tar_header_inv in Hh as (recs & pax & blk & _ & _ & Hb & _).
  unfold ustar_block in Hb. rewrite Es, Ek in Hb. discriminate.
Qed.

Lemma C07_refuted_lemma : exists nm lstat fn e h s,
  lstat fn = Some (s, []) /\ st_kind s = KDir /\ zlen fn = 100 /\
  new_tarentry lstat fn 0 = Ok e /\ make_tar_header nm e = Ok h /\
  compute_hdr_size fn [] 0 = Ok 512 /\ zlen h = 1536.
Proof.
  exists a_names, a_lstat, (long_name 100). do 3 eexists.
  split; [vm_compute; reflexivity|]. split; [vm_compute; reflexivity|]. split; [vm_compute; reflexivity|].
  split; [vm_compute; reflexivity|]. split; [vm_compute; reflexivity|]. vm_compute. auto.
Qed.

Lemma C08_lemma e this rest :
  0 <= se_offset e < 2 ^ 64 -> zlen (serialize e) < 2 ^ 64 -> se_link this = [] ->
  deserialize (zlen (se_stat e)) this (serialize e ++ rest) = Ok (e, zlen (serialize e)).
Proof.
  intros Ho Hs Hl. change (2 ^ 64) with 18446744073709551616 in *.
  rewrite deserialize_serialize; unfold u64; [|lia|pose proof (zlen_nonneg (serialize e)); lia].
  rewrite Hl. destruct e as [st off fn ln]; cbn. destruct ln; reflexivity.
Qed.

Lemma C08_refuted_lemma : exists e this, 0 <= se_offset e < 2 ^ 64 /\
  exists e', deserialize (zlen (se_stat e)) this (serialize e) = Ok (e', zlen (serialize e)) /\ e' <> e.
Proof.
  exists {| se_stat := []; se_offset := 0; se_file := b "f"; se_link := [] |}.
  exists {| se_stat := []; se_offset := 0; se_file := b "old"; se_link := b "stale" |}.
  split; [cbn [se_offset]; lia|]. eexists. split; [vm_compute; reflexivity|]. discriminate.
Qed.
