(** Property theorems C01-C08 (tar headers and tar entries). *)
From Verif Require Import Bytes Outcome TarSpec TarModel TarProofs TarMore Samples.

(** *** C01 *)
Theorem C01_record_length : forall key value,
  exists n, record_length key value = Ok n /\
    (* n is the number of bytes of the text "n key=value\n" *)
    zlen (print_dec n ++ b " " ++ key ++ b "=" ++ value ++ [LF]) = n.
Proof. exact C01_lemma. Qed.
Print Assumptions C01_record_length.
(** the awkward case: adding the digits changes the number of digits *)
Example C01_witness : record_length (b "path") (repeat "x"%char 91) = Ok 101
  /\ record_length (b "path") (repeat "x"%char 90) = Ok 99.
Proof. vm_compute. auto. Qed.

(** *** C02 *)
Theorem C02_header_length : forall nm e,
  (forall h, make_tar_header nm e = Ok h ->
     hdr_size e = Ok (zlen h) /\ 0 < zlen h /\ zlen h mod 512 = 0) /\
  (st_kind (te_stat e) <> KOther ->
   group_name nm (st_gid (te_stat e)) <> None -> user_name nm (st_uid (te_stat e)) <> None ->
   exists h, make_tar_header nm e = Ok h).
Proof. exact C02_lemma. Qed.
Print Assumptions C02_header_length.
Example C02_witness : exists e h, new_tarentry a_lstat (long_name 150) 0 = Ok e /\
  make_tar_header a_names e = Ok h /\ zlen h = 1536.
Proof. do 2 eexists. split; [vm_compute; reflexivity|]. split; [vm_compute; reflexivity | vm_compute; reflexivity]. Qed.

(** *** C03: what a reader recovers from the header of the entry constructed
    for path [fn].  Partial: owner ids below 2^21, times in [0, 2^33), and not
    the one size 2^33 - 1 (see C03_mtime_refuted, C05_refuted, C06_refuted). *)
Theorem C03_header_roundtrip_partial : forall nm lstat fn off e h rest s target,
  lstat fn = Some (s, target) ->
  new_tarentry lstat fn off = Ok e -> make_tar_header nm e = Ok h ->
  no_byte NUL fn -> no_byte NUL target -> zlen fn < 2 ^ 30 - 1 -> zlen target < 2 ^ 30 ->
  0 <= st_uid s < 2 ^ 21 -> 0 <= st_gid s < 2 ^ 21 -> 0 <= st_mtime s < 2 ^ 33 ->
  0 <= st_size s < 2 ^ 63 -> st_size s <> 2 ^ 33 - 1 ->
  exists u,
    read_header (h ++ rest) = Some (u, rest) /\
    u_name u = (match st_kind s with
                | KDir => if ends_with_slash fn then fn else fn ++ b "/"
                | _ => fn end) /\
    u_link u = (match st_kind s with KLnk => target | _ => [] end) /\
    u_type u = (match st_kind s with KLnk => "2" | KDir => "5" | _ => "0" end)%char /\
    u_mode u = st_perm s mod 2 ^ 12 /\
    u_uid u = st_uid s /\ u_gid u = st_gid s /\ u_mtime u = st_mtime s /\
    u_size u = (match st_kind s with KReg => st_size s | _ => 0 end).
Proof. exact C03_lemma. Qed.
Print Assumptions C03_header_roundtrip_partial.
Example C03_witness : exists e h u,
  new_tarentry a_lstat (long_name 150) 0 = Ok e /\ make_tar_header a_names e = Ok h /\
  read_header (h ++ b "data") = Some (u, b "data") /\ u_name u = long_name 150 /\ u_size u = 9000000000.
Proof. do 3 eexists. split; [vm_compute; reflexivity|]. split; [vm_compute; reflexivity|].
  split; [vm_compute; reflexivity|]. split; [vm_compute; reflexivity | vm_compute; reflexivity]. Qed.
Example C03_witness_link : exists e h u,
  new_tarentry a_lstat (b "base/lnk") 0 = Ok e /\ make_tar_header a_names e = Ok h /\
  read_header h = Some (u, []) /\ u_link u = repeat "t"%char 130 /\ u_type u = "2"%char.
Proof. do 3 eexists. split; [vm_compute; reflexivity|]. split; [vm_compute; reflexivity|].
  split; [vm_compute; reflexivity|]. split; [vm_compute; reflexivity | vm_compute; reflexivity]. Qed.

(** user and group names survive up to the 31 characters the field can hold *)
Theorem C03_names : forall nm lstat fn off e h rest s target un gn,
  lstat fn = Some (s, target) ->
  new_tarentry lstat fn off = Ok e -> make_tar_header nm e = Ok h ->
  no_byte NUL fn -> no_byte NUL target -> zlen fn < 2 ^ 30 - 1 -> zlen target < 2 ^ 30 ->
  0 <= st_uid s -> 0 <= st_gid s -> 0 <= st_size s < 2 ^ 63 ->
  user_name nm (st_uid s) = Some un -> group_name nm (st_gid s) = Some gn ->
  no_byte NUL un -> no_byte NUL gn -> (length un <= 31)%nat -> (length gn <= 31)%nat ->
  exists u, read_header (h ++ rest) = Some (u, rest) /\ u_uname u = un /\ u_gname u = gn.
Proof. exact C03_names_lemma. Qed.
Print Assumptions C03_names.

(** a modification time before 1970 is never the one recovered *)
Theorem C03_mtime_refuted : forall nm lstat fn off e h rest s target u,
  lstat fn = Some (s, target) -> st_mtime s < 0 ->
  new_tarentry lstat fn off = Ok e -> make_tar_header nm e = Ok h ->
  no_byte NUL fn -> no_byte NUL target -> zlen fn < 2 ^ 30 - 1 -> zlen target < 2 ^ 30 ->
  0 <= st_uid s -> 0 <= st_gid s -> 0 <= st_size s < 2 ^ 63 ->
  read_header (h ++ rest) = Some (u, rest) -> u_mtime u <> st_mtime s.
Proof. exact C03_mtime_lemma. Qed.
Print Assumptions C03_mtime_refuted.

(** *** C04: first 512 bytes (the pax block if there is one) and last 512
    bytes (the ustar block) of every header *)
Theorem C04_checksum : forall nm e h, make_tar_header nm e = Ok h ->
  checksum_ok (firstn 512 h) /\ checksum_ok (skipn (length h - 512) h).
Proof. exact header_checksums. Qed.
Print Assumptions C04_checksum.
Example C04_witness : exists e h, new_tarentry a_lstat (b "base/dir") 0 = Ok e /\ make_tar_header a_names e = Ok h.
Proof. do 2 eexists. split; [vm_compute; reflexivity | vm_compute; reflexivity]. Qed.

(** *** C05: holds below 2^21, fails for every id from 2^21 on *)
Theorem C05_ids_partial : forall nm lstat fn off e h rest s target,
  lstat fn = Some (s, target) ->
  new_tarentry lstat fn off = Ok e -> make_tar_header nm e = Ok h ->
  no_byte NUL fn -> no_byte NUL target -> zlen fn < 2 ^ 30 - 1 -> zlen target < 2 ^ 30 ->
  0 <= st_uid s -> 0 <= st_gid s -> 0 <= st_size s < 2 ^ 63 ->
  exists u, read_header (h ++ rest) = Some (u, rest) /\
    (u_uid u = st_uid s <-> st_uid s < 2 ^ 21) /\ (u_gid u = st_gid s <-> st_gid s < 2 ^ 21).
Proof. exact C05_lemma. Qed.
Print Assumptions C05_ids_partial.
Theorem C05_refuted : exists nm lstat fn e h u,
  new_tarentry lstat fn 0 = Ok e /\ make_tar_header nm e = Ok h /\
  read_header h = Some (u, []) /\
  (st_uid (te_stat e) = 3000000 /\ u_uid u = 375000) /\ (st_gid (te_stat e) = 3000000 /\ u_gid u = 375000).
Proof. exact C05_refuted_lemma. Qed.
Print Assumptions C05_refuted.

(** *** C06: the size survives iff it is not exactly 2^33 - 1 *)
Theorem C06_size_partial : forall nm lstat fn off e h rest s target,
  lstat fn = Some (s, target) -> st_kind s = KReg ->
  new_tarentry lstat fn off = Ok e -> make_tar_header nm e = Ok h ->
  no_byte NUL fn -> no_byte NUL target -> zlen fn < 2 ^ 30 - 1 -> zlen target < 2 ^ 30 ->
  0 <= st_uid s -> 0 <= st_gid s -> 0 <= st_size s < 2 ^ 63 ->
  exists u, read_header (h ++ rest) = Some (u, rest) /\
    (u_size u = st_size s <-> st_size s <> 2 ^ 33 - 1) /\ (st_size s = 2 ^ 33 - 1 -> u_size u = 0).
Proof. exact C06_lemma. Qed.
Print Assumptions C06_size_partial.
Theorem C06_refuted : exists nm lstat fn e h u,
  new_tarentry lstat fn 0 = Ok e /\ make_tar_header nm e = Ok h /\
  read_header h = Some (u, []) /\ st_kind (te_stat e) = KReg /\
  st_size (te_stat e) = 8589934591 /\ u_size u = 0.
Proof. exact C06_refuted_lemma. Qed.
Print Assumptions C06_refuted.

(** *** C07: [compute_hdr_size path target size] is what the boss reserves,
    the header of the entry built from the same path is what the worker
    writes.  Partial: directories only if the path ends in "/" or is shorter
    than 100 bytes. *)
Theorem C07_planned_header_partial : forall nm lstat fn off e h s target,
  lstat fn = Some (s, target) -> new_tarentry lstat fn off = Ok e -> make_tar_header nm e = Ok h ->
  (st_kind s = KDir -> ends_with_slash fn = true \/ zlen fn < 100) ->
  compute_hdr_size fn (match st_kind s with KLnk => cstr target | _ => [] end)
                      (match st_kind s with KReg => st_size s | _ => 0 end) = Ok (zlen h).
Proof. exact C07_lemma. Qed.
Print Assumptions C07_planned_header_partial.
Example C07_witness : exists e h, new_tarentry a_lstat (long_name 150) 0 = Ok e /\ make_tar_header a_names e = Ok h
  /\ compute_hdr_size (long_name 150) [] 9000000000 = Ok 1536.
Proof. do 2 eexists. split; [vm_compute; reflexivity|]. split; [vm_compute; reflexivity | vm_compute; reflexivity]. Qed.
Theorem C07_refuted : exists nm lstat fn e h s,
  lstat fn = Some (s, []) /\ st_kind s = KDir /\ zlen fn = 100 /\
  new_tarentry lstat fn 0 = Ok e /\ make_tar_header nm e = Ok h /\
  compute_hdr_size fn [] 0 = Ok 512 /\ zlen h = 1536.
Proof. exact C07_refuted_lemma. Qed.
Print Assumptions C07_refuted.

(** *** C08: [this] is the receiving object.  Partial: it must not hold a link
    name already (a default constructed entry does not). *)
Theorem C08_serialize_partial : forall e this rest,
  0 <= se_offset e < 2 ^ 64 -> zlen (serialize e) < 2 ^ 64 -> se_link this = [] ->
  deserialize (zlen (se_stat e)) this (serialize e ++ rest) = Ok (e, zlen (serialize e)).
Proof. exact C08_lemma. Qed.
Print Assumptions C08_serialize_partial.
Example C08_witness : zlen (serialize {| se_stat := repeat NUL 144; se_offset := 512; se_file := b "a"; se_link := b "t" |}) = 178.
Proof. reflexivity. Qed.
Theorem C08_refuted : exists e this, 0 <= se_offset e < 2 ^ 64 /\
  exists e', deserialize (zlen (se_stat e)) this (serialize e) = Ok (e', zlen (serialize e)) /\ e' <> e.
Proof. exact C08_refuted_lemma. Qed.
Print Assumptions C08_refuted.
