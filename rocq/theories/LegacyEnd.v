(** End to end: the archive of a run of the 0.5.1 writer, read by a tar reader. *)
From Verif Require Import Bytes Outcome TarSpec TarModel TarProofs TarMore Layout Mover MoverSpec MoverProofs AssembleProofs EndSpec EndProofs EndMore
  Legacy LegacyProofs LegacyLayout LegacySpec LegacyLayoutProofs LegacyRanks LegacyMore LegacyCodec LegacyCodecProofs LegacyWrite LegacySeats LegacyImage LegacyArchive LegacyEndSpec DriftSpec LegacyDriftSpec LegacyWalk LegacySend.
From Coq Require Import Lia.

(** *** entries *)
Definition Dat (ev : env) (e : lent) : bytes :=
  match l_type e with LReg => match e_data ev (l_rel e) with Some d => d | None => [] end | _ => [] end.
Definition Shows0 (ev : env) (e : lent) (u : uhdr) : Prop := entry_shown ev e (member_of u (Dat ev e)).
Definition Shows (ev : env) (e : lent) (u : uhdr) : Prop := exists z, found_sized ev e z /\ entry_shown ev (sized e z) (member_of u (Dat ev e)).

Lemma file_header_inv ev path h : file_header ev path = Some h -> exists te, new_tarentry (e_lstat ev) path 0 = Ok te /\ make_tar_header (e_names ev) te = Ok h.
Proof.
  unfold file_header. destruct (new_tarentry _ _ _) as [te|]; [|discriminate]. destruct (make_tar_header _ te) as [x|] eqn:E; [|discriminate].
  intros H. assert (x = h) by congruence. subst. eauto.
Qed.
Lemma entry_listed0 ev e : as_listed ev e -> listed ev (Shows0 ev) (Dat ev) e /\ 0 < l_hdr e /\ zlen (Dat ev e) = Z.max 0 (l_size e).
Proof.
  intros (s & target & Hl & U & G & M & Z1 & Z2 & Hn & Hlen & K & h & Eh & Lh).
  destruct (file_header_inv _ _ _ Eh) as (te & Et & Em).
  assert (Hz : zlen (Dat ev e) = Z.max 0 (l_size e) /\ (0 < l_size e -> l_type e = LReg /\ e_data ev (l_rel e) = Some (Dat ev e))).
  { unfold Dat. destruct (l_type e); try contradiction.
    - destruct K as (_ & _ & _ & d & -> & Ld). split; [pose proof (zlen_nonneg d); lia|auto].
    - destruct K as (_ & _ & K). split; [cbn; lia|lia].
    - destruct K as (_ & _ & _ & _ & K). split; [cbn; lia|lia]. }
  pose proof (make_tar_header_length _ _ _ Em) as Hml. destruct (hdr_size_ok te) as (n & En & Hn1 & Hn2). rewrite En in Hml.
  assert (En2 : n = zlen h) by congruence.
  destruct Hz as (Hz & Hz2). split; [|split; [lia|exact Hz]]. split; [|split; [rewrite Hz; reflexivity|exact Hz2]]. exists h. split; [exact Eh|]. split; [lia|]. split; [lia|]. split; [rewrite Lh, <- En2; exact Hn2|].
  intros rest.
  assert (Htn : no_byte NUL target /\ zlen target < 2 ^ 30).
  { change (2 ^ 30) with 1073741824 in *. destruct (l_type e); try contradiction.
    - destruct K as (_ & _ & -> & _). split; [intros []|cbn; lia].
    - destruct K as (_ & -> & _). split; [intros []|cbn; lia].
    - destruct K as (_ & _ & A & B & _). auto. }
  destruct Htn as (Htn1 & Htn2).
  destruct (C03_lemma (e_names ev) (e_lstat ev) (l_rel e) 0 te h rest s target Hl Et Em) as (u & R1 & R2 & R3 & R4 & R5 & R6 & R7 & R8 & R9); auto;
    [change (2 ^ 30) with 1073741824; change (2 ^ 29) with 536870912 in *; lia|].
  destruct (read_full (e_names ev) (e_lstat ev) (l_rel e) 0 te h rest s target Hl Et Em) as (u' & R1' & _ & _ & _ & _ & _ & _ & _ & _ & un & gn & Nm); auto; try lia. assert (u' = u) as -> by congruence.
  assert (Ow : owned_as (e_names ev) s (member_of u (Dat ev e))) by (exists un, gn; exact Nm).
  exists u. split; [exact R1|]. unfold Shows0, entry_shown. rewrite Hz.
  destruct (l_type e) eqn:Ety; try contradiction.
  - destruct K as (Kk & Ks & Kt & d & Kd & Ld). rewrite Kk in *. pose proof (zlen_nonneg d).
    split; [|lia]. exists s, target. cbn [member_of m_mode m_uid m_gid m_mtime m_path m_type m_link m_size m_data].
    repeat split; auto; try congruence. unfold Dat. rewrite Ety, Kd. reflexivity.
  - destruct K as (Kk & Kt & Ks). rewrite Kk in *. split; [|lia]. exists s, target. cbn [member_of m_mode m_uid m_gid m_mtime m_path m_type m_link m_size m_data].
    repeat split; auto; try congruence. unfold Dat. rewrite Ety. reflexivity.
  - destruct K as (Kk & Kt & _ & _ & Ks). rewrite Kk in *. split; [|lia]. exists s, target. cbn [member_of m_mode m_uid m_gid m_mtime m_path m_type m_link m_size m_data].
    repeat split; auto; try congruence. unfold Dat. rewrite Ety. reflexivity.
Qed.

Lemma sized_self e : sized e (l_size e) = e.
Proof. destruct e; reflexivity. Qed.
Lemma listed_found ev e : as_listed ev e -> as_found ev e.
Proof. intros H. exists (l_size e). split; [rewrite sized_self; exact H|reflexivity]. Qed.
Lemma all_found ev l : Forall (as_listed ev) l -> Forall (as_found ev) l.
Proof. intros H. eapply Forall_impl; [|exact H]. intros e. apply listed_found. Qed.
Lemma entry_listed ev e : as_found ev e -> listed ev (Shows ev) (Dat ev) e /\ 0 < l_hdr e.
Proof.
  intros (z & Hf & Hr). destruct (entry_listed0 _ _ Hf) as (((h & A1 & A2 & A3 & A4 & A5) & _ & B) & Hp & Lz).
  change (Dat ev (sized e z)) with (Dat ev e) in *. cbn [sized l_rel l_hdr l_size l_type] in *.
  split; [|exact Hp]. split; [|split].
  - exists h. split; [exact A1|]. split; [exact A2|]. split; [exact A3|]. split; [exact A4|]. intros rest. destruct (A5 rest) as (u & U1 & U2 & U3).
    exists u. split; [exact U1|]. split; [|exact U3]. exists z. split; [split; auto|exact U2].
  - rewrite Lz. exact Hr.
  - intros Hz. apply B. pose proof (round512_bounds (Z.max 0 z) ltac:(lia)). pose proof (round512_bounds (Z.max 0 (l_size e)) ltac:(lia)).
    destruct (Z.lt_ge_cases 0 z); auto. assert (E : Z.max 0 z = 0) by lia. rewrite E in Hr. change (round512 0) with 0 in Hr. lia.
Qed.
Lemma found_there ev e : as_found ev e -> as_there ev e.
Proof.
  intros H. destruct (entry_listed _ _ H) as (_ & Hp). destruct H as (z & (s & target & _ & _ & _ & _ & _ & _ & _ & _ & K & h & Eh & Lh) & _).
  cbn [sized l_rel l_type l_size l_hdr] in *. split; [exact Hp|]. split; [eauto|]. intros Et. rewrite Et in K. destruct K as (_ & _ & _ & d & Kd & _). eauto.
Qed.
Lemma found_all_there ev l : Forall (as_found ev) l -> Forall (as_there ev) l.
Proof. intros H. eapply Forall_impl; [|exact H]. intros e. apply found_there. Qed.
Lemma all_there ev l : Forall (as_listed ev) l -> Forall (as_there ev) l.
Proof. intros H. apply found_all_there, all_found. exact H. Qed.
(** a member read for an entry *)
Lemma entry_member ev e u x : Shows ev e u -> zlen x = zlen (Dat ev e) -> firstn (Z.to_nat (l_size e)) x = firstn (Z.to_nat (l_size e)) (Dat ev e) -> entry_found ev e (member_of u x).
Proof.
  intros (z & F & H) L E. exists z, (member_of u (Dat ev e)). split; [exact F|]. split; [exact H|]. unfold alike. cbn [member_of m_path m_type m_link m_mode m_uid m_gid m_mtime m_size m_uname m_gname m_data].
  repeat split; auto.
Qed.
(** entries as listed *)
Lemma found_shown ev e m : as_listed ev e -> entry_found ev e m -> entry_shown ev e m.
Proof.
  intros Hl (z & m' & (F & Hr) & Hs & Ha).
  assert (Hz : l_type e = LReg -> z = l_size e).
  { intros Et. destruct Hl as (s & t & L & _ & _ & _ & _ & _ & _ & _ & K & _). destruct F as (s' & t' & L' & _ & _ & _ & _ & _ & _ & _ & K' & _).
    cbn [sized l_rel l_type l_size] in *. rewrite Et in *. destruct K as (_ & _ & _ & d & K1 & K2). destruct K' as (_ & _ & _ & d' & K1' & K2'). assert (d' = d) by congruence. subst. congruence. }
  destruct Ha as (E1 & E2 & E3 & E4 & E5 & E6 & E7 & E8 & E9 & E10 & E11 & E12).
  destruct Hs as (s & t & L & S1 & S2 & S3 & S4 & S5 & K).
  assert (Hd : m_data m = m_data m').
  { destruct Hl as (s0 & t0 & _ & _ & _ & _ & _ & _ & _ & _ & K0 & _). cbn [sized l_rel l_type l_size] in *.
    destruct (l_type e) eqn:Et; try contradiction.
    - destruct K0 as (_ & _ & _ & d & K1 & K2). destruct K as (_ & _ & _ & _ & K). assert (Xd : m_data m' = d) by congruence. rewrite Xd in *. unfold zlen in *. rewrite !firstn_all2 in E12 by lia. exact E12.
    - destruct K as (_ & _ & _ & _ & K). rewrite K in E11 |- *. destruct (m_data m); [reflexivity|unfold zlen in E11; cbn in E11; lia].
    - destruct K as (_ & _ & _ & _ & K). rewrite K in E11 |- *. destruct (m_data m); [reflexivity|unfold zlen in E11; cbn in E11; lia]. }
  assert (m = m') as -> by (destruct m, m'; cbn in *; subst; reflexivity).
  exists s, t. split; [exact L|]. split; [exact S1|]. split; [exact S2|]. split; [exact S3|]. split; [exact S4|]. split; [exact S5|].
  cbn [sized l_rel l_type l_size] in K. destruct (l_type e) eqn:Et; auto. rewrite (Hz eq_refl) in K. exact K.
Qed.

Lemma read_zero fuel rest : read_archive (S fuel) (repeat NUL 512 ++ rest) = Some [].
Proof.
  change (repeat NUL 512) with (NUL :: repeat NUL 511). rewrite <- app_comm_cons. cbn [read_archive].
  assert (F : firstn 512 (NUL :: repeat NUL 511 ++ rest) = repeat NUL 512).
  { change (firstn 512 (?x :: ?l)) with (x :: firstn 511 l). rewrite firstn_app. change (length (repeat NUL 511)) with 511%nat. rewrite Nat.sub_diag. cbn [firstn]. rewrite app_nil_r. reflexivity. }
  rewrite F. replace (512 <=? _)%nat with true; [reflexivity|]. symmetry. apply Nat.leb_le. cbn [length]. rewrite app_length, repeat_length. lia.
Qed.

(** *** the received list *)
Lemma received_bucket j fs : bucket_of j (map received fs) = map received (bucket_of j fs).
Proof. unfold bucket_of. induction fs as [|f fs IH]; cbn [map filter]; auto. change (l_bucket (received f)) with (l_bucket f). destruct (l_bucket f =? j); cbn [map]; congruence. Qed.
Lemma received_sumb fs : sumb 512 (map received fs) = sumb 512 fs.
Proof. induction fs as [|f fs IH]; cbn [map sumb]; auto. rewrite IH. reflexivity. Qed.
Lemma received_packed base fs : forall w, packed 512 base w fs -> packed 512 base w (map received fs).
Proof. induction fs as [|f fs IH]; intros w; cbn [map packed]; auto. intros (A & B). split; [exact A|]. apply IH. exact B. Qed.
Lemma received_starts fs : forall last i, run_starts last i (map received fs) = run_starts last i fs.
Proof. induction fs as [|f fs IH]; intros last i; cbn [map run_starts]; auto. change (l_bucket (received f)) with (l_bucket f). destruct (l_bucket f =? last); [|f_equal]; apply IH. Qed.
Lemma received_rank fs : rank_call_list (map received fs) = rank_call_list fs.
Proof.
  unfold rank_call_list. destruct fs as [|f fs]; auto. cbn [map]. change (l_bucket (received f)) with (l_bucket f).
  change (received f :: map received fs) with (map received (f :: fs)). rewrite received_starts. reflexivity.
Qed.
Lemma nth_received fs k : nth_error (map received fs) k = match nth_error fs k with Some f => Some (received f) | None => None end.
Proof. revert k. induction fs as [|f fs IH]; intros [|k]; cbn; auto. Qed.

Lemma wrap_P P : 100000 <= P <= 500000000 -> wrap32 P = P.
Proof. intros H. apply wrap32_id. unfold is_int. change (2 ^ 31) with 2147483648. lia. Qed.

Lemma text_count l bkt arch buf : list_to_buffer l bkt arch = Ok (Some buf) -> 0 <= bkt < 10 ^ 10 ->
  buf = cat_head (zlen buf) bkt (zlen l) arch ++ concat (map (line arch) l) /\ zlen buf < 10 ^ 10 /\ zlen l < 2 ^ 31.
Proof.
  intros H Hb.
  assert (C : 5 * zlen l <= zlen (concat (map (line arch) l))).
  { clear. induction l as [|e l IH]; cbn [map concat]; [reflexivity|]. rewrite zlen_app.
    assert (5 <= zlen (line arch e)).
    { unfold line. destruct arch; unfold archive_line, full_line; rewrite !zlen_app; change (zlen [TAB]) with 1; change (zlen [LF]) with 1;
      repeat match goal with |- context [zlen ?x] => lazymatch goal with H : 0 <= zlen x |- _ => fail | _ => pose proof (zlen_nonneg x) end end; lia. }
    replace (zlen (e :: l)) with (zlen l + 1) by (unfold zlen; cbn [length]; lia). lia. }
  assert (Q : zlen l < 2 ^ 31).
  { unfold list_to_buffer in H. destruct (INT_MAX <? _) in H; [discriminate|]. destruct (_ <? 56) in H; [discriminate|]. destruct (add_lines _ _ _) as [[out|]|] eqn:A in H; cbn [bind] in H; try discriminate. apply add_lines_out in A.
    destruct (Z.eqb_spec (zlen (ten (zlen out))) 10) as [T|T]; [|discriminate]. apply ten_long in T; [|apply zlen_nonneg].
    rewrite A, zlen_app in T. pose proof (zlen_nonneg (cat_head 0 bkt (zlen l) arch)). change (10 ^ 10) with 10000000000 in T. change (2 ^ 31) with 2147483648. lia. }
  destruct (list_to_buffer_text _ _ _ _ H Hb) as (E & L); [change (2 ^ 31) with 2147483648 in Q; change (10 ^ 10) with 10000000000; lia|]. auto.
Qed.

Lemma prologue_inv P pad clock l ws0 D text starts : 100000 <= P <= 500000000 -> zlen l <= 4000000 ->
  prologue 512 P pad clock l = Ok (Some (ws0, D, text, starts)) ->
  exists cat es fs nb, list_to_buffer l P true = Ok (Some cat) /\ zlen cat < 1000000000 /\
    set_offsets_and_split 512 P pad l = Ok (Some (es, fs, nb)) /\ list_to_buffer fs P false = Ok (Some text) /\
    rank_call_list fs = Ok (Some starts) /\ check_calls fs 0 starts = Ok true /\ D = data_offset P (512 + zlen cat) /\
    ws0 = put 0 512 (poke fresh 0 (catalog_header (zlen cat) (clock (-2)))) :: put 512 (zlen cat) (poke fresh 0 cat) :: catalog_spacer 512 P 512 (512 + zlen cat) (clock (-1)).
Proof.
  intros HP Hl. unfold prologue. rewrite wrap_P by auto. destruct (list_to_buffer l P true) as [[cat|]|] eqn:Ec; cbn [bind]; try discriminate.
  assert (Lc : zlen cat < 1000000000) by (eapply text_bound; eauto; lia).
  rewrite pad_hdr by (cbn; try lia; unfold MAX_FILE_SIZE; lia). cbn [bind]. destruct (Z.eqb_spec P 0); [lia|].
  destruct (set_offsets_and_split 512 P pad l) as [[[[es fs] nb]|]|] eqn:Es; cbn [bind]; try discriminate.
  destruct (list_to_buffer fs P false) as [[t|]|] eqn:Et; cbn [bind]; try discriminate.
  destruct (rank_call_list fs) as [[st|]|] eqn:Er; cbn [bind]; try discriminate.
  destruct (check_calls fs 0 st) as [[|]|] eqn:Ek; cbn [bind]; try discriminate.
  intros H. exists cat, es, fs, nb. assert (t = text) by congruence. assert (st = starts) by congruence. subst t st.
  split; auto. split; auto. split; auto. split; auto. split; auto. split; auto. split; congruence.
Qed.
Lemma prologue_ok P pad clock l cat es fs nb text starts : 100000 <= P <= 500000000 -> zlen l <= 4000000 ->
  list_to_buffer l P true = Ok (Some cat) -> set_offsets_and_split 512 P pad l = Ok (Some (es, fs, nb)) -> list_to_buffer fs P false = Ok (Some text) ->
  rank_call_list fs = Ok (Some starts) -> check_calls fs 0 starts = Ok true ->
  exists ws0, prologue 512 P pad clock l = Ok (Some (ws0, data_offset P (512 + zlen cat), text, starts)).
Proof.
  intros HP Hl Ec Es Et Er Ek. unfold prologue. rewrite wrap_P by auto. rewrite Ec. cbn [bind].
  assert (Lc : zlen cat < 1000000000) by (eapply text_bound; eauto; lia).
  rewrite pad_hdr by (cbn; try lia; unfold MAX_FILE_SIZE; lia). cbn [bind]. destruct (Z.eqb_spec P 0); [lia|].
  rewrite Es. cbn [bind]. rewrite Et. cbn [bind]. rewrite Er. cbn [bind]. rewrite Ek. cbn [bind]. eexists. reflexivity.
Qed.

Lemma data_offset_facts P E : 0 < P -> 0 <= E -> data_offset P E mod P = 0 /\ E <= data_offset P E < E + P.
Proof.
  intros HP HE. unfold data_offset. split; [apply Z.mod_mul; lia|]. pose proof (Z.div_mod E P ltac:(lia)). pose proof (Z.mod_pos_bound E P HP).
  destruct (Z.eqb_spec (E mod P) 0); nia.
Qed.

Lemma fs_served P ev l fs : 100000 <= P <= 500000000 -> seated 512 P (-1) P l fs -> volume P l <= 2147483640 * P -> Forall (as_there ev) l -> Forall (served ev) fs.
Proof.
  intros HP Hs Hvol Hlisted.
  assert (Hh : Forall (fun e => 0 < l_hdr e) l) by (eapply Forall_impl; [|exact Hlisted]; intros e He; apply He).
  pose proof (seated_sane P ltac:(lia) l (-1) P fs (2147483640 * P) Hs ltac:(lia) ltac:(lia) Hh ltac:(lia)) as A.
  rewrite Forall_forall in *. intros f Hf. destruct (A f Hf) as (e & Ie & (R1 & R2 & R3 & R4 & R5) & _ & _ & _ & S5 & S6).
  destruct (Hlisted e Ie) as (_ & (h & Eh & Lh) & K). specialize (Hh e Ie).
  unfold served. rewrite R1, R3, R5. split; [lia|]. split; [lia|]. split; [intros _; exists h; split; [exact Eh|lia]|].
  intros Et _. exact (K Et).
Qed.
Lemma fs_pack P l fs j : 100000 <= P <= 500000000 -> seated 512 P (-1) P l fs -> 0 <= j -> packed 512 (j * P) 0 (bucket_of j fs) /\ sumb 512 (bucket_of j fs) <= P.
Proof.
  intros HP Hs Hj. destruct (seated_good 512 P ltac:(lia) ltac:(lia) _ _ _ _ Hs ltac:(lia)) as (_ & G). destruct (G j ltac:(lia)) as (G1 & G2).
  unfold from in *. destruct (Z.eqb_spec j (-1)); [lia|]. split; auto.
Qed.
(** *** ranks *)
Section ranks.
Variables (P D : Z) (clock : Z -> Z) (ev : env) (l fs : list lent) (text : bytes) (starts : list Z).
Hypothesis HP : 100000 <= P <= 500000000.
Hypothesis HPb : P mod 512 = 0.
Hypothesis Hs : seated 512 P (-1) P l fs.
Hypothesis Hfs : 2 <= zlen fs.
Hypothesis Hvol : volume P l <= 2147483640 * P.
Hypothesis Hlisted : Forall (as_there ev) l.
Hypothesis Hsend : Forall sendable fs.
Hypothesis Htext : list_to_buffer fs P false = Ok (Some text).
Hypothesis Hrank : rank_call_list fs = Ok (Some starts).
Hypothesis Hcheck : check_calls fs 0 starts = Ok true.

Definition buf_write (j : Z) (w : wr) : Prop := bucket_write P D clock ev (map received fs) j w.
Definition term_write (j : Z) (w : wr) : Prop := end_write P D starts j w.

Lemma ranks_ok R r : 0 <= r < R -> exists ws, rank_part 512 P D clock ev text starts R r = Ok (Some ws) /\
  Forall (fun w => exists j, (0 <= j < zlen starts) /\ (buf_write j w \/ term_write j w)) ws /\
  forall j, 0 <= j < zlen starts -> j mod R = r -> (exists w, In w ws /\ buf_write j w) /\ (j = zlen starts - 1 -> exists w, In w ws /\ term_write j w).
Proof.
  intros Hr. destruct (text_count _ _ _ _ Htext ltac:(change (10 ^ 10) with 10000000000; lia)) as (T3 & T1 & T2).
  unfold rank_part. rewrite (buffer_to_list_text fs P false text T3 T1 HP ltac:(lia) Hsend). cbn [bind].
  change (back false) with received.
  assert (Hck : check_calls (map received fs) 0 starts = Ok true).
  { rewrite <- Hcheck. clear. generalize 0. induction starts as [|k st IH]; intros i; cbn [check_calls]; auto.
    rewrite nth_received. destruct (nth_error fs (Z.to_nat k)) as [f|]; auto. change (l_bucket (received f)) with (l_bucket f). destruct (l_bucket f =? i); auto. }
  rewrite Hck. cbn [bind].
  destruct (rank_loop_spec R r (zlen starts) Hr) as (_ & Rl).
  destruct (all_image P D clock ev (map received fs) starts) with (is := rank_loop R r (zlen starts)) (m := cleared) as (ws & W1 & W2 & W3); auto; try lia.
  - rewrite received_rank. exact Hrank.
  - apply Forall_map. apply (fs_served P ev l fs); auto.
  - intros j Hj. rewrite received_bucket, received_sumb. destruct (fs_pack P l fs j HP Hs Hj) as (A & B). split; [apply received_packed; exact A|exact B].
  - rewrite Forall_forall. intros i Hi. apply Rl in Hi. lia.
  - exists ws. split; [exact W1|]. split.
    + eapply Forall_impl; [|exact W2]. intros w (j & I & X). exists j. apply Rl in I. split; [lia|exact X].
    + intros j Hj Hm. apply W3. apply Rl. auto.
Qed.
End ranks.

(** *** the file *)
Lemma packed_in ev base f es : forall w, packed 512 base w es -> Forall (served ev) es -> In f es -> exists off, w <= off /\ frag_start f = base + off /\ off + bsz 512 f <= w + sumb 512 es.
Proof.
  induction es as [|x es IH]; intros w Hp Hs Hin; [destruct Hin|]. cbn [packed sumb] in *. destruct Hp as (P1 & P2). inversion Hs as [|? ? S1 S2]; subst.
  pose proof (sumb_nonneg ev es S2) as N. assert (Nx : 0 <= bsz 512 x) by (pose proof (sumb_nonneg ev [x] ltac:(auto)) as X; cbn [sumb] in X; lia).
  destruct Hin as [->|Hin]; [exists w; lia|]. destruct (IH _ P2 S2 Hin) as (off & A & B & C). exists off. lia.
Qed.
Lemma cells_at ar a pos l : concretises a ar -> 0 <= pos -> pos + zlen l <= ar_size ar ->
  (forall k, 0 <= k < zlen l -> exists c, nth_error l (Z.to_nat k) = Some c /\ ar_cell ar (pos + k) = Byte c) -> at_bytes a pos l.
Proof. intros (H1 & H2) Hp Hz H k Hk. destruct (H k Hk) as (c & A & B). rewrite A. apply H2; auto. lia. Qed.
Lemma poke_at m l : at_mem (poke m 0 l) 0 l.
Proof. set (pos := 0). intros k Hk. destruct (poke_in m pos l (pos + k)) as (c & A & B); [unfold pos; lia|lia|]. exists c. replace (pos + k - pos) with k in A by lia. auto. Qed.

Section file.
Variables (P D : Z) (clock : Z -> Z) (ev : env) (l fs : list lent) (starts : list Z) (cat : bytes) (ws0 ws : list wr) (prior ar : archive).
Hypothesis HP : 100000 <= P <= 500000000.
Hypothesis HPb : P mod 512 = 0.
Hypothesis Hs : seated 512 P (-1) P l fs.
Hypothesis Hvol : volume P l <= 2147483640 * P.
Hypothesis Hlisted : Forall (as_there ev) l.
Hypothesis Hrank : rank_call_list fs = Ok (Some starts).
Hypothesis Hcheck : check_calls fs 0 starts = Ok true.
Hypothesis Hcat : 0 < zlen cat < 1000000000.
Hypothesis HD : D = data_offset P (512 + zlen cat).
Hypothesis Hws0 : ws0 = put 0 512 (poke fresh 0 (catalog_header (zlen cat) (clock (-2)))) :: put 512 (zlen cat) (poke fresh 0 cat) :: catalog_spacer 512 P 512 (512 + zlen cat) (clock (-1)).
Hypothesis W1 : forall w, In w ws -> exists j, 0 <= j < zlen starts /\ (buf_write P D clock ev fs j w \/ term_write P D starts j w).
Hypothesis W2 : forall j, 0 <= j < zlen starts -> (exists w, In w ws /\ buf_write P D clock ev fs j w) /\ (j = zlen starts - 1 -> exists w, In w ws /\ term_write P D starts j w).
Hypothesis Har : ar = fold_left write_at (ws0 ++ ws) prior.

Let nb := zlen starts.
Let Ec := 512 + zlen cat.

Lemma starts_pos : 0 < nb.
Proof.
  unfold nb. unfold rank_call_list in Hrank. destruct fs as [|f t]; [discriminate|]. destruct (Z.eqb_spec (l_bucket f) 0) as [E0|]; [|discriminate].
  assert (X : starts = run_starts (-1) 0 (f :: t)) by congruence. rewrite X. cbn [run_starts]. rewrite E0. cbn [Z.eqb].
  unfold zlen. cbn [length]. lia.
Qed.
Lemma served_bucket j : Forall (served ev) (bucket_of j fs).
Proof.
  pose proof (fs_served P ev l fs HP Hs Hvol Hlisted) as S.
  unfold bucket_of. rewrite Forall_forall in *. intros x Hx. apply filter_In in Hx as (Hx & _). auto.
Qed.
Lemma wused j : used (map received fs) j = sumb 512 (bucket_of j fs).
Proof. unfold used. rewrite received_bucket, received_sumb. reflexivity. Qed.
Lemma used_room j : 0 <= j -> 0 <= sumb 512 (bucket_of j fs) <= P /\ (sumb 512 (bucket_of j fs) < P -> sumb 512 (bucket_of j fs) + 512 <= P).
Proof.
  intros Hj. destruct (fs_pack P l fs j HP Hs Hj) as (_ & B). pose proof (sumb_nonneg ev _ (served_bucket j)) as N.
  split; [lia|]. intros L. pose proof (sumb_mod (bucket_of j fs)) as M. set (s := sumb 512 (bucket_of j fs)) in *. clearbody s.
  pose proof (Z.div_mod s 512 ltac:(lia)). pose proof (Z.div_mod P 512 ltac:(lia)). lia.
Qed.
Definition wl (j : Z) : Z := if sumb 512 (bucket_of j fs) <? P then sumb 512 (bucket_of j fs) + 512 else P.
Lemma wl_bound j : 0 <= j -> 0 < wl j <= P.
Proof. intros Hj. destruct (used_room j Hj) as (A & B). unfold wl. destruct (Z.ltb_spec (sumb 512 (bucket_of j fs)) P); lia. Qed.
Lemma buf_pos j w : buf_write P D clock ev fs j w -> w_pos w = D + j * P /\ w_len w = wl j.
Proof. intros (A & B & _). rewrite wused in B. auto. Qed.

Lemma offs : Ec <= D /\ D mod P = 0 /\ D < Ec + P /\ D mod 512 = 0.
Proof.
  destruct (data_offset_facts P Ec ltac:(lia) ltac:(unfold Ec; lia)) as (A & B). fold Ec in HD. rewrite HD. split; [lia|]. split; [exact A|]. split; [lia|].
  apply Z.mod_divide in A; [|lia]. apply Z.mod_divide; [lia|]. apply (Z.divide_trans _ P); auto. apply Z.mod_divide; [lia|auto].
Qed.
Lemma HD' : data_offset P Ec = D.
Proof. symmetry. exact HD. Qed.
Definition loc : Z := if Ec mod 512 =? 0 then Ec else Ec + (512 - Ec mod 512).
Lemma loc_facts : loc mod 512 = 0 /\ Ec <= loc < Ec + 512.
Proof.
  unfold loc. pose proof (Z.mod_pos_bound Ec 512 ltac:(lia)). pose proof (Z.div_mod Ec 512 ltac:(lia)) as Dm. destruct (Z.eqb_spec (Ec mod 512) 0) as [E|E]; [split; [auto|lia]|].
  split; [|lia]. replace (Ec + (512 - Ec mod 512)) with ((Ec / 512 + 1) * 512) by lia. apply Z.mod_mul. lia.
Qed.
Lemma loc_D : loc <= D /\ (512 < D - Ec -> loc + 512 <= D) /\ (D - Ec < 512 -> loc = D).
Proof.
  destruct offs as (A & _ & _ & B). destruct loc_facts as (C1 & C2).
  pose proof (Z.div_mod D 512 ltac:(lia)). pose proof (Z.div_mod loc 512 ltac:(lia)). lia.
Qed.
(** a prologue write *)
Lemma pro_writes w : In w ws0 -> w = put 0 512 (poke fresh 0 (catalog_header (zlen cat) (clock (-2)))) \/ w = put 512 (zlen cat) (poke fresh 0 cat) \/
  (512 < D - Ec /\ w = put loc 512 (poke fresh 0 (space_header (D - loc - 512) (clock (-1))))).
Proof.
  rewrite Hws0. cbn [In]. unfold catalog_spacer. fold Ec. rewrite HD'. intros [<-|[<-|I]]; auto. destruct (Z.ltb_spec 512 (D - Ec)); [|destruct I].
  destruct I as [<-|[]]. right. right. split; [lia|]. reflexivity.
Qed.
Lemma pro_end w : In w ws0 -> 0 <= w_pos w /\ w_pos w + w_len w <= D.
Proof.
  destruct offs as (A & _). destruct loc_D as (_ & B & _). destruct loc_facts as (_ & C).
  intros I. apply pro_writes in I as [->|[->|(L & ->)]]; cbn [put w_pos w_len]; unfold Ec in *; lia.
Qed.

Lemma bucket_cells j off x : 0 <= j < nb -> 0 <= off -> off + zlen x <= wl j -> (forall w, buf_write P D clock ev fs j w -> at_mem (w_mem w) off x) ->
  D + j * P + wl j <= ar_size ar /\
  forall k, 0 <= k < zlen x -> exists c, nth_error x (Z.to_nat k) = Some c /\ ar_cell ar (D + j * P + off + k) = Byte c.
Proof.
  intros Hj Ho Hz Hm. destruct (W2 j Hj) as ((w & I & B) & _). destruct (buf_pos _ _ B) as (B1 & B2). pose proof (wl_bound j ltac:(lia)) as Wb.
  assert (Iw : In w (ws0 ++ ws)) by (apply in_or_app; auto).
  split.
  { rewrite Har. rewrite <- B1, <- B2. apply size_in; auto. lia. }
  intros k Hk. destruct (Hm w B k Hk) as (c & C1 & C2). exists c. split; auto. rewrite Har. apply fold_cell.
  - exists w. split; auto. unfold covers. lia.
  - intros w' I' Cv. unfold covers in Cv. apply in_app_or in I' as [I'|I'].
    + apply pro_end in I'. nia.
    + destruct (W1 w' I') as (j' & Hj' & [B'|(T1 & T2 & T3 & _)]).
      * destruct (buf_pos _ _ B') as (B1' & B2'). pose proof (wl_bound j' ltac:(lia)) as Wb'.
        assert (j' = j). { assert (j' * P < (j + 1) * P) by lia. assert (j * P < (j' + 1) * P) by lia. nia. }
        subst j'. destruct (Hm w' B' k Hk) as (c' & C1' & C2'). assert (c' = c) by congruence. subst c'.
        replace (D + j * P + off + k - w_pos w') with (off + k) by lia. exact C2'.
      * exfalso. unfold is_last in T1. assert ((j + 1) * P <= (j' + 1) * P) by nia. lia.
Qed.

Section bytes.
Variable a : bytes.
Hypothesis Hcon : concretises a ar.

Lemma at_bucket j off x : 0 <= j < nb -> 0 <= off -> off + zlen x <= wl j -> (forall w, buf_write P D clock ev fs j w -> at_mem (w_mem w) off x) -> at_bytes a (D + j * P + off) x.
Proof.
  intros Hj Ho Hz Hm. destruct (bucket_cells j off x Hj Ho Hz Hm) as (A & B). destruct offs as (O & _). unfold Ec in O.
  apply (cells_at ar); auto; [nia|lia].
Qed.
Lemma frag_bucket f : In f fs -> 0 <= l_bucket f < nb /\ exists off, 0 <= off /\ frag_start f = l_bucket f * P + off /\ off + bsz 512 f <= sumb 512 (bucket_of (l_bucket f) fs).
Proof.
  intros Hf. destruct (visited_lemma fs starts Hrank Hcheck) as (V & _). rewrite Forall_forall in V. specialize (V f Hf). cbv beta in V. split; [exact V|].
  destruct (fs_pack P l fs (l_bucket f) HP Hs ltac:(lia)) as (Pk & _).
  destruct (packed_in ev _ f _ _ Pk (served_bucket (l_bucket f))) as (off & A & B & C).
  - unfold bucket_of. apply filter_In. split; auto. apply Z.eqb_refl.
  - exists off. lia.
Qed.
Lemma used_wl j : 0 <= j -> sumb 512 (bucket_of j fs) <= wl j.
Proof. intros Hj. destruct (used_room j Hj). unfold wl. destruct (Z.ltb_spec (sumb 512 (bucket_of j fs)) P); lia. Qed.
Lemma frag_shown f w : In f fs -> buf_write P D clock ev fs (l_bucket f) w -> shows_frag ev (l_bucket f * P) (w_mem w) f.
Proof.
  intros Hf (_ & _ & S & _). rewrite received_bucket in S. rewrite Forall_forall in S.
  assert (I : In (received f) (map received (bucket_of (l_bucket f) fs))) by (apply in_map; unfold bucket_of; apply filter_In; split; auto; apply Z.eqb_refl).
  specialize (S _ I). exact S.
Qed.
Lemma bsz_parts f : bsz 512 f >= Z.max 0 (l_size f) + (if l_orig f =? 0 then l_hdr f else 0).
Proof. unfold bsz. pose proof (blocked_bounds 512 (Z.max 0 (l_size f) + (if l_orig f =? 0 then l_hdr f else 0)) ltac:(lia)). lia. Qed.

Lemma fact1 f h : In f fs -> l_orig f = 0 -> file_header ev (l_rel f) = Some h -> at_bytes a (D + frag_start f) h.
Proof.
  intros Hf Ho Hh. destruct (frag_bucket f Hf) as (V & off & A & B & C). pose proof (used_wl (l_bucket f) ltac:(lia)) as U. pose proof (bsz_parts f) as Z0. rewrite Ho in Z0. cbn [Z.eqb] in Z0.
  pose proof (fs_served P ev l fs HP Hs Hvol Hlisted) as S. rewrite Forall_forall in S. destruct (S f Hf) as (_ & _ & S3 & _). destruct (S3 Ho) as (h' & Eh' & Lh). assert (h' = h) by congruence. subst h'.
  rewrite B. replace (D + (l_bucket f * P + off)) with (D + l_bucket f * P + off) by lia. apply at_bucket; auto; [lia|].
  intros w Hw. destruct (frag_shown f w Hf Hw) as (X & _). specialize (X Ho h Hh). replace (frag_start f - l_bucket f * P) with off in X by lia. exact X.
Qed.
Lemma fact2 f d : In f fs -> l_type f = LReg -> 0 < l_size f -> e_data ev (l_rel f) = Some d -> at_bytes a (D + l_loc f) (read_at d (l_orig f) (l_size f)).
Proof.
  intros Hf Ht Hz Hd. destruct (frag_bucket f Hf) as (V & off & A & B & C). pose proof (used_wl (l_bucket f) ltac:(lia)) as U. pose proof (bsz_parts f) as Z0.
  pose proof (fs_served P ev l fs HP Hs Hvol Hlisted) as S. rewrite Forall_forall in S. destruct (S f Hf) as (S1 & S2 & _).
  pose proof (read_at_len d (l_orig f) (l_size f) ltac:(lia)) as Rl.
  set (o := l_loc f - l_bucket f * P). assert (Ho : 0 <= o /\ o + l_size f <= wl (l_bucket f)).
  { unfold o. unfold frag_start in B. destruct (Z.eqb_spec (l_orig f) 0); lia. }
  replace (D + l_loc f) with (D + l_bucket f * P + o) by (unfold o; lia). apply at_bucket; auto; try lia.
  intros w Hw. destruct (frag_shown f w Hf Hw) as (_ & X). exact (X Ht Hz d Hd).
Qed.
Lemma fact3 j : 0 <= j < nb -> sumb 512 (bucket_of j fs) < P -> at_bytes a (D + j * P + sumb 512 (bucket_of j fs)) (space_header (P - sumb 512 (bucket_of j fs) - 512) (clock j)).
Proof.
  intros Hj L. destruct (used_room j ltac:(lia)) as (U1 & U2). apply at_bucket; auto; try lia.
  - assert (Ls : zlen (space_header (P - sumb 512 (bucket_of j fs) - 512) (clock j)) = 512).
    { unfold space_header. rewrite wrap32_id by (unfold is_int; change (2 ^ 31) with 2147483648; lia).
      destruct (fixed_header_read (b ".parfu_spacer ") (P - sumb 512 (bucket_of j fs) - 512) (clock j)) as (X & _); [nb|cbn; lia|change (8 ^ 11) with 8589934592; lia|].
      unfold zlen. lia. }
    rewrite Ls. unfold wl. destruct (Z.ltb_spec (sumb 512 (bucket_of j fs)) P); lia.
  - intros w (_ & _ & _ & X). rewrite wused in X. apply X. exact L.
Qed.
Lemma fact4 : at_bytes a (D + nb * P) (repeat NUL 1024) /\ D + nb * P + 1024 <= zlen a.
Proof.
  pose proof starts_pos as Hp. destruct (W2 (nb - 1) ltac:(lia)) as (_ & T). destruct (T eq_refl) as (w & I & (_ & T2 & T3 & T4)).
  replace (nb - 1 + 1) with nb in T2 by lia.
  assert (Iw : In w (ws0 ++ ws)) by (apply in_or_app; auto).
  assert (Sz : D + nb * P + 1024 <= ar_size ar) by (rewrite Har, <- T2, <- T3; apply size_in; auto; lia).
  destruct offs as (O & _). unfold Ec in O.
  split; [|destruct Hcon as (-> & _); exact Sz]. apply (cells_at ar); auto; [nia|]. change (zlen (repeat NUL 1024)) with 1024. intros k Hk.
  exists NUL. split. { apply nth_error_repeat. lia. }
  rewrite Har. apply fold_cell; [exists w; split; auto; unfold covers; lia|].
  intros w' I' Cv. unfold covers in Cv. apply in_app_or in I' as [I'|I'].
  - apply pro_end in I'. nia.
  - destruct (W1 w' I') as (j' & Hj' & [B'|(Q1 & Q2 & Q3 & Q4)]).
    + exfalso. destruct (buf_pos _ _ B') as (B1' & B2'). pose proof (wl_bound j' ltac:(lia)) as Wb'. assert ((j' + 1) * P <= nb * P) by (unfold nb in *; nia). lia.
    + apply Q4. lia.
Qed.

(** below the data *)
Lemma pro_cells pos x : 0 <= pos -> 0 < zlen x -> (exists w, In w ws0 /\ w_pos w <= pos /\ pos + zlen x <= w_pos w + w_len w) ->
  (forall w, In w ws0 -> w_pos w + w_len w <= pos \/ pos + zlen x <= w_pos w \/ at_mem (w_mem w) (pos - w_pos w) x) -> at_bytes a pos x.
Proof.
  intros Hp Hx (w & I & A1 & A2) Hall. destruct (pro_end w I) as (E1 & E2).
  assert (Sz : w_pos w + w_len w <= ar_size ar) by (rewrite Har; apply size_in; [apply in_or_app; auto|lia]).
  apply (cells_at ar); auto; [lia|]. intros k Hk.
  assert (M : at_mem (w_mem w) (pos - w_pos w) x) by (destruct (Hall w I) as [H|[H|H]]; auto; lia).
  destruct (M k Hk) as (c & C1 & C2). exists c. split; auto. rewrite Har. apply fold_cell; [exists w; split; [apply in_or_app; auto|unfold covers; lia]|].
  intros w' I' Cv. unfold covers in Cv. apply in_app_or in I' as [I'|I'].
  - destruct (Hall w' I') as [H|[H|H]]; try lia. destruct (H k Hk) as (c' & C1' & C2'). assert (c' = c) by congruence. subst c'.
    replace (pos + k - w_pos w') with (pos - w_pos w' + k) by lia. exact C2'.
  - exfalso. destruct (W1 w' I') as (j' & Hj' & [B'|(Q1 & Q2 & Q3 & Q4)]); [destruct (buf_pos _ _ B') as (B1' & B2'); nia|nia].
Qed.
Lemma cat_header_facts : zlen (catalog_header (zlen cat) (clock (-2))) = 512 /\ exists u, (forall rest, read_header (catalog_header (zlen cat) (clock (-2)) ++ rest) = Some (u, rest)) /\
  u_name u = b ".parfu_catalog" /\ u_type u = "0"%char /\ u_link u = [] /\ u_size u = zlen cat.
Proof.
  unfold catalog_header. rewrite wrap32_id by (unfold is_int; change (2 ^ 31) with 2147483648; lia).
  destruct (fixed_header_read (b ".parfu_catalog") (zlen cat) (clock (-2))) as (X & t & Y); [nb|cbn; lia|change (8 ^ 11) with 8589934592; lia|].
  split; [unfold zlen in *; lia|]. eexists. split; [exact Y|]. repeat split.
Qed.
Lemma fact5 : at_bytes a 0 (catalog_header (zlen cat) (clock (-2))).
Proof.
  destruct cat_header_facts as (L & _). destruct loc_facts as (_ & C). apply pro_cells; [lia|lia| |].
  - eexists. split; [rewrite Hws0; left; reflexivity|]. cbn [put w_pos w_len]. lia.
  - intros w I. apply pro_writes in I as [->|[->|(Lt & ->)]]; cbn [put w_pos w_len w_mem]; unfold Ec in *; [right; right; apply poke_at|right; left; lia|right; left; lia].
Qed.
Lemma fact6 : at_bytes a 512 cat.
Proof.
  destruct loc_facts as (_ & C). apply pro_cells; [lia|lia| |].
  - eexists. split; [rewrite Hws0; right; left; reflexivity|]. cbn [put w_pos w_len]. lia.
  - intros w I. apply pro_writes in I as [->|[->|(Lt & ->)]]; cbn [put w_pos w_len w_mem]; unfold Ec in *; [left; lia|right; right; apply poke_at|right; left; lia].
Qed.
Lemma fact7 : 512 < D - Ec -> at_bytes a loc (space_header (D - loc - 512) (clock (-1))).
Proof.
  intros Hgap. destruct loc_facts as (_ & C). destruct loc_D as (_ & B & _). specialize (B Hgap). destruct offs as (_ & _ & O & _).
  assert (Ls : zlen (space_header (D - loc - 512) (clock (-1))) = 512).
  { unfold space_header. rewrite wrap32_id by (unfold is_int; change (2 ^ 31) with 2147483648; lia).
    destruct (fixed_header_read (b ".parfu_spacer ") (D - loc - 512) (clock (-1))) as (X & _); [nb|cbn; lia|change (8 ^ 11) with 8589934592; lia|]. unfold zlen. lia. }
  apply pro_cells; [unfold Ec in *; lia|lia| |].
  - eexists. split; [rewrite Hws0; right; right; unfold catalog_spacer; fold Ec; rewrite HD'; destruct (Z.ltb_spec 512 (D - Ec)); [left; reflexivity|lia]|]. cbn [put w_pos w_len]. fold loc. lia.
  - intros w I. apply pro_writes in I as [->|[->|(Lt & ->)]]; cbn [put w_pos w_len w_mem]; unfold Ec in *; [left; lia|left; lia|right; right; rewrite Z.sub_diag; apply poke_at].
Qed.

Lemma inter_mono {A} (f g : A -> member -> Prop) sp ls ms : (forall e m, f e m -> g e m) -> interspersed f sp ls ms -> interspersed g sp ls ms.
Proof. intros H. induction 1; [constructor|apply In_spacer; auto|apply In_entry; auto]. Qed.

Lemma walk_data fuel : Forall (as_found ev) l -> (length (skipn (Z.to_nat D) a) < fuel)%nat -> exists ms, read_archive fuel (skipn (Z.to_nat D) a) = Some ms /\ interspersed (entry_found ev) is_spacer l ms.
Proof.
  intros Hfound Hf. destruct offs as (O1 & O2 & O3 & O4). unfold Ec in O1. pose proof starts_pos as Hp. destruct fact4 as (A4 & A5).
  destruct (visited_lemma fs starts Hrank Hcheck) as (V & _). rewrite Forall_forall in V.
  assert (Lb : last_bucket (-1) fs = nb - 1).
  { unfold nb. unfold rank_call_list in Hrank. destruct fs as [|f t] eqn:Ef; [discriminate|]. destruct (Z.eqb_spec (l_bucket f) 0) as [E0|]; [|discriminate].
    assert (X : starts = run_starts (-1) 0 fs) by congruence. rewrite <- Ef in *. rewrite X in Hcheck |- *.
    assert (S : steps (-1) fs) by (apply (check_steps fs [] (-1)); exact Hcheck).
    destruct (run_starts_len fs (-1) 0 S) as (Q & _). rewrite Q. lia. }
  destruct (walk_seated P D nb clock ev fs a (Shows ev) (Dat ev)) with (i := -1) (w := P) (l := l) (fs := fs) (fuel := fuel) as (ms & M1 & M2); auto; try lia.
  - intros f h. apply fact1.
  - intros f d. apply fact2.
  - intros j Hj. unfold E. destruct (Z.eqb_spec j (-1)); [lia|]. apply fact3. exact Hj.
  - intros j Hj. unfold from, E. destruct (Z.eqb_spec j (-1)) as [->|]; [|lia].
    rewrite (bucket_of_none 512 P eq_refl); [cbn [sumb]; lia|]. rewrite Forall_forall. intros f Hff. specialize (V f Hff). cbv beta in V. lia.
  - eapply Forall_impl; [|exact Hfound]. intros e He. apply entry_listed in He. tauto.
  - replace (D + -1 * P + P) with D by lia. exact Hf.
  - replace (D + -1 * P + P) with D in M1 by lia. exists ms. split; auto. eapply inter_mono; [|exact M2]. intros e m (u & x & U1 & -> & U2 & U3). apply entry_member; auto.
Qed.

(** the reader gets past the catalog to the first entry *)
Lemma to_data : D - Ec <> 512 -> exists mc sp fuel, is_catalog cat mc /\ Forall is_spacer sp /\ (length (skipn (Z.to_nat D) a) < fuel)%nat /\
  forall ms, read_archive fuel (skipn (Z.to_nat D) a) = Some ms -> tar_list a = Some (mc :: sp ++ ms).
Proof.
  intros Hgap. destruct offs as (O1 & O2 & O3 & O4). destruct loc_facts as (C1 & C2). destruct loc_D as (B1 & B2 & B3). pose proof starts_pos as Hp. destruct fact4 as (A4 & A5).
  destruct cat_header_facts as (L & u & R & U1 & U2 & U3 & U4).
  assert (Hloc : 512 + round512 (zlen cat) = loc).
  { pose proof (round512_bounds (zlen cat) ltac:(lia)) as Q1. pose proof (Z.div_mod loc 512 ltac:(lia)) as D1. pose proof (Z.div_mod (round512 (zlen cat)) 512 ltac:(lia)) as D2. unfold Ec in *. lia. }
  assert (HDn : D + 1024 <= zlen a) by nia.
  unfold tar_list. change (read_archive (S (length a)) a) with (read_archive (S (length a)) (skipn (Z.to_nat 0) a)).
  rewrite (read_step a 0 (catalog_header (zlen cat) (clock (-2))) u (length a) ltac:(lia) fact5 R ltac:(lia) ltac:(lia) ltac:(rewrite L, U4; lia)).
  rewrite L, U4. replace (0 + 512 + round512 (zlen cat)) with loc by lia. change (0 + 512) with 512.
  rewrite (data_at a 512 cat ltac:(lia) fact6).
  assert (Hc : is_catalog cat (member_of u cat)) by (unfold is_catalog; cbn; auto).
  destruct (Z.lt_ge_cases 512 (D - Ec)) as [Lg|Lg].
  - specialize (B2 Lg). pose proof (fact7 Lg) as A7. unfold space_header in A7.
    rewrite wrap32_id in A7 by (unfold is_int; change (2 ^ 31) with 2147483648; lia).
    destruct (fixed_header_read (b ".parfu_spacer ") (D - loc - 512) (clock (-1))) as (X & t & Y); [nb|cbn; lia|change (8 ^ 11) with 8589934592; lia|].
    assert (Rn : round512 (D - loc - 512) = D - loc - 512).
    { pose proof (round512_bounds (D - loc - 512) ltac:(lia)) as Q1. pose proof (Z.div_mod loc 512 ltac:(lia)) as D1. pose proof (Z.div_mod D 512 ltac:(lia)) as D2.
      pose proof (Z.div_mod (round512 (D - loc - 512)) 512 ltac:(lia)). lia. }
    set (h := fixed_header (b ".parfu_spacer ") (D - loc - 512) (clock (-1))) in *. clearbody h. assert (Lh : zlen h = 512) by (unfold zlen; lia).
    set (us := {| u_name := b ".parfu_spacer "; u_mode := 384; u_uid := 0; u_gid := 0; u_size := D - loc - 512; u_mtime := t; u_type := REGTYPE; u_link := []; u_uname := b "root"; u_gname := b "root" |}) in *.
    destruct (length a) as [|fuel] eqn:Ea; [unfold zlen in HDn; lia|].
    rewrite (read_step a loc h us fuel ltac:(unfold Ec in *; lia) A7 Y ltac:(lia) ltac:(unfold us; cbn [u_size]; lia) ltac:(unfold us; cbn [u_size]; lia)).
    change (u_size us) with (D - loc - 512). rewrite Rn, Lh. replace (loc + 512 + (D - loc - 512)) with D by lia.
    set (sm := member_of us _). exists (member_of u cat), [sm], fuel. split; [exact Hc|]. split; [|split].
    + constructor; [|constructor]. split; [reflexivity|]. split; reflexivity.
    + rewrite skipn_length. unfold Ec in *. unfold zlen in *. lia.
    + intros ms M1. rewrite M1. reflexivity.
  - assert (loc = D) as -> by (apply B3; lia).
    exists (member_of u cat), [], (length a). split; [exact Hc|]. split; [constructor|]. split.
    + rewrite skipn_length. unfold Ec in *. unfold zlen in *. lia.
    + intros ms M1. rewrite M1. reflexivity.
Qed.
Lemma readable : Forall (as_found ev) l -> D - Ec <> 512 -> exists mc ms, tar_list a = Some (mc :: ms) /\ is_catalog cat mc /\ interspersed (entry_found ev) is_spacer l ms.
Proof.
  intros Hfound Hgap. destruct (to_data Hgap) as (mc & sp & fuel & Hc & Hsp & Hf & H). destruct (walk_data fuel Hfound Hf) as (ms & M1 & M2).
  exists mc, (sp ++ ms). split; [apply H; exact M1|]. split; [exact Hc|]. clear - Hsp M2. induction Hsp; cbn [app]; [exact M2|]. apply In_spacer; auto.
Qed.

(** a gap of one block is not bridged *)
Lemma stops : D - Ec = 512 -> prior = empty_archive -> exists mc, tar_list a = Some [mc] /\ is_catalog cat mc.
Proof.
  intros Hgap Hpr. destruct offs as (O1 & O2 & O3 & O4). destruct loc_facts as (C1 & C2). destruct loc_D as (B1 & _ & _). pose proof starts_pos as Hp. destruct fact4 as (A4 & A5).
  destruct cat_header_facts as (L & u & R & U1 & U2 & U3 & U4).
  assert (HEc : Ec mod 512 = 0) by (replace Ec with (D - 1 * 512) by lia; rewrite Zminus_mod, O4, Z.mod_mul by lia; reflexivity).
  assert (Hlc : loc = Ec) by (unfold loc; rewrite HEc; reflexivity).
  assert (Hloc : 512 + round512 (zlen cat) = Ec).
  { pose proof (round512_bounds (zlen cat) ltac:(lia)) as Q1. pose proof (Z.div_mod Ec 512 ltac:(lia)) as D1. pose proof (Z.div_mod (round512 (zlen cat)) 512 ltac:(lia)) as D2. unfold Ec in *. lia. }
  assert (HDn : D + 1024 <= zlen a) by nia. pose proof Hcon as Hcon'. destruct Hcon as (Cz & Cc).
  assert (Zs : at_bytes a Ec (repeat NUL 512)).
  { apply (cells_at ar); auto; [unfold Ec; lia|change (zlen (repeat NUL 512)) with 512; lia|]. change (zlen (repeat NUL 512)) with 512. intros k Hk. exists NUL.
    split; [apply nth_error_repeat; lia|]. rewrite Har. apply fold_same; [rewrite Hpr; reflexivity|]. intros w I Cv. exfalso. unfold covers in Cv.
    apply in_app_or in I as [I|I].
    - apply pro_writes in I as [->|[->|(Lg & _)]]; cbn [put w_pos w_len] in Cv; unfold Ec in *; lia.
    - destruct (W1 w I) as (j' & Hj' & [B'|(Q1 & Q2 & Q3 & Q4)]); [destruct (buf_pos _ _ B') as (B1' & B2'); nia|nia]. }
  unfold tar_list. change (read_archive (S (length a)) a) with (read_archive (S (length a)) (skipn (Z.to_nat 0) a)).
  rewrite (read_step a 0 (catalog_header (zlen cat) (clock (-2))) u (length a) ltac:(lia) fact5 R ltac:(lia) ltac:(lia) ltac:(rewrite L, U4; lia)).
  rewrite L, U4. replace (0 + 512 + round512 (zlen cat)) with Ec by lia. change (0 + 512) with 512.
  rewrite (data_at a 512 cat ltac:(lia) fact6).
  destruct (length a) as [|fuel] eqn:Ea; [unfold zlen in HDn; lia|].
  assert (Z0 : read_archive (S fuel) (skipn (Z.to_nat Ec) a) = Some []).
  { rewrite (skip_at a Ec (repeat NUL 512)) by (auto; unfold Ec; lia). apply read_zero. }
  rewrite Z0. eexists. split; [reflexivity|]. unfold is_catalog; cbn; auto.
Qed.
End bytes.
End file.
