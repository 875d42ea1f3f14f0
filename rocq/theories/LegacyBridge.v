(** The gaps of a 0.5.1 archive: after the catalog, after each bucket. *)
From Verif Require Import Bytes Outcome TarSpec TarModel TarProofs TarMore Layout Mover MoverSpec MoverProofs AssembleProofs EndSpec EndProofs EndMore
  Legacy LegacyProofs LegacyLayout LegacySpec LegacyLayoutProofs LegacyRanks LegacyMore LegacyCodec LegacyCodecProofs LegacyWrite LegacySeats LegacyImage LegacyArchive LegacyEndSpec LegacyDriftSpec LegacyWalk LegacySend LegacyEnd LegacyRun.
From Coq Require Import Lia.

Lemma member_step a pos h u : 0 <= pos -> at_bytes a pos h -> (forall rest, read_header (h ++ rest) = Some (u, rest)) -> 0 <= u_size u ->
  pos + zlen h + round512 (u_size u) <= zlen a ->
  read_member (skipn (Z.to_nat pos) a) =
    Some (member_of u (firstn (Z.to_nat (u_size u)) (skipn (Z.to_nat (pos + zlen h)) a)), skipn (Z.to_nat (pos + zlen h + round512 (u_size u))) a).
Proof.
  intros Hp Ha Hh Hu Hl. rewrite (skip_at a pos h Hp Ha). set (R := skipn (Z.to_nat (pos + zlen h)) a).
  unfold read_member. rewrite Hh. pose proof (round512_bounds (u_size u) Hu) as Rb. pose proof (zlen_nonneg h).
  assert (LR : zlen R = zlen a - (pos + zlen h)) by (unfold R, zlen in *; rewrite skipn_length; lia).
  destruct (Nat.ltb_spec (length R) (Z.to_nat (round512 (u_size u)))); [unfold zlen in *; lia|].
  replace (skipn (Z.to_nat (round512 (u_size u))) R) with (skipn (Z.to_nat (pos + zlen h + round512 (u_size u))) a); [reflexivity|].
  unfold R. rewrite skipn_skipn. f_equal. lia.
Qed.

(** the end of a packed bucket *)
Lemma packed_end es : forall base w f0, base mod 512 = 0 -> w mod 512 = 0 -> packed 512 base w (f0 :: es) -> Forall (fun f => 0 <= l_hdr f) (f0 :: es) ->
  (exists f, In f (f0 :: es) /\ blocked_up 512 (frag_end f) = base + w + sumb 512 (f0 :: es)) /\
  (forall f, In f (f0 :: es) -> blocked_up 512 (frag_end f) <= base + w + sumb 512 (f0 :: es)).
Proof.
  induction es as [|f1 es IH]; intros base w f0 Hb Hw (P1 & P2) Hf; inversion Hf as [|? ? Hh Hf']; subst.
  - assert (E : blocked_up 512 (frag_end f0) = base + w + bsz 512 f0).
    { unfold bsz. rewrite (Z.add_comm (base + w)). rewrite <- (blocked_add 512 1 ltac:(lia)) by (rewrite Z.add_mod, Hb, Hw by lia; reflexivity).
      f_equal. unfold frag_end, frag_start in *. destruct (l_orig f0 =? 0); lia. }
    cbn [sumb]. split; [exists f0; split; [left; auto|lia]|]. intros f [<-|[]]. lia.
  - assert (E : blocked_up 512 (frag_end f0) = base + w + bsz 512 f0).
    { unfold bsz. rewrite (Z.add_comm (base + w)). rewrite <- (blocked_add 512 1 ltac:(lia)) by (rewrite Z.add_mod, Hb, Hw by lia; reflexivity).
      f_equal. unfold frag_end, frag_start in *. destruct (l_orig f0 =? 0); lia. }
    assert (Hw1 : (w + bsz 512 f0) mod 512 = 0).
    { unfold bsz. pose proof (blocked_bounds 512 (Z.max 0 (l_size f0) + (if l_orig f0 =? 0 then l_hdr f0 else 0)) ltac:(lia)) as (_ & Q). rewrite Z.add_mod, Hw, Q by lia. reflexivity. }
    destruct (IH base (w + bsz 512 f0) f1 Hb Hw1 P2 Hf') as ((f & F1 & F2) & G).
    assert (N : 0 <= sumb 512 (f1 :: es)).
    { clear - Hf'. remember (f1 :: es) as l eqn:X. clear X. induction Hf' as [|x l Hx _ IHl]; cbn [sumb]; [lia|].
      unfold bsz. pose proof (blocked_bounds 512 (Z.max 0 (l_size x) + (if l_orig x =? 0 then l_hdr x else 0)) ltac:(lia)). destruct (l_orig x =? 0); lia. }
    cbn [sumb] in *. split; [exists f; split; [right; auto|lia]|]. intros x [<-|I]; [lia|specialize (G x I); lia].
Qed.
Lemma blocked_mono x y : x <= y -> blocked_up 512 x <= blocked_up 512 y.
Proof.
  intros H. pose proof (blocked_bounds 512 x ltac:(lia)) as (A & B). pose proof (blocked_bounds 512 y ltac:(lia)) as (C & D).
  pose proof (Z.div_mod (blocked_up 512 x) 512 ltac:(lia)). pose proof (Z.div_mod (blocked_up 512 y) 512 ltac:(lia)). lia.
Qed.

Lemma space_read n t : 0 <= n < 2147483648 -> zlen (space_header n t) = 512 /\ exists u, (forall rest, read_header (space_header n t ++ rest) = Some (u, rest)) /\
  u_size u = n /\ forall d, is_spacer (member_of u d).
Proof.
  intros H. unfold space_header. rewrite wrap32_id by (unfold is_int; change (2 ^ 31) with 2147483648; lia).
  destruct (fixed_header_read (b ".parfu_spacer ") n t) as (X & v & Y); [nb|cbn; lia|change (8 ^ 11) with 8589934592; lia|].
  split; [unfold zlen; lia|]. eexists. split; [exact Y|]. split; [reflexivity|]. intros d. split; [reflexivity|]. split; reflexivity.
Qed.
Lemma spacer_member a pos n t : 0 <= pos -> n mod 512 = 0 -> 0 <= n < 2147483648 -> at_bytes a pos (space_header n t) -> pos + 512 + n <= zlen a ->
  exists m, read_member (skipn (Z.to_nat pos) a) = Some (m, skipn (Z.to_nat (pos + 512 + n)) a) /\ is_spacer m.
Proof.
  intros Hp Hm Hn H Hz. destruct (space_read n t Hn) as (L & u & Rd & Su & Sp).
  assert (Rn : round512 n = n) by (pose proof (round512_bounds n ltac:(lia)); pose proof (Z.div_mod n 512 ltac:(lia)); pose proof (Z.div_mod (round512 n) 512 ltac:(lia)); lia).
  pose proof (member_step a pos _ u Hp H Rd ltac:(lia) ltac:(rewrite L, Su, Rn; lia)) as M. rewrite L, Su, Rn in M. eexists. split; [exact M|]. apply Sp.
Qed.

Lemma gap_mod x y : x mod 512 = 0 -> y mod 512 = 0 -> (x - y - 512) mod 512 = 0.
Proof.
  intros A B. apply Z.mod_divide in A, B; try lia. destruct A as (p & ->), B as (q & ->). replace (p * 512 - q * 512 - 512) with ((p - q - 1) * 512) by lia. apply Z.mod_mul. lia.
Qed.
Lemma run_parts_split P pad clock ev l R ws0 D text starts es fs nb : present P pad ev l -> prologue 512 P pad clock l = Ok (Some (ws0, D, text, starts)) ->
  set_offsets_and_split 512 P pad l = Ok (Some (es, fs, nb)) -> exists cat, parts P pad clock ev l R cat fs D text starts ws0.
Proof.
  intros Hp H Hsp. pose proof (present_hdr _ _ _ _ Hp) as Hh. destruct Hp as [HP HPb Hpad Hlen Hsend Hlisted Hfirst Hhdr Hroom Hvol].
  destruct (prologue_inv _ _ _ _ _ _ _ _ HP Hlen H) as (cat & es' & fs' & nb' & E1 & E2 & E3 & E4 & E5 & E6 & E7 & E8).
  assert (fs' = fs) by congruence. subst fs'.
  assert (Hs : seated 512 P (-1) P l fs) by (eapply layout_seated; eauto; lia).
  assert (Hl2 : 2 <= zlen l) by (apply split_inv in E3; tauto).
  exists cat. unfold parts. split; auto. split; [split; [eapply cat_pos; eauto|auto]|]. split; auto. split; auto. split; auto. split; auto. split; auto.
  intros r Hr. apply (ranks_ok P D clock ev l fs text starts); auto.
  - pose proof (seated_len _ _ _ _ _ _ Hs). lia.
  - eapply split_sendable; eauto. lia.
Qed.

(** the two ends of the catalog and the buckets, for every proper run *)
Lemma run_bridges P pad clock ev l R prior ar a cat es fs nb0 : present P pad ev l -> (1 <= R)%nat -> legacy_run 512 P pad clock ev l R prior ar -> concretises a ar ->
  list_to_buffer l P true = Ok (Some cat) -> set_offsets_and_split 512 P pad l = Ok (Some (es, fs, nb0)) ->
  exists D, D mod P = 0 /\ 512 + zlen cat <= D < 512 + zlen cat + P /\
    (exists e0 h, nth_error l 0 = Some e0 /\ file_header ev (l_rel e0) = Some h /\ firstn (length h) (skipn (Z.to_nat D) a) = h) /\
    ((1024 + zlen cat) mod P <> 0 -> exists mc r, read_member a = Some (mc, r) /\ is_catalog cat mc /\
        (r = skipn (Z.to_nat D) a \/ exists m, read_member r = Some (m, skipn (Z.to_nat D) a) /\ is_spacer m)) /\
    (forall f, In f fs -> (forall g, In g fs -> l_bucket g = l_bucket f -> frag_end g <= frag_end f) ->
        let stop := blocked_up 512 (frag_end f) in
        stop = (l_bucket f + 1) * P \/
        exists m, read_member (skipn (Z.to_nat (D + stop)) a) = Some (m, skipn (Z.to_nat (D + (l_bucket f + 1) * P)) a) /\ is_spacer m).
Proof.
  intros Hp HR Hrun Ha Hc Hsp. destruct Hrun as [ws0 D text starts wss ws Hpro Hf Hi].
  destruct (run_parts_split P pad clock ev l R _ _ _ _ _ _ _ Hp Hpro Hsp) as (cat' & Hpa). destruct (run_writes _ _ _ _ _ _ _ _ _ _ _ _ _ _ HR Hpa Hf Hi) as (W1 & W2).
  pose proof (present_hdr _ _ _ _ Hp) as Hh0. destruct Hp as [HP HPb Hpad Hlen Hsend Hlisted Hfirst Hhdr Hroom Hvol].
  destruct Hpa as (E1 & E2 & E3 & E4 & E5 & E6 & E7 & _). assert (cat' = cat) by congruence. subst cat'.
  set (ar := fold_left write_at (ws0 ++ ws) prior) in *. assert (Har : ar = fold_left write_at (ws0 ++ ws) prior) by reflexivity. clearbody ar.
  pose proof (offs P D clock ev fs starts cat ws HP HPb E2 E6 W2) as (O1 & O2 & O3 & O4).
  pose proof (fact4 P D clock ev l fs starts cat ws0 ws prior ar HP HPb E3 Hvol Hlisted E4 E5 E2 E6 E7 W1 W2 Har a Ha) as (A4 & A5).
  pose proof (starts_pos P D clock ev l fs starts cat ws E3 E4 E5 W1 W2) as Hpos.
  exists D. split; [exact O2|]. split; [lia|]. split; [|split].
  - (* the first header *)
    inversion E3 as [|? ? e l0 f g fs0 j u i' w' total Hj Hu Hsf Hb Ho Hloc Hneg Hpo Hfo Hend Hw' Hse]; subst; [unfold rank_call_list in E4; discriminate|].
    inversion Hlisted as [|? ? He Hl']; subst. pose proof He as (_ & (h & Eh & Lh) & _).
    exists e, h. split; [reflexivity|]. split; [exact Eh|].
    assert (Hr : l_rel f = l_rel e) by apply Hsf. rewrite <- Hr in Eh.
    pose proof (fact1 P _ clock ev _ _ starts cat _ ws prior _ HP HPb E3 Hvol Hlisted E4 E5 E2 eq_refl eq_refl W1 W2 eq_refl a Ha f h (or_introl eq_refl) Ho Eh) as A1.
    assert (Fst : frag_start f = 0).
    { destruct (visited_lemma _ starts E4 E5) as (V & _). inversion V as [|? ? V1 _]; subst. unfold frag_start. rewrite Ho. cbn [Z.eqb].
      assert (Hhe : l_hdr f = l_hdr e) by apply Hsf.
      assert (l_bucket f = 0) by (unfold rank_call_list in E4; destruct (Z.eqb_spec (l_bucket f) 0); [auto|discriminate]). lia. }
    rewrite Fst, Z.add_0_r in A1. rewrite (skip_at a _ h) by (auto; lia). rewrite firstn_app, Nat.sub_diag, firstn_all. cbn. apply app_nil_r.
  - (* the catalog *)
    intros Hg.
    pose proof (cat_header_facts P D clock ev fs starts cat ws E2 W2 a) as (L & u & Rd & U1 & U2 & U3 & U4).
    pose proof (fact5 P D clock ev l fs starts cat ws0 ws prior ar HP HPb Hvol E2 E6 E7 W1 W2 Har a Ha) as A0.
    pose proof (fact6 P D clock ev l fs starts cat ws0 ws prior ar HP HPb Hvol E2 E6 E7 W1 W2 Har a Ha) as A6.
    pose proof (fact7 P D clock ev l fs starts cat ws0 ws prior ar HP HPb Hvol E2 E6 E7 W1 W2 Har a Ha) as A7.
    pose proof (loc_facts P D clock ev fs starts cat ws W2) as (C1 & C2).
    pose proof (loc_D P D clock ev fs starts cat ws HP HPb E2 E6 W2) as (B1 & B2 & B3).
    assert (Hloc : 512 + round512 (zlen cat) = loc cat).
    { pose proof (round512_bounds (zlen cat) ltac:(lia)) as Q1. pose proof (Z.div_mod (loc cat) 512 ltac:(lia)) as D1. pose proof (Z.div_mod (round512 (zlen cat)) 512 ltac:(lia)) as D2. lia. }
    assert (HDn : D + 1024 <= zlen a) by nia.
    pose proof (member_step a 0 _ u ltac:(lia) A0 Rd ltac:(lia) ltac:(rewrite L, U4; lia)) as M. rewrite L, U4 in M.
    replace (0 + 512 + round512 (zlen cat)) with (loc cat) in M by lia. change (0 + 512) with 512 in M. change (skipn (Z.to_nat 0) a) with a in M.
    rewrite (LegacyWalk.data_at a 512 cat ltac:(lia) A6) in M. eexists _, _. split; [exact M|]. split; [unfold is_catalog; cbn; auto|].
    assert (Hne : D - (512 + zlen cat) <> 512) by (intros X; apply Hg; rewrite E6 in X; apply gap_iff in X; lia).
    destruct (Z.lt_ge_cases 512 (D - (512 + zlen cat))) as [Lg|Lg]; [|left; rewrite B3 by lia; reflexivity].
    right. destruct (spacer_member a (loc cat) (D - loc cat - 512) (clock (-1))) as (m & M1 & M2); auto; try lia.
    replace (loc cat + 512 + (D - loc cat - 512)) with D in M1 by lia. eauto.
  - intros f If Hmax stop.
    pose proof (frag_bucket P D clock ev l fs starts cat ws HP E3 Hvol Hlisted E4 E5 W2 f If) as (V & _).
    set (j := l_bucket f) in *.
    pose proof (used_room P D clock ev l fs starts cat ws HP HPb E3 Hvol Hlisted W2 j ltac:(lia)) as (U1 & U2).
    pose proof (fact3 P D clock ev l fs starts cat ws0 ws prior ar HP HPb E3 Hvol Hlisted E2 E6 E7 W1 W2 Har a Ha j V) as A3.
    destruct (fs_pack P l fs j HP E3 ltac:(lia)) as (Pk & _).
    pose proof (served_bucket P ev l fs HP E3 Hvol Hlisted j) as Sv.
    assert (Ij : In f (bucket_of j fs)) by (unfold bucket_of; apply filter_In; split; auto; apply Z.eqb_refl).
    assert (Bk : forall g, In g (bucket_of j fs) -> In g fs /\ l_bucket g = j) by (intros g Ig; unfold bucket_of in Ig; apply filter_In in Ig as (Ig & X); split; auto; apply Z.eqb_eq; exact X).
    assert (Hstop : stop = j * P + sumb 512 (bucket_of j fs)).
    { destruct (bucket_of j fs) as [|f0 es0] eqn:Eb; [destruct Ij|].
      assert (Hjm : (j * P) mod 512 = 0) by (rewrite Z.mul_mod, HPb, Z.mul_0_r by lia; reflexivity).
      destruct (packed_end es0 (j * P) 0 f0 Hjm eq_refl Pk) as ((g & G1 & G2) & G3).
      { eapply Forall_impl; [|exact Sv]. intros x (X1 & X2 & _). lia. }
      pose proof (G3 f Ij) as K1. destruct (Bk g G1) as (K2 & K3). specialize (Hmax g K2 K3). apply blocked_mono in Hmax. unfold stop. lia. }
    clearbody stop. set (s := sumb 512 (bucket_of j fs)) in *.
    assert (Sm : s mod 512 = 0) by apply sumb_mod. clearbody s.
    destruct (Z.eq_dec s P) as [->|N]; [left; lia|]. right.
    specialize (A3 ltac:(lia)). specialize (U2 ltac:(lia)).
    assert (Hn : (j + 1) * P <= zlen starts * P) by nia. assert (0 <= j * P) by nia.
    replace (D + stop) with (D + j * P + s) by lia.
    destruct (spacer_member a (D + j * P + s) (P - s - 512) (clock j)) as (m & M1 & M2); auto; try lia.
    replace (D + j * P + s + 512 + (P - s - 512)) with (D + (j + 1) * P) in M1 by lia. eauto.
Qed.

(** *** one bucket, whatever the list and the files *)
Fixpoint taken (es : list lent) : Z :=
  match es with [] => 0 | e :: es' => round512 (Z.max 0 (l_size e) + (if l_orig e =? 0 then l_hdr e else 0)) + taken es' end.
Lemma blocked_is_round n : blocked_up 512 n = round512 n.
Proof.
  unfold blocked_up, round512. pose proof (Z.div_mod n 512 ltac:(lia)). pose proof (Z.mod_pos_bound n 512 ltac:(lia)).
  destruct (Z.eqb_spec (n mod 512) 0) as [E|E].
  - replace (n + 511) with (n / 512 * 512 + 511) by lia. rewrite Z.div_add_l by lia. change (511 / 512) with 0. lia.
  - replace (n + 511) with ((n / 512 + 1) * 512 + (n mod 512 - 1)) by lia. rewrite Z.div_add_l by lia. rewrite (Z.div_small (n mod 512 - 1)) by lia. lia.
Qed.
Lemma entries_taken P ev base es : forall m w m' w', bucket_entries 512 P ev base (m, w) es = Ok (Some (m', w')) -> w' = w + taken es.
Proof.
  induction es as [|e es IH]; intros m w m' w'; cbn [bucket_entries taken].
  - intros E. assert (w' = w) by congruence. lia.
  - destruct (bucket_entry 512 P ev base (m, w) e) as [[[m1 w1]|]|] eqn:E1; cbn [bind]; try discriminate.
    intros E. apply IH in E. unfold bucket_entry in E1.
    match type of E1 with bind ?x _ = _ => destruct x as [[m2|]|] end; cbn [bind] in E1; try discriminate.
    match type of E1 with bind ?x _ = _ => destruct x as [m3|] end; cbn [bind] in E1; try discriminate.
    assert (X : w1 = w + blocked_up 512 (Z.max 0 (l_size e) + (if l_orig e =? 0 then l_hdr e else 0))) by congruence. rewrite blocked_is_round in X. lia.
Qed.
Lemma taken_facts es : Forall (fun e => 0 <= l_hdr e) es -> 0 <= taken es /\ taken es mod 512 = 0.
Proof.
  induction 1 as [|e es H _ (IH1 & IH2)]; cbn [taken]; [split; [lia|reflexivity]|].
  pose proof (round512_bounds (Z.max 0 (l_size e) + (if l_orig e =? 0 then l_hdr e else 0))) as Rb.
  assert (0 <= Z.max 0 (l_size e) + (if l_orig e =? 0 then l_hdr e else 0)) by (destruct (l_orig e =? 0); lia). specialize (Rb ltac:(lia)).
  split; [lia|]. rewrite Z.add_mod, IH2 by lia. destruct Rb as (_ & ->). reflexivity.
Qed.
Lemma one_bridge P D now ev l starts m i m' ws : P mod 512 = 0 -> P < 2147483648 -> Forall (fun e => 0 <= l_hdr e) l ->
  one_bucket 512 P D now ev l starts m i = Ok (Some (m', ws)) ->
  exists mine w rest, visited l starts i = Ok mine /\ ws = w :: rest /\ w_pos w = D + i * P /\
    ((taken mine = P /\ w_len w = P) \/
     (w_len w = taken mine + 512 /\ exists h u, zlen h = 512 /\ (forall r, read_header (h ++ r) = Some (u, r)) /\
        (forall k c, nth_error h k = Some c -> w_mem w (taken mine + Z.of_nat k) = Byte c) /\
        u_name u = b ".parfu_spacer " /\ taken mine + 512 + round512 (u_size u) = P)).
Proof.
  intros HPb HP Hh. unfold one_bucket, visited. destruct (Z.ltb_spec P 10000); [discriminate|]. destruct (nth_error starts (Z.to_nat i)) as [k|]; [|discriminate].
  destruct (nth_error l (Z.to_nat k)) as [e0|] eqn:El; [|discriminate]. destruct (negb (l_bucket e0 =? i)); [discriminate|]. cbv zeta.
  set (mine := take_bucket (l_bucket e0) (skipn (Z.to_nat k) l)).
  assert (Hm : Forall (fun e => 0 <= l_hdr e) mine).
  { assert (G : forall j x, Forall (fun e => 0 <= l_hdr e) x -> Forall (fun e => 0 <= l_hdr e) (take_bucket j x)).
    { intros j x. induction 1; cbn [take_bucket]; [constructor|]. destruct (_ =? _); constructor; auto. }
    apply G. clear - Hh. generalize (Z.to_nat k) as n. induction Hh as [|x l H Hl IH]; intros [|n]; cbn [skipn]; auto. }
  clearbody mine. destruct (taken_facts mine Hm) as (T1 & T2).
  destruct (bucket_entries 512 P ev (P * i) (m, 0) mine) as [[[m1 w]|]|] eqn:Eb; cbn [bind]; try discriminate.
  apply entries_taken in Eb. rewrite Z.add_0_l in Eb. subst w. set (t := taken mine) in *.
  destruct (Z.leb_spec 0 (P - t - 512)) as [L|L].
  - destruct (space_read (P - t - 512) now ltac:(lia)) as (Ls & u & Rd & Su & Sp).
    destruct (store_at P m1 t (space_header (P - t - 512) now)) as (m2 & F1 & F2 & _); [lia|lia|]. rewrite F1. cbn [bind].
    destruct (Z.ltb_spec P (t + 512)); [lia|]. intros E. exists mine, (put (D + i * P) (t + 512) m2).
    assert (X : exists rest, ws = put (D + i * P) (t + 512) m2 :: rest).
    { destruct (k + zlen mine =? zlen l); match type of E with Ok (Some (_, ?x)) = _ => assert (Y : ws = x) by congruence end; rewrite Y; eexists; reflexivity. }
    destruct X as (rest & X). exists rest. split; [reflexivity|]. split; [exact X|]. cbn [put w_pos w_len w_mem]. split; [reflexivity|]. right. split; [reflexivity|].
    exists (space_header (P - t - 512) now), u. split; [exact Ls|]. split; [exact Rd|]. split; [|split].
    + intros j c Hc. assert (Hj : 0 <= Z.of_nat j < zlen (space_header (P - t - 512) now)).
      { unfold zlen. assert (j < length (space_header (P - t - 512) now))%nat by (apply nth_error_Some; congruence). lia. }
      destruct (F2 _ Hj) as (c' & C1 & C2). rewrite Nat2Z.id in C1. fold t. rewrite C2. f_equal. rewrite C1 in Hc. inversion Hc. reflexivity.
    + destruct (Sp []) as (Q & _). exact Q.
    + rewrite Su. assert (M : (P - t - 512) mod 512 = 0) by (apply gap_mod; auto).
      pose proof (round512_bounds (P - t - 512) ltac:(lia)); pose proof (Z.div_mod (P - t - 512) 512 ltac:(lia)); pose proof (Z.div_mod (round512 (P - t - 512)) 512 ltac:(lia)). lia.
  - cbn [bind]. destruct (Z.ltb_spec P t); [discriminate|]. intros E.
    assert (t = P). { pose proof (Z.div_mod t 512 ltac:(lia)). pose proof (Z.div_mod P 512 ltac:(lia)). lia. }
    exists mine, (put (D + i * P) t m1).
    assert (X : exists rest, ws = put (D + i * P) t m1 :: rest).
    { destruct (k + zlen mine =? zlen l); match type of E with Ok (Some (_, ?x)) = _ => assert (Y : ws = x) by congruence end; rewrite Y; eexists; reflexivity. }
    destruct X as (rest & X). exists rest. split; [reflexivity|]. split; [exact X|]. cbn [put w_pos w_len w_mem]. split; [reflexivity|]. left. split; lia.
Qed.
