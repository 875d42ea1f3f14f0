(** More about the 0.5.1 layout: when it succeeds, and sorted lists. *)
From Verif Require Import Bytes Outcome TarModel TarProofs Legacy LegacyProofs LegacyLayout LegacySpec LegacyLayoutProofs.
From Coq Require Import Sorted ZifyBool ZifyNat ZifyN.
Ltac Zify.zify_post_hook ::= Z.div_mod_to_equations.

Lemma blocked_mono blk s t : 0 < blk -> s <= t -> blocked_up blk s <= blocked_up blk t.
Proof. intros H Hs. destruct (blocked_bounds blk t H) as (A & B). apply blocked_le; auto. lia. Qed.

Lemma sorted_small_first blk P h l : 0 < blk -> sorted l -> Forall (fun e => l_hdr e = h) l -> small_first blk P l.
Proof.
  intros Hb. induction l as [|e l IH]; intros S F; [exists [], []; auto|].
  inversion S as [|? ? S1 S2]; subst. inversion F as [|? ? F1 F2]; subst.
  destruct (Z_le_gt_dec (blocked_up blk (sum_size e)) P) as [L|L].
  - destruct (IH S1 F2) as (l1 & l2 & -> & A & B). exists (e :: l1), l2. split; auto.
  - exists [], (e :: l). split; auto. split; [constructor|]. constructor; [unfold fits; lia|].
    rewrite Forall_forall in *. intros x Hx. specialize (S2 x Hx). specialize (F2 x Hx). cbv beta in *. unfold fits.
    assert (l_size e <= l_size x). { unfold compare_entries in S2. destruct (Z.ltb_spec (l_size x) (l_size e)); lia. }
    assert (sum_size e <= sum_size x) by (unfold sum_size; rewrite F2; destruct (Z.leb_spec 0 (l_size e)), (Z.leb_spec 0 (l_size x)); lia).
    pose proof (blocked_mono blk _ _ Hb H0). lia.
Qed.

Lemma pad_hdr pad tgt sp : zlen pad <= 100 -> zlen tgt <= 100 -> sp <= MAX_FILE_SIZE -> compute_hdr_size pad tgt sp = Ok 512.
Proof.
  intros. unfold compute_hdr_size. apply hdr_size_short; unfold need_path, need_link, need_size, is_reg; cbn [te_file te_link te_stat st_kind st_size andb]; lia.
Qed.
Lemma set_pad_some blk pad sp at_ e : 512 <= blk -> zlen pad <= 100 -> zlen (l_tgt e) <= 100 -> sp <= MAX_FILE_SIZE ->
  exists e1, set_pad blk pad sp at_ e = Ok (Some e1) /\ l_hdr e1 = l_hdr e.
Proof.
  intros H1 H2 H3 H4. unfold set_pad. destruct (Z.leb_spec blk sp); [|eauto].
  rewrite !pad_hdr by lia. cbn [bind]. destruct (Z.ltb_spec sp 512); [lia|]. rewrite pad_hdr by lia. cbn [bind]. rewrite Z.eqb_refl. eexists. split; reflexivity.
Qed.

Lemma place_some blk P pad p e : 512 <= blk -> 0 < P <= MAX_FILE_SIZE -> zlen pad <= 100 -> zlen (l_tgt e) <= 100 -> 0 < l_hdr e ->
  0 <= w_all p -> (fits blk P e -> tight P p) -> exists e1 fs p1, place_one blk P pad p e = Ok (Some (e1, fs, p1)).
Proof.
  intros H1 H2 H3 H4 H5 H6 H7. unfold place_one. destruct (Z.leb_spec (l_hdr e) 0); [lia|].
  destruct (Z.leb_spec (blocked_up blk (sum_size e)) P) as [L|L].
  - destruct (H7 L) as (T1 & T2). destruct (_ <=? P); [eauto|].
    destruct (set_pad_some blk pad ((w_bucket p + 1) * P - w_all p) (w_all p) (set_loc e ((w_bucket p + 1) * P))) as (e1 & -> & _); auto; [lia|]. cbn [bind]. eauto.
  - set (bkt := if _ =? 0 then _ else _).
    assert (bkt * P - w_all p <= MAX_FILE_SIZE).
    { unfold bkt. pose proof (Z.mod_pos_bound (w_all p) P ltac:(lia)) as G1. pose proof (Z.div_mod (w_all p) P ltac:(lia)) as G2.
      set (q := w_all p / P) in *. set (r := w_all p mod P) in *. clearbody q r. destruct (Z.eqb_spec r 0); nia. }
    destruct (set_pad_some blk pad (bkt * P - w_all p) (w_all p) (set_loc e (bkt * P))) as (e1 & -> & _); auto. cbn [bind].
    destruct (negb _); eauto.
Qed.

Lemma succeeds_lemma blk P pad l : 512 <= blk -> 0 < P <= MAX_FILE_SIZE -> P mod blk = 0 -> zlen pad <= 100 -> 2 <= zlen l ->
  Forall (fun e => 0 < l_hdr e < P /\ zlen (l_tgt e) <= 100) l -> small_first blk P l ->
  exists es fs nb, set_offsets_and_split blk P pad l = Ok (Some (es, fs, nb)).
Proof.
  intros H1 H2 HPb H3 H4 F (l1 & l2 & -> & F1 & F2).
  assert (A : forall p, 0 <= w_all p -> Forall (fun e => 0 < l_hdr e < P /\ zlen (l_tgt e) <= 100) l2 -> exists es fs p1, place_all blk P pad p l2 = Ok (Some (es, fs, p1))).
  { clear H4 F. induction l2 as [|e l2 IH]; intros p Hp F; cbn [place_all]; [eauto|]. inversion F as [|? ? (Fa & Fb) Fc]; subst. inversion F2 as [|? ? F2a F2b]; subst.
    destruct (place_some blk P pad p e) as (e1 & fs & p1 & E1); auto; try lia; [intros X; destruct (F2a X)|].
    rewrite E1. cbn [bind]. apply place_big in E1 as (W & _); auto; try lia. destruct (IH F2b p1 ltac:(lia) Fc) as (es2 & fs2 & p2 & ->). cbn [bind]. eauto. }
  assert (B : forall p, 0 <= w_all p -> tight P p -> Forall (fun e => 0 < l_hdr e < P /\ zlen (l_tgt e) <= 100) (l1 ++ l2) -> exists es fs p1, place_all blk P pad p (l1 ++ l2) = Ok (Some (es, fs, p1))).
  { clear H4 F. induction l1 as [|e l1 IH]; intros p Hp T F; cbn [app place_all]; [apply A; auto|]. cbn [app] in F. inversion F as [|? ? (Fa & Fb) Fc]; subst. inversion F1 as [|? ? F1a F1b]; subst.
    destruct (place_some blk P pad p e) as (e1 & fs & p1 & E1); auto; try lia.
    rewrite E1. cbn [bind]. apply place_small in E1 as (W & W2 & _); auto; try lia. destruct (IH F1b p1 ltac:(lia) W Fc) as (es2 & fs2 & p2 & ->). cbn [bind]. eauto. }
  unfold set_offsets_and_split, create_list. replace (zlen (l1 ++ l2) <? 1) with false by lia. replace (zlen (l1 ++ l2) <? 2) with false by lia. cbn [bind].
  replace ((blk =? 0) || (P =? 0)) with false by lia.
  destruct (B {| w_all := 0; w_rank := 0; w_bucket := 0 |}) as (es & fs & p & ->); auto; [cbn; lia|unfold tight; cbn; lia|]. cbn [bind]. eauto.
Qed.
