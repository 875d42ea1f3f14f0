(** The beginning of an archive of the 0.5.1 writer, whatever the list. *)
From Verif Require Import Bytes Outcome TarSpec TarModel TarProofs TarMore Layout Mover MoverSpec MoverProofs AssembleProofs EndSpec EndProofs EndMore
  Legacy LegacyProofs LegacyLayout LegacySpec LegacyLayoutProofs LegacyRanks LegacyMore LegacyCodec LegacyCodecProofs LegacyWrite LegacySeats LegacyImage LegacyArchive LegacyEndSpec LegacyWalk LegacySend LegacyEnd LegacyRun.
From Coq Require Import Lia.

Lemma one_bucket_pos blk P D now ev l starts m i m' ws : 0 <= P -> 0 <= i -> one_bucket blk P D now ev l starts m i = Ok (Some (m', ws)) -> Forall (fun w => D <= w_pos w) ws.
Proof.
  intros HP Hi. unfold one_bucket. destruct (P <? 10000); [discriminate|]. destruct (nth_error starts (Z.to_nat i)) as [k|]; [|discriminate].
  destruct (nth_error l (Z.to_nat k)) as [e0|]; [|discriminate]. destruct (negb (l_bucket e0 =? i)); [discriminate|]. cbv zeta.
  destruct (bucket_entries _ _ _ _ _ _) as [[[m1 w]|]|]; cbn [bind]; try discriminate.
  match goal with |- context [bind ?x _] => destruct x as [[m2 w2]|] end; cbn [bind]; try discriminate.
  destruct (P <? w2); [discriminate|].
  match goal with |- context [if ?x then _ else _] => destruct x end; intros E;
    match type of E with Ok (Some (_, ?x)) = _ => assert (X : ws = x) by congruence end; rewrite X; repeat constructor; cbn [put w_pos]; nia.
Qed.
Lemma all_buckets_pos blk P D clock ev l starts is : 0 <= P -> Forall (fun i => 0 <= i) is ->
  forall m ws, all_buckets blk P D clock ev l starts m is = Ok (Some ws) -> Forall (fun w => D <= w_pos w) ws.
Proof.
  intros HP. induction 1 as [|i is Hi _ IH]; intros m ws; cbn [all_buckets]; [intros E; assert (ws = []) by congruence; subst; constructor|].
  destruct (one_bucket _ _ _ _ _ _ _ _ _) as [[[m1 w1]|]|] eqn:E1; cbn [bind]; try discriminate.
  destruct (all_buckets _ _ _ _ _ _ _ _ _) as [[w2|]|] eqn:E2; cbn [bind]; try discriminate.
  intros E. assert (X : ws = w1 ++ w2) by congruence. subst ws. apply Forall_app. split; [eapply one_bucket_pos; [| |exact E1]; auto|eapply IH; eauto].
Qed.
Lemma rank_part_pos blk P D clock ev text starts R r ws : 0 <= P -> 0 <= r < R -> rank_part blk P D clock ev text starts R r = Ok (Some ws) -> Forall (fun w => D <= w_pos w) ws.
Proof.
  intros HP Hr. unfold rank_part. destruct (buffer_to_list text false) as [[[bk l]|]|]; cbn [bind]; try discriminate.
  destruct (check_calls l 0 starts) as [[|]|]; cbn [bind]; try discriminate. intros H. eapply all_buckets_pos; [exact HP| |exact H].
  rewrite Forall_forall. intros i Hi. apply (rank_loop_spec R r (zlen starts) Hr) in Hi. lia.
Qed.

Section head.
Variables (P D : Z) (clock : Z -> Z) (cat : bytes) (ws0 ws : list wr) (prior ar : archive) (a : bytes).
Hypothesis HP : 100000 <= P <= 500000000.
Hypothesis Hcat : 0 < zlen cat < 1000000000.
Hypothesis HD : D = data_offset P (512 + zlen cat).
Hypothesis Hws0 : ws0 = put 0 512 (poke fresh 0 (catalog_header (zlen cat) (clock (-2)))) :: put 512 (zlen cat) (poke fresh 0 cat) :: catalog_spacer 512 P 512 (512 + zlen cat) (clock (-1)).
Hypothesis W1 : forall w, In w ws -> D <= w_pos w.
Hypothesis Har : ar = fold_left write_at (ws0 ++ ws) prior.
Hypothesis Hcon : concretises a ar.

Lemma head_cells pos x : 0 <= pos -> 0 < zlen x -> pos + zlen x <= D -> (exists w, In w ws0 /\ w_pos w <= pos /\ pos + zlen x <= w_pos w + w_len w) ->
  (forall w, In w ws0 -> w_pos w + w_len w <= pos \/ pos + zlen x <= w_pos w \/ at_mem (w_mem w) (pos - w_pos w) x) -> at_bytes a pos x.
Proof.
  intros Hp Hx HxD (w & I & A1 & A2) Hall.
  assert (Sz : w_pos w + w_len w <= ar_size ar) by (rewrite Har; apply size_in; [apply in_or_app; auto|lia]).
  apply (cells_at ar); auto; [lia|]. intros k Hk.
  assert (M : at_mem (w_mem w) (pos - w_pos w) x) by (destruct (Hall w I) as [H|[H|H]]; auto; lia).
  destruct (M k Hk) as (c & C1 & C2). exists c. split; auto. rewrite Har. apply fold_cell; [exists w; split; [apply in_or_app; auto|unfold covers; lia]|].
  intros w' I' Cv. unfold covers in Cv. apply in_app_or in I' as [I'|I'].
  - destruct (Hall w' I') as [H|[H|H]]; try lia. destruct (H k Hk) as (c' & C1' & C2'). assert (c' = c) by congruence. subst c'.
    replace (pos + k - w_pos w') with (pos - w_pos w' + k) by lia. exact C2'.
  - specialize (W1 w' I'). lia.
Qed.
Lemma head_facts : at_bytes a 0 (catalog_header (zlen cat) (clock (-2))) /\ zlen (catalog_header (zlen cat) (clock (-2))) = 512 /\ at_bytes a 512 cat /\ 512 + zlen cat <= zlen a.
Proof.
  destruct (data_offset_facts P (512 + zlen cat) ltac:(lia) ltac:(lia)) as (_ & O). rewrite <- HD in O.
  assert (L : zlen (catalog_header (zlen cat) (clock (-2))) = 512).
  { unfold catalog_header. rewrite wrap32_id by (unfold is_int; change (2 ^ 31) with 2147483648; lia).
    destruct (fixed_header_read (b ".parfu_catalog") (zlen cat) (clock (-2))) as (X & _); [nb|cbn; lia|change (8 ^ 11) with 8589934592; lia|]. unfold zlen in *; lia. }
  assert (Sp : forall w, In w (catalog_spacer 512 P 512 (512 + zlen cat) (clock (-1))) -> 512 + zlen cat <= w_pos w).
  { unfold catalog_spacer. intros w. destruct (512 <? _); [|intros []]. intros [<-|[]]. cbn [put w_pos]. pose proof (Z.mod_pos_bound (512 + zlen cat) 512 ltac:(lia)).
    destruct (_ =? 0); lia. }
  assert (Hsz : 512 + zlen cat <= ar_size ar).
  { rewrite Har. change (512 + zlen cat) with (w_pos (put 512 (zlen cat) (poke fresh 0 cat)) + w_len (put 512 (zlen cat) (poke fresh 0 cat))).
    apply size_in; [apply in_or_app; left; rewrite Hws0; right; left; reflexivity|cbn [put w_len]; lia]. }
  split; [|split; [exact L|split]].
  - apply head_cells; try lia.
    + eexists. split; [rewrite Hws0; left; reflexivity|]. cbn [put w_pos w_len]. lia.
    + intros w I. rewrite Hws0 in I. destruct I as [<-|[<-|I]]; cbn [put w_pos w_len w_mem]; [right; right; apply poke_at|right; left; lia|right; left; apply Sp in I; lia].
  - apply head_cells; try lia.
    + eexists. split; [rewrite Hws0; right; left; reflexivity|]. cbn [put w_pos w_len]. lia.
    + intros w I. rewrite Hws0 in I. destruct I as [<-|[<-|I]]; cbn [put w_pos w_len w_mem]; [left; lia|right; right; apply poke_at|right; left; apply Sp in I; lia].
  - destruct Hcon as (-> & _). exact Hsz.
Qed.
End head.

(** for every run at all *)
Lemma run_head P pad clock ev l R prior ar a : 100000 <= P <= 500000000 -> zlen l <= 4000000 ->
  legacy_run 512 P pad clock ev l R prior ar -> concretises a ar ->
  exists cat, list_to_buffer l P true = Ok (Some cat) /\ 0 < zlen cat < 1000000000 /\
    at_bytes a 0 (catalog_header (zlen cat) (clock (-2))) /\ zlen (catalog_header (zlen cat) (clock (-2))) = 512 /\ at_bytes a 512 cat /\ 512 + zlen cat <= zlen a.
Proof.
  intros HP Hl Hrun Ha. destruct Hrun as [ws0 D text starts wss ws Hpro Hf Hi].
  destruct (prologue_inv _ _ _ _ _ _ _ _ HP Hl Hpro) as (cat & es & fs & nb & E1 & E2 & E3 & E4 & E5 & E6 & E7 & E8).
  pose proof (cat_pos _ _ _ E1 HP) as Hc. exists cat. split; auto. split; [lia|].
  apply (head_facts P D clock cat ws0 ws prior (fold_left write_at (ws0 ++ ws) prior) a HP ltac:(lia) E7 E8); auto.
  intros w Hw. apply (interleave_in _ _ Hi) in Hw as (x & X1 & X2). destruct (forall2_in _ _ _ Hf x X1) as (r & R1 & R2). apply in_seq in R1.
  apply rank_part_pos in R2; [|lia|lia]. rewrite Forall_forall in R2. apply R2. exact X2.
Qed.

(** *** the catalog reader on such an archive *)
Lemma at_prefix a x : at_bytes a 0 x -> exists r, a = x ++ r.
Proof. intros H. exists (skipn (Z.to_nat (0 + zlen x)) a). rewrite <- (skip_at a 0 x ltac:(lia) H). reflexivity. Qed.
Lemma header_start n t : exists r, catalog_header n t = b ".parfu_cata" ++ r.
Proof. unfold catalog_header, fixed_header. eexists. rewrite <- app_assoc. unfold field at 1. cbn [length b app firstn]. reflexivity. Qed.

Lemma reader_fails a n t cat : 0 < zlen cat < 1000000000 -> at_bytes a 0 (catalog_header n t) -> at_bytes a 512 cat -> (exists r, cat = ten (zlen cat) ++ LF :: r) ->
  512 + zlen cat <= zlen a -> forall skip, ffel_from_file a skip = Ok None.
Proof.
  intros Hc H0 H5 (r & Er) Hz skip. destruct (at_prefix _ _ H0) as (ra & Ea). destruct (header_start n t) as (rh & Eh).
  assert (Ea2 : a = b ".parfu_cata" ++ (rh ++ ra)) by (rewrite Ea, Eh, <- app_assoc; reflexivity).
  assert (Hnum : forall x, number (b ".parfu_cata" ++ x) = Ok None) by (intros x; reflexivity).
  assert (Hlist : forall x arch, buffer_to_list (b ".parfu_cata" ++ x) arch = Ok None) by (intros x arch; unfold buffer_to_list; rewrite Hnum; reflexivity).
  destruct skip; unfold ffel_from_file.
  - assert (F : fread a 512 11 = ten (zlen cat) ++ [LF]).
    { unfold fread. rewrite (skip_at a 512 cat) by (auto; lia). rewrite Er at 1.
      assert (T : length (ten (zlen cat)) = 10%nat) by (pose proof (ten_zlen (zlen cat) ltac:(change (10 ^ 10) with 10000000000; lia)) as T; unfold zlen at 1 in T; lia).
      change (Z.to_nat 11) with 11%nat. rewrite <- app_assoc. rewrite firstn_app, T. rewrite firstn_all2 by lia. reflexivity. }
    rewrite F. rewrite zlen_app, ten_zlen by (change (10 ^ 10) with 10000000000; lia). change (zlen [LF]) with 1. cbn [Z.add Z.ltb Z.compare Pos.compare Pos.compare_cont].
    change (10 + 1 <? 11) with false. cbv iota. unfold ten. rewrite scan_zpad by (try lia; reflexivity).
    rewrite clamp64_id by (unfold is_long; change (2 ^ 63) with 9223372036854775808; lia). rewrite wrap32_id by (unfold is_int; change (2 ^ 31) with 2147483648; lia).
    destruct (Z.ltb_spec (zlen cat + 512) 0); [lia|].
    assert (G : fread a 0 (zlen cat + 512) = b ".parfu_cata" ++ firstn (Z.to_nat (zlen cat + 512) - 11) (rh ++ ra)).
    { unfold fread. cbn [Z.to_nat skipn]. rewrite Ea2 at 1. rewrite firstn_app. rewrite firstn_all2 by (cbn; lia). reflexivity. }
    rewrite G. destruct (_ =? _); [|reflexivity]. rewrite Hlist. reflexivity.
  - assert (F : fread a 0 11 = b ".parfu_cata").
    { unfold fread. cbn [Z.to_nat skipn]. rewrite Ea2. change (Pos.to_nat 11) with 11%nat. rewrite firstn_app. rewrite firstn_all2 by (cbn; lia). cbn. reflexivity. }
    rewrite F. reflexivity.
Qed.
Lemma text_start l bkt arch buf : list_to_buffer l bkt arch = Ok (Some buf) -> 0 <= bkt < 10 ^ 10 -> exists r, buf = ten (zlen buf) ++ LF :: r.
Proof.
  intros H Hb. destruct (text_count _ _ _ _ H Hb) as (E & _). unfold cat_head in E. rewrite <- !app_assoc in E. cbn [app] in E. eauto.
Qed.
Lemma run_unreadable P pad clock ev l R prior ar a : 100000 <= P <= 500000000 -> zlen l <= 4000000 ->
  legacy_run 512 P pad clock ev l R prior ar -> concretises a ar -> forall skip, ffel_from_file a skip = Ok None.
Proof.
  intros HP Hl Hr Ha. destruct (run_head _ _ _ _ _ _ _ _ _ HP Hl Hr Ha) as (cat & E1 & E2 & E3 & E4 & E5 & E6).
  eapply reader_fails; eauto. eapply text_start; eauto. change (10 ^ 10) with 10000000000; lia.
Qed.
