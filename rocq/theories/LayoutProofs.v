(** Lemmas about Layout.v *)
From Verif Require Import Bytes Outcome TarSpec TarModel TarProofs Layout LayoutSpec.
From Coq Require Import ZifyBool ZifyNat ZifyN Permutation Sorted.
Ltac Zify.zify_post_hook ::= Z.div_mod_to_equations.

Lemma nbb_spec x : next_block_boundary x = up512 x.
Proof. unfold next_block_boundary, up512, BLOCKSIZE. destruct (Z.eqb_spec (x mod 512) 0); lia. Qed.
Lemma up512_bounds n : n <= up512 n < n + 512 /\ up512 n mod 512 = 0.
Proof. unfold up512. split; [lia|]. apply Z.mod_mul. lia. Qed.
Lemma up512_id n : n mod 512 = 0 -> up512 n = n.
Proof. unfold up512. lia. Qed.
Lemma up512_add a n : a mod 512 = 0 -> up512 (a + n) = a + up512 n.
Proof. unfold up512. lia. Qed.
Lemma up512_mono a c : a <= c -> up512 a <= up512 c.
Proof. unfold up512. lia. Qed.
Lemma up512_le a c : a <= c -> c mod 512 = 0 -> up512 a <= c.
Proof. unfold up512. lia. Qed.
Lemma up512_idem n : up512 (up512 n) = up512 n.
Proof. unfold up512. lia. Qed.
Global Opaque up512.

Definition ext (e : entry) : Z := en_hdr e + en_size e.

(** ** set_offsets *)
(** [laid w l z]: entries of [l] follow each other from [w]; next free is [z] *)
Fixpoint laid (w : Z) (l : list (entry * Z)) (z : Z) : Prop :=
  match l with
  | [] => w = z
  | (e, off) :: l' => off = w /\ laid (up512 (w + ext e)) l' z
  end.

Lemma offsets_from_laid es : forall w l z, offsets_from w es = (l, z) -> laid w l z /\ map fst l = es.
Proof.
  induction es as [|e es IH]; intros w l z H; cbn [offsets_from] in H.
  - injection H as <- <-. split; reflexivity.
  - destruct (offsets_from (next_block_boundary (w + (en_hdr e + en_size e))) es) as [r w'] eqn:E.
    injection H as <- <-. apply IH in E as [E1 E2]. rewrite nbb_spec in E1. cbn [laid map fst].
    split; [split; auto|]. f_equal; auto.
Qed.

Lemma laid_app w l1 l2 z : laid w (l1 ++ l2) z <-> exists m, laid w l1 m /\ laid m l2 z.
Proof.
  revert w; induction l1 as [|[e off] l1 IH]; intros w; cbn [app laid].
  - split; [intros H; eauto|intros (m & -> & H); auto].
  - rewrite IH. split.
    + intros (E & m & H1 & H2). exists m. auto.
    + intros (m & (E & H1) & H2). split; auto. exists m; auto.
Qed.

Lemma set_offsets_laid dirs files d f : set_offsets dirs files = (d, f) ->
  exists z, laid 0 (d ++ f) z /\ map fst d = dirs /\ map fst f = files.
Proof.
  unfold set_offsets. destruct (offsets_from 0 dirs) as [d' w] eqn:E1.
  destruct (offsets_from w files) as [f' z] eqn:E2. intros H; injection H as <- <-.
  apply offsets_from_laid in E1 as [H1 M1]. apply offsets_from_laid in E2 as [H2 M2].
  exists z. split; auto. apply laid_app. eauto.
Qed.

(** what C09 says, by position *)
Lemma laid_facts w l z : laid w l z -> w mod 512 = 0 -> Forall (fun eo => wf_item (fst eo)) l ->
  z mod 512 = 0 /\ w <= z /\
  (forall e off, In (e, off) l -> off mod 512 = 0 /\ w <= off /\ off + ext e <= z) /\
  (forall i e off e' off', nth_error l i = Some (e, off) -> nth_error l (S i) = Some (e', off') ->
     off' = up512 (off + ext e)) /\
  (forall i j e off e' off', (i < j)%nat -> nth_error l i = Some (e, off) -> nth_error l j = Some (e', off') ->
     up512 (off + ext e) <= off') /\
  (forall e off, nth_error l 0 = Some (e, off) -> off = w) /\
  (forall e off l', l = l' ++ [(e, off)] -> z = up512 (off + ext e)).
Proof.
  revert w; induction l as [|[e0 off0] l IH]; intros w H Hw Hwf; cbn [laid] in H.
  - subst. split; auto. split; [lia|]. split; [intros ? ? []|].
    split; [intros [|?] ? ? ? ? Hn; cbn in Hn; discriminate|].
    split; [intros [|?] j ? ? ? ? _ Hn; cbn in Hn; discriminate|].
    split; [intros ? ? Hn; cbn in Hn; discriminate|]. intros ? ? [|? ?] Hn; discriminate.
  - destruct H as [-> H]. inversion Hwf as [|? ? Hw0 Hwf']; subst. cbn [fst] in Hw0.
    destruct (up512_bounds (w + ext e0)) as [B1 B2].
    assert (He : 512 <= ext e0) by (unfold ext; destruct Hw0 as (? & ? & ?); lia).
    destruct (IH _ H B2 Hwf') as (I1 & I2 & I3 & I4 & I5 & I6 & I7).
    split; auto. split; [lia|]. split; [|split; [|split; [|split]]].
    + intros e off [E|Hin]; [injection E as <- <-; split; [auto|lia]|].
      destruct (I3 _ _ Hin) as (J1 & J2 & J3). repeat split; auto. lia.
    + intros [|i] e off e' off' Hn Hm.
      * cbn in Hn. injection Hn as <- <-. cbn in Hm. eauto.
      * cbn [nth_error] in Hn, Hm. eapply I4; eauto.
    + intros [|i] [|j] e off e' off' Hij Hn Hm; try lia.
      * cbn in Hn. injection Hn as <- <-. cbn [nth_error] in Hm.
        apply nth_error_In in Hm. apply I3 in Hm. lia.
      * cbn [nth_error] in Hn, Hm. eapply (I5 i j); eauto. lia.
    + intros e off Hn. cbn in Hn. congruence.
    + intros e off l' El. destruct l' as [|x l'].
      * cbn in El. inversion El; subst. cbn [laid] in H. symmetry. auto.
      * cbn in El. inversion El; subst. eapply I7; eauto.
Qed.

(** ** next_available_after_me (C47) *)
Lemma next_available_spec e w : next_available_after_me e w = up512 w + ext e.
Proof.
  unfold next_available_after_me. fold (next_block_boundary w). rewrite nbb_spec. unfold ext. lia.
Qed.

Lemma next_available_end l : forall w z x, laid w l z -> up512 x = w ->
  up512 (fold_left (fun p eo => next_available_after_me (fst eo) p) l x) = z.
Proof.
  induction l as [|[e off] l IH]; intros w z x H Hx; cbn [laid fold_left] in *; [subst; auto|].
  destruct H as [-> H]. eapply IH; eauto. cbn [fst]. rewrite next_available_spec, Hx. reflexivity.
Qed.

(** ** pieces *)
Lemma piece_cut i pos hdr s1 s2 fpos p : 0 <= hdr -> 0 <= s1 -> 0 <= s2 ->
  piece_at i pos hdr (s1 + s2) fpos p =
  piece_at i pos hdr s1 fpos p ++ piece_at i (pos + hdr + s1) 0 s2 (fpos + s1) p.
Proof.
  intros. unfold piece_at.
  destruct (Z.leb_spec pos p), (Z.ltb_spec p (pos + hdr)), (Z.leb_spec (pos + hdr) p),
    (Z.ltb_spec p (pos + hdr + (s1 + s2))), (Z.ltb_spec p (pos + hdr + s1)),
    (Z.leb_spec (pos + hdr + s1) p), (Z.ltb_spec p (pos + hdr + s1 + 0)),
    (Z.leb_spec (pos + hdr + s1 + 0) p), (Z.ltb_spec p (pos + hdr + s1 + 0 + s2));
    cbn [andb app]; try lia; try reflexivity; repeat (f_equal; try lia).
Qed.
Lemma piece_nil i pos fpos p : piece_at i pos 0 0 fpos p = [].
Proof.
  unfold piece_at.
  destruct (Z.leb_spec pos p), (Z.ltb_spec p (pos + 0)), (Z.leb_spec (pos + 0) p), (Z.ltb_spec p (pos + 0 + 0));
    cbn [andb]; try lia; reflexivity.
Qed.
Lemma orders_at_app x y p : orders_at (x ++ y) p = orders_at x p ++ orders_at y p.
Proof. apply flat_map_app. Qed.
Lemma layout_at_app x y p : layout_at (x ++ y) p = layout_at x p ++ layout_at y p.
Proof. apply flat_map_app. Qed.
Lemma orders_at_one o p : orders_at [o] p = order_at o p.
Proof. unfold orders_at. cbn. apply app_nil_r. Qed.
Lemma layout_at_one o p : layout_at [o] p = entry_at o p.
Proof. unfold layout_at. cbn. apply app_nil_r. Qed.

(** ** chains of orders *)
Fixpoint chain (a : Z) (os : list order) (z : Z) : Prop :=
  match os with
  | [] => a = z
  | o :: os' => o_pos o = a /\ 0 <= o_hdr o /\ 0 <= o_size o /\ 0 < o_hdr o + o_size o /\ chain (up512 (o_end o)) os' z
  end.
Lemma chain_app a x y z : chain a (x ++ y) z <-> exists m, chain a x m /\ chain m y z.
Proof.
  revert a; induction x as [|o x IH]; intros a; cbn [app chain].
  - split; [eauto|intros (m & -> & H); auto].
  - split.
    + intros (H1 & H2 & H3 & H4 & H5). apply IH in H5 as (m & H5 & H6). exists m. auto 10.
    + intros (m & (H1 & H2 & H3 & H4 & H5) & H6). repeat split; auto. apply IH. eauto.
Qed.

(** ** the planner's invariant *)
Definition planned (st : pstate) : list order := concat (p_done st) ++ p_cur st.
Lemma concat_push st : concat (push_bundle st) = planned st.
Proof. unfold push_bundle, planned. rewrite concat_app. cbn. rewrite app_nil_r. auto. Qed.

(** [o] is a piece of entry [e]: same name, whole header or none, contents
    within the file *)
Definition slice_of (idx : Z) (e : entry) (o : order) : Prop :=
  order_id o = entry_id e /\ o_index o = idx /\ (o_hdr o = 0 \/ o_hdr o = en_hdr e) /\
  0 <= o_size o /\ 0 <= o_fpos o /\ o_fpos o + o_size o <= en_size e.
Record pinv (idx maxo : Z) (L : list (entry * Z)) (st : pstate) : Prop := {
  pi_cells : forall p, orders_at (planned st) p = layout_at L p;
  pi_count : p_count st = zlen (p_cur st);
  pi_max : 0 < maxo -> Forall (fun B => zlen B <= maxo) (push_bundle st);
  pi_ids : Forall (fun o => exists e off, In (e, off) L /\ slice_of idx e o) (planned st);
}.

Lemma pinv_init idx maxo : pinv idx maxo [] p_init.
Proof.
  constructor; cbn; auto. intros. constructor; [|constructor]. cbn. lia.
Qed.

Lemma Forall_ids_weaken idx (L x : list (entry * Z)) os :
  Forall (fun o => exists e off, In (e, off) L /\ slice_of idx e o) os ->
  Forall (fun o => exists e off, In (e, off) (L ++ x) /\ slice_of idx e o) os.
Proof.
  intros H. eapply Forall_impl; [|exact H]. intros o (e & off & H1 & H2).
  exists e, off. split; auto. apply in_or_app. auto.
Qed.

Lemma plan_small_inv idx bucket maxo L st eo jump :
  0 <= en_size (fst eo) -> pinv idx maxo L st -> pinv idx maxo (L ++ [eo]) (plan_small idx bucket maxo st eo jump).
Proof.
  intros Hsz [I1 I2 I3 I4]. destruct eo as [e off]. cbn [fst] in Hsz. unfold plan_small.
  assert (Ho : forall p, order_at (slice_order idx (e, off)) p = entry_at (e, off) p) by (intros; reflexivity).
  assert (Hid : Forall (fun o => exists e' off', In (e', off') (L ++ [(e, off)]) /\ slice_of idx e' o) [slice_order idx (e, off)]).
  { constructor; [|constructor]. exists e, off. split; [apply in_or_app; right; left; auto|].
    unfold slice_of, slice_order, raw_order; cbn [fst snd o_index o_hdr o_size o_fpos]. repeat split; auto; lia. }
  destruct ((bucket <? p_bpos st + jump) || ((0 <? maxo) && (maxo <=? p_count st))) eqn:E.
  - constructor; cbn [p_done p_cur p_count].
    + intros p. unfold planned. cbn [p_done p_cur]. rewrite concat_push, orders_at_app, layout_at_app, I1.
      rewrite orders_at_one, layout_at_one, Ho. auto.
    + reflexivity.
    + intros Hm. unfold push_bundle at 1. cbn [p_done p_cur]. apply Forall_app. split; auto.
      constructor; [|constructor]. change (zlen [slice_order idx (e, off)]) with 1. lia.
    + unfold planned. cbn [p_done p_cur]. rewrite concat_push. apply Forall_app. split; auto using Forall_ids_weaken.
  - constructor; cbn [p_done p_cur p_count].
    + intros p. unfold planned. cbn [p_done p_cur]. rewrite app_assoc. fold (planned st).
      rewrite orders_at_app, layout_at_app, I1. rewrite orders_at_one, layout_at_one, Ho. auto.
    + rewrite zlen_app. change (zlen [slice_order idx (e, off)]) with 1. lia.
    + intros Hm. specialize (I3 Hm). unfold push_bundle in *. cbn [p_done p_cur] in *.
      apply Forall_app in I3 as [I3 _]. apply Forall_app. split; auto.
      constructor; [|constructor]. rewrite zlen_app. change (zlen [slice_order idx (e, off)]) with 1. lia.
    + unfold planned. cbn [p_done p_cur]. rewrite app_assoc. fold (planned st).
      apply Forall_app. split; auto using Forall_ids_weaken.
Qed.

(** the while loop over full buckets *)
Lemma plan_full_ok fuel idx bucket e : 0 < bucket ->
  forall st fpos rem, 0 < rem -> (rem - 1) / bucket <= Z.of_nat fuel ->
  p_cur st <> [] -> 
  exists st' fpos' rem' ms,
    plan_full fuel idx bucket e st fpos rem = Ok (st', fpos', rem') /\
    0 < rem' <= bucket /\
    rem' = rem - bucket * zlen ms /\ fpos' = fpos + bucket * zlen ms /\
    p_arch st' = p_arch st + bucket * zlen ms /\ p_bpos st' = p_bpos st /\
    push_bundle st' = push_bundle st ++ map (fun o => [o]) ms /\
    p_count st' = (if zlen ms =? 0 then p_count st else 1) /\
    (zlen ms <> 0 -> zlen (p_cur st') = 1) /\ (zlen ms = 0 -> st' = st) /\ p_cur st' <> [] /\
    Forall (fun o => order_id o = entry_id e /\ o_size o = bucket /\ o_hdr o = 0 /\ o_index o = idx /\ fpos <= o_fpos o /\ o_fpos o + bucket <= fpos + rem) ms /\
    (forall p, orders_at ms p = piece_at (entry_id e) (p_arch st) 0 (bucket * zlen ms) fpos p) /\
    (bucket mod 512 = 0 -> p_arch st mod 512 = 0 -> chain (p_arch st) ms (p_arch st')).
Proof.
  intros Hb. induction fuel as [|f IH]; intros st fpos rem Hr Hf Hcur.
  - assert (rem <= bucket).
    { destruct (Z_le_gt_dec rem bucket); auto.
      assert (1 <= (rem - 1) / bucket) by (apply Z.div_le_lower_bound; lia). lia. }
    cbn [plan_full]. destruct (Z.ltb_spec bucket rem); [lia|].
    exists st, fpos, rem, []. change (zlen (@nil order)) with 0. rewrite Z.mul_0_r.
    cbn [map]. rewrite app_nil_r. repeat split; auto; try lia.
    intros p. rewrite piece_nil. reflexivity.
  - cbn [plan_full]. destruct (Z.ltb_spec bucket rem) as [Hlt|Hge].
    + match goal with |- context [plan_full f idx bucket e ?s0 ?f0 ?r0] =>
        destruct (IH s0 f0 r0) as (st' & fpos' & rem' & ms & E & R1 & R2 & R3 & R4 & R5 & R6 & R7 & R8 & R9 & R10 & R11 & R12 & R13) end.
      { lia. }
      { replace (rem - 1) with ((rem - bucket - 1) + 1 * bucket) in Hf by lia.
        rewrite Z.div_add in Hf by lia. lia. }
      { discriminate. }
      cbn [p_done p_cur p_count p_arch p_bpos] in *.
      set (o := raw_order idx e bucket 0 (p_arch st) fpos) in *.
      exists st', fpos', rem', (o :: ms). rewrite zlen_cons. pose proof (zlen_nonneg ms).
      replace (bucket * (1 + zlen ms)) with (bucket + bucket * zlen ms) by lia.
      assert (Epb : push_bundle {| p_done := push_bundle st; p_cur := [o]; p_count := 1;
               p_arch := p_arch st + bucket; p_bpos := p_bpos st |} = push_bundle st ++ [[o]]) by reflexivity.
      rewrite Epb, <- app_assoc in R6. cbn [app] in R6.
      split; auto. split; auto. split; [lia|]. split; [lia|]. split; [lia|]. split; auto. split; auto.
      split. { destruct (Z.eqb_spec (1 + zlen ms) 0); [lia|]. destruct (Z.eqb_spec (zlen ms) 0); auto. }
      split. { intros _. destruct (Z.eq_dec (zlen ms) 0) as [E0|E0]; auto. rewrite R9 by auto. reflexivity. }
      split; [lia|]. split; auto. split.
      { constructor; [unfold o, raw_order; cbn [o_hdr o_size o_index o_fpos]; repeat split; auto; lia|].
        eapply Forall_impl; [|exact R11]. cbn. intros x (A1 & A2 & A3 & A4 & A5 & A6). repeat split; auto; lia. }
      split.
      * intros p. change (o :: ms) with ([o] ++ ms). rewrite orders_at_app, orders_at_one, R12.
        rewrite piece_cut by nia. rewrite Z.add_0_r. reflexivity.
      * intros Hb5 Ha. cbn [chain]. unfold o_end, o, raw_order. cbn [o_pos o_hdr o_size].
        split; auto. split; [lia|]. split; [lia|]. split; [lia|].
        replace (p_arch st + 0 + bucket) with (p_arch st + bucket) by lia.
        rewrite up512_id by lia. apply R13; auto. lia.
    + exists st, fpos, rem, []. change (zlen (@nil order)) with 0. rewrite Z.mul_0_r.
      cbn [map]. rewrite app_nil_r. repeat split; auto; try lia.
      intros p. rewrite piece_nil. reflexivity.
Qed.

(** the whole big-file branch *)
Lemma plan_big_ok idx bucket st e : 0 < bucket -> 0 <= en_hdr e <= bucket -> 0 <= en_size e ->
  bucket < ext e ->
  (p_cur st = [] -> p_count st = 0) ->
  exists st' ms o0 ol, plan_big idx bucket st e = Ok st' /\
    push_bundle st' = (match p_cur st with [] => p_done st | _ => push_bundle st end) ++ map (fun o => [o]) (o0 :: ms ++ [ol]) /\
    p_count st' = 1 /\ p_cur st' = [ol] /\ p_bpos st' = p_bpos st /\ p_arch st' = up512 (p_arch st + ext e) /\
    Forall (fun o => slice_of idx e o /\ 0 <= o_hdr o /\ o_hdr o + o_size o <= bucket) (o0 :: ms ++ [ol]) /\
    o_pos ol <= p_arch st' <= up512 (o_pos ol + bucket) /\
    (bucket mod 512 = 0 -> p_arch st' <= o_pos ol + bucket \/ True) /\
    (forall p, orders_at (o0 :: ms ++ [ol]) p = piece_at (entry_id e) (p_arch st) (en_hdr e) (en_size e) 0 p) /\
    (bucket mod 512 = 0 -> p_arch st mod 512 = 0 -> chain (p_arch st) (o0 :: ms ++ [ol]) (p_arch st')
       /\ p_arch st' - o_pos ol <= bucket).
Proof.
  intros Hb Hh Hs Hbig Hcnt. unfold plan_big. fold (ext e).
  set (o0 := raw_order idx e (bucket - en_hdr e) (en_hdr e) (p_arch st) 0).
  set (st1 := {| p_done := match p_cur st with [] => p_done st | _ => push_bundle st end; p_cur := [o0]; p_count := 1;
                 p_arch := p_arch st + bucket; p_bpos := p_bpos st |}).
  assert (E1 : (let '(done0, cur0, count0) :=
      match p_cur st with [] => (p_done st, [], p_count st) | _ => (push_bundle st, [], 0) end in
     {| p_done := done0; p_cur := cur0 ++ [o0]; p_count := count0 + 1;
        p_arch := p_arch st + bucket; p_bpos := p_bpos st |}) = st1).
  { unfold st1. destruct (p_cur st); [rewrite Hcnt by auto|]; reflexivity. }
  destruct (plan_full_ok (Z.to_nat (ext e / bucket)) idx bucket e Hb st1 (0 + (bucket - en_hdr e)) (ext e - bucket))
    as (st2 & fpos & rem & ms & E & R1 & R2 & R3 & R4 & R5 & R6 & R7 & R8 & R9 & R10 & R11 & R12 & R13).
  { lia. }
  { rewrite Z2Nat.id by (apply Z.div_pos; lia). apply Z.div_le_mono; lia. }
  { discriminate. }
  set (ol := raw_order idx e rem 0 (p_arch st2) fpos).
  exists {| p_done := push_bundle st2; p_cur := [ol]; p_count := 1;
            p_arch := next_block_boundary (p_arch st2 + rem); p_bpos := p_bpos st2 |}, ms, o0, ol.
  cbn [p_done p_cur p_count p_arch p_bpos].
  assert (Earch : p_arch st2 + rem = p_arch st + ext e).
  { rewrite R4. cbn [p_arch st1]. lia. }
  split.
  { revert E1. destruct (p_cur st) eqn:Ecur; cbn [app]; intros E1; fold o0; rewrite E1, E; cbn [bind];
    (destruct (Z.ltb_spec 0 rem); [reflexivity|lia]). }
  assert (Hpb1 : push_bundle st1 = (match p_cur st with [] => p_done st | _ => push_bundle st end) ++ [[o0]]) by reflexivity.
  split. { unfold push_bundle at 1. cbn [p_done p_cur]. rewrite R6, Hpb1.
    cbn [map]. rewrite map_app. cbn [map]. rewrite <- !app_assoc. reflexivity. }
  split; auto. split; auto. split; [rewrite R5; reflexivity|].
  split; [rewrite nbb_spec, Earch; reflexivity|].
  split.
  { pose proof (zlen_nonneg ms). constructor; [|apply Forall_app; split].
    - unfold slice_of, o0, raw_order; cbn [o_hdr o_size o_index o_fpos]. unfold ext in Hbig. repeat split; auto; lia.
    - eapply Forall_impl; [|exact R11]. intros o (A1 & A2 & A3 & A4 & A5 & A6). unfold slice_of. rewrite A2, A3. unfold ext in *. repeat split; auto; try lia.
    - constructor; [|constructor]. unfold slice_of, ol, raw_order; cbn [o_hdr o_size o_index o_fpos]. unfold ext in *. repeat split; auto; nia. }
  rewrite nbb_spec.
  split. { unfold ol, raw_order; cbn [o_pos]. split.
    - pose proof (up512_bounds (p_arch st2 + rem)). lia.
    - apply up512_mono. lia. }
  split; [auto|].
  split.
  { intros p. change (o0 :: ms ++ [ol]) with ([o0] ++ (ms ++ [ol])).
    rewrite !orders_at_app, !orders_at_one, R12.
    unfold order_at, o0, ol, raw_order; cbn [o_pos o_hdr o_size o_fpos order_id o_rel o_type o_target].
    change (en_rel e, type_char (en_type e), en_target e) with (entry_id e).
    replace (en_size e) with ((bucket - en_hdr e) + (bucket * zlen ms + rem)) by (unfold ext in *; lia).
    pose proof (zlen_nonneg ms).
    rewrite piece_cut by nia. f_equal. cbn [p_arch st1].
    replace (p_arch st + en_hdr e + (bucket - en_hdr e)) with (p_arch st + bucket) by lia.
    rewrite piece_cut by nia. f_equal.
    rewrite R4, R3. cbn [p_arch st1]. f_equal; lia. }
  intros Hb5 Ha.
  split.
  - cbn [chain]. unfold o_end, o0, raw_order; cbn [o_pos o_hdr o_size].
    split; auto. split; [lia|]. split; [lia|]. split; [lia|].
    replace (p_arch st + en_hdr e + (bucket - en_hdr e)) with (p_arch st + bucket) by lia.
    rewrite up512_id by lia. apply chain_app. exists (p_arch st2). split.
    + apply (R13 Hb5). cbn [p_arch st1]. lia.
    + cbn [chain]. unfold o_end, ol, raw_order; cbn [o_pos o_hdr o_size]. repeat split; auto; try lia.
      rewrite Z.add_0_r. reflexivity.
  - unfold ol, raw_order; cbn [o_pos].
    assert (up512 (p_arch st2 + rem) <= p_arch st2 + bucket); [|lia].
    apply up512_le; [lia|].
    assert (p_arch st2 mod 512 = 0); [|lia].
    rewrite R4. cbn [p_arch st1].
    assert ((bucket * zlen ms) mod 512 = 0) as Hm.
    { rewrite Z.mul_mod, Hb5 by lia. reflexivity. }
    revert Hm. generalize (bucket * zlen ms). intros q Hm. lia.
Qed.

Definition blen (B : list order) : Z := bundle_end B - bundle_start B.

Lemma bundle_end_app B o : bundle_end (B ++ [o]) = o_end o.
Proof. unfold bundle_end. rewrite rev_app_distr. reflexivity. Qed.
Lemma bundle_start_app B C : B <> [] -> bundle_start (B ++ C) = bundle_start B.
Proof. destruct B; [congruence|reflexivity]. Qed.

Lemma chain_mono a os z : chain a os z -> a <= z.
Proof.
  revert a; induction os as [|o os IH]; intros a H; cbn [chain] in H; [lia|].
  destruct H as (H1 & H2 & H3 & H4 & H5). apply IH in H5.
  pose proof (up512_bounds (o_end o)). unfold o_end in *. lia.
Qed.

Lemma chain_bundle a B z : chain a B z -> B <> [] ->
  bundle_start B = a /\ up512 (bundle_end B) = z /\ a < bundle_end B.
Proof.
  intros H Hne. split; [destruct B; [congruence|]; cbn in *; tauto|].
  destruct (exists_last Hne) as (B' & o & ->). rewrite bundle_end_app.
  apply chain_app in H as (m & H1 & H2). cbn [chain] in H2.
  destruct H2 as (P1 & P2 & P3 & P4 & P5). split; auto.
  apply chain_mono in H1. unfold o_end. lia.
Qed.

Record binv (bucket : Z) (st : pstate) (w : Z) (nb : bool) : Prop := {
  bi_arch : p_arch st = w;
  bi_chain : chain 0 (planned st) w;
  bi_mod : w mod 512 = 0;
  bi_done : Forall (fun B => B <> []) (p_done st);
  bi_cur : p_cur st = [] -> p_done st = [] /\ w = 0 /\ p_bpos st = 0 /\ nb = true;
  bi_bpos : 0 <= p_bpos st <= bucket;
  bi_len : Forall (fun B => blen B <= 2 * bucket) (p_done st);
  bi_curlen : p_cur st <> [] -> w - bundle_start (p_cur st) <= p_bpos st + bucket;
  bi_nb : nb = true -> Forall (fun B => blen B <= bucket) (p_done st) /\
          (p_cur st <> [] -> w - bundle_start (p_cur st) = p_bpos st)
}.

Lemma binv_init bucket : 0 <= bucket -> binv bucket p_init 0 true.
Proof.
  intros. constructor; cbn [p_init p_arch p_done p_cur p_bpos p_count planned concat app]; auto; try lia; try congruence; try reflexivity; try (split; auto; congruence).
Qed.

(** the bundle being filled, measured against the archive position *)
Lemma cur_len bucket st w nb : binv bucket st w nb -> p_cur st <> [] ->
  exists m, chain m (p_cur st) w /\ chain 0 (concat (p_done st)) m /\ bundle_start (p_cur st) = m /\
    blen (p_cur st) <= w - bundle_start (p_cur st).
Proof.
  intros I Hne. pose proof (bi_chain _ _ _ _ I) as H. unfold planned in H.
  apply chain_app in H as (m & H1 & H2). exists m.
  destruct (chain_bundle _ _ _ H2 Hne) as (E1 & E2 & E3). repeat split; auto.
  unfold blen. pose proof (up512_bounds (bundle_end (p_cur st))). lia.
Qed.

Lemma small_step idx bucket maxo st e w nb :
  bucket mod 512 = 0 -> wf_item e -> ext e <= bucket -> p_count st = zlen (p_cur st) ->
  binv bucket st w nb ->
  binv bucket (plan_small idx bucket maxo st (e, w) (up512 (ext e))) (up512 (w + ext e)) nb.
Proof.
  intros Hb (Wf1 & Wf2 & Wf3) He Hc I. pose proof I as I'.
  destruct I as [I1 I2 I3 I4 I5 I6 I7 I8 I9].
  assert (Hext : 0 < ext e) by (unfold ext; lia).
  set (J := up512 (ext e)).
  assert (HJ : 0 < J <= bucket).
  { unfold J. pose proof (up512_bounds (ext e)). split; [lia|]. apply up512_le; auto. }
  assert (Ew : up512 (w + ext e) = w + J) by (apply up512_add; auto).
  assert (Hch : chain 0 (planned st ++ [slice_order idx (e, w)]) (up512 (w + ext e))).
  { apply chain_app. exists w. split; auto. cbn [chain]. unfold o_end, slice_order, raw_order; cbn [o_pos o_hdr o_size fst snd].
    unfold ext in *. replace (w + (en_hdr e + en_size e)) with (w + en_hdr e + en_size e) by lia.
    repeat split; auto; lia. }
  unfold plan_small.
  destruct ((bucket <? p_bpos st + J) || ((0 <? maxo) && (maxo <=? p_count st))) eqn:E.
  - assert (Hne : p_cur st <> []).
    { intros Hn. destruct (I5 Hn) as (_ & _ & Hz & _). rewrite Hc, Hn in E. change (zlen (@nil order)) with 0 in E. lia. }
    destruct (cur_len _ _ _ _ I' Hne) as (m & C1 & C2 & C3 & C4).
    constructor; cbn [p_arch p_done p_cur p_bpos p_count].
    + lia.
    + unfold planned. cbn [p_done p_cur]. rewrite concat_push. auto.
    + rewrite Ew. unfold J. pose proof (up512_bounds (ext e)). lia.
    + apply Forall_app. split; auto.
    + discriminate.
    + lia.
    + apply Forall_app. split; auto. constructor; [|constructor]. specialize (I8 Hne). lia.
    + intros _. cbn [bundle_start slice_order raw_order o_pos fst snd]. lia.
    + intros Hn. destruct (I9 Hn) as [N1 N2]. split.
      * apply Forall_app. split; auto. constructor; [|constructor]. specialize (N2 Hne). lia.
      * intros _. cbn [bundle_start slice_order raw_order o_pos fst snd]. lia.
  - constructor; cbn [p_arch p_done p_cur p_bpos p_count].
    + lia.
    + unfold planned. cbn [p_done p_cur]. rewrite app_assoc. auto.
    + rewrite Ew. unfold J. pose proof (up512_bounds (ext e)). lia.
    + auto.
    + intros H. apply app_eq_nil in H as [_ H]. discriminate.
    + lia.
    + auto.
    + intros _. destruct (p_cur st) as [|o r] eqn:Ec.
      * cbn [app bundle_start slice_order raw_order o_pos fst snd]. lia.
      * cbn [app bundle_start]. specialize (I8 ltac:(discriminate)). cbn [bundle_start] in I8. lia.
    + intros Hn. destruct (I9 Hn) as [N1 N2]. split; auto. intros _.
      destruct (p_cur st) as [|o r] eqn:Ec.
      * destruct (I5 eq_refl) as (_ & Hw0 & Hz & _).
        cbn [app bundle_start slice_order raw_order o_pos fst snd]. lia.
      * cbn [app bundle_start]. specialize (N2 ltac:(discriminate)). cbn [bundle_start] in N2. lia.
Qed.

Lemma Forall_map_single {P : list order -> Prop} (Q : order -> Prop) os :
  (forall o, Q o -> P [o]) -> Forall Q os -> Forall P (map (fun o => [o]) os).
Proof. intros H F. induction F; cbn; constructor; auto. Qed.

Lemma concat_map_single (os : list order) : concat (map (fun o => [o]) os) = os.
Proof. induction os as [|o os IH]; cbn; [auto|f_equal; auto]. Qed.

Lemma planned_push st : planned st = concat (push_bundle st).
Proof. symmetry. apply concat_push. Qed.

Lemma big_step idx bucket st e w nb :
  bucket mod 512 = 0 -> 0 < bucket -> wf_item e -> en_hdr e <= bucket -> bucket < ext e ->
  p_count st = zlen (p_cur st) -> binv bucket st w nb ->
  exists st', plan_big idx bucket st e = Ok st' /\ binv bucket st' (up512 (w + ext e)) false /\
    (Forall (fun B => blen B <= bucket) (push_bundle st) -> Forall (fun B => blen B <= bucket) (push_bundle st')) /\
    Forall (fun B => B <> []) (push_bundle st').
Proof.
  intros Hb Hb0 (Wf1 & Wf2 & Wf3) Hh He Hc I. pose proof I as I'.
  destruct I as [I1 I2 I3 I4 I5 I6 I7 I8 I9].
  destruct (plan_big_ok idx bucket st e Hb0 ltac:(lia) Wf3 He)
    as (st' & ms & o0 & ol & E & P1 & P2 & P3 & P4 & P5 & P6 & P7 & _ & P8 & P9).
  { intros Hn. rewrite Hc, Hn. reflexivity. }
  exists st'. split; auto.
  rewrite I1 in *. destruct (P9 Hb I3) as [Q1 Q2].
  set (X := match p_cur st with [] => p_done st | _ => push_bundle st end) in *.
  assert (HX : concat X = planned st).
  { unfold X. destruct (p_cur st) eqn:Ec; [unfold planned; rewrite Ec, app_nil_r; auto|apply concat_push]. }
  assert (HXne : Forall (fun B => B <> []) X).
  { unfold X. destruct (p_cur st) as [|o r] eqn:Ec; auto. unfold push_bundle. rewrite Ec. apply Forall_app. split; auto.
    constructor; [discriminate|constructor]. }
  assert (HX2 : Forall (fun B => blen B <= 2 * bucket) X).
  { unfold X. destruct (p_cur st) as [|o r] eqn:Ec; auto. unfold push_bundle. apply Forall_app. split; auto.
    constructor; [|constructor].
    assert (Hne : p_cur st <> []) by congruence.
    destruct (cur_len _ _ _ _ I' Hne) as (m & C1 & C2 & C3 & C4). rewrite <- Ec in I8. specialize (I8 Hne). lia. }
  assert (Hdone : p_done st' = X ++ map (fun o => [o]) (o0 :: ms)).
  { unfold push_bundle in P1. rewrite P3 in P1. change (o0 :: ms ++ [ol]) with ((o0 :: ms) ++ [ol]) in P1.
    rewrite map_app in P1. cbn [map] in P1. rewrite app_assoc in P1. apply app_inj_tail in P1 as [P1 _]. exact P1. }
  assert (Hsing : Forall (fun o => blen [o] <= bucket) (o0 :: ms ++ [ol])).
  { eapply Forall_impl; [|exact P6]. intros o (_ & G1 & G2). unfold blen, bundle_end, bundle_start, o_end. cbn [rev app]. lia. }
  change (o0 :: ms ++ [ol]) with ((o0 :: ms) ++ [ol]) in Hsing.
  apply Forall_app in Hsing as [Hs1 Hs2].
  split; [constructor|split].
  - auto.
  - rewrite planned_push, P1, concat_app, HX, concat_map_single. apply chain_app. exists w. rewrite <- P5. auto.
  - pose proof (up512_bounds (w + ext e)). lia.
  - rewrite Hdone. apply Forall_app. split; auto. apply Forall_map_single with (Q := fun _ => True); [discriminate|].
    apply Forall_forall. auto.
  - rewrite P3. discriminate.
  - rewrite P4. auto.
  - rewrite Hdone. apply Forall_app. split; auto.
    apply Forall_map_single with (Q := fun o => blen [o] <= bucket); auto. intros; lia.
  - intros _. rewrite P3. cbn [bundle_start]. rewrite <- P5, P4. lia.
  - discriminate.
  - intros HF. rewrite P1. apply Forall_app. split.
    + unfold X. destruct (p_cur st); auto. unfold push_bundle in HF. apply Forall_app in HF. tauto.
    + apply Forall_map_single with (Q := fun o => blen [o] <= bucket); auto.
      change (o0 :: ms ++ [ol]) with ((o0 :: ms) ++ [ol]). apply Forall_app; auto.
  - rewrite P1. apply Forall_app. split; auto. apply Forall_map_single with (Q := fun _ => True); [discriminate|].
    apply Forall_forall. auto.
Qed.

(** cells / count / ids invariant through the big branch *)
Lemma big_pinv idx bucket maxo L st st' e w :
  0 < bucket -> 0 <= en_hdr e <= bucket -> 0 <= en_size e -> bucket < ext e ->
  pinv idx maxo L st -> p_arch st = w -> plan_big idx bucket st e = Ok st' ->
  pinv idx maxo (L ++ [(e, w)]) st'.
Proof.
  intros Hb Hh Hs He [I1 I2 I3 I4] Ha E'.
  destruct (plan_big_ok idx bucket st e Hb Hh Hs He)
    as (st2 & ms & o0 & ol & E & P1 & P2 & P3 & P4 & P5 & P6 & P7 & _ & P8 & P9).
  { intros Hn. rewrite I2, Hn. reflexivity. }
  rewrite E in E'. injection E' as <-.
  set (X := match p_cur st with [] => p_done st | _ => push_bundle st end) in *.
  assert (HX : concat X = planned st).
  { unfold X. destruct (p_cur st) eqn:Ec; [unfold planned; rewrite Ec, app_nil_r; auto|apply concat_push]. }
  assert (Hp : planned st2 = planned st ++ (o0 :: ms ++ [ol])).
  { rewrite planned_push, P1, concat_app, HX, concat_map_single. auto. }
  constructor.
  - intros p. rewrite Hp, orders_at_app, layout_at_app, layout_at_one, I1, P8, Ha. reflexivity.
  - rewrite P2, P3. reflexivity.
  - intros Hm. specialize (I3 Hm). rewrite P1. apply Forall_app. split.
    + unfold X. destruct (p_cur st); auto. unfold push_bundle in I3. apply Forall_app in I3. tauto.
    + apply Forall_map_single with (Q := fun _ => True); [|apply Forall_forall; auto].
      intros o _. change (zlen [o]) with 1. lia.
  - rewrite Hp. apply Forall_app. split; auto using Forall_ids_weaken.
    eapply Forall_impl; [|exact P6]. intros o (Hid & _). exists e, w. split; auto. apply in_or_app. right. left. auto.
Qed.

(** ** the complete planner *)
Definition fits (bucket : Z) (e : entry) : Prop := wf_item e /\ en_hdr e <= bucket.
Definition is_big (bucket : Z) (e : entry) : Prop := bucket < ext e.

Lemma plan_dirs_ok idx bucket maxo ds : bucket mod 512 = 0 ->
  forall L st w z, laid w ds z -> Forall (fun eo => fits bucket (fst eo) /\ en_size (fst eo) = 0) ds ->
  pinv idx maxo L st -> binv bucket st w true ->
  pinv idx maxo (L ++ ds) (fold_left (plan_dir idx bucket maxo) ds st) /\
  binv bucket (fold_left (plan_dir idx bucket maxo) ds st) z true.
Proof.
  intros Hb. induction ds as [|[e off] ds IH]; intros L st w z Hl Hf Hp Hi; cbn [laid fold_left] in *.
  - subst. rewrite app_nil_r. auto.
  - destruct Hl as [-> Hl]. inversion Hf as [|? ? [[Hw Hh] Hs] Hf']; subst. cbn [fst] in *.
    assert (E : plan_dir idx bucket maxo st (e, w) = plan_small idx bucket maxo st (e, w) (up512 (ext e))).
    { unfold plan_dir. cbn [fst]. rewrite nbb_spec. unfold ext. rewrite Hs, Z.add_0_r.
      destruct (Z.leb_spec (en_hdr e) bucket); [reflexivity|lia]. }
    rewrite E. replace (L ++ (e, w) :: ds) with ((L ++ [(e, w)]) ++ ds) by (rewrite <- app_assoc; reflexivity).
    eapply IH; eauto.
    + apply plan_small_inv; auto. cbn [fst]. lia.
    + apply small_step; auto; [unfold ext; lia|apply (pi_count _ _ _ _ Hp)].
Qed.

Lemma plan_files_ok idx bucket maxo fs : bucket mod 512 = 0 -> 0 < bucket ->
  forall L st w z nb, laid w fs z -> Forall (fun eo => fits bucket (fst eo)) fs ->
  pinv idx maxo L st -> binv bucket st w nb ->
  exists st' nb', plan_files idx bucket maxo st fs = Ok st' /\ pinv idx maxo (L ++ fs) st' /\ binv bucket st' z nb'.
Proof.
  intros Hb Hb0. induction fs as [|[e off] fs IH]; intros L st w z nb Hl Hf Hp Hi; cbn [laid plan_files] in *.
  - subst. rewrite app_nil_r. eauto.
  - destruct Hl as [-> Hl]. inversion Hf as [|? ? [Hw Hh] Hf']; subst. cbn [fst] in *.
    replace (L ++ (e, w) :: fs) with ((L ++ [(e, w)]) ++ fs) by (rewrite <- app_assoc; reflexivity).
    unfold plan_file. cbn [fst]. fold (ext e). destruct (Z.leb_spec (ext e) bucket).
    + cbn [bind]. rewrite nbb_spec. eapply IH; [exact Hl|exact Hf'|apply plan_small_inv; [cbn [fst]; destruct Hw as (? & ? & ?); lia|exact Hp]|].
      apply small_step; auto; [apply (pi_count _ _ _ _ Hp)|exact Hi].
    + destruct (big_step idx bucket st e w nb) as (st' & E & B1 & _); auto; [apply (pi_count _ _ _ _ Hp)|].
      rewrite E. cbn [bind]. eapply IH; eauto. destruct Hw as (? & ? & ?).
      eapply big_pinv; eauto; [lia|apply (bi_arch _ _ _ _ Hi)].
Qed.

(** bundles stay within the bucket as long as no small file follows a big one *)
Lemma plan_files_fit idx bucket maxo : bucket mod 512 = 0 -> 0 < bucket ->
  forall small big L st w z, laid w (small ++ big) z -> Forall (fun eo => fits bucket (fst eo)) (small ++ big) ->
  Forall (fun eo => ~ is_big bucket (fst eo)) small -> Forall (fun eo => is_big bucket (fst eo)) big ->
  pinv idx maxo L st -> binv bucket st w true ->
  exists st', plan_files idx bucket maxo st (small ++ big) = Ok st' /\ Forall (fun B => blen B <= bucket) (push_bundle st').
Proof.
  intros Hb Hb0.
  assert (Hfit : forall st w, binv bucket st w true -> Forall (fun B => blen B <= bucket) (push_bundle st)).
  { intros st w I. destruct (bi_nb _ _ _ _ I eq_refl) as [N1 N2]. unfold push_bundle. apply Forall_app. split; auto.
    constructor; [|constructor]. destruct (p_cur st) as [|o r] eqn:Ec; [cbn; lia|]. rewrite <- Ec in *.
    assert (Hne : p_cur st <> []) by congruence.
    destruct (cur_len _ _ _ _ I Hne) as (m & C1 & C2 & C3 & C4). specialize (N2 Hne).
    pose proof (bi_bpos _ _ _ _ I). lia. }
  assert (Hbig : forall big L st w z nb, laid w big z -> Forall (fun eo => fits bucket (fst eo)) big ->
     Forall (fun eo => is_big bucket (fst eo)) big -> pinv idx maxo L st -> binv bucket st w nb ->
     Forall (fun B => blen B <= bucket) (push_bundle st) ->
     exists st', plan_files idx bucket maxo st big = Ok st' /\ Forall (fun B => blen B <= bucket) (push_bundle st')).
  { induction big as [|[e off] big IH]; intros L st w z nb Hl Hf Hbg Hp Hi HF; cbn [laid plan_files] in *; [eauto|].
    destruct Hl as [-> Hl]. inversion Hf as [|? ? [Hw Hh] Hf']; subst. inversion Hbg; subst. cbn [fst] in *.
    unfold is_big in *.
    unfold plan_file. cbn [fst]. fold (ext e). destruct (Z.leb_spec (ext e) bucket); [lia|].
    destruct (big_step idx bucket st e w nb) as (st' & E & B1 & B2 & _); auto; [apply (pi_count _ _ _ _ Hp)|].
    rewrite E. cbn [bind]. destruct Hw as (? & ? & ?). eapply IH; eauto.
    eapply (big_pinv idx bucket maxo L); eauto; try lia; apply (bi_arch _ _ _ _ Hi). }
  induction small as [|[e off] small IH]; intros big L st w z Hl Hf Hsm Hbg Hp Hi.
  - cbn [app] in *. eapply Hbig; eauto.
  - cbn [app laid plan_files] in *.
    destruct Hl as [-> Hl]. inversion Hf as [|? ? [Hw Hh] Hf']; subst. inversion Hsm; subst. cbn [fst] in *.
    unfold is_big in *. unfold plan_file. cbn [fst]. fold (ext e). destruct (Z.leb_spec (ext e) bucket); [|lia].
    cbn [bind]. rewrite nbb_spec.
    eapply (IH big (L ++ [(e, w)])); [exact Hl|exact Hf'|auto|auto|apply plan_small_inv; [cbn [fst]; destruct Hw as (? & ? & ?); lia|exact Hp]|].
    apply small_step; auto. apply (pi_count _ _ _ _ Hp).
Qed.

(** tiles from a chain cut into bundles *)
Lemma chain_tiles bs : forall a z, a mod 512 = 0 -> chain a (concat bs) z -> Forall (fun B => B <> []) bs -> tiles a bs z.
Proof.
  induction bs as [|B bs IH]; intros a z Ha H Hne; cbn [concat] in H; [exact H|].
  inversion Hne as [|? ? Hn Hne']; subst. apply chain_app in H as (m & H1 & H2).
  destruct (chain_bundle _ _ _ H1 Hn) as (E1 & E2 & E3). cbn [tiles]. repeat split; auto.
  rewrite E1. replace (a + up512 (bundle_end B - a)) with m.
  - apply IH; auto. rewrite <- E2. apply up512_bounds.
  - rewrite <- up512_add by auto. rewrite <- E2. f_equal. lia.
Qed.

Lemma Forall_fst (P : entry -> Prop) (l : list (entry * Z)) m :
  map fst l = m -> Forall P m -> Forall (fun x => P (fst x)) l.
Proof. intros <- H. induction l; cbn [map] in H; constructor; inversion H; auto. Qed.

Lemma map_app_inv (l : list (entry * Z)) : forall x y, map fst l = x ++ y ->
  exists s g, l = s ++ g /\ map fst s = x /\ map fst g = y.
Proof.
  induction l as [|a l IH]; intros [|c x] y H; cbn [map app] in H.
  - exists [], []. auto.
  - discriminate.
  - exists [], (a :: l). auto.
  - injection H as H1 H2. destruct (IH x y H2) as (s & g & -> & <- & <-). exists (a :: s), g. cbn. subst; auto.
Qed.

Lemma create_ok idx bucket maxo dirs files d f :
  100000 <= bucket -> bucket mod 512 = 0 ->
  set_offsets dirs files = (d, f) -> dirs ++ files <> [] ->
  Forall (fun e => fits bucket e /\ en_size e = 0) dirs -> Forall (fits bucket) files ->
  exists bs w, create_transfer_orders idx bucket maxo d f = Ok (Some bs) /\
    laid 0 (d ++ f) w /\ chain 0 (concat bs) w /\ Forall (fun B => B <> []) bs /\
    (forall p, orders_at (concat bs) p = layout_at (d ++ f) p) /\
    (0 < maxo -> Forall (fun B => zlen B <= maxo) bs) /\
    Forall (fun B => blen B <= 2 * bucket) bs /\
    Forall (fun o => exists e off, In (e, off) (d ++ f) /\ slice_of idx e o) (concat bs).
Proof.
  intros Hb1 Hb5 Hso Hne Hd Hf.
  destruct (set_offsets_laid _ _ _ _ Hso) as (z & Hl & Md & Mf).
  assert (Fd : Forall (fun eo => fits bucket (fst eo) /\ en_size (fst eo) = 0) d) by (exact (Forall_fst (fun e => fits bucket e /\ en_size e = 0) _ _ Md Hd)).
  assert (Ff : Forall (fun eo => fits bucket (fst eo)) f) by (exact (Forall_fst _ _ _ Mf Hf)).
  pose proof Hl as Hl'. apply laid_app in Hl' as (m & Hl1 & Hl2).
  destruct (plan_dirs_ok idx bucket maxo d Hb5 [] p_init 0 m Hl1 Fd (pinv_init idx maxo) (binv_init bucket ltac:(lia))) as [P1 B1].
  cbn [app] in P1.
  destruct (plan_files_ok idx bucket maxo f Hb5 ltac:(lia) d _ m z true Hl2 Ff P1 B1) as (st & nb & E & P2 & B2).
  assert (Hcur : p_cur st <> []).
  { intros Hn. destruct (bi_cur _ _ _ _ B2 Hn) as (_ & Hz & _). subst z.
    assert (Hex : exists x l, d ++ f = x :: l).
    { destruct (d ++ f) as [|x l] eqn:Edf; [|eauto]. exfalso. apply Hne. rewrite <- Md, <- Mf, <- map_app, Edf. reflexivity. }
    destruct Hex as ([e off] & l & Edf). rewrite Edf in Hl. 
    assert (Wf : Forall (fun eo => wf_item (fst eo)) ((e, off) :: l)).
    { rewrite <- Edf. apply Forall_app. split; [eapply Forall_impl; [|exact Fd]|eapply Forall_impl; [|exact Ff]]; unfold fits; tauto. }
    pose proof (laid_facts 0 _ 0 Hl eq_refl Wf) as (_ & _ & F3 & _).
    destruct (F3 e off (or_introl eq_refl)) as (_ & G1 & G2). inversion Wf as [|? ? W ?]; subst. cbn [fst] in W.
    destruct W as (? & ? & ?). unfold ext in G2. lia. }
  exists (push_bundle st), z. split.
  { unfold create_transfer_orders. destruct (Z.ltb_spec bucket 100000); [lia|].
    destruct d as [|d0 d'], f as [|f0 f']; try (rewrite E; reflexivity).
    exfalso. apply Hne. rewrite <- Md, <- Mf. reflexivity. }
  split; auto. rewrite concat_push.
  split; [apply (bi_chain _ _ _ _ B2)|]. split.
  { unfold push_bundle. apply Forall_app. split; [apply (bi_done _ _ _ _ B2)|]. constructor; auto. }
  split; [apply (pi_cells _ _ _ _ P2)|]. split; [apply (pi_max _ _ _ _ P2)|]. split.
  { unfold push_bundle. apply Forall_app. split; [apply (bi_len _ _ _ _ B2)|]. constructor; [|constructor].
    destruct (cur_len _ _ _ _ B2 Hcur) as (m' & C1 & C2 & C3 & C4). pose proof (bi_curlen _ _ _ _ B2 Hcur).
    pose proof (bi_bpos _ _ _ _ B2). lia. }
  apply (pi_ids _ _ _ _ P2).
Qed.

Lemma create_fit idx bucket maxo dirs small big d f bs :
  100000 <= bucket -> bucket mod 512 = 0 ->
  set_offsets dirs (small ++ big) = (d, f) ->
  Forall (fun e => fits bucket e /\ en_size e = 0) dirs -> Forall (fits bucket) (small ++ big) ->
  Forall (fun e => ext e <= bucket) small -> Forall (fun e => bucket < ext e) big ->
  create_transfer_orders idx bucket maxo d f = Ok (Some bs) ->
  Forall (fun B => blen B <= bucket) bs.
Proof.
  intros Hb1 Hb5 Hso Hd Hf Hsm Hbg Hc.
  destruct (set_offsets_laid _ _ _ _ Hso) as (z & Hl & Md & Mf).
  assert (Fd : Forall (fun eo => fits bucket (fst eo) /\ en_size (fst eo) = 0) d) by (exact (Forall_fst (fun e => fits bucket e /\ en_size e = 0) _ _ Md Hd)).
  assert (Ff : Forall (fun eo => fits bucket (fst eo)) f) by (exact (Forall_fst _ _ _ Mf Hf)).
  apply laid_app in Hl as (m & Hl1 & Hl2).
  destruct (plan_dirs_ok idx bucket maxo d Hb5 [] p_init 0 m Hl1 Fd (pinv_init idx maxo) (binv_init bucket ltac:(lia))) as [P1 B1].
  cbn [app] in P1.
  destruct (map_app_inv _ _ _ Mf) as (s & g & -> & Ms & Mg).
  destruct (plan_files_fit idx bucket maxo Hb5 ltac:(lia) s g d (fold_left (plan_dir idx bucket maxo) d p_init) m z Hl2 Ff) as (st & E & F); auto.
  { refine (Forall_fst (fun e => ~ is_big bucket e) _ _ Ms _). eapply Forall_impl; [|exact Hsm]. unfold is_big. intros; lia. }
  { exact (Forall_fst (is_big bucket) _ _ Mg Hbg). }
  unfold create_transfer_orders in Hc. destruct (Z.ltb_spec bucket 100000); [lia|].
  destruct d as [|d0 d'], (s ++ g) as [|f0 f'] eqn:Esg; try discriminate; rewrite E in Hc; cbn [bind] in Hc; injection Hc as <-; auto.
Qed.
