(** Proofs about the bucket image (C17, C18, C34). *)
From Verif Require Import Bytes Outcome TarModel TarProofs Layout LayoutSpec LayoutProofs Mover MoverSpec.

Lemma poke_in m pos l i : 0 <= pos -> pos <= i < pos + zlen l ->
  exists c, nth_error l (Z.to_nat (i - pos)) = Some c /\ poke m pos l i = Byte c.
Proof.
  intros Hp Hi. unfold poke. destruct (Z.leb_spec pos i); [|lia]. destruct (Z.ltb_spec i (pos + zlen l)); [|lia]. cbn [andb].
  destruct (nth_error l (Z.to_nat (i - pos))) as [c|] eqn:E; [eauto|].
  apply nth_error_None in E. unfold zlen in *. lia.
Qed.
Lemma poke_out m pos l i : ~ (pos <= i < pos + zlen l) -> poke m pos l i = m i.
Proof.
  intros H. unfold poke. destruct (Z.leb_spec pos i), (Z.ltb_spec i (pos + zlen l)); cbn [andb]; auto. lia.
Qed.
Lemma store_ok size m pos l : 0 <= pos -> pos + zlen l <= size ->
  exists m', store size m pos l = Ok m' /\
    (forall i, pos <= i < pos + zlen l -> exists c, nth_error l (Z.to_nat (i - pos)) = Some c /\ m' i = Byte c) /\
    (forall i, ~ (pos <= i < pos + zlen l) -> m' i = m i).
Proof.
  intros Hp Hs. unfold store. destruct l as [|x l].
  - exists m. split; auto. cbn. split; auto. change (zlen (@nil byte)) with 0. intros; lia.
  - destruct (Z.leb_spec 0 pos); [|lia]. destruct (Z.leb_spec (pos + zlen (x :: l)) size); [|lia]. cbn [andb].
    eexists. split; [reflexivity|]. split; [intros; apply poke_in; auto|intros; apply poke_out; auto].
Qed.

Lemma read_at_ok d off n : 0 <= off -> 0 <= n -> off + n <= zlen d ->
  zlen (read_at d off n) = n /\ forall k, 0 <= k < n -> nth_error (read_at d off n) (Z.to_nat k) = nth_error d (Z.to_nat (off + k)).
Proof.
  intros H1 H2 H3. unfold read_at, zlen in *. split.
  - rewrite firstn_length, skipn_length. lia.
  - intros k Hk. rewrite Z2Nat.inj_add by lia.
    assert (Hlt : (Z.to_nat k < Z.to_nat n)%nat) by lia.
    revert Hlt. generalize (Z.to_nat k) (Z.to_nat n) (Z.to_nat off). clear. intros k n off H.
    assert (G : forall (l : bytes) k n, (k < n)%nat -> nth_error (firstn n l) k = nth_error l k).
    { clear. induction l as [|x l IH]; intros [|k] [|n] H; cbn; auto; try lia. apply IH. lia. }
    rewrite G by auto. clear. revert d. induction off as [|off IH]; intros d; cbn; auto. destruct d; cbn; auto. destruct k; auto.
Qed.

Lemma order_at_hdr o p : o_pos o <= p < o_pos o + o_hdr o -> order_at o p = [CHdr (order_id o) (p - o_pos o)].
Proof.
  intros H. unfold order_at, piece_at. destruct (Z.leb_spec (o_pos o) p); [|lia]. destruct (Z.ltb_spec p (o_pos o + o_hdr o)); [|lia]. reflexivity.
Qed.
Lemma order_at_data o p : 0 <= o_hdr o -> o_pos o + o_hdr o <= p < o_end o ->
  order_at o p = [CData (order_id o) (o_fpos o + (p - (o_pos o + o_hdr o)))].
Proof.
  intros H0 H. unfold order_at, piece_at, o_end in *. destruct (Z.ltb_spec p (o_pos o + o_hdr o)); [lia|]. rewrite andb_false_r.
  destruct (Z.leb_spec (o_pos o + o_hdr o) p); [|lia]. destruct (Z.ltb_spec p (o_pos o + o_hdr o + o_size o)); [|lia]. reflexivity.
Qed.
Lemma order_at_out o p : 0 <= o_hdr o -> 0 <= o_size o -> p < o_pos o \/ o_end o <= p -> order_at o p = [].
Proof.
  intros H0 H1 H. unfold order_at, piece_at, o_end in *.
  destruct (Z.leb_spec (o_pos o) p), (Z.ltb_spec p (o_pos o + o_hdr o)), (Z.leb_spec (o_pos o + o_hdr o) p), (Z.ltb_spec p (o_pos o + o_hdr o + o_size o));
    cbn [andb]; auto; lia.
Qed.

(** one order: fills exactly its own range *)
Lemma move_order_ok ev base bucket start m opens o :
  0 <= o_hdr o -> 0 <= o_size o -> start <= o_pos o -> o_end o - start <= bucket -> serves ev base o ->
  exists m' opens', move_order ev base bucket start (m, opens) o = Ok (m', opens') /\
    opens' = opens + (if o_size o =? 0 then 0 else 1) /\
    forall i, match order_at o (start + i) with
              | c :: _ => exists x, meant ev base c = Some x /\ m' i = Byte x
              | [] => m' i = m i
              end.
Proof.
  intros H1 H2 H3 H4 [Sh Sd]. unfold move_order.
  set (at_ := o_pos o - start).
  assert (Hh : exists m1, (if o_hdr o =? 0 then Ok m else put_header ev (full_name base (o_rel o)) bucket m at_) = Ok m1 /\
    (forall i, at_ <= i < at_ + o_hdr o -> exists x, meant ev base (CHdr (order_id o) (i - at_)) = Some x /\ m1 i = Byte x) /\
    (forall i, ~ (at_ <= i < at_ + o_hdr o) -> m1 i = m i)).
  { destruct (Z.eqb_spec (o_hdr o) 0) as [E|E].
    - exists m. split; auto. split; auto. intros; lia.
    - destruct Sh as [?|(h & Fh & Lh)]; [contradiction|]. unfold put_header. unfold file_header in Fh.
      destruct (new_tarentry (e_lstat ev) (full_name base (o_rel o)) 0) as [e|] eqn:En; [|discriminate]. cbn [bind].
      destruct (make_tar_header (e_names ev) e) as [h'|] eqn:Eh; [|discriminate]. injection Fh as ->. cbn [bind].
      destruct (store_ok bucket m at_ h) as (m1 & -> & G1 & G2); [unfold at_; lia|unfold o_end in H4; unfold at_; lia|].
      exists m1. split; auto. rewrite Lh in *. split; auto. intros i Hi. destruct (G1 i Hi) as (c & N & ->). exists c. split; auto.
      unfold meant, order_id, file_header. rewrite En, Eh. exact N. }
  destruct Hh as (m1 & -> & A1 & A2). cbn [bind].
  assert (Hd : exists m' opens', (if o_size o =? 0 then Ok (m1, opens) else match e_data ev (full_name base (o_rel o)) with
       | None => Ok (m1, opens)
       | Some d => m2 <- store bucket m1 (at_ + o_hdr o) (read_at d (o_fpos o) (o_size o)) ;; Ok (m2, opens + 1) end) = Ok (m', opens') /\
    opens' = opens + (if o_size o =? 0 then 0 else 1) /\
    (forall i, at_ + o_hdr o <= i < at_ + o_hdr o + o_size o ->
       exists x, meant ev base (CData (order_id o) (o_fpos o + (i - (at_ + o_hdr o)))) = Some x /\ m' i = Byte x) /\
    (forall i, ~ (at_ + o_hdr o <= i < at_ + o_hdr o + o_size o) -> m' i = m1 i)).
  { destruct (Z.eqb_spec (o_size o) 0) as [E|E].
    - exists m1, opens. split; auto. split; [lia|]. split; auto. intros; lia.
    - destruct Sd as [?|(d & Fd & P1 & P2)]; [contradiction|]. rewrite Fd.
      destruct (read_at_ok d (o_fpos o) (o_size o) P1 H2 P2) as [R1 R2].
      destruct (store_ok bucket m1 (at_ + o_hdr o) (read_at d (o_fpos o) (o_size o))) as (m2 & -> & G1 & G2);
        [unfold at_; lia|rewrite R1; unfold o_end in H4; unfold at_; lia|]. cbn [bind].
      exists m2, (opens + 1). split; auto. split; auto. rewrite R1 in *. split; auto. intros i Hi.
      destruct (G1 i Hi) as (c & N & ->). exists c. split; auto. unfold meant, order_id. rewrite Fd, <- N. symmetry. apply R2. lia. }
  destruct Hd as (m' & opens' & E & Ho & B1 & B2). exists m', opens'. split; [exact E|]. split; [exact Ho|]. intros i.
  destruct (Z.lt_ge_cases (start + i) (o_pos o)); [rewrite order_at_out by lia; rewrite B2, A2 by (unfold at_; lia); auto|].
  destruct (Z.lt_ge_cases (start + i) (o_pos o + o_hdr o)).
  - rewrite order_at_hdr by lia. destruct (A1 i) as (x & M & Q); [unfold at_; lia|]. exists x. split.
    + rewrite <- M. do 2 f_equal. unfold at_. lia.
    + rewrite B2 by (unfold at_; lia). exact Q.
  - destruct (Z.lt_ge_cases (start + i) (o_end o)).
    + rewrite order_at_data by lia. destruct (B1 i) as (x & M & Q); [unfold at_, o_end in *; lia|]. exists x. split; [|exact Q].
      rewrite <- M. do 3 f_equal. unfold at_. lia.
    + rewrite order_at_out by lia. unfold o_end in *. rewrite B2, A2 by (unfold at_; lia). auto.
Qed.

Lemma orders_at_below os : forall a z p, chain a os z -> p < a -> orders_at os p = [].
Proof.
  induction os as [|o os IH]; intros a z p H Hp; [reflexivity|]. cbn [chain] in H. destruct H as (E & H1 & H2 & H3 & H).
  change (orders_at (o :: os) p) with (order_at o p ++ orders_at os p). rewrite order_at_out by lia. cbn [app].
  eapply IH; eauto. pose proof (up512_bounds (o_end o)). unfold o_end in *. lia.
Qed.

Definition n_data (os : list order) : Z := zlen (filter (fun o => negb (o_size o =? 0)) os).

Lemma move_orders_ok ev base bucket start os : forall a z m opens, chain a os z -> start <= a ->
  Forall (fun o => o_end o - start <= bucket) os -> Forall (serves ev base) os ->
  exists m' opens', move_orders ev base bucket start (m, opens) os = Ok (m', opens') /\
    opens' = opens + n_data os /\
    forall i, match orders_at os (start + i) with
              | c :: _ => exists x, meant ev base c = Some x /\ m' i = Byte x
              | [] => m' i = m i
              end.
Proof.
  induction os as [|o os IH]; intros a z m opens H Ha Hf Hs; cbn [move_orders].
  - exists m, opens. split; auto. split; [unfold n_data; cbn; lia|]. intros; reflexivity.
  - cbn [chain] in H. destruct H as (E & H1 & H2 & H3 & H). inversion Hf as [|? ? F1 F2]; subst. inversion Hs as [|? ? S1 S2]; subst.
    destruct (move_order_ok ev base bucket start m opens o H1 H2 Ha F1 S1) as (m1 & op1 & -> & O1 & P1). cbn [bind].
    pose proof (up512_bounds (o_end o)) as U.
    destruct (IH _ _ m1 op1 H) as (m2 & op2 & -> & O2 & P2); auto; [unfold o_end in *; lia|].
    exists m2, op2. split; auto. split.
    + subst. unfold n_data. cbn [filter]. destruct (o_size o =? 0); cbn [negb]; rewrite ?zlen_cons; lia.
    + intros i. change (orders_at (o :: os) (start + i)) with (order_at o (start + i) ++ orders_at os (start + i)).
      specialize (P1 i). specialize (P2 i).
      destruct (Z.lt_ge_cases (start + i) (o_end o)).
      * rewrite (orders_at_below os _ _ (start + i) H) in * by lia. rewrite app_nil_r. rewrite P2. exact P1.
      * rewrite (order_at_out o (start + i)) in * by lia. cbn [app]. destruct (orders_at os (start + i)); [congruence|exact P2].
Qed.

Lemma last_indep {A} (l : list A) a d d' : last (a :: l) d = last (a :: l) d'.
Proof. revert a. induction l as [|x l IH]; intros a; [reflexivity|]. change (last (x :: l) d = last (x :: l) d'). apply IH. Qed.
Lemma bundle_end_last o os : bundle_end (o :: os) = o_end (last (o :: os) o).
Proof.
  destruct (@exists_last _ (o :: os) ltac:(discriminate)) as (l & x & E).
  rewrite E. rewrite bundle_end_app, last_last. reflexivity.
Qed.
Lemma chain_ends os : forall a z, chain a os z -> Forall (fun o => o_end o <= bundle_end os) os.
Proof.
  induction os as [|o os IH]; intros a z H; [constructor|]. cbn [chain] in H. destruct H as (E & H1 & H2 & H3 & H).
  destruct os as [|o' os'].
  - constructor; [|constructor]. unfold bundle_end. cbn. lia.
  - assert (Eb : bundle_end (o :: o' :: os') = bundle_end (o' :: os')).
    { rewrite !bundle_end_last. f_equal. change (last (o' :: os') o = last (o' :: os') o'). apply last_indep. }
    rewrite Eb. specialize (IH _ _ H). constructor; auto. inversion IH as [|? ? X _]; subst.
    cbn [chain] in H. destruct H as (E' & ? & ? & ? & _). pose proof (up512_bounds (o_end o)). unfold o_end in X at 1. lia.
Qed.

Lemma orders_at_above os : forall a z b p, chain a os z -> Forall (fun o => o_end o <= b) os -> b <= p -> orders_at os p = [].
Proof.
  induction os as [|o os IH]; intros a z b p H Hf Hp; [reflexivity|]. cbn [chain] in H. destruct H as (E & H1 & H2 & H3 & H).
  inversion Hf; subst. change (orders_at (o :: os) p) with (order_at o p ++ orders_at os p). rewrite order_at_out by lia. cbn [app]. eauto.
Qed.

(** the image of one bundle *)
Lemma move_data_ok ev base bucket B a z : bucket mod 512 = 0 -> a mod 512 = 0 -> chain a B z -> B <> [] ->
  bundle_end B - bundle_start B <= bucket -> Forall (serves ev base) B ->
  exists w, move_data_Create ev base bucket B = Ok w /\ w_pos w = a /\ w_len w = z - a /\ w_opens w = n_data B /\
    bundle_start B = a /\ z = up512 (bundle_end B) /\
    forall p, a <= p < z ->
      match orders_at B p with
      | c :: _ => exists x, meant ev base c = Some x /\ w_mem w (p - a) = Byte x
      | [] => w_mem w (p - a) = if p <? bundle_end B then Undef else Byte NUL
      end.
Proof.
  intros Hb Ha H Hne Hfit Hs. destruct (chain_bundle _ _ _ H Hne) as (E1 & E2 & E3).
  pose proof (chain_ends B a z H) as Hends.
  destruct B as [|o0 os]; [congruence|]. set (B := o0 :: os) in *.
  unfold move_data_Create. fold B. unfold B at 1. cbn [bundle_start] in *. change (bundle_start B) with (o_pos o0) in *.
  assert (Et : o_pos (last B o0) + o_hdr (last B o0) + o_size (last B o0) - o_pos o0 = bundle_end B - a).
  { unfold B. rewrite bundle_end_last. unfold o_end. lia. }
  rewrite Et.
  assert (Hf : Forall (fun o => o_end o - o_pos o0 <= bucket) B).
  { eapply Forall_impl; [|exact Hends]. cbn. intros; lia. }
  destruct (move_orders_ok ev base bucket (o_pos o0) B a z fresh 0 H ltac:(lia) Hf Hs) as (m & op & -> & Ho & P). cbn [bind].
  rewrite nbb_spec. rewrite E1 in *.
  assert (Eu : up512 (bundle_end B - a) = z - a).
  { assert (X : up512 (a + (bundle_end B - a)) = a + up512 (bundle_end B - a)) by (apply up512_add; auto).
    replace (a + (bundle_end B - a)) with (bundle_end B) in X by lia. lia. }
  rewrite Eu. pose proof (up512_bounds (bundle_end B)) as U.
  set (total := bundle_end B - a) in *.
  assert (Hle : z - a <= bucket).
  { rewrite <- Eu. rewrite <- (up512_id bucket Hb). apply up512_mono. lia. }
  assert (Hpad : exists m', (if z - a - total =? 0 then Ok m else store bucket m total (repeat NUL (Z.to_nat (z - a - total)))) = Ok m' /\
     (forall i, total <= i < z - a -> m' i = Byte NUL) /\ (forall i, i < total -> m' i = m i)).
  { destruct (Z.eqb_spec (z - a - total) 0).
    - exists m. split; auto. split; auto. intros; lia.
    - destruct (store_ok bucket m total (repeat NUL (Z.to_nat (z - a - total)))) as (m' & -> & G1 & G2); [unfold total; lia|rewrite zlen_repeat; lia|].
      rewrite zlen_repeat in *. exists m'. split; auto. split.
      + intros i Hi. destruct (G1 i) as (c & N & ->); [lia|]. apply nth_error_In, repeat_spec in N. subst. reflexivity.
      + intros i Hi. apply G2. lia. }
  destruct Hpad as (m' & -> & Q1 & Q2). cbn [bind]. destruct (Z.leb_spec (z - a) bucket); [|lia].
  eexists. split; [reflexivity|]. cbn [w_pos w_len w_opens w_mem]. split; auto. split; auto. split; [lia|]. split; auto. split; auto.
  intros p Hp. specialize (P (p - a)). replace (a + (p - a)) with p in P by lia.
  destruct (Z.ltb_spec p (bundle_end B)).
  - rewrite Q2 by (unfold total; lia). destruct (orders_at B p); [rewrite P; reflexivity|exact P].
  - assert (N : orders_at B p = []).
    { eapply orders_at_above; eauto. }
    rewrite N. apply Q1. unfold total. lia.
Qed.
