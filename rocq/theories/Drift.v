(** Lemmas behind C71. *)
From Coq Require Import Permutation.
From Verif Require Import Bytes Outcome TarSpec TarModel TarProofs TarMore Layout LayoutSpec LayoutProofs LayoutMore OrderCodec OrderCodecProofs OrderMore
  Mover MoverSpec MoverProofs MoverMore Worker WorkerProofs Assemble AssembleProofs Boss BossProofs BossMore
  Spider SpiderSpec SpiderProofs SpiderMore Program ProgramProofs EndSpec EndProofs EndMore MembersSpec Members DriftSpec.

(** ** reads that fall short: compare with a file system that has all the data *)
Definition extends (ev ev2 : env) : Prop :=
  e_names ev2 = e_names ev /\ e_lstat ev2 = e_lstat ev /\ forall p d, e_data ev p = Some d -> exists r, e_data ev2 p = Some (d ++ r).
Definition padded (ev : env) : env :=
  {| e_names := e_names ev; e_lstat := e_lstat ev; e_data := fun p => option_map (fun d => d ++ repeat NUL 511) (e_data ev p) |}.
Lemma extends_padded ev ev2 : extends ev ev2 -> extends ev (padded ev2).
Proof.
  intros (A & B & C). split; auto. split; auto. intros p d H. destruct (C p d H) as (r & Hr). cbn [padded e_data]. rewrite Hr. cbn [option_map].
  exists (r ++ repeat NUL 511). rewrite app_assoc. reflexivity.
Qed.

(** cell [i] of the buffer belongs to a byte some order wants and the file lacks *)
Definition lacking (ev : env) (base : bytes) (os : list order) (p : Z) : Prop :=
  exists o j, In o os /\ 0 <= j < o_size o /\ p = o_pos o + o_hdr o + j /\
    forall d, e_data ev (full_name base (o_rel o)) = Some d -> zlen d <= o_fpos o + j.

Lemma store_get size m pos l m' : store size m pos l = Ok m' -> forall i,
  m' i = if pos <=? i then match nth_error l (Z.to_nat (i - pos)) with Some c => Byte c | None => m i end else m i.
Proof.
  intros H i. unfold store in H. destruct l as [|x l].
  - assert (m' = m) as -> by congruence. destruct (pos <=? i); auto. destruct (Z.to_nat (i - pos)); reflexivity.
  - destruct ((0 <=? pos) && (pos + zlen (x :: l) <=? size)); [|discriminate]. assert (E : m' = poke m pos (x :: l)) by congruence. rewrite E. unfold poke.
    destruct (Z.leb_spec pos i); cbn [andb]; auto. destruct (Z.ltb_spec i (pos + zlen (x :: l))); auto.
    replace (nth_error (x :: l) (Z.to_nat (i - pos))) with (@None byte); auto. symmetry. apply nth_error_None. unfold zlen in *. lia.
Qed.
Lemma nth_firstn {A} (l : list A) : forall k n, nth_error (firstn n l) k = if (k <? n)%nat then nth_error l k else None.
Proof.
  induction l as [|x l IH]; intros k n.
  - rewrite firstn_nil. destruct (k <? n)%nat; auto. destruct k; reflexivity.
  - destruct n as [|n], k as [|k]; cbn [firstn nth_error]; auto. rewrite IH. reflexivity.
Qed.
Lemma nth_skipn {A} n : forall (l : list A) k, nth_error (skipn n l) k = nth_error l (n + k).
Proof. induction n as [|n IH]; intros l k; [reflexivity|]. destruct l; cbn [skipn Nat.add nth_error]; [destruct k; reflexivity|apply IH]. Qed.
Lemma nth_read d off n k : 0 <= off -> 0 <= k -> nth_error (read_at d off n) (Z.to_nat k) = if k <? n then nth_error d (Z.to_nat (off + k)) else None.
Proof.
  intros H1 H2. unfold read_at. rewrite nth_firstn, nth_skipn. replace (Z.to_nat off + Z.to_nat k)%nat with (Z.to_nat (off + k)) by lia.
  destruct (Nat.ltb_spec (Z.to_nat k) (Z.to_nat n)), (Z.ltb_spec k n); auto; lia.
Qed.

Definition agree (ev : env) (base : bytes) (os : list order) (start : Z) (m m2 : mem) : Prop :=
  forall i, m i = m2 i \/ lacking ev base os (start + i).

Lemma move_order_sim ev ev2 base bucket start all m k m2 k2 o r r2 : extends ev ev2 -> agree ev base all start m m2 -> In o all -> 0 <= o_fpos o -> 0 <= o_hdr o -> start <= o_pos o ->
  move_order ev base bucket start (m, k) o = Ok r -> move_order ev2 base bucket start (m2, k2) o = Ok r2 ->
  agree ev base all start (fst r) (fst r2).
Proof.
  intros (Xn & Xl & Xd) Ha Hin Hf Hh Hs H H2. unfold move_order in *.
  set (at_ := o_pos o - start) in *. set (path := full_name base (o_rel o)) in *.
  assert (G : forall x x2, (if o_hdr o =? 0 then Ok m else put_header ev path bucket m at_) = Ok x ->
    (if o_hdr o =? 0 then Ok m2 else put_header ev2 path bucket m2 at_) = Ok x2 -> agree ev base all start x x2).
  { intros x x2. destruct (o_hdr o =? 0); [intros E E2; assert (x = m) as -> by congruence; assert (x2 = m2) as -> by congruence; exact Ha|].
    unfold put_header. rewrite Xn, Xl. destruct (new_tarentry (e_lstat ev) path 0) as [e|]; cbn [bind]; [|discriminate].
    destruct (make_tar_header (e_names ev) e) as [h|]; cbn [bind]; [|discriminate]. intros E E2 i.
    rewrite (store_get _ _ _ _ _ E i), (store_get _ _ _ _ _ E2 i). destruct (at_ <=? i); auto. destruct (nth_error h (Z.to_nat (i - at_))); auto. }
  destruct (if o_hdr o =? 0 then Ok m else put_header ev path bucket m at_) as [x|] eqn:Ex; cbn [bind] in H; [|discriminate].
  destruct (if o_hdr o =? 0 then Ok m2 else put_header ev2 path bucket m2 at_) as [x2|] eqn:Ex2; cbn [bind] in H2; [|discriminate].
  specialize (G x x2 eq_refl eq_refl).
  destruct (o_size o =? 0); [assert (r = (x, k)) as -> by congruence; assert (r2 = (x2, k2)) as -> by congruence; exact G|].
  destruct (e_data ev path) as [d|] eqn:Ed.
  - destruct (Xd path d Ed) as (rest & Ed2). rewrite Ed2 in H2.
    destruct (store bucket x (at_ + o_hdr o) (read_at d (o_fpos o) (o_size o))) as [y|] eqn:Ey; cbn [bind] in H; [|discriminate].
    destruct (store bucket x2 (at_ + o_hdr o) (read_at (d ++ rest) (o_fpos o) (o_size o))) as [y2|] eqn:Ey2; cbn [bind] in H2; [|discriminate].
    assert (r = (y, k + 1)) as -> by congruence. assert (r2 = (y2, k2 + 1)) as -> by congruence. cbn [fst].
    intros i. rewrite (store_get _ _ _ _ _ Ey i), (store_get _ _ _ _ _ Ey2 i). destruct (Z.leb_spec (at_ + o_hdr o) i) as [Hi|Hi]; [|apply G].
    set (j := i - (at_ + o_hdr o)). rewrite !nth_read by (unfold j; lia). destruct (Z.ltb_spec j (o_size o)); [|apply G].
    destruct (nth_error d (Z.to_nat (o_fpos o + j))) as [c|] eqn:En.
    + rewrite nth_error_app1 by (apply nth_error_Some; congruence). rewrite En. auto.
    + right. exists o, j. split; auto. split; [unfold j; lia|]. split; [unfold j, at_; lia|]. intros d' Hd'. fold path in Hd'. assert (d' = d) as -> by congruence.
      apply nth_error_None in En. unfold zlen. unfold j in *. lia.
  - assert (r = (x, k)) as -> by congruence. cbn [fst]. destruct (e_data ev2 path) as [d2|] eqn:Ed2; [|assert (r2 = (x2, k2)) as -> by congruence; exact G].
    destruct (store bucket x2 (at_ + o_hdr o) (read_at d2 (o_fpos o) (o_size o))) as [y2|] eqn:Ey2; cbn [bind] in H2; [|discriminate].
    assert (r2 = (y2, k2 + 1)) as -> by congruence. cbn [fst].
    intros i. rewrite (store_get _ _ _ _ _ Ey2 i). destruct (Z.leb_spec (at_ + o_hdr o) i) as [Hi|Hi]; [|apply G].
    set (j := i - (at_ + o_hdr o)). rewrite !nth_read by (unfold j; lia). destruct (Z.ltb_spec j (o_size o)); [|apply G].
    right. exists o, j. split; auto. split; [unfold j; lia|]. split; [unfold j, at_; lia|]. intros d' Hd'. fold path in Hd'. congruence.
Qed.

Lemma move_orders_sim ev ev2 base bucket start all : extends ev ev2 -> forall os m k m2 k2 r r2, agree ev base all start m m2 ->
  (forall o, In o os -> In o all /\ 0 <= o_fpos o /\ 0 <= o_hdr o /\ start <= o_pos o) ->
  move_orders ev base bucket start (m, k) os = Ok r -> move_orders ev2 base bucket start (m2, k2) os = Ok r2 ->
  agree ev base all start (fst r) (fst r2).
Proof.
  intros Hx. induction os as [|o os IH]; intros m k m2 k2 r r2 Ha Hin H H2; cbn [move_orders] in *.
  - assert (r = (m, k)) as -> by congruence. assert (r2 = (m2, k2)) as -> by congruence. exact Ha.
  - destruct (move_order ev base bucket start (m, k) o) as [[x kx]|] eqn:Ex; cbn [bind] in H; [|discriminate].
    destruct (move_order ev2 base bucket start (m2, k2) o) as [[x2 kx2]|] eqn:Ex2; cbn [bind] in H2; [|discriminate].
    destruct (Hin o (or_introl eq_refl)) as (I1 & I2 & I3 & I4).
    pose proof (move_order_sim _ _ _ _ _ _ _ _ _ _ _ _ _ Hx Ha I1 I2 I3 I4 Ex Ex2) as G. cbn [fst] in G.
    apply (IH x kx x2 kx2 r r2 G); auto. intros o' Ho'. apply Hin. right. auto.
Qed.

Lemma move_data_sim ev ev2 base bucket B w w2 : extends ev ev2 -> (forall o, In o B -> 0 <= o_fpos o /\ 0 <= o_hdr o /\ bundle_start B <= o_pos o) ->
  move_data_Create ev base bucket B = Ok w -> move_data_Create ev2 base bucket B = Ok w2 ->
  w_pos w = w_pos w2 /\ w_len w = w_len w2 /\ w_pos w = bundle_start B /\ agree ev base B (w_pos w) (w_mem w) (w_mem w2).
Proof.
  intros Hx Hin H H2. unfold move_data_Create in *. destruct B as [|o0 os]; [discriminate|]. cbn [bundle_start] in Hin.
  set (B := o0 :: os) in *. cbv zeta in *.
  destruct (move_orders ev base bucket (o_pos o0) (fresh, 0) B) as [[m k]|] eqn:Em; cbn [bind] in H; [|discriminate].
  destruct (move_orders ev2 base bucket (o_pos o0) (fresh, 0) B) as [[m2 k2]|] eqn:Em2; cbn [bind] in H2; [|discriminate].
  assert (G : agree ev base B (o_pos o0) m m2).
  { apply (move_orders_sim ev ev2 base bucket (o_pos o0) B Hx B fresh 0 fresh 0 (m, k) (m2, k2)); auto. intros i; auto. }
  set (total := o_pos (last B o0) + o_hdr (last B o0) + o_size (last B o0) - o_pos o0) in *.
  set (pad := next_block_boundary total - total) in *.
  destruct (if pad =? 0 then Ok m else store bucket m total (repeat NUL (Z.to_nat pad))) as [x|] eqn:Ex; cbn [bind] in H; [|discriminate].
  destruct (if pad =? 0 then Ok m2 else store bucket m2 total (repeat NUL (Z.to_nat pad))) as [x2|] eqn:Ex2; cbn [bind] in H2; [|discriminate].
  destruct (next_block_boundary total <=? bucket); [|discriminate].
  assert (E : w = {| w_pos := o_pos o0; w_len := next_block_boundary total; w_mem := x; w_opens := k |}) by congruence.
  assert (E2 : w2 = {| w_pos := o_pos o0; w_len := next_block_boundary total; w_mem := x2; w_opens := k2 |}) by congruence.
  subst w w2. cbn [w_pos w_len w_mem]. split; auto. split; auto. split; [reflexivity|].
  destruct (pad =? 0); [assert (x = m) as -> by congruence; assert (x2 = m2) as -> by congruence; exact G|].
  intros i. rewrite (store_get _ _ _ _ _ Ex i), (store_get _ _ _ _ _ Ex2 i). destruct (total <=? i); [|apply G].
  destruct (nth_error (repeat NUL (Z.to_nat pad)) (Z.to_nat (i - total))); auto.
Qed.

(** ** the whole archive *)
Definition lax (ev : env) (base : bytes) (e : entry) : Prop :=
  (exists h, file_header ev (full_name base (en_rel e)) = Some h /\ zlen h = en_hdr e) /\
  (en_size e = 0 \/ exists d, e_data ev (full_name base (en_rel e)) = Some d /\ en_size e <= zlen d + 511).
Lemma lax_padded ev base e : lax ev base e -> unchanged (padded ev) base e.
Proof.
  intros [H1 H2]. split; [exact H1|]. destruct H2 as [H2|(d & Hd & Hl)]; auto. right. exists (d ++ repeat NUL 511). cbn [padded e_data]. rewrite Hd. split; auto.
  rewrite zlen_app, zlen_repeat. lia.
Qed.
Lemma meant_extends ev ev2 base c x : extends ev ev2 -> meant ev base c = Some x -> meant ev2 base c = Some x.
Proof.
  intros (Xn & Xl & Xd). destruct c as [[[r ty] tg] k|[[r ty] tg] k]; cbn [meant]; [unfold file_header; rewrite Xn, Xl; auto|].
  destruct (e_data ev (full_name base r)) as [d|] eqn:E; [|discriminate]. destruct (Xd _ _ E) as (q & ->).
  intros H. rewrite nth_error_app1; auto. apply nth_error_Some. congruence.
Qed.
Lemma order_at_single o p c c' : In c (order_at o p) -> In c' (order_at o p) -> c = c'.
Proof.
  unfold order_at, piece_at. destruct (_ && _); [intros [<-|[]] [<-|[]]; auto|]. destruct (_ && _); [intros [<-|[]] [<-|[]]; auto|intros []].
Qed.
Lemma laid_single l : forall a z p, laid a l z -> a mod 512 = 0 -> Forall (fun eo => wf_item (fst eo)) l -> forall c c', In c (layout_at l p) -> In c' (layout_at l p) -> c = c'.
Proof.
  intros a z p L Ha W c c' H1 H2. unfold layout_at in *. apply in_flat_map in H1 as ([e off] & I1 & C1). apply in_flat_map in H2 as ([e' off'] & I2 & C2).
  assert (R : forall e off c, In (e, off) l -> In c (entry_at (e, off) p) -> layout_at l p = entry_at (e, off) p).
  { intros e0 off0 c0 I C. apply (layout_at_in l a z e0 off0); auto. unfold entry_at, piece_at in C. cbn [fst snd] in C. unfold ext.
    rewrite Forall_forall in W. destruct (W _ I) as (W1 & W2 & W3). cbn [fst] in *.
    destruct (Z.leb_spec off0 p), (Z.ltb_spec p (off0 + en_hdr e0)); cbn [andb] in C; try lia;
    destruct (Z.leb_spec (off0 + en_hdr e0) p), (Z.ltb_spec p (off0 + en_hdr e0 + en_size e0)); cbn [andb] in C; try lia; destruct C. }
  pose proof (R e off c I1 C1) as R1. pose proof (R e' off' c' I2 C2) as R2. rewrite R1 in R2. rewrite <- R2 in C2.
  unfold entry_at, piece_at in *. destruct (_ && _) in C1, C2; [destruct C1 as [<-|[]], C2 as [<-|[]]; auto|]. destruct (_ && _) in C1, C2; [destruct C1 as [<-|[]], C2 as [<-|[]]; auto|destruct C1].
Qed.

Lemma chain_in_ge os : forall a z, chain a os z -> forall o, In o os -> 0 <= o_hdr o /\ 0 <= o_size o /\ a <= o_pos o.
Proof.
  induction os as [|x os IH]; intros a z H o Ho; [destruct Ho|]. cbn [chain] in H. destruct H as (E & H1 & H2 & H3 & H). destruct Ho as [->|Ho]; [lia|].
  destruct (IH _ _ H o Ho) as (X1 & X2 & X3). pose proof (up512_bounds (o_end x)). unfold o_end in *. lia.
Qed.
Lemma sim_fold ev ev2 base bucket bs (w w2 : nat -> option wr) : extends ev ev2 ->
  (forall B o, In B bs -> In o B -> 0 <= o_fpos o /\ 0 <= o_hdr o /\ 0 <= o_size o /\ bundle_start B <= o_pos o) ->
  (forall o, (o < length bs)%nat -> exists x B, w o = Some x /\ nth_error bs o = Some B /\ move_data_Create ev base bucket B = Ok x) ->
  (forall o, (o < length bs)%nat -> exists x B, w2 o = Some x /\ nth_error bs o = Some B /\ move_data_Create ev2 base bucket B = Ok x) ->
  forall os a a2, (forall o, In o os -> (o < length bs)%nat) -> ar_size a = ar_size a2 -> (forall p, ar_cell a p = ar_cell a2 p \/ lacking ev base (concat bs) p) ->
    ar_size (fold_left (apply_one w) os a) = ar_size (fold_left (apply_one w2) os a2) /\
    forall p, ar_cell (fold_left (apply_one w) os a) p = ar_cell (fold_left (apply_one w2) os a2) p \/ lacking ev base (concat bs) p.
Proof.
  intros Hx Hord Hw Hw2.
  induction os as [|o os IH]; intros a a2 Ho Es Ec; cbn [fold_left]; auto.
    destruct (Hw o (Ho o (or_introl eq_refl))) as (x & B & Wx & HB & HM). destruct (Hw2 o (Ho o (or_introl eq_refl))) as (x2 & B2 & Wx2 & HB2 & HM2).
    assert (B2 = B) by congruence. subst B2. pose proof (nth_error_In _ _ HB) as HBin.
    destruct (move_data_sim ev ev2 base bucket B x x2) as (M1 & M2 & M3 & M4); auto; [intros o' Ho'; destruct (Hord B o' HBin Ho') as (X1 & X2 & X3 & X4); auto|].
    apply IH; [intros o' Ho'; apply Ho; right; auto|..].
    - unfold apply_one. rewrite Wx, Wx2. cbn [write_at ar_size]. rewrite M1, M2, Es. reflexivity.
    - intros p. unfold apply_one. rewrite Wx, Wx2. cbn [write_at ar_cell]. rewrite <- M1, <- M2. destruct ((w_pos x <=? p) && (p <? w_pos x + w_len x)); [|apply Ec].
      destruct (M4 (p - w_pos x)) as [E|(o' & j & I1 & I3 & I4 & I5)]; auto. right. exists o', j. split; [apply in_concat; exists B; auto|]. split; auto. split; auto. lia.
Qed.
Lemma finished_lax ev ev2' base path idx bucket maxo dirs files d f bs R n s :
  plannable bucket dirs files -> set_offsets dirs files = (d, f) ->
  create_transfer_orders idx bucket maxo d f = Ok (Some bs) ->
  Forall plain (dirs ++ files) -> INT_MIN <= idx <= INT_MAX ->
  extends ev ev2' -> Forall (lax ev2' base) (dirs ++ files) -> (1 <= R)%nat ->
  run (length bs) R (fun o => succeeds (jobs ev bucket path base bs o)) n s -> boss s = BEnd ->
  exists z, laid 0 (d ++ f) z /\
    let ar := assemble (jobs ev bucket path base bs) (map snd (log s)) in
    ar_size ar = z /\
    forall p c x, 0 <= p < z -> In c (layout_at (d ++ f) p) -> meant ev base c = Some x -> ar_cell ar p = Byte x.
Proof.
  intros Hp Hso Hc Hpl Hi Hx0 Hu HR Hrun Hend. pose proof (extends_padded _ _ Hx0) as Hx. set (ev2 := padded ev2') in *. destruct (final_state _ _ _ _ _ HR Hrun Hend) as (_ & P & _).
  set (os := map snd (log s)) in *. set (w := jobs ev bucket path base bs).
  assert (Hos : forall o, In o os <-> (o < length bs)%nat).
  { intros o. split; intros H; [eapply Permutation_in in H; [|exact P]; apply in_seq in H; lia|].
    eapply Permutation_in; [apply Permutation_sym; exact P|]. apply in_seq. lia. }
  assert (Hw : forall o, (o < length bs)%nat -> exists x B, w o = Some x /\ nth_error bs o = Some B /\ move_data_Create ev base bucket B = Ok x).
  { intros o Ho. pose proof (log_ok _ _ _ _ _ Hrun o) as Lo. specialize (Lo (proj2 (Hos o) Ho)). cbn beta in Lo.
    destruct (jobs ev bucket path base bs o) as [x|] eqn:Ej; [|discriminate].
    destruct (jobs_inv ev bucket path base idx maxo dirs files d f bs o x Hp Hso Hc Hpl Hi Ej Ho) as (B & HB & HM). exists x, B. auto. }
  assert (Hu2 : Forall (unchanged ev2 base) (dirs ++ files)) by (eapply Forall_impl; [|exact Hu]; intros e; apply lax_padded).
  pose (w2 := fun o => match nth_error bs o with Some B => match move_data_Create ev2 base bucket B with Ok x => Some x | Err _ => None end | None => None end).
  assert (Hw2 : forall o, (o < length bs)%nat -> exists x B, w2 o = Some x /\ nth_error bs o = Some B /\ move_data_Create ev2 base bucket B = Ok x).
  { intros o Ho. destruct (Hw o Ho) as (x & B & _ & HB & HM).
    destruct (bundle_image ev2 base idx bucket maxo dirs files d f bs B) as (x2 & E1 & _); auto; [eapply nth_error_In; eauto|eapply move_data_fits; eauto|].
    exists x2, B. unfold w2. rewrite HB, E1. auto. }
  destruct (finished_gen ev2 base idx bucket maxo dirs files d f bs w2 os Hp Hso Hc Hu2 P Hw2) as (z & L & Sz & Cell).
  destruct (plannable_ok idx bucket maxo _ _ _ _ Hp Hso) as (bs' & z' & E & _ & C & N & O & _ & _ & Hsl). rewrite Hc in E. assert (bs' = bs) by congruence. subst bs'. clear E.
  assert (Hord : forall B o, In B bs -> In o B -> 0 <= o_fpos o /\ 0 <= o_hdr o /\ 0 <= o_size o /\ bundle_start B <= o_pos o).
  { intros B o HB Ho. destruct (chain_in bs 0 z' B C eq_refl N HB) as (a1 & z1 & A1 & A2 & _).
    assert (Hne : B <> []) by (rewrite Forall_forall in N; apply N; auto). destruct (chain_bundle _ _ _ A1 Hne) as (E1 & _).
    destruct (chain_in_ge B a1 z1 A1 o Ho) as (G1 & G2 & G3). rewrite Forall_forall in Hsl. destruct (Hsl o) as (e & off & _ & I2); [apply in_concat; exists B; auto|].
    destruct I2 as (_ & _ & _ & _ & Hf & _). repeat split; auto; lia. }
  destruct (sim_fold ev ev2 base bucket bs w w2 Hx Hord Hw Hw2 os empty_archive empty_archive) as [S1 S2]; [intros o; apply Hos|reflexivity|auto|].
  exists z. split; auto. cbv zeta. rewrite !assemble_eq. split; [rewrite <- Sz, assemble_eq; exact S1|].
  intros p c x Hz Hc' Hm. destruct (S2 p) as [E|(o & j & I1 & I3 & I4 & I5)].
  - specialize (Cell p Hz). rewrite assemble_eq in Cell. rewrite E.
    assert (Wf : Forall (fun eo => wf_item (fst eo)) (d ++ f)).
    { destruct (set_offsets_laid _ _ _ _ Hso) as (z0 & L0 & Md & Mf). apply (Forall_fst wf_item (d ++ f) (dirs ++ files)); [rewrite map_app; congruence|].
      destruct Hp as (_ & _ & _ & W & _). eapply Forall_impl; [|exact W]. intros ? []; auto. }
    destruct (layout_at (d ++ f) p) as [|c0 r] eqn:El; [destruct Hc'|]. destruct Cell as (x0 & X1 & X2).
    assert (c0 = c) by (apply (laid_single (d ++ f) 0 z p L eq_refl Wf); rewrite El; auto; left; auto). subst c0.
    rewrite (meant_extends _ _ _ _ _ Hx Hm) in X1. congruence.
  - exfalso. assert (Wf : Forall (fun eo => wf_item (fst eo)) (d ++ f)).
    { destruct (set_offsets_laid _ _ _ _ Hso) as (z0 & L0 & Md & Mf). apply (Forall_fst wf_item (d ++ f) (dirs ++ files)); [rewrite map_app; congruence|].
      destruct Hp as (_ & _ & _ & W & _). eapply Forall_impl; [|exact W]. intros ? []; auto. }
    assert (Hin : In (CData (order_id o) (o_fpos o + j)) (layout_at (d ++ f) p)).
    { rewrite <- O. unfold orders_at. apply in_flat_map. exists o. split; auto. apply in_concat in I1 as (B & HB & Ho). destruct (Hord B o HB Ho) as (X1 & X2 & X3 & X4).
      rewrite order_at_data; [left; do 2 f_equal; lia|auto|unfold o_end; lia]. }
    assert (c = CData (order_id o) (o_fpos o + j)) as -> by (apply (laid_single (d ++ f) 0 z p L eq_refl Wf); auto).
    unfold meant, order_id in Hm. destruct (e_data ev (full_name base (o_rel o))) as [d'|] eqn:Ed; [|discriminate]. specialize (I5 d' eq_refl).
    assert (nth_error d' (Z.to_nat (o_fpos o + j)) <> None) as Hne by congruence.
    apply Hne. apply nth_error_None. unfold zlen in *. lia.
Qed.
