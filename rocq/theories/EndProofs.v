(** C19: from scan to archive to tar reader. *)
From Coq Require Import Permutation.
From Verif Require Import Bytes Outcome TarSpec TarModel TarProofs TarMore Layout LayoutSpec LayoutProofs LayoutMore OrderCodec OrderCodecProofs OrderMore
  Mover MoverSpec MoverProofs MoverMore Worker WorkerProofs Assemble AssembleProofs Boss BossProofs BossMore
  Spider SpiderSpec SpiderProofs SpiderMore Program ProgramProofs EndSpec.

(** *** tar reader walking a laid-out archive *)
Lemma slice_eq (a l : bytes) (off : nat) :
  (forall k, (k < length l)%nat -> nth_error a (off + k) = nth_error l k) -> skipn off a = l ++ skipn (off + length l) a.
Proof.
  revert off. induction l as [|c l IH]; intros off H; cbn [app length]; [f_equal; lia|].
  pose proof (H 0%nat ltac:(cbn; lia)) as H0. rewrite Nat.add_0_r in H0. cbn in H0.
  assert (E : skipn off a = c :: skipn (S off) a).
  { clear -H0. revert a H0. induction off as [|n IH]; intros [|x a] H0; cbn in *; try discriminate; [injection H0 as ->; reflexivity|apply IH; auto]. }
  rewrite E. f_equal. rewrite (IH (S off)); [f_equal; f_equal; lia|]. intros k Hk. specialize (H (S k) ltac:(cbn; lia)).
  replace (S off + k)%nat with (off + S k)%nat by lia. exact H.
Qed.

Lemma skipn_skipn {A} x : forall y (l : list A), skipn x (skipn y l) = skipn (x + y) l.
Proof.
  intros y. revert x. induction y as [|y IH]; intros x l; [rewrite Nat.add_0_r; reflexivity|].
  destruct l as [|c l]; [rewrite !skipn_nil; reflexivity|]. cbn [skipn]. rewrite IH. replace (x + S y)%nat with (S (x + y)) by lia. reflexivity.
Qed.
Lemma zero_block blk : all_zero blk = true -> read_block blk = None.
Proof.
  intros H. unfold read_block. destruct (Nat.eqb (length blk) 512) eqn:El; [|reflexivity]. cbn [negb].
  apply Nat.eqb_eq in El. assert (E : blk = repeat NUL 512).
  { rewrite <- El. clear El. unfold all_zero in H. induction blk as [|c l IH]; [reflexivity|]. cbn [forallb] in H. apply andb_prop in H as [H1 H2].
    cbn [repeat length]. f_equal; auto. apply Ascii.eqb_eq in H1. auto. }
  rewrite E. vm_compute. reflexivity.
Qed.
Lemma read_header_nonzero l x : read_header l = Some x -> all_zero (firstn 512 l) = false.
Proof. unfold read_header. destruct (all_zero (firstn 512 l)) eqn:E; auto. rewrite (zero_block _ E). discriminate. Qed.

Lemma up512_round n : 0 <= n -> round512 n = up512 n.
Proof. intros H. pose proof (round512_bounds n H). pose proof (up512_bounds n). lia. Qed.

Section Walk.
Context (a : bytes) (F : entry -> uhdr -> Prop) (D : entry -> Z -> bytes) (Hd : entry -> bytes).
Context (HF : forall e u, F e u -> u_size u = en_size e).
Definition placed (e : entry) (off : Z) : Prop :=
  zlen (Hd e) = en_hdr e /\ zlen (D e off) = en_size e /\
  (forall k, 0 <= k < en_hdr e -> nth_error a (Z.to_nat (off + k)) = nth_error (Hd e) (Z.to_nat k)) /\
  (forall k, 0 <= k < en_size e -> nth_error a (Z.to_nat (off + en_hdr e + k)) = nth_error (D e off) (Z.to_nat k)) /\
  (forall rest, exists u, read_header (Hd e ++ rest) = Some (u, rest) /\ F e u).

Lemma walk l : forall w z, laid w l z -> 0 <= w -> w mod 512 = 0 -> Forall (fun eo => wf_item (fst eo)) l -> zlen a = z ->
  (forall e off, In (e, off) l -> placed e off) ->
  forall fuel, (length (skipn (Z.to_nat w) a) < fuel)%nat ->
  exists ms, read_archive fuel (skipn (Z.to_nat w) a) = Some ms /\
    Forall2 (fun eo m => exists u, F (fst eo) u /\ m = member_of u (D (fst eo) (snd eo))) l ms.
Proof.
  induction l as [|[e off] l IH]; intros w z H Hw0 Hw Hf Ha Hp fuel Hfu; pose proof H as Hlaid; cbn [laid] in H.
  - subst w. exists []. split; [|constructor]. assert (E : skipn (Z.to_nat z) a = []) by (apply skipn_all2; unfold zlen in *; lia).
    rewrite E. destruct fuel; reflexivity.
  - destruct H as [-> H]. inversion Hf as [|? ? We Hf']; subst. cbn [fst] in We. pose proof We as (W1 & W2 & W3).
    destruct (laid_facts _ _ _ Hlaid Hw Hf) as (_ & _ & Fi & _).
    destruct (Fi e w (or_introl eq_refl)) as (_ & _ & Fe). unfold ext in *.
    destruct (Hp e w (or_introl eq_refl)) as (P1 & P2 & P3 & P4 & P5).
    set (R := skipn (Z.to_nat (w + en_hdr e)) a).
    assert (S1 : skipn (Z.to_nat w) a = Hd e ++ R).
    { rewrite (slice_eq a (Hd e)); [f_equal; unfold R; f_equal; unfold zlen in *; lia|].
      intros k Hk. replace (Z.to_nat w + k)%nat with (Z.to_nat (w + Z.of_nat k)) by lia.
      rewrite P3 by (unfold zlen in *; lia). f_equal. lia. }
    set (R2 := skipn (Z.to_nat (w + en_hdr e + en_size e)) a).
    assert (S2 : R = D e w ++ R2).
    { unfold R. rewrite (slice_eq a (D e w)); [f_equal; unfold R2; f_equal; unfold zlen in *; lia|].
      intros k Hk. replace (Z.to_nat (w + en_hdr e) + k)%nat with (Z.to_nat (w + en_hdr e + Z.of_nat k)) by lia.
      rewrite P4 by (unfold zlen in *; lia). f_equal. lia. }
    destruct (P5 R) as (u & U1 & U2). pose proof (HF e u U2) as Us.
    rewrite S1 in *. destruct fuel as [|fuel]; [lia|].
    destruct (IH (up512 (w + (en_hdr e + en_size e))) (zlen a) H) with (fuel := fuel) as (ms & M1 & M2); auto.
    { pose proof (up512_bounds (w + (en_hdr e + en_size e))). lia. }
    { apply up512_bounds. }
    { intros e' off' I. apply Hp. right. auto. }
    { pose proof (up512_bounds (w + (en_hdr e + en_size e))) as Ub. rewrite <- S1 in Hfu. rewrite skipn_length in *. unfold zlen in *. lia. }
    exists (member_of u (D e w) :: ms). split; [|constructor; auto; exists u; auto].
    cbn [read_archive]. assert (Hne : Hd e ++ R <> []) by (destruct (Hd e); [unfold zlen in P1; cbn in P1; lia|discriminate]).
    destruct (Hd e ++ R) as [|c L] eqn:EL; [congruence|].
    rewrite (read_header_nonzero _ _ U1), Bool.andb_false_r. unfold read_member. rewrite U1.
    rewrite Us, up512_round by lia.
    assert (E5 : up512 (w + (en_hdr e + en_size e)) = w + en_hdr e + up512 (en_size e)).
    { replace (w + (en_hdr e + en_size e)) with (w + en_hdr e + en_size e) by lia. apply up512_add. lia. }
    destruct (Nat.ltb_spec (length R) (Z.to_nat (up512 (en_size e)))) as [Hlt|_].
    { exfalso. unfold R in Hlt. rewrite skipn_length in Hlt. destruct (laid_facts _ _ _ H) as (_ & Hz & _); auto; [apply up512_bounds|]. unfold zlen in *. lia. }
    assert (E6 : firstn (Z.to_nat (en_size e)) R = D e w).
    { rewrite S2. assert (X : Z.to_nat (en_size e) = length (D e w)) by (unfold zlen in *; lia). rewrite X, firstn_app, Nat.sub_diag, firstn_all. cbn. apply app_nil_r. }
    rewrite E6. assert (E7 : skipn (Z.to_nat (up512 (en_size e))) R = skipn (Z.to_nat (up512 (w + (en_hdr e + en_size e)))) a).
    { unfold R. pose proof (up512_bounds (en_size e)). rewrite skipn_skipn. f_equal. lia. }
    rewrite E7, M1. reflexivity.
Qed.
End Walk.

(** *** executed orders are orders the worker could do *)
Lemma log_ok N R okb n s : run N R okb n s -> forall o, In o (map snd (log s)) -> okb o = true.
Proof.
  induction 1 as [|n s s' m Hr IH Hs]; [intros o []|]. intros o.
  destruct Hs; cbn [log set_boss send_boss send]; auto.
  cbn. rewrite ?map_app, ?in_app_iff. cbn. intros Hin. first [destruct Hin as [Hin|[<-|[]]]; auto | destruct Hin as [<-|Hin]; auto].
Qed.

(** a write issued for a bundle means the bundle fitted *)
Lemma move_data_fits ev base bucket B w : move_data_Create ev base bucket B = Ok w -> bundle_end B - bundle_start B <= bucket.
Proof.
  intros H. pose proof (move_data_place _ _ _ _ _ H) as [_ Hl]. unfold move_data_Create in H. destruct B as [|o B]; [discriminate|].
  destruct (move_orders _ _ _ _ _ _) as [[m k]|]; cbn [bind] in H; [|discriminate].
  destruct (if _ =? 0 then _ else _) as [m'|]; cbn [bind] in H; [|discriminate].
  destruct (Z.leb_spec (next_block_boundary (o_pos (last (o :: B) o) + o_hdr (last (o :: B) o) + o_size (last (o :: B) o) - o_pos o)) bucket) as [Hle|]; [|discriminate].
  assert (X : w_len w = next_block_boundary (o_pos (last (o :: B) o) + o_hdr (last (o :: B) o) + o_size (last (o :: B) o) - o_pos o)).
  { assert (Y : w = {| w_pos := o_pos o; w_len := next_block_boundary (o_pos (last (o :: B) o) + o_hdr (last (o :: B) o) + o_size (last (o :: B) o) - o_pos o); w_mem := m'; w_opens := k |}) by congruence. rewrite Y. reflexivity. }
  pose proof (up512_bounds (bundle_end (o :: B) - bundle_start (o :: B))). lia.
Qed.

Lemma tiles_below bs : forall a z o B, tiles a bs z -> nth_error bs o = Some B -> bundle_start B + up512 (bundle_end B - bundle_start B) <= z.
Proof.
  induction bs as [|C bs IH]; intros a z o B H Ho; [destruct o; discriminate|]. cbn [tiles] in H. destruct H as (_ & E & L & H).
  destruct o as [|o]; cbn [nth_error] in Ho; [injection Ho as ->; apply tiles_le in H; lia|]. eapply IH; eauto.
Qed.
(** *** the finished archive, byte by byte *)
Lemma assemble_eq w os : assemble w os = fold_left (apply_one w) os empty_archive.
Proof. reflexivity. Qed.
Lemma size_nonneg w os : forall a, 0 <= ar_size a -> 0 <= ar_size (fold_left (apply_one w) os a).
Proof.
  induction os as [|o os IH]; intros a Ha; cbn [fold_left]; auto. apply IH. unfold apply_one. destruct (w o); auto. cbn. destruct (_ =? 0); lia.
Qed.
(** any write per bundle, executed in any order *)
Lemma finished_gen ev base idx bucket maxo dirs files d f bs (w : nat -> option wr) os :
  plannable bucket dirs files -> set_offsets dirs files = (d, f) ->
  create_transfer_orders idx bucket maxo d f = Ok (Some bs) ->
  Forall (unchanged ev base) (dirs ++ files) ->
  Permutation os (seq 0 (length bs)) ->
  (forall o, (o < length bs)%nat -> exists x B, w o = Some x /\ nth_error bs o = Some B /\ move_data_Create ev base bucket B = Ok x) ->
  exists z, laid 0 (d ++ f) z /\ ar_size (assemble w os) = z /\
    forall p, 0 <= p < z -> match layout_at (d ++ f) p with
                            | c :: _ => exists x, meant ev base c = Some x /\ ar_cell (assemble w os) p = Byte x
                            | [] => True
                            end.
Proof.
  intros Hp Hso Hc Hu P Hw.
  assert (Hnd : NoDup os) by (eapply Permutation_NoDup; [apply Permutation_sym; exact P|apply seq_NoDup]).
  assert (Hin : forall o, In o os <-> (o < length bs)%nat).
  { intros o. split; intros H; [eapply Permutation_in in H; [|exact P]; apply in_seq in H; lia|].
    eapply Permutation_in; [apply Permutation_sym; exact P|]. apply in_seq. lia. }
  destruct (plannable_ok idx bucket maxo _ _ _ _ Hp Hso) as (bs' & z & E & L & C & N & O & _).
  rewrite Hc in E. assert (bs' = bs) as -> by congruence. clear E.
  pose proof (chain_tiles bs 0 z eq_refl C N) as T.
  exists z. split; auto. rewrite assemble_eq. split.
  - assert (G : forall X, 0 <= X -> (ar_size (fold_left (apply_one w) os empty_archive) <= X <-> z <= X)).
    { intros X HX. rewrite fold_size by (cbn; lia). split.
      - intros (_ & Hall). destruct (Z.le_gt_cases z X) as [|Hlt]; auto. exfalso.
        destruct (tiles_cover bs 0 z X T) as (B & HB & HBr); [lia|]. apply In_nth_error in HB as (o & Ho).
        assert (Lo : (o < length bs)%nat) by (apply nth_error_Some; congruence).
        destruct (Hw o Lo) as (x & B' & Hx & HB' & HM). assert (B' = B) as -> by congruence.
        destruct (move_data_place _ _ _ _ _ HM) as [P1 P2]. specialize (Hall o (proj2 (Hin o) Lo)). unfold reach in Hall. rewrite Hx in Hall.
        destruct (Z.eqb_spec (w_len x) 0); lia.
      - intros Hz. split; [cbn; lia|]. intros o Ho. apply Hin in Ho. destruct (Hw o Ho) as (x & B & Hx & HB & HM).
        destruct (move_data_place _ _ _ _ _ HM) as [P1 P2]. unfold reach. rewrite Hx. destruct (Z.eqb_spec (w_len x) 0); [right; lia|left].
        pose proof (tiles_below bs 0 z o B T HB). lia. }
    pose proof (tiles_le _ _ _ T).
    pose proof (size_nonneg w os empty_archive ltac:(cbn; lia)).
    apply Z.le_antisymm; apply G; lia.
  - intros p Hpz. destruct (tiles_cover bs 0 z p T Hpz) as (B & HB & HBr). pose proof HB as HB0. apply In_nth_error in HB as (o & Ho).
    assert (Lo : (o < length bs)%nat) by (apply nth_error_Some; congruence).
    destruct (Hw o Lo) as (x & B' & Hx & HB' & HM). assert (B' = B) as -> by congruence.
    destruct (move_data_place _ _ _ _ _ HM) as [P1 P2].
    assert (Cx : covers x p) by (unfold covers; lia).
    assert (Ec : ar_cell (fold_left (apply_one w) os empty_archive) p = w_mem x (p - w_pos x)).
    { apply (fold_cell_in w _ _ _ o x); auto; [apply Hin; auto|]. intros o' x' I' Ne W' C'. apply Hin in I'.
      destruct (Hw o' I') as (x2 & B2 & Hx2 & HB2 & HM2). assert (x2 = x') as -> by congruence.
      destruct (move_data_place _ _ _ _ _ HM2) as [Q1 Q2]. unfold covers in *.
      destruct (Nat.lt_total o o') as [H|[H|H]]; [|congruence|].
      - pose proof (tiles_disjoint _ _ _ _ _ _ _ T H Ho HB2). lia.
      - pose proof (tiles_disjoint _ _ _ _ _ _ _ T H HB2 Ho). lia. }
    rewrite Ec. destruct (bundle_image ev base idx bucket maxo dirs files d f bs B) as (x' & E1 & E2 & E3 & _ & E4); auto.
    { eapply move_data_fits; eauto. }
    rewrite HM in E1. assert (x' = x) as -> by congruence. specialize (E4 p ltac:(lia)). rewrite P1. destruct (layout_at (d ++ f) p); auto.
Qed.

Lemma finished ev base path idx bucket maxo dirs files d f bs R n s :
  plannable bucket dirs files -> set_offsets dirs files = (d, f) ->
  create_transfer_orders idx bucket maxo d f = Ok (Some bs) ->
  Forall plain (dirs ++ files) -> INT_MIN <= idx <= INT_MAX ->
  Forall (unchanged ev base) (dirs ++ files) -> (1 <= R)%nat ->
  run (length bs) R (fun o => succeeds (jobs ev bucket path base bs o)) n s -> boss s = BEnd ->
  exists z, laid 0 (d ++ f) z /\
    let ar := assemble (jobs ev bucket path base bs) (map snd (log s)) in
    ar_size ar = z /\
    forall p, 0 <= p < z -> match layout_at (d ++ f) p with
                            | c :: _ => exists x, meant ev base c = Some x /\ ar_cell ar p = Byte x
                            | [] => True
                            end.
Proof.
  intros Hp Hso Hc Hpl Hi Hu HR Hrun Hend. destruct (final_state _ _ _ _ _ HR Hrun Hend) as (_ & P & _).
  apply (finished_gen ev base idx bucket maxo dirs files d f bs); auto.
  intros o Ho. pose proof (log_ok _ _ _ _ _ Hrun o) as L. assert (In o (map snd (log s))).
  { eapply Permutation_in; [apply Permutation_sym; exact P|]. apply in_seq. lia. }
  specialize (L H). cbn beta in L. destruct (jobs ev bucket path base bs o) as [x|] eqn:Ej; [|discriminate].
  destruct (jobs_inv ev bucket path base idx maxo dirs files d f bs o x Hp Hso Hc Hpl Hi Ej Ho) as (B & HB & HM). exists x, B. auto.
Qed.
