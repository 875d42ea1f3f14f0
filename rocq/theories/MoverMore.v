(** Lemmas behind C17, C18, C34. *)
From Verif Require Import Bytes Outcome TarModel TarProofs Layout LayoutSpec LayoutProofs LayoutMore Mover MoverSpec MoverProofs.

Lemma slice_serves ev base idx e o : slice_of idx e o -> unchanged ev base e -> serves ev base o.
Proof.
  intros (Hid & Hix & Hh & Hs & Hf & Hfs) ((h & Eh & Lh) & Hd).
  assert (Er : o_rel o = en_rel e) by (unfold order_id, entry_id in Hid; congruence).
  unfold serves. rewrite Er. split.
  - destruct Hh as [-> | ->]; auto. right. eauto.
  - destruct Hd as [E|(d & Ed & Ld)]; [left; lia|right]. exists d. split; auto. lia.
Qed.

Lemma chain_in bs : forall a z B, chain a (concat bs) z -> a mod 512 = 0 -> Forall (fun B => B <> []) bs -> In B bs ->
  exists a' z', chain a' B z' /\ a' mod 512 = 0 /\ a <= a' /\ z' <= z /\
    (forall p, a' <= p < z' -> orders_at (concat bs) p = orders_at B p).
Proof.
  induction bs as [|C bs IH]; intros a z B H Ha Hf Hin; [destruct Hin|]. cbn [concat] in H.
  inversion Hf as [|? ? Hn Hf']; subst. apply chain_app in H as (m & H1 & H2).
  destruct (chain_bundle _ _ _ H1 Hn) as (E1 & E2 & E3). pose proof (up512_bounds (bundle_end C)).
  destruct Hin as [->|Hin].
  - exists a, m. split; auto. split; auto. split; [lia|]. split.
    + apply chain_tiles in H2; [|lia|auto]. apply tiles_le in H2. auto.
    + intros p Hp. cbn [concat]. rewrite orders_at_app. rewrite (orders_at_below (concat bs) m z p H2) by lia. apply app_nil_r.
  - destruct (IH m z B H2 ltac:(lia) Hf' Hin) as (a' & z' & A1 & A2 & A3 & A4 & A5). exists a', z'. split; auto. split; auto. split; [lia|]. split; auto.
    intros p Hp. cbn [concat]. rewrite orders_at_app. rewrite (orders_at_above C a m (bundle_end C) p H1); [|eapply chain_ends; eauto|lia].
    cbn [app]. apply A5. auto.
Qed.

Lemma bundle_image ev base idx bucket maxo dirs files d f bs B :
  plannable bucket dirs files -> set_offsets dirs files = (d, f) ->
  create_transfer_orders idx bucket maxo d f = Ok (Some bs) ->
  Forall (unchanged ev base) (dirs ++ files) -> In B bs ->
  bundle_end B - bundle_start B <= bucket ->
  exists w, move_data_Create ev base bucket B = Ok w /\
    w_pos w = bundle_start B /\ w_len w = up512 (bundle_end B - bundle_start B) /\ w_opens w = n_data B /\
    forall p, bundle_start B <= p < bundle_start B + w_len w ->
      match layout_at (d ++ f) p with
      | c :: _ => exists x, meant ev base c = Some x /\ w_mem w (p - bundle_start B) = Byte x
      | [] => w_mem w (p - bundle_start B) = if p <? bundle_end B then Undef else Byte NUL
      end.
Proof.
  intros Hp Hso Hc Hu Hin Hfit.
  destruct (plannable_ok idx bucket maxo _ _ _ _ Hp Hso) as (bs' & w & E & L & C & N & O & _ & _ & Hsl).
  rewrite Hc in E. injection E as <-. destruct Hp as (Hp1 & Hp2 & _).
  destruct (chain_in bs 0 w B C eq_refl N Hin) as (a & z & A1 & A2 & A3 & A4 & A5).
  assert (Hne : B <> []) by (rewrite Forall_forall in N; apply N; auto).
  assert (Hs : Forall (serves ev base) B).
  { rewrite Forall_forall in *. intros o Ho. destruct (Hsl o) as (e & off & I1 & I2); [apply in_concat; exists B; auto|].
    eapply slice_serves; eauto. apply Hu. destruct (set_offsets_laid _ _ _ _ Hso) as (z0 & _ & Md & Mf).
    rewrite <- Md, <- Mf, <- map_app. apply in_map with (f := fst) in I1. exact I1. }
  destruct (move_data_ok ev base bucket B a z Hp2 A2 A1 Hne Hfit Hs) as (r & R1 & R2 & R3 & R4 & R5 & R6 & R7).
  exists r. split; auto. rewrite R5, R2. split; auto. split.
  { rewrite R3, R6. assert (X : up512 (a + (bundle_end B - a)) = a + up512 (bundle_end B - a)) by (apply up512_add; auto).
    replace (a + (bundle_end B - a)) with (bundle_end B) in X by lia. lia. }
  split; auto. intros p Hpp. rewrite R3 in Hpp. specialize (R7 p ltac:(lia)).
  rewrite <- O, A5 by lia. exact R7.
Qed.

(** opens are counted, never given back *)
Lemma move_order_opens ev base bucket start m k o m' k' :
  move_order ev base bucket start (m, k) o = Ok (m', k') ->
  k' = k + (if (negb (o_size o =? 0) && match e_data ev (full_name base (o_rel o)) with Some _ => true | None => false end)%bool then 1 else 0).
Proof.
  unfold move_order. destruct (if o_hdr o =? 0 then _ else _) as [m1|]; cbn [bind]; [|discriminate].
  destruct (o_size o =? 0); cbn [negb andb].
  - intros H. injection H as _ <-. lia.
  - destruct (e_data ev (full_name base (o_rel o))); cbn [andb].
    + destruct (store _ _ _ _); cbn [bind]; [|discriminate]. intros H. injection H as _ <-. lia.
    + intros H. injection H as _ <-. lia.
Qed.

(** a bundle of [n] one-byte files whose header is 512 bytes *)
Definition many_orders (n : nat) : list order :=
  map (fun i => {| o_index := 0; o_rel := b "f"; o_type := "F"%char; o_target := []; o_size := 1; o_hdr := 512;
                   o_pos := 1024 * Z.of_nat i; o_fpos := 0 |}) (seq 0 n).
Lemma many_chain n : forall k, chain (1024 * Z.of_nat k)
  (map (fun i => {| o_index := 0; o_rel := b "f"; o_type := "F"%char; o_target := []; o_size := 1; o_hdr := 512;
                   o_pos := 1024 * Z.of_nat i; o_fpos := 0 |}) (seq k n)) (1024 * Z.of_nat (k + n)).
Proof.
  induction n as [|n IH]; intros k; cbn [seq map chain].
  - f_equal. f_equal. lia.
  - cbn [o_pos o_hdr o_size]. split; auto. split; [lia|]. split; [lia|]. split; [lia|].
    unfold o_end. cbn [o_pos o_hdr o_size].
    replace (up512 (1024 * Z.of_nat k + 512 + 1)) with (1024 * Z.of_nat (S k)).
    + replace (k + S n)%nat with (S k + n)%nat by lia. apply IH.
    + replace (1024 * Z.of_nat k + 512 + 1) with ((1024 * Z.of_nat k) + 513) by lia.
      rewrite up512_add; [change (up512 513) with 1024; lia|]. rewrite (Z.mul_comm 1024). change 1024 with (2 * 512). rewrite Z.mul_assoc. apply Z.mod_mul. lia.
Qed.
Lemma many_opens ev base n : (0 < n)%nat -> Forall (serves ev base) (many_orders n) ->
  exists w, move_data_Create ev base (1024 * Z.of_nat n) (many_orders n) = Ok w /\ w_opens w = Z.of_nat n.
Proof.
  intros Hn Hs. assert (C : chain 0 (many_orders n) (1024 * Z.of_nat n)) by exact (many_chain n 0).
  assert (Hne : many_orders n <> []) by (destruct n; [lia|discriminate]).
  destruct (chain_bundle _ _ _ C Hne) as (E1 & E2 & E3). pose proof (up512_bounds (bundle_end (many_orders n))).
  destruct (move_data_ok ev base (1024 * Z.of_nat n) (many_orders n) 0 (1024 * Z.of_nat n)) as (w & R1 & _ & _ & R4 & _); auto.
  - rewrite (Z.mul_comm 1024). change 1024 with (2 * 512). rewrite Z.mul_assoc. apply Z.mod_mul. lia.
  - lia.
  - exists w. split; auto. rewrite R4. unfold n_data, many_orders. clear. generalize 0%nat as k.
    induction n as [|n IH]; intros k; [reflexivity|]. cbn [seq map filter o_size]. cbn [negb Z.eqb]. rewrite zlen_cons, IH. lia.
Qed.
