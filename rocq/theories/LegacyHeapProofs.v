(** Lemmas about the memory of 0.5.1 entry lists. *)
From Coq Require Import Permutation.
From Verif Require Import Bytes Outcome TarModel Legacy LegacyProofs LegacyLayout LegacyLayoutProofs LegacyHeap.
From Coq Require Import ZifyBool ZifyNat ZifyN.
Ltac Zify.zify_post_hook ::= Z.div_mod_to_equations.

(** the blocks named by a list of pointers *)
Definition at_of (x : ptr) : list nat := match x with At p => [p] | _ => [] end.
Definition ats (xs : list ptr) : list nat := flat_map at_of xs.
Definition sane (h : heap) : Prop := Forall (fun p => p < next h)%nat (live h).

Lemma ats_app xs ys : ats (xs ++ ys) = ats xs ++ ats ys.
Proof. apply flat_map_app. Qed.
Lemma in_ats p xs : In p (ats xs) <-> In (At p) xs.
Proof.
  unfold ats. rewrite in_flat_map. split.
  - intros (x & Hx & Hp). destruct x; cbn [at_of In] in Hp; [tauto|tauto|]. destruct Hp as [->|[]]. exact Hx.
  - intros H. exists (At p). cbn. auto.
Qed.
Lemma in_live_free p q h : In q (filter (fun r => negb (Nat.eqb r p)) (live h)) <-> In q (live h) /\ q <> p.
Proof. rewrite filter_In. split; intros [A B]; (split; [exact A|]). - intros ->. rewrite Nat.eqb_refl in B. discriminate. - apply Nat.eqb_neq in B. rewrite B. reflexivity. Qed.

Lemma free_block_ok p h : In p (live h) -> free_block p h = Ok {| next := next h; live := filter (fun q => negb (Nat.eqb q p)) (live h) |}.
Proof. intros H. unfold free_block. replace (existsb (Nat.eqb p) (live h)) with true; [reflexivity|]. symmetry. apply existsb_exists. exists p. rewrite Nat.eqb_refl. auto. Qed.
Lemma free_block_inv p h h' : free_block p h = Ok h' -> In p (live h) /\ next h' = next h /\ forall q, In q (live h') <-> In q (live h) /\ q <> p.
Proof.
  unfold free_block. destruct (existsb (Nat.eqb p) (live h)) eqn:E; [|discriminate]. intros H. assert (h' = {| next := next h; live := filter (fun q => negb (Nat.eqb q p)) (live h) |}) as -> by congruence.
  apply existsb_exists in E as (q & Hq & Eq). apply Nat.eqb_eq in Eq. subst q. split; [exact Hq|]. split; [reflexivity|]. intros q. cbn [live]. apply in_live_free.
Qed.

Lemma free_ptrs_inv xs : forall h h', free_ptrs xs h = Ok h' ->
  ~ In Wild xs /\ NoDup (ats xs) /\ incl (ats xs) (live h) /\ next h' = next h /\ forall q, In q (live h') <-> In q (live h) /\ ~ In q (ats xs).
Proof.
  induction xs as [|x xs IH]; intros h h' H; cbn [free_ptrs] in H.
  - assert (h' = h) as -> by congruence. cbn. repeat split; auto; try constructor; try tauto. intros q []. 
  - destruct (free_ptr x h) as [h1|] eqn:E; [|discriminate]. cbn [bind] in H. apply IH in H as (H1 & H2 & H3 & H4 & H5).
    unfold ats in *; cbn [flat_map]. destruct x as [| |p]; cbn [free_ptr at_of app] in *.
    + assert (h1 = h) as -> by congruence. repeat split; auto; try apply H5; auto. intros [C|C]; [discriminate|auto].
    + discriminate.
    + apply free_block_inv in E as (E1 & E2 & E3). repeat split.
      * intros [C|C]; [discriminate|auto].
      * constructor; [|exact H2]. intros C. apply H3 in C. apply E3 in C as [_ C]. auto.
      * intros q [<-|C]; [exact E1|]. apply H3 in C. apply E3 in C. tauto.
      * congruence.
      * apply H5 in H. destruct H as [H _]. apply E3 in H. tauto.
      * intros C. apply H5 in H. destruct H as [H Hn]. apply E3 in H. destruct C as [C|C]; [apply (proj2 H); auto|auto].
      * intros [A B]. apply H5. split; [apply E3; split; [exact A|]|]; intros C; apply B; [left; auto|right; exact C].
Qed.
Lemma free_ptrs_ok xs : forall h, ~ In Wild xs -> NoDup (ats xs) -> incl (ats xs) (live h) -> exists h', free_ptrs xs h = Ok h'.
Proof.
  induction xs as [|x xs IH]; intros h H1 H2 H3; cbn [free_ptrs]; [eauto|].
  destruct x as [| |p]; cbn [free_ptr].
  - cbn [bind]. apply IH; auto. intros C; apply H1; right; auto.
  - destruct H1. left; auto.
  - unfold ats in *; cbn [flat_map at_of app] in *. inversion H2 as [|? ? N1 N2]; subst. rewrite free_block_ok by (apply H3; left; auto). cbn [bind]. apply IH; auto.
    + intros C; apply H1; right; auto.
    + intros q Hq. cbn [live]. apply in_live_free. split; [apply H3; right; auto|]. intros ->. auto.
Qed.
Lemma free_ptrs_err xs : forall h e, free_ptrs xs h = Err e -> e = EUB.
Proof.
  induction xs as [|x xs IH]; intros h e H; cbn [free_ptrs] in H; [discriminate|]. destruct (free_ptr x h) as [h1|e1] eqn:E; cbn [bind] in H; [eapply IH; eauto|].
  assert (e1 = e) as -> by congruence. destruct x; cbn [free_ptr] in E; try congruence. unfold free_block in E. destruct (existsb _ _); congruence.
Qed.
Lemma free_ptrs_bad xs h : (forall h', free_ptrs xs h <> Ok h') -> free_ptrs xs h = Err EUB.
Proof. intros H. destruct (free_ptrs xs h) as [h'|e] eqn:E; [destruct (H h'); auto|]. f_equal. eapply free_ptrs_err; eauto. Qed.

(** freeing a list, exactly *)
Lemma h_free_ok l h : h_total l <= zlen (h_cells l) -> ~ In Wild (list_ptrs l) -> NoDup (ats (list_ptrs l)) -> incl (ats (list_ptrs l)) (live h) ->
  exists h', h_free l h = Ok h' /\ forall q, In q (live h') <-> In q (live h) /\ ~ In q (ats (list_ptrs l)).
Proof.
  intros H0 H1 H2 H3. destruct (free_ptrs_ok _ h H1 H2 H3) as (h' & E). exists h'. unfold h_free. replace (zlen (h_cells l) <? h_total l) with false by lia.
  split; [exact E|]. apply free_ptrs_inv in E. tauto.
Qed.
Lemma h_free_inv l h h' : h_free l h = Ok h' -> ~ In Wild (list_ptrs l) /\ NoDup (ats (list_ptrs l)) /\ incl (ats (list_ptrs l)) (live h) /\
  forall q, In q (live h') <-> In q (live h) /\ ~ In q (ats (list_ptrs l)).
Proof. unfold h_free. destruct (_ <? _); [discriminate|]. intros H. apply free_ptrs_inv in H. tauto. Qed.
Lemma h_free_bad l h : (forall h', h_free l h <> Ok h') -> h_free l h = Err EUB.
Proof. unfold h_free. destruct (_ <? _); auto. apply free_ptrs_bad. Qed.

(** two lists that name the same block cannot both be freed *)
Lemma shared_bad l1 l2 h h1 p : h_free l1 h = Ok h1 -> In (At p) (list_ptrs l1) -> In (At p) (list_ptrs l2) -> h_free l2 h1 = Err EUB.
Proof.
  intros H I1 I2. apply h_free_bad. intros h2 H2. apply h_free_inv in H as (_ & _ & _ & L). apply h_free_inv in H2 as (_ & _ & I & _).
  apply in_ats in I1, I2. apply I in I2. apply L in I2. tauto.
Qed.
(** a list that names a block twice cannot be freed *)
Lemma twice_bad l h : ~ NoDup (ats (list_ptrs l)) -> h_free l h = Err EUB.
Proof. intros H. apply h_free_bad. intros h' E. apply h_free_inv in E. tauto. Qed.
Lemma wild_bad l h : In Wild (list_ptrs l) -> h_free l h = Err EUB.
Proof. intros H. apply h_free_bad. intros h' E. apply h_free_inv in E. tauto. Qed.

(** *** a list under construction *)
Definition filled (c : hcell) : Prop := (exists p, c_rel c = At p) /\ (exists p, c_arc c = At p) /\ (exists p, c_tgt c = At p) /\ c_pad c = Null.
Definition owned (l : hlist) (fc : list hcell) : list nat := h_self l :: ats (flat_map cell_ptrs fc).
Record state (n : Z) (h0 h : heap) (l : hlist) (fc rest : list hcell) (j : nat) : Prop := {
  st_cells : h_cells l = fc ++ rest; st_full : h_full l = zlen fc; st_total : h_total l = n * 2 ^ Z.of_nat j;
  st_room : h_full l <= h_total l <= zlen (h_cells l);
  st_filled : Forall filled fc;
  st_zero : j = O -> rest = repeat null_cell (length rest) /\ zlen (h_cells l) = n;
  st_more : (0 < j)%nat -> rest = repeat wild_cell (length rest) /\ n * 2 ^ (Z.of_nat j - 1) <= h_full l;
  st_nodup : NoDup (owned l fc);
  st_range : Forall (fun p => next h0 <= p < next h)%nat (owned l fc);
  st_live : forall p, In p (live h) <-> In p (live h0) \/ In p (owned l fc);
  st_sane : sane h0 }.

Lemma create_state n h : 2 <= n -> sane h -> exists h1 l, h_create n h = Ok (Some (h1, l)) /\ state n h h1 l [] (repeat null_cell (Z.to_nat n)) 0.
Proof.
  intros Hn Hs. unfold h_create. replace (n <? 1) with false by lia. replace (n <? 2) with false by lia. cbn [malloc]. do 2 eexists. split; [reflexivity|].
  constructor; cbn [h_cells h_full h_total h_self next live owned ats flat_map]; auto.
  - lia.
  - unfold zlen. rewrite repeat_length. lia.
  - intros _. unfold zlen. rewrite !repeat_length. split; [reflexivity|lia].
  - intros C; lia.
  - constructor; [intros []|constructor].
  - constructor; [cbn; lia|constructor].
  - intros p. cbn. tauto.
Qed.

Lemma set_cell_at fc x rest c : set_cell (length fc) c (fc ++ x :: rest) = Some ((fc ++ [c]) ++ rest).
Proof. induction fc as [|y fc IH]; cbn [app length set_cell]; [reflexivity|]. rewrite IH. reflexivity. Qed.
Lemma repeat_inv {A} (a : A) x r n : x :: r = repeat a n -> r = repeat a (length r).
Proof. destruct n; [discriminate|]. cbn [repeat]. intros H. assert (r = repeat a n) as -> by congruence. rewrite repeat_length. reflexivity. Qed.

Lemma owned_snoc l fc p1 p2 p3 : owned l (fc ++ [{| c_rel := At p1; c_arc := At p2; c_tgt := At p3; c_pad := Null |}]) = owned l fc ++ [p1; p2; p3].
Proof. unfold owned. rewrite flat_map_app, ats_app. reflexivity. Qed.
Lemma pow_S n j : n * 2 ^ Z.of_nat (S j) = n * 2 ^ Z.of_nat j * 2.
Proof. rewrite Nat2Z.inj_succ, Z.pow_succ_r by lia. ring. Qed.

Lemma firstn_repeat_ {A} (a : A) n m : firstn n (repeat a m) = repeat a (Nat.min n m).
Proof. revert m. induction n as [|n IH]; intros [|m]; cbn [firstn repeat Nat.min]; auto. f_equal. apply IH. Qed.
(** the step that stores the strings *)
Lemma store_state n h0 h l fc rest j : 2 <= n -> state n h0 h l fc rest j -> zlen fc < h_total l ->
  exists s, set_cell (Z.to_nat (h_full l)) {| c_rel := At (next h); c_arc := At (S (next h)); c_tgt := At (S (S (next h))); c_pad := Null |} (h_cells l) = Some s /\
    exists fc' rest', length fc' = S (length fc) /\
      state n h0 {| next := S (S (S (next h))); live := S (S (next h)) :: S (next h) :: next h :: live h |}
        {| h_self := h_self l; h_total := h_total l; h_full := h_full l + 1; h_cells := s |} fc' rest' j.
Proof.
  intros Hn [C F T R Fi Z0 M ND Rg Lv Sn] Hr. destruct rest as [|x rest].
  { rewrite C, app_nil_r in R. lia. }
  rewrite F, C. unfold zlen at 1. rewrite Nat2Z.id, set_cell_at. eexists. split; [reflexivity|].
  exists (fc ++ [{| c_rel := At (next h); c_arc := At (S (next h)); c_tgt := At (S (S (next h))); c_pad := Null |}]), rest.
  split; [rewrite app_length; cbn [length]; lia|].
  assert (Len : zlen ((fc ++ [{| c_rel := At (next h); c_arc := At (S (next h)); c_tgt := At (S (S (next h))); c_pad := Null |}]) ++ rest) = zlen (h_cells l)).
  { rewrite C. unfold zlen. rewrite !app_length. cbn [length]. lia. }
  assert (Zl : forall c, zlen (fc ++ [c]) = zlen fc + 1) by (intros; rewrite zlen_app; reflexivity).
  constructor; cbn [h_cells h_full h_total h_self next live]; auto.
  - lia.
  - rewrite Forall_app. split; [exact Fi|]. constructor; [|constructor]. repeat split; cbn; eauto.
  - intros J. destruct (Z0 J) as [A B]. split; [|lia]. apply (repeat_inv _ _ _ _ A).
  - intros J. destruct (M J) as [A B]. split; [apply (repeat_inv _ _ _ _ A)|lia].
  - change (owned {| h_self := h_self l; h_total := h_total l; h_full := zlen fc + 1; h_cells := (fc ++ [{| c_rel := At (next h); c_arc := At (S (next h)); c_tgt := At (S (S (next h))); c_pad := Null |}]) ++ rest |})
      with (owned l). rewrite owned_snoc.
    rewrite Forall_forall in Rg.
    apply (Permutation_NoDup (l := [next h; S (next h); S (S (next h))] ++ owned l fc)); [apply Permutation_app_comm|].
    cbn [app]. do 3 (apply NoDup_cons; [cbn [In]; intros Q; repeat (destruct Q as [Q|Q]; [lia|]); apply Rg in Q; lia|]). exact ND.
  - change (owned {| h_self := h_self l; h_total := h_total l; h_full := zlen fc + 1; h_cells := (fc ++ [{| c_rel := At (next h); c_arc := At (S (next h)); c_tgt := At (S (S (next h))); c_pad := Null |}]) ++ rest |})
      with (owned l). rewrite owned_snoc, Forall_app.
    assert (next h0 <= next h)%nat. { inversion Rg; subst. lia. }
    split; [eapply Forall_impl; [|exact Rg]; cbv beta; lia|]. repeat constructor; lia.
  - intros p. change (owned {| h_self := h_self l; h_total := h_total l; h_full := zlen fc + 1; h_cells := (fc ++ [{| c_rel := At (next h); c_arc := At (S (next h)); c_tgt := At (S (S (next h))); c_pad := Null |}]) ++ rest |})
      with (owned l). rewrite owned_snoc, in_app_iff. cbn [In]. rewrite Lv. tauto.
Qed.

(** a full list grows *)
Lemma grow_state n h0 h l fc rest j : 2 <= n -> state n h0 h l fc rest j -> h_total l = zlen fc ->
  exists h1, free_block (h_self l) h = Ok h1 /\
    exists rest', state n h0 {| next := S (next h1); live := next h1 :: live h1 |}
      {| h_self := next h1; h_total := h_total l * 2; h_full := h_full l;
         h_cells := firstn (Z.to_nat (h_total l * 2 + 1)) (h_cells l) ++ repeat wild_cell (Z.to_nat (h_total l * 2 + 1) - length (h_cells l)) |} fc rest' (S j).
Proof.
  intros Hn [C F T R Fi Z0 M ND Rg Lv Sn] Ht.
  assert (Hself : In (h_self l) (live h)) by (apply Lv; right; left; reflexivity).
  rewrite (free_block_ok _ _ Hself). eexists. split; [reflexivity|]. cbn [next live].
  assert (Hr : rest = repeat wild_cell (length rest)).
  { destruct j as [|j]; [|apply M; lia]. destruct (Z0 eq_refl) as [_ B]. rewrite T in Ht. rewrite C in B. cbn [Z.of_nat] in Ht. rewrite Z.pow_0_r in Ht. rewrite zlen_app in B.
    pose proof (zlen_nonneg rest). assert (Z : zlen rest = 0) by lia. unfold zlen in Z. destruct rest; [reflexivity|cbn [length] in Z; lia]. }
  exists (firstn (Z.to_nat (h_total l * 2 + 1) - length fc) rest ++ repeat wild_cell (Z.to_nat (h_total l * 2 + 1) - length (h_cells l))).
  pose proof (zlen_nonneg fc) as Zf.
  constructor; cbn [h_cells h_full h_total h_self next live]; auto.
  - rewrite C, firstn_app, app_assoc. f_equal. f_equal. apply firstn_all2. unfold zlen in *. lia.
  - rewrite T, pow_S. reflexivity.
  - split; [lia|]. unfold zlen. rewrite app_length, firstn_length, repeat_length. lia.
  - discriminate.
  - intros _. split.
    + rewrite Hr. rewrite firstn_repeat_. rewrite <- repeat_app, repeat_length. reflexivity.
    + replace (Z.of_nat (S j) - 1) with (Z.of_nat j) by lia. lia.
  - unfold owned in *. cbn [h_self]. inversion ND; subst. constructor; auto. inversion Rg; subst. rewrite Forall_forall in H4. intros Q. apply H4 in Q. lia.
  - unfold owned in *. cbn [h_self]. inversion Rg; subst. constructor; [lia|]. eapply Forall_impl; [|eassumption]. cbv beta. lia.
  - intros p. unfold owned in *. cbn [h_self In]. rewrite in_live_free, Lv. cbn [In]. inversion ND as [|? ? N1 N2]; subst. inversion Rg as [|? ? G1 G2]; subst. unfold sane in Sn. rewrite Forall_forall in Sn.
    split.
    + intros [A|[[A|[A|A]] B]]; auto. congruence.
    + intros [A|[A|A]]; auto; right; (split; [auto|]); intros ->; [apply Sn in A; lia|auto].
Qed.

Definition strict (n : Z) (l : hlist) (j : nat) : Prop := (0 < j)%nat -> n * 2 ^ (Z.of_nat j - 1) < h_full l.
Lemma add_state n h0 h l fc rest j lk tg : 2 <= n -> state n h0 h l fc rest j -> strict n l j -> zlen fc < 2 ^ 30 -> lk && negb tg = false ->
  exists h' l' fc' rest' j', h_add lk tg Null h l = Ok (0, (h', l')) /\ state n h0 h' l' fc' rest' j' /\ strict n l' j' /\ zlen fc' = zlen fc + 1.
Proof.
  intros Hn S Hst Hlen Hok. unfold h_add. rewrite Hok. change (2 ^ 30) with 1073741824 in Hlen.
  pose proof (st_full _ _ _ _ _ _ _ S) as F. pose proof (st_room _ _ _ _ _ _ _ S) as R.
  assert (Fin : forall h1 l1 rest1 j1, state n h0 h1 l1 fc rest1 j1 -> zlen fc < h_total l1 ->
    exists h' l' fc' rest' j', (let '(p1, h2) := malloc h1 in let '(p2, h3) := malloc h2 in let '(p3, h4) := malloc h3 in
      match set_cell (Z.to_nat (h_full l1)) {| c_rel := At p1; c_arc := At p2; c_tgt := At p3; c_pad := Null |} (h_cells l1) with
      | None => Err EUB
      | Some s => Ok (0, (h4, {| h_self := h_self l1; h_total := h_total l1; h_full := h_full l1 + 1; h_cells := s |}))
      end) = Ok (0, (h', l')) /\ state n h0 h' l' fc' rest' j' /\ strict n l' j' /\ zlen fc' = zlen fc + 1).
  { intros h1 l1 rest1 j1 S1 Hr. destruct (store_state n h0 h1 l1 fc rest1 j1 Hn S1 Hr) as (s & E & fc' & rest' & L & S').
    cbn [malloc next live]. rewrite E. do 5 eexists. split; [reflexivity|]. split; [exact S'|]. split.
    - intros J. cbn [h_full]. pose proof (st_more _ _ _ _ _ _ _ S1 J). lia.
    - unfold zlen. lia. }
  destruct (Z.leb_spec (h_total l) (h_full l)) as [G|G].
  - replace (INT_MAX <? h_total l * 2) with false by (unfold INT_MAX; lia).
    destruct (grow_state n h0 h l fc rest j Hn S ltac:(lia)) as (h1 & E & rest' & S').
    cbv zeta. rewrite E. cbn [bind malloc]. apply (Fin _ _ _ _ S'). cbn [h_total]. pose proof (st_total _ _ _ _ _ _ _ S). pose proof (zlen_nonneg fc).
    assert (1 <= 2 ^ Z.of_nat j) by (pose proof (Z.pow_pos_nonneg 2 (Z.of_nat j)); lia). nia.
  - cbn [bind]. apply (Fin _ _ _ _ S). lia.
Qed.

Lemma accepted_flags q : accepted q = negb (is_link q && negb (has_tgt q)).
Proof. unfold accepted, is_link, has_tgt. destruct (q_type q), (q_tgt q); reflexivity. Qed.

Lemma adds_state n h0 qs : 2 <= n -> forall h l fc rest j, state n h0 h l fc rest j -> strict n l j -> zlen fc + zlen qs < 2 ^ 30 ->
  exists h' l' fc' rest' j', h_adds qs h l = Ok (h', l') /\ state n h0 h' l' fc' rest' j' /\ strict n l' j' /\
    zlen fc' = zlen fc + zlen (filter accepted qs).
Proof.
  intros Hn. induction qs as [|q qs IH]; intros h l fc rest j S St L; cbn [h_adds filter].
  - exists h, l, fc, rest, j. change (zlen (@nil request)) with 0. rewrite Z.add_0_r. auto.
  - rewrite zlen_cons in L. pose proof (zlen_nonneg qs). unfold h_request. rewrite accepted_flags. destruct (is_link q && negb (has_tgt q)) eqn:Q; cbn [negb].
    + unfold h_add. rewrite Q. cbn [bind]. apply IH with (fc := fc) (rest := rest) (j := j); auto; lia.
    + destruct (add_state n h0 h l fc rest j _ _ Hn S St ltac:(lia) Q) as (h1 & l1 & fc1 & rest1 & j1 & -> & S1 & St1 & L1). cbn [bind].
      destruct (IH h1 l1 fc1 rest1 j1 S1 St1 ltac:(lia)) as (h2 & l2 & fc2 & rest2 & j2 & -> & S2 & St2 & L2).
      exists h2, l2, fc2, rest2, j2. repeat (split; [auto|]). rewrite zlen_cons. lia.
Qed.

(** such a list can be freed exactly when no slot is left over after growing *)
Definition no_gap (n k : Z) : Prop := k <= n \/ exists j, 0 <= j /\ k = n * 2 ^ j.

Lemma nulls_ats cs : Forall (fun c => c = null_cell) cs -> ats (flat_map cell_ptrs cs) = [].
Proof. induction 1 as [|c cs -> Hcs IH]; [reflexivity|]. exact IH. Qed.
Lemma free_state n h0 h l fc rest j : 2 <= n -> state n h0 h l fc rest j -> strict n l j ->
  (no_gap n (zlen fc) -> exists h', h_free l h = Ok h' /\ forall p, In p (live h') <-> In p (live h0)) /\
  (~ no_gap n (zlen fc) -> h_free l h = Err EUB).
Proof.
  intros Hn S St. pose proof S as [C F T R Fi Z0 M ND Rg Lv Sn].
  assert (Hpow : forall i, (0 <= i) -> 1 <= 2 ^ i) by (intros i Hi; pose proof (Z.pow_pos_nonneg 2 i); lia).
  assert (Hfn : firstn (Z.to_nat (h_total l)) (h_cells l) = fc ++ firstn (Z.to_nat (h_total l) - length fc) rest).
  { rewrite C, firstn_app. f_equal. apply firstn_all2. unfold zlen in *. lia. }
  split.
  - intros Hg. assert (Hrest : Forall (fun c => c = null_cell) (firstn (Z.to_nat (h_total l) - length fc) rest)).
    { destruct j as [|j].
      - destruct (Z0 eq_refl) as [A _]. rewrite A. rewrite firstn_repeat_. apply Forall_forall. intros c Hc. apply repeat_spec in Hc. exact Hc.
      - assert (h_total l = zlen fc).
        { specialize (St ltac:(lia)). replace (Z.of_nat (Datatypes.S j) - 1) with (Z.of_nat j) in St by lia. rewrite F in St. rewrite pow_S in T.
          pose proof (Hpow (Z.of_nat j) ltac:(lia)).
          destruct Hg as [Hg|(i & Hi & Hg)]; [nia|].
          assert (i = Z.of_nat j + 1).
          { destruct (Z.lt_trichotomy i (Z.of_nat j + 1)) as [Q|[Q|Q]]; [|exact Q|].
            - assert (2 ^ i <= 2 ^ Z.of_nat j) by (apply Z.pow_le_mono_r; lia). nia.
            - assert (2 ^ (Z.of_nat j + 2) <= 2 ^ i) by (apply Z.pow_le_mono_r; lia). rewrite Z.pow_add_r in * by lia. change (2 ^ 2) with 4 in *. nia. }
          subst i. rewrite Z.pow_add_r in Hg by lia. change (2 ^ 1) with 2 in Hg. lia. }
        replace (Z.to_nat (h_total l) - length fc)%nat with 0%nat by (unfold zlen in *; lia). cbn [firstn]. constructor. }
    assert (Hats : ats (list_ptrs l) = ats (flat_map cell_ptrs fc) ++ [h_self l]).
    { unfold list_ptrs. rewrite Hfn, flat_map_app, !ats_app. rewrite (nulls_ats _ Hrest), app_nil_r. reflexivity. }
    destruct (h_free_ok l h) as (h' & E & L).
    + lia.
    + unfold list_ptrs. rewrite in_app_iff, in_flat_map. intros [(c & Hc & Hw)|[Q|[]]]; [|discriminate]. rewrite Hfn, in_app_iff in Hc. destruct Hc as [Hc|Hc].
      * rewrite Forall_forall in Fi. destruct (Fi c Hc) as ((p1 & E1) & (p2 & E2) & (p3 & E3) & E4). cbn [cell_ptrs In] in Hw. rewrite E1, E2, E3, E4 in Hw.
        repeat (destruct Hw as [Hw|Hw]; [discriminate|]). exact Hw.
      * rewrite Forall_forall in Hrest. apply Hrest in Hc. subst c. cbn in Hw. repeat (destruct Hw as [Hw|Hw]; [discriminate|]). exact Hw.
    + rewrite Hats. apply (Permutation_NoDup (l := owned l fc)); [|exact ND]. unfold owned. change (h_self l :: ats (flat_map cell_ptrs fc)) with ([h_self l] ++ ats (flat_map cell_ptrs fc)). apply Permutation_app_comm.
    + intros p Hp. apply Lv. right. rewrite Hats, in_app_iff in Hp. unfold owned. cbn [In] in *. tauto.
    + exists h'. split; [exact E|]. intros p. rewrite L, Lv, Hats, in_app_iff. unfold owned in *. cbn [In]. unfold sane in Sn. rewrite Forall_forall in Sn. split; [tauto|].
      intros Hp. split; [auto|]. rewrite Forall_forall in Rg. intros Q. assert (In p (h_self l :: ats (flat_map cell_ptrs fc))) as Q' by (cbn [In]; tauto). apply Rg in Q'. apply Sn in Hp. lia.
  - intros Hg. apply wild_bad. destruct j as [|j].
    { destruct Hg. left. rewrite T in R. cbn [Z.of_nat] in R. rewrite Z.pow_0_r in R. lia. }
    destruct (M ltac:(lia)) as [A _].
    assert (Hlt : zlen fc < h_total l).
    { destruct (Z.eq_dec (zlen fc) (h_total l)) as [Q|Q]; [|lia]. destruct Hg. right. exists (Z.of_nat (Datatypes.S j)). split; [lia|]. congruence. }
    unfold list_ptrs. rewrite in_app_iff, in_flat_map. left. exists wild_cell. split; [|cbn; auto]. rewrite Hfn, in_app_iff. right. rewrite A, firstn_repeat_.
    assert (zlen (h_cells l) = zlen fc + zlen rest) by (rewrite C; apply zlen_app).
    destruct (Nat.min (Z.to_nat (h_total l) - length fc) (length rest)) eqn:Q; [unfold zlen in *; lia|]. left. reflexivity.
Qed.

Lemma build_free n qs h : 2 <= n -> sane h -> zlen qs < 2 ^ 30 ->
  exists h1 l, h_build n qs h = Ok (Some (h1, l)) /\
    (no_gap n (zlen (filter accepted qs)) -> exists h2, h_free l h1 = Ok h2 /\ forall p, In p (live h2) <-> In p (live h)) /\
    (~ no_gap n (zlen (filter accepted qs)) -> h_free l h1 = Err EUB).
Proof.
  intros Hn Hs Hq. destruct (create_state n h Hn Hs) as (h1 & l & E & S). unfold h_build. rewrite E. cbn [bind].
  destruct (adds_state n h qs Hn h1 l _ _ _ S) as (h2 & l2 & fc & rest & j & E2 & S2 & St2 & L2).
  - intros J. lia.
  - change (zlen (@nil hcell)) with 0. lia.
  - change (zlen (@nil hcell)) with 0 in L2. rewrite Z.add_0_l in L2. rewrite E2. cbn [bind]. exists h2, l2. split; [reflexivity|]. rewrite <- L2. eapply free_state; eauto.
Qed.

(** *** the split list *)
(** [out] holds the cells [cs], in its allocation, and its block is allocated *)
Definition held (h : heap) (out : hlist) (cs : list hcell) : Prop :=
  h_full out = zlen cs /\ (exists rest, h_cells out = cs ++ rest) /\ h_full out <= h_total out <= zlen (h_cells out) /\ 2 <= h_total out /\ In (h_self out) (live h).

Lemma add_held lk pad h out cs : held h out cs -> zlen cs < 2 ^ 30 ->
  exists h1 out1 c, h_add lk true pad h out = Ok (0, (h1, out1)) /\ held h1 out1 (cs ++ [c]) /\ c_pad c = pad.
Proof.
  intros (F & (rest & C) & R & T & L) Hn. change (2 ^ 30) with 1073741824 in Hn. unfold h_add. rewrite andb_false_r.
  assert (Fin : forall h1 l1 rest1, h_full l1 = zlen cs -> h_cells l1 = cs ++ rest1 -> h_full l1 < h_total l1 <= zlen (h_cells l1) -> 2 <= h_total l1 -> In (h_self l1) (live h1) ->
    exists h' l' c, (let '(p1, h2) := malloc h1 in let '(p2, h3) := malloc h2 in let '(p3, h4) := malloc h3 in
      match set_cell (Z.to_nat (h_full l1)) {| c_rel := At p1; c_arc := At p2; c_tgt := At p3; c_pad := pad |} (h_cells l1) with
      | None => Err EUB
      | Some s => Ok (0, (h4, {| h_self := h_self l1; h_total := h_total l1; h_full := h_full l1 + 1; h_cells := s |}))
      end) = Ok (0, (h', l')) /\ held h' l' (cs ++ [c]) /\ c_pad c = pad).
  { intros h1 l1 rest1 F1 C1 R1 T1 L1. cbn [malloc next live]. rewrite F1, C1. unfold zlen at 1. rewrite Nat2Z.id.
    destruct rest1 as [|x rest1]; [rewrite C1, app_nil_r in R1; lia|]. rewrite set_cell_at. do 2 eexists. exists {| c_rel := At (next h1); c_arc := At (S (next h1)); c_tgt := At (S (S (next h1))); c_pad := pad |}. split; [reflexivity|]. split; [|reflexivity].
    unfold held; cbn [h_full h_cells h_total h_self live]. rewrite C1 in R1. rewrite !zlen_app in *. change (zlen [{| c_rel := At (next h1); c_arc := At (S (next h1)); c_tgt := At (S (S (next h1))); c_pad := pad |}]) with 1.
    rewrite zlen_cons in R1. split; [lia|]. split; [eexists; reflexivity|]. split; [lia|]. split; [lia|]. cbn [In]. auto. }
  destruct (Z.leb_spec (h_total out) (h_full out)) as [G|G].
  - replace (INT_MAX <? h_total out * 2) with false by (unfold INT_MAX; lia). rewrite (free_block_ok _ _ L). cbn [bind malloc]. eapply Fin; cbn [h_full h_cells h_total h_self live]; auto.
    + rewrite C, firstn_app. rewrite firstn_all2 by (unfold zlen in *; lia). rewrite <- app_assoc. reflexivity.
    + split; [lia|]. unfold zlen. rewrite app_length, firstn_length, repeat_length. lia.
    + lia.
    + left. reflexivity.
  - cbn [bind]. eapply Fin; eauto. lia.
Qed.
Lemma copies_held k lk pad : forall h out cs, held h out cs -> zlen cs + Z.of_nat k < 2 ^ 30 ->
  exists h1 out1 ds, h_copies k lk pad h out = Ok (h1, out1) /\ held h1 out1 (cs ++ ds) /\ length ds = k /\ Forall (fun d => c_pad d = pad) ds.
Proof.
  induction k as [|k IH]; intros h out cs H Hn; cbn [h_copies].
  - exists h, out, []. rewrite app_nil_r. auto.
  - destruct (add_held lk pad h out cs H ltac:(lia)) as (h1 & o1 & c & -> & H1 & E). cbn [bind].
    destruct (IH h1 o1 _ H1) as (h2 & o2 & ds & -> & H2 & L & Fa). { rewrite zlen_app. change (zlen [c]) with 1. lia. }
    exists h2, o2, (c :: ds). rewrite <- app_assoc in H2. cbn [app length] in *. auto.
Qed.

Section Split.
Variables (blk P : Z) (pad : bytes).
Hypothesis HP : 0 < P.

Lemma set_pad_name sp at_ e e1 : set_pad blk pad sp at_ e = Ok (Some e1) ->
  l_pname e1 = if blk <=? sp then Some pad else l_pname e.
Proof.
  unfold set_pad. destruct (blk <=? sp); [|congruence]. destruct (compute_hdr_size pad (l_tgt e) sp) as [x|]; [|discriminate]. cbn [bind]. destruct (sp <? x); [discriminate|].
  destruct (compute_hdr_size pad (l_tgt e) (sp - x)) as [y|]; [|discriminate]. cbn [bind]. destruct (y =? x); [|discriminate]. intros E.
  assert (E' : forall a c : lent, Ok (Some a) = Ok (Some c) -> a = c) by congruence. apply E' in E. subst e1. reflexivity.
Qed.
Lemma whole_frags_names e nt n : forall j bkt, Forall (fun f => l_pname f = l_pname e /\ l_nfrag f = nt) (whole_frags P e nt n j bkt).
Proof. induction n as [|n IH]; intros j bkt; cbn [whole_frags]; constructor; auto. destruct (j =? 0); split; reflexivity. Qed.

Lemma place_one_names p e e1 fs p1 : place_one blk P pad p e = Ok (Some (e1, fs, p1)) ->
  l_pname e1 = (if pads blk P p e then Some pad else l_pname e) /\ fs <> [] /\ Forall (fun f => l_pname f = l_pname e1 /\ l_nfrag f = zlen fs) fs.
Proof.
  unfold place_one, pads. destruct (l_hdr e <=? 0); [discriminate|]. cbv zeta. set (bs := blocked_up blk (sum_size e)).
  assert (E' : forall a c : lent * list lent * lpos, Ok (Some a) = Ok (Some c) -> a = c) by congruence.
  destruct (Z.leb_spec bs P) as [Hb|Hb].
  - destruct (w_rank p + bs <=? P).
    + intros E. apply E' in E. assert (e1 = set_place e (w_all p) 0 (w_bucket p)) as -> by congruence.
      assert (fs = [frag (set_place e (w_all p) 0 (w_bucket p)) (l_size e) (w_all p + l_hdr e) 0 1 (w_bucket p)]) as -> by congruence.
      split; [reflexivity|]. split; [discriminate|]. constructor; [split; reflexivity|constructor].
    + destruct (set_pad blk pad ((w_bucket p + 1) * P - w_all p) (w_all p) (set_loc e ((w_bucket p + 1) * P))) as [[e0|]|] eqn:Sp; cbn [bind]; [|discriminate|discriminate].
      apply set_pad_name in Sp. intros E. apply E' in E.
      assert (e1 = set_place e0 ((w_bucket p + 1) * P) 0 (w_bucket p + 1)) as -> by congruence.
      assert (fs = [frag (set_place e0 ((w_bucket p + 1) * P) 0 (w_bucket p + 1)) (l_size e) ((w_bucket p + 1) * P + l_hdr e) 0 1 (w_bucket p + 1)]) as -> by congruence.
      split; [exact Sp|]. split; [discriminate|]. constructor; [split; reflexivity|constructor].
  - set (bkt := if w_all p mod P =? 0 then w_all p / P else w_all p / P + 1).
    destruct (set_pad blk pad (bkt * P - w_all p) (w_all p) (set_loc e (bkt * P))) as [[e0|]|] eqn:Sp; cbn [bind]; [|discriminate|discriminate].
    apply set_pad_name in Sp. assert (Hnw : 1 <= bs / P) by (apply Z.div_le_lower_bound; lia).
    assert (Lw : forall nt, length (whole_frags P e0 nt (Z.to_nat (bs / P)) 0 bkt) = Z.to_nat (bs / P)) by (intros; apply whole_frags_len).
    destruct (negb (bs mod P =? 0)); intros E; apply E' in E; assert (e1 = e0) as -> by congruence; (split; [exact Sp|]).
    + match type of E with (_, ?F, _) = _ => assert (EF : fs = F) by congruence end. rewrite EF.
      assert (Zl : forall f, zlen (whole_frags P e0 (bs / P + 1) (Z.to_nat (bs / P)) 0 bkt ++ [f]) = bs / P + 1).
      { intros f. rewrite zlen_app. unfold zlen. rewrite Lw. cbn [length]. lia. }
      split; [destruct (whole_frags P e0 (bs / P + 1) (Z.to_nat (bs / P)) 0 bkt); discriminate|]. rewrite Zl.
      rewrite Forall_app. split; [apply whole_frags_names|]. constructor; [split; reflexivity|constructor].
    + match type of E with (_, ?F, _) = _ => assert (EF : fs = F) by congruence end. rewrite EF.
      assert (Zl : zlen (whole_frags P e0 (bs / P) (Z.to_nat (bs / P)) 0 bkt) = bs / P) by (unfold zlen; rewrite Lw; lia).
      split; [intros Q; rewrite Q in Zl; change (zlen (@nil lent)) with 0 in Zl; lia|]. rewrite Zl. apply whole_frags_names.
Qed.

Definition pad_ptrs (ds : list hcell) : list ptr := map c_pad ds.
Lemma pads_dup q ds : Forall (fun d => c_pad d = At q) ds -> (2 <= length ds)%nat -> ~ NoDup (ats (flat_map cell_ptrs ds)).
Proof.
  destruct ds as [|a [|c ds]]; cbn [length]; try lia. intros H _. inversion H as [|? ? Ha H']; subst. inversion H' as [|? ? Hc _]; subst.
  change (flat_map cell_ptrs (a :: c :: ds)) with (cell_ptrs a ++ cell_ptrs c ++ flat_map cell_ptrs ds). rewrite !ats_app. intros N.
  assert (I1 : In q (ats (cell_ptrs a))) by (apply in_ats; rewrite <- Ha; cbn; auto).
  assert (I2 : In q (ats (cell_ptrs c) ++ ats (flat_map cell_ptrs ds))) by (apply in_app_iff; left; apply in_ats; rewrite <- Hc; cbn; auto).
  clear -N I1 I2. induction (ats (cell_ptrs a)) as [|x xs IH]; [destruct I1|]. cbn [app] in N. inversion N as [|? ? N1 N2]; subst.
  destruct I1 as [->|I1]; [apply N1; apply in_app_iff; auto|auto].
Qed.
Lemma nodup_app_l {A} (xs ys : list A) : NoDup (xs ++ ys) -> NoDup xs /\ NoDup ys.
Proof. induction xs as [|x xs IH]; cbn [app]; intros H; [split; [constructor|auto]|]. inversion H as [|? ? N1 N2]; subst. apply IH in N2 as [A1 A2]. split; auto. constructor; auto. intros C; apply N1; apply in_app_iff; auto. Qed.


Lemma place_held l : forall p cs h out ocs es fs p2,
  held h out ocs -> (length l <= length cs)%nat -> Forall (fun e => l_pname e = None) l ->
  place_all blk P pad p l = Ok (Some (es, fs, p2)) -> zlen ocs + zlen fs < 2 ^ 30 ->
  exists h3 cs1 out2 ds, h_place blk P pad p l cs h out = Ok (Some (h3, (cs1, out2))) /\ held h3 out2 (ocs ++ ds) /\ length ds = length fs /\ length cs1 = length cs /\
    (forall i e1, nth_error es i = Some e1 -> l_pname e1 <> None -> exists c q, nth_error cs1 i = Some c /\ c_pad c = At q /\ In (At q) (pad_ptrs ds)) /\
    (forall i f, nth_error fs i = Some f -> l_pname f <> None -> 2 <= l_nfrag f -> ~ NoDup (ats (flat_map cell_ptrs ds))).
Proof.
  induction l as [|e l IH]; intros p cs h out ocs es fs p2 Hh Hl Hn E Hz; cbn [place_all h_place] in *.
  - assert (es = [] /\ fs = []) as [-> ->] by (split; congruence). exists h, cs, out, []. rewrite app_nil_r. do 4 (split; [auto|]). split; intros [|i]; discriminate.
  - destruct cs as [|c cs]; [cbn [length] in Hl; lia|]. inversion Hn as [|? ? Hn1 Hn2]; subst.
    destruct (place_one blk P pad p e) as [[[[e1 fs1] p1]|]|] eqn:E1; cbn [bind] in E; [|discriminate|discriminate].
    destruct (place_all blk P pad p1 l) as [[[[es2 fs2] p3]|]|] eqn:E2; cbn [bind] in E; [|discriminate|discriminate].
    assert (es = e1 :: es2 /\ fs = fs1 ++ fs2) as [-> ->] by (split; congruence). cbn [bind].
    apply place_one_names in E1 as (N1 & N2 & N3). rewrite Hn1 in N1. rewrite zlen_app in Hz. pose proof (zlen_nonneg fs2) as Hf2.
    set (ch := if pads blk P p e then let '(q, h1) := malloc h in (with_pad c (At q), h1) else (c, h)).
    assert (Hch : held (snd ch) out ocs).
    { subst ch. destruct (pads blk P p e); [|exact Hh]. destruct Hh as (A1 & A2 & A3 & A4 & A5). repeat (split; auto; try lia). cbn. auto. }
    assert (Hpad : l_pname e1 <> None -> exists q, c_pad (fst ch) = At q).
    { subst ch. destruct (pads blk P p e); [|congruence]. intros _. cbn. eauto. }
    destruct ch as [c1 h1]. cbn [fst snd] in *.
    destruct (copies_held (length fs1) (link_entry e) (c_pad c1) h1 out ocs Hch) as (h2 & o1 & ds1 & -> & H1 & L1 & F1). { unfold zlen in *. lia. }
    cbn [bind]. destruct (IH p1 cs h2 o1 (ocs ++ ds1) es2 fs2 p3 H1) as (h3 & cs1 & o2 & ds2 & -> & H2 & L2 & L2' & A & B); auto.
    { cbn [length] in Hl. lia. }
    { rewrite zlen_app. unfold zlen in *. lia. }
    cbn [bind]. exists h3, (c1 :: cs1), o2, (ds1 ++ ds2). rewrite app_assoc. do 4 (split; [auto; try (rewrite ?app_length; cbn [length]; lia)|]). split.
    + intros [|i] x Hx Hx'; cbn [nth_error] in *.
      * assert (x = e1) as -> by congruence. destruct (Hpad Hx') as (q & Hq). exists c1, q. split; [reflexivity|]. split; [exact Hq|].
        unfold pad_ptrs. rewrite map_app, in_app_iff. left. destruct ds1 as [|d ds1]; [destruct fs1; [congruence|discriminate]|]. inversion F1; subst. left. congruence.
      * destruct (A i x Hx Hx') as (c' & q & A1 & A2 & A3). exists c', q. repeat (split; [auto|]). unfold pad_ptrs in *. rewrite map_app, in_app_iff. auto.
    + intros i f Hf Hf1 Hf2'. rewrite flat_map_app, ats_app. intros N. apply nodup_app_l in N as [Na Nb].
      destruct (Nat.lt_ge_cases i (length fs1)) as [Hi|Hi].
      * rewrite nth_error_app1 in Hf by lia. apply nth_error_In in Hf. rewrite Forall_forall in N3. destruct (N3 f Hf) as [G1 G2].
        rewrite G1 in Hf1. destruct (Hpad Hf1) as (q & Hq). rewrite Hq in F1. apply (pads_dup q ds1 F1); [unfold zlen in *; lia|exact Na].
      * rewrite nth_error_app2 in Hf by lia. apply (B _ f Hf Hf1 Hf2' Nb).
Qed.

(** without padding *)
Lemma copies_state n h0 k lk : 2 <= n -> forall h l fc rest j, state n h0 h l fc rest j -> strict n l j -> zlen fc + Z.of_nat k < 2 ^ 30 ->
  exists h' l' fc' rest' j', h_copies k lk Null h l = Ok (h', l') /\ state n h0 h' l' fc' rest' j' /\ strict n l' j' /\ zlen fc' = zlen fc + Z.of_nat k.
Proof.
  intros Hn. induction k as [|k IH]; intros h l fc rest j S St L; cbn [h_copies].
  - exists h, l, fc, rest, j. cbn [Z.of_nat]. rewrite Z.add_0_r. auto.
  - destruct (add_state n h0 h l fc rest j lk true Hn S St ltac:(lia) (andb_false_r _)) as (h1 & l1 & fc1 & rest1 & j1 & -> & S1 & St1 & L1). cbn [bind].
    destruct (IH h1 l1 fc1 rest1 j1 S1 St1 ltac:(lia)) as (h2 & l2 & fc2 & rest2 & j2 & -> & S2 & St2 & L2). exists h2, l2, fc2, rest2, j2. repeat (split; [auto|]). lia.
Qed.
Lemma place_state n h0 l : 2 <= n -> forall p cs h out fc rest j es fs p2,
  state n h0 h out fc rest j -> strict n out j -> (length l <= length cs)%nat -> Forall (fun c => c_pad c = Null) (firstn (length l) cs) ->
  Forall (fun e => l_pname e = None) l ->
  place_all blk P pad p l = Ok (Some (es, fs, p2)) -> Forall (fun e => l_pname e = None) es -> zlen fc + zlen fs < 2 ^ 30 ->
  exists h3 out2 fc' rest' j', h_place blk P pad p l cs h out = Ok (Some (h3, (cs, out2))) /\ state n h0 h3 out2 fc' rest' j' /\ strict n out2 j' /\ zlen fc' = zlen fc + zlen fs.
Proof.
  intros Hn. induction l as [|e l IH]; intros p cs h out fc rest j es fs p2 S St Hl Hc Hnn E Hes Hz; cbn [place_all h_place] in *.
  - assert (fs = []) as -> by congruence. exists h, out, fc, rest, j. change (zlen (@nil lent)) with 0. rewrite Z.add_0_r. auto.
  - destruct cs as [|c cs]; [cbn [length] in Hl; lia|]. inversion Hnn as [|? ? Hn1 Hn2]; subst. cbn [length firstn] in *. inversion Hc as [|? ? Hc1 Hc2]; subst.
    destruct (place_one blk P pad p e) as [[[[e1 fs1] p1]|]|] eqn:E1; cbn [bind] in E; [|discriminate|discriminate].
    destruct (place_all blk P pad p1 l) as [[[[es2 fs2] p3]|]|] eqn:E2; cbn [bind] in E; [|discriminate|discriminate].
    assert (es = e1 :: es2 /\ fs = fs1 ++ fs2) as [-> ->] by (split; congruence). cbn [bind].
    apply place_one_names in E1 as (N1 & N2 & N3). inversion Hes as [|? ? He1 He2]; subst. rewrite He1 in N1. destruct (pads blk P p e); [discriminate|]. cbn [bind].
    rewrite zlen_app in Hz. pose proof (zlen_nonneg fs2) as Hf2. rewrite Hc1.
    destruct (copies_state n h0 (length fs1) (link_entry e) Hn h out fc rest j S St) as (h2 & o2 & fc2 & rest2 & j2 & -> & S2 & St2 & L2). { unfold zlen in *. lia. }
    cbn [bind]. destruct (IH p1 cs h2 o2 fc2 rest2 j2 es2 fs2 p3 S2 St2) as (h3 & o3 & fc3 & rest3 & j3 & -> & S3 & St3 & L3); auto; try lia. { unfold zlen in *. lia. }
    cbn [bind]. exists h3, o3, fc3, rest3, j3. repeat (split; [auto|]). rewrite zlen_app. unfold zlen in *. lia.
Qed.
End Split.

(** the two lists after the layout *)
Lemma split_padded blk P pad l src h es fs nb : 0 < P -> Forall (fun e => l_pname e = None) l -> zlen l <= h_total src <= zlen (h_cells src) -> zlen fs < 2 ^ 30 ->
  set_offsets_and_split blk P pad l = Ok (Some (es, fs, nb)) ->
  exists h' src' out, h_split blk P pad l src h = Ok (Some (h', (src', out))) /\
    (Exists (fun e => l_pname e <> None) es ->
       (forall h1, h_free src' h' = Ok h1 -> h_free out h1 = Err EUB) /\ (forall h1, h_free out h' = Ok h1 -> h_free src' h1 = Err EUB)) /\
    (Exists (fun f => l_pname f <> None /\ 2 <= l_nfrag f) fs -> h_free out h' = Err EUB).
Proof.
  intros HP Hn Hl Hz E. unfold set_offsets_and_split in E. destruct (create_list (zlen l)) as [[cl|]|] eqn:Ec; cbn [bind] in E; [|discriminate|discriminate].
  assert (H2 : 2 <= zlen l). { unfold create_list in Ec. destruct (Z.ltb_spec (zlen l) 1); [discriminate|]. destruct (Z.ltb_spec (zlen l) 2); [discriminate|lia]. }
  destruct ((blk =? 0) || (P =? 0)) eqn:Ez; [discriminate|].
  destruct (place_all blk P pad {| w_all := 0; w_rank := 0; w_bucket := 0 |} l) as [[[[es0 fs0] p]|]|] eqn:Ep; cbn [bind] in E; [|discriminate|discriminate].
  assert (es0 = es /\ fs0 = fs) as [-> ->] by (split; congruence).
  unfold h_split, h_create. replace (zlen l <? 1) with false by lia. replace (zlen l <? 2) with false by lia. cbn [malloc bind]. rewrite Ez.
  set (out0 := {| h_self := next h; h_total := zlen l; h_full := 0; h_cells := repeat null_cell (Z.to_nat (zlen l)) |}).
  set (h1 := {| next := S (next h); live := next h :: live h |}).
  assert (H0 : held h1 out0 []).
  { unfold held, out0, h1; cbn [h_full h_cells h_total h_self live]. split; [reflexivity|]. split; [eexists; reflexivity|]. split; [|split; [lia|left; reflexivity]].
    unfold zlen. rewrite repeat_length. lia. }
  destruct (place_held blk P pad HP l {| w_all := 0; w_rank := 0; w_bucket := 0 |} (h_cells src) h1 out0 [] es fs p H0) as (h3 & cs1 & o2 & ds & -> & Hh & L1 & L2 & A & B); auto.
  { unfold zlen in *. lia. }
  cbn [bind app] in *. do 3 eexists. split; [reflexivity|].
  destruct Hh as (F & (rest & C) & R & T & _).
  assert (Hsub : forall x, In x (flat_map cell_ptrs ds) -> In x (list_ptrs o2)).
  { intros x Hx. unfold list_ptrs. rewrite in_app_iff. left. rewrite in_flat_map in *. destruct Hx as (d & Hd & Hx). exists d. split; [|exact Hx]. rewrite C, firstn_app, in_app_iff. left.
    rewrite firstn_all2; [exact Hd|]. unfold zlen in *. lia. }
  split.
  - intros Ex. apply Exists_exists in Ex as (e1 & He1 & Hp). apply In_nth_error in He1 as (i & He1). destruct (A i e1 He1 Hp) as (c & q & A1 & A2 & A3).
    assert (I2 : In (At q) (list_ptrs o2)).
    { apply Hsub. unfold pad_ptrs in A3. apply in_map_iff in A3 as (d & Hd & Hi). apply in_flat_map. exists d. split; [exact Hi|]. rewrite <- Hd. cbn. auto. }
    assert (Hes : length es = length l).
    { clear -Ep. revert Ep. generalize {| w_all := 0; w_rank := 0; w_bucket := 0 |}. revert es fs p. induction l as [|e l IH]; intros es fs p p0; cbn [place_all].
      - intros H. assert (es = []) as -> by congruence. reflexivity.
      - destruct (place_one blk P pad p0 e) as [[[[e1 fs1] p1]|]|]; cbn [bind]; [|discriminate|discriminate].
        destruct (place_all blk P pad p1 l) as [[[[es2 fs2] p3]|]|] eqn:E2; cbn [bind]; [|discriminate|discriminate]. intros H.
        assert (es = e1 :: es2) as -> by congruence. cbn [length]. f_equal. eapply IH; eauto. }
    assert (I1 : In (At q) (list_ptrs {| h_self := h_self src; h_total := h_total src; h_full := h_full src; h_cells := cs1 |})).
    { unfold list_ptrs; cbn [h_total h_cells h_self]. rewrite in_app_iff. left. apply in_flat_map. exists c. split; [|rewrite <- A2; cbn; auto].
      assert (i < length l)%nat by (rewrite <- Hes; apply nth_error_Some; congruence).
      rewrite <- (firstn_skipn (Z.to_nat (h_total src)) cs1) in A1. rewrite nth_error_app1 in A1; [apply nth_error_In in A1; exact A1|].
      rewrite firstn_length, L2. unfold zlen in *. lia. }
    split; intros h4 H4; [apply (shared_bad _ _ _ _ q H4 I1 I2)|apply (shared_bad _ _ _ _ q H4 I2 I1)].
  - intros Ex. apply Exists_exists in Ex as (f & Hf & Hp & Hk). apply In_nth_error in Hf as (i & Hf). apply twice_bad. intros N. apply (B i f Hf Hp Hk).
    unfold list_ptrs in N. rewrite C, firstn_app, firstn_all2 in N by (unfold zlen in *; lia). rewrite flat_map_app, !ats_app in N. apply nodup_app_l in N as [N _]. apply nodup_app_l in N as [N _]. exact N.
Qed.

Lemma split_plain blk P pad l src h es fs nb : 0 < P -> sane h -> Forall (fun e => l_pname e = None) l -> zlen l <= h_total src <= zlen (h_cells src) -> zlen fs < 2 ^ 30 ->
  Forall (fun c => c_pad c = Null) (firstn (length l) (h_cells src)) ->
  set_offsets_and_split blk P pad l = Ok (Some (es, fs, nb)) -> Forall (fun e => l_pname e = None) es ->
  exists h' out, h_split blk P pad l src h = Ok (Some (h', (src, out))) /\
    (no_gap (zlen l) (zlen fs) -> exists h1, h_free out h' = Ok h1 /\ forall p, In p (live h1) <-> In p (live h)) /\
    (~ no_gap (zlen l) (zlen fs) -> h_free out h' = Err EUB).
Proof.
  intros HP Hs Hn Hl Hz Hc E Hes. unfold set_offsets_and_split in E. destruct (create_list (zlen l)) as [[cl|]|] eqn:Ec; cbn [bind] in E; [|discriminate|discriminate].
  assert (H2 : 2 <= zlen l). { unfold create_list in Ec. destruct (Z.ltb_spec (zlen l) 1); [discriminate|]. destruct (Z.ltb_spec (zlen l) 2); [discriminate|lia]. }
  destruct ((blk =? 0) || (P =? 0)) eqn:Ez; [discriminate|].
  destruct (place_all blk P pad {| w_all := 0; w_rank := 0; w_bucket := 0 |} l) as [[[[es0 fs0] p]|]|] eqn:Ep; cbn [bind] in E; [|discriminate|discriminate].
  assert (es0 = es /\ fs0 = fs) as [-> ->] by (split; congruence).
  unfold h_split. destruct (create_state (zlen l) h H2 Hs) as (h1 & o & -> & S). cbn [bind]. rewrite Ez.
  destruct (place_state blk P pad HP (zlen l) h l H2 {| w_all := 0; w_rank := 0; w_bucket := 0 |} (h_cells src) h1 o _ _ _ es fs p S) as (h3 & o2 & fc & rest & j & -> & S2 & St2 & L2); auto.
  { intros J; lia. }
  { unfold zlen in *. lia. }
  cbn [bind]. exists h3, o2. split; [destruct src; reflexivity|]. change (zlen (@nil hcell)) with 0 in L2. rewrite Z.add_0_l in L2. rewrite <- L2. eapply free_state; eauto.
Qed.

(** *** agreement with Legacy.v *)
Definition alike (h : heap) (a : hlist) (l : llist) : Prop :=
  h_total a = n_total l /\ h_full a = n_full l /\ length (h_cells a) = length (slots l) /\ In (h_self a) (live h).
Lemma set_both k c e : forall cs ss, length cs = length ss ->
  match set_cell k c cs, set_slot k e ss with
  | Some cs', Some ss' => length cs' = length ss'
  | None, None => True
  | _, _ => False
  end.
Proof.
  induction k as [|k IH]; intros [|x cs] [|y ss] H; cbn [length set_cell set_slot] in *; try discriminate; auto.
  assert (H' : length cs = length ss) by lia. specialize (IH cs ss H'). destruct (set_cell k c cs), (set_slot k e ss); cbn [length]; auto.
Qed.
Lemma request_alike h a l q x : alike h a l ->
  match add_raw (Some l) q with
  | Ok (v, Some l') => exists h' a', h_request q x h a = Ok (v, (h', a')) /\ alike h' a' l'
  | Ok (v, None) => False
  | Err e => h_request q x h a = Err e
  end.
Proof.
  intros (T & F & L & S). unfold add_raw, h_request, h_add, is_link, has_tgt.
  assert (Main : match (l1 <- (if n_total l <=? n_full l then
                   if INT_MAX <? n_total l * 2 then Err EUB
                   else
                     let room := Z.to_nat (n_total l * 2 + 1) in
                     Ok {| n_total := n_total l * 2; n_full := n_full l;
                           slots := firstn room (slots l) ++ repeat None (room - length (slots l)) |}
                 else Ok l) ;;
          match set_slot (Z.to_nat (n_full l1)) (stored q) (slots l1) with
          | None => Err EUB
          | Some s => Ok (0, Some {| n_total := n_total l1; n_full := n_full l1 + 1; slots := s |})
          end) with
  | Ok (v, Some l') => exists h' a', (hl <- (if h_total a <=? h_full a then
           if INT_MAX <? h_total a * 2 then Err EUB
           else
             let room := Z.to_nat (h_total a * 2 + 1) in
             h1 <- free_block (h_self a) h ;;
             let '(p, h2) := malloc h1 in
             Ok (h2, {| h_self := p; h_total := h_total a * 2; h_full := h_full a;
                        h_cells := firstn room (h_cells a) ++ repeat wild_cell (room - length (h_cells a)) |})
         else Ok (h, a)) ;;
      let '(h1, l1) := hl in let '(p1, h2) := malloc h1 in let '(p2, h3) := malloc h2 in let '(p3, h4) := malloc h3 in
      match set_cell (Z.to_nat (h_full l1)) {| c_rel := At p1; c_arc := At p2; c_tgt := At p3; c_pad := x |} (h_cells l1) with
      | None => Err EUB
      | Some s => Ok (0, (h4, {| h_self := h_self l1; h_total := h_total l1; h_full := h_full l1 + 1; h_cells := s |}))
      end) = Ok (v, (h', a')) /\ alike h' a' l'
  | Ok (v, None) => False
  | Err e => (hl <- (if h_total a <=? h_full a then
           if INT_MAX <? h_total a * 2 then Err EUB
           else
             let room := Z.to_nat (h_total a * 2 + 1) in
             h1 <- free_block (h_self a) h ;;
             let '(p, h2) := malloc h1 in
             Ok (h2, {| h_self := p; h_total := h_total a * 2; h_full := h_full a;
                        h_cells := firstn room (h_cells a) ++ repeat wild_cell (room - length (h_cells a)) |})
         else Ok (h, a)) ;;
      let '(h1, l1) := hl in let '(p1, h2) := malloc h1 in let '(p2, h3) := malloc h2 in let '(p3, h4) := malloc h3 in
      match set_cell (Z.to_nat (h_full l1)) {| c_rel := At p1; c_arc := At p2; c_tgt := At p3; c_pad := x |} (h_cells l1) with
      | None => Err EUB
      | Some s => Ok (0, (h4, {| h_self := h_self l1; h_total := h_total l1; h_full := h_full l1 + 1; h_cells := s |}))
      end) = Err e
  end).
  { rewrite T, F. destruct (n_total l <=? n_full l).
    - destruct (INT_MAX <? n_total l * 2); [reflexivity|]. rewrite (free_block_ok _ _ S). cbn [bind malloc next live h_full n_full h_cells slots h_total n_total h_self].
      match goal with |- context [set_cell ?k ?c ?cs] => pose proof (set_both k c (stored q) cs (firstn (Z.to_nat (n_total l * 2 + 1)) (slots l) ++ repeat None (Z.to_nat (n_total l * 2 + 1) - length (slots l)))) as B end.
      specialize (B ltac:(rewrite !app_length, !firstn_length, !repeat_length, L; reflexivity)).
      destruct (set_cell _ _ _), (set_slot _ _ _); try tauto; try reflexivity. do 2 eexists. split; [reflexivity|]. unfold alike; cbn [h_total n_total h_full n_full h_cells slots h_self live In]; do 3 (split; [try congruence; auto|]); auto 8.
    - cbn [bind malloc next live]. rewrite F.
      match goal with |- context [set_cell ?k ?c ?cs] => pose proof (set_both k c (stored q) cs (slots l) L) as B end.
      destruct (set_cell _ _ _), (set_slot _ _ _); try tauto; try reflexivity. do 2 eexists. split; [reflexivity|]. unfold alike; cbn [h_total n_total h_full n_full h_cells slots h_self live In]; do 3 (split; [try congruence; auto|]); auto 8. }
  destruct (q_type q), (q_tgt q); try exact Main. cbn [andb negb]. exists h, a. split; [reflexivity|]. unfold alike; auto.
Qed.
Lemma models_agree qs : forall h a l, alike h a l ->
  match add_all (Some l) qs with
  | Ok (_, Some l') => exists h' a', h_adds qs h a = Ok (h', a') /\ alike h' a' l'
  | Ok (_, None) => False
  | Err e => h_adds qs h a = Err e
  end.
Proof.
  induction qs as [|q qs IH]; intros h a l H; cbn [add_all h_adds]; [eauto|].
  pose proof (request_alike h a l q Null H) as R. destruct (add_raw (Some l) q) as [[v [l1|]]|e]; cbn [bind]; [|destruct R|rewrite R; reflexivity].
  destruct R as (h1 & a1 & -> & H1). cbn [bind]. specialize (IH h1 a1 l1 H1). destruct (add_all (Some l1) qs) as [[vs [l2|]]|e]; cbn [bind]; auto.
Qed.
