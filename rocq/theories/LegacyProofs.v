(** Lemmas about the 0.5.1 entry lists and comparison. *)
From Coq Require Import Permutation Sorted.
From Verif Require Import Bytes Outcome TarModel Legacy.
From Coq Require Import ZifyBool ZifyNat ZifyN.
Ltac Zify.zify_post_hook ::= Z.div_mod_to_equations.

(** SPECIFICATION: list [l] holds exactly the entries [es], in order, within its
    allocation *)
Definition holds (l : llist) (es : list lent) : Prop :=
  n_full l = zlen es /\ n_full l <= n_total l <= zlen (slots l) /\ 2 <= n_total l /\
  firstn (length es) (slots l) = map Some es.
(** a symlink must come with a target *)
Definition accepted (q : request) : bool :=
  match q_type q, q_tgt q with LLnk, None => false | _, _ => true end.

Lemma set_slot_at es rest e x : set_slot (length es) e (map Some es ++ x :: rest) = Some (map Some (es ++ [e]) ++ rest).
Proof. induction es as [|y es IH]; cbn [map app length set_slot]; [reflexivity|]. rewrite IH. reflexivity. Qed.

Lemma add_raw_holds l es q : holds l es -> zlen es < 2 ^ 30 -> n_total l <= INT_MAX ->
  exists l', add_raw (Some l) q = Ok (if accepted q then 0 else -1, Some l') /\
    holds l' (if accepted q then es ++ [stored q] else es) /\ n_total l' <= INT_MAX.
Proof.
  intros (H1 & H2 & H3 & H4) Hn Hm. change (2 ^ 30) with 1073741824 in Hn. unfold add_raw, accepted.
  assert (Main : exists l', (l1 <- (if n_total l <=? n_full l then
                   if INT_MAX <? n_total l * 2 then Err EUB
                   else
                     let room := Z.to_nat (n_total l * 2 + 1) in
                     Ok {| n_total := n_total l * 2; n_full := n_full l;
                           slots := firstn room (slots l) ++ repeat None (room - length (slots l)) |}
                 else Ok l) ;;
          match set_slot (Z.to_nat (n_full l1)) (stored q) (slots l1) with
          | None => Err EUB
          | Some s => Ok (0, Some {| n_total := n_total l1; n_full := n_full l1 + 1; slots := s |})
          end) = Ok (0, Some l') /\ holds l' (es ++ [stored q]) /\ n_total l' <= INT_MAX).
  { assert (Step : forall l1, n_full l1 = zlen es -> n_full l1 < n_total l1 <= zlen (slots l1) -> 2 <= n_total l1 <= INT_MAX ->
      firstn (length es) (slots l1) = map Some es ->
      exists l', match set_slot (Z.to_nat (n_full l1)) (stored q) (slots l1) with
          | None => Err EUB
          | Some s => Ok (0, Some {| n_total := n_total l1; n_full := n_full l1 + 1; slots := s |})
          end = Ok (0, Some l') /\ holds l' (es ++ [stored q]) /\ n_total l' <= INT_MAX).
    { intros l1 F1 F2 F3 F4. assert (Hsk : exists x rest, slots l1 = map Some es ++ x :: rest).
      { rewrite <- (firstn_skipn (length es) (slots l1)), F4. destruct (skipn (length es) (slots l1)) as [|x rest] eqn:E; [|eauto].
        apply (f_equal (@length _)) in E. rewrite skipn_length in E. unfold zlen in *. cbn [length] in E. lia. }
      destruct Hsk as (x & rest & Es). rewrite F1. unfold zlen at 1. rewrite Nat2Z.id, Es, set_slot_at. eexists. split; [reflexivity|].
      unfold holds; cbn [n_full n_total slots]. split; [|lia]. rewrite Es in F2. rewrite zlen_app in F2. unfold zlen in *. rewrite map_length in F2. cbn [length] in F2.
      split; [rewrite app_length; cbn [length]; lia|]. split; [rewrite app_length, map_length, app_length; cbn [length]; lia|]. split; [lia|].
      rewrite firstn_app, map_length, Nat.sub_diag. cbn [firstn]. rewrite app_nil_r. rewrite <- (map_length Some) at 1. apply firstn_all. }
    destruct (Z.leb_spec (n_total l) (n_full l)) as [Hf|Hf].
    - replace (INT_MAX <? n_total l * 2) with false by (unfold INT_MAX; lia). cbn [bind]. apply Step; cbn [n_full n_total slots]; auto.
      + split; [lia|]. rewrite zlen_app. unfold zlen. rewrite firstn_length, repeat_length. lia.
      + unfold INT_MAX; lia.
      + unfold zlen in *. rewrite firstn_app, firstn_firstn, firstn_length.
        replace (length es - Nat.min (Z.to_nat (n_total l * 2 + 1)) (length (slots l)))%nat with 0%nat by lia.
        cbn [firstn]. rewrite app_nil_r. rewrite Nat.min_l by lia. exact H4.
    - cbn [bind]. apply Step; auto; lia. }
  destruct (q_type q), (q_tgt q); try exact Main.
  exists l. split; [reflexivity|]. split; [split; auto|auto].
Qed.

Lemma add_all_holds qs : forall l es, holds l es -> zlen es + zlen qs < 2 ^ 30 -> n_total l <= INT_MAX ->
  exists l', add_all (Some l) qs = Ok (map (fun q => if accepted q then 0 else -1) qs, Some l') /\
    holds l' (es ++ map stored (filter accepted qs)).
Proof.
  induction qs as [|q qs IH]; intros l es H Hn Hm; cbn [add_all filter map].
  - exists l. rewrite app_nil_r. auto.
  - rewrite zlen_cons in Hn. pose proof (zlen_nonneg qs) as Hq.
    destruct (add_raw_holds l es q H ltac:(lia) Hm) as (l1 & -> & H1 & M1). cbn [bind].
    destruct (IH l1 _ H1) as (l2 & -> & H2); auto.
    { destruct (accepted q); rewrite ?zlen_app; [change (zlen [stored q]) with 1|]; lia. }
    cbn [bind]. exists l2. split; [reflexivity|]. destruct (accepted q); cbn [map]; [|exact H2].
    rewrite <- app_assoc in H2. exact H2.
Qed.

Lemma create_holds n : 2 <= n -> exists l, create_list n = Ok (Some l) /\ holds l [] /\ n_total l = n.
Proof.
  intros H. unfold create_list. replace (n <? 1) with false by lia. replace (n <? 2) with false by lia. eexists. split; [reflexivity|].
  unfold holds; cbn [n_full n_total slots]. split; [|auto]. split; [reflexivity|]. unfold zlen. rewrite repeat_length. split; [lia|]. auto.
Qed.

(** ** the comparison *)
Lemma byte_val_inj c d : byte_val c = byte_val d -> c = d.
Proof. unfold byte_val. intros H. rewrite <- (ascii_N_embedding c), <- (ascii_N_embedding d). f_equal. lia. Qed.
Lemma strcmp_refl x : strcmp x x = 0.
Proof. induction x as [|c x IH]; cbn [strcmp]; auto. rewrite Z.ltb_irrefl. exact IH. Qed.
Lemma strcmp_eq x y : strcmp x y = 0 <-> x = y.
Proof.
  split; [|intros ->; apply strcmp_refl]. revert y. induction x as [|c x IH]; intros [|d y]; cbn [strcmp]; try discriminate; auto.
  destruct (Z.ltb_spec (byte_val c) (byte_val d)); [discriminate|]. destruct (Z.ltb_spec (byte_val d) (byte_val c)); [discriminate|].
  intros E. f_equal; [apply byte_val_inj; lia|auto].
Qed.
Lemma strcmp_opp x y : strcmp y x = - strcmp x y.
Proof.
  revert y. induction x as [|c x IH]; intros [|d y]; cbn [strcmp]; auto.
  destruct (Z.ltb_spec (byte_val c) (byte_val d)), (Z.ltb_spec (byte_val d) (byte_val c)); try lia; auto.
Qed.
Lemma strcmp_range x y : strcmp x y = -1 \/ strcmp x y = 0 \/ strcmp x y = 1.
Proof.
  revert y. induction x as [|c x IH]; intros [|d y]; cbn [strcmp]; auto.
  destruct (byte_val c <? byte_val d); auto. destruct (byte_val d <? byte_val c); auto.
Qed.
Lemma strcmp_trans x : forall y z, strcmp x y <= 0 -> strcmp y z <= 0 -> strcmp x z <= 0.
Proof.
  induction x as [|c x IH]; intros [|d y] [|e z]; cbn [strcmp]; try lia.
  destruct (Z.ltb_spec (byte_val c) (byte_val d)), (Z.ltb_spec (byte_val d) (byte_val c)),
    (Z.ltb_spec (byte_val d) (byte_val e)), (Z.ltb_spec (byte_val e) (byte_val d)),
    (Z.ltb_spec (byte_val c) (byte_val e)), (Z.ltb_spec (byte_val e) (byte_val c)); try lia. apply IH.
Qed.
(** the key the comparison looks at *)
Definition key (e : lent) : Z * bytes := (l_size e, l_arc e).
Lemma compare_opp x y : compare_entries y x = - compare_entries x y.
Proof.
  unfold compare_entries. destruct (Z.ltb_spec (l_size y) (l_size x)), (Z.ltb_spec (l_size x) (l_size y)); try lia. apply strcmp_opp.
Qed.
Lemma compare_eq x y : compare_entries x y = 0 <-> key x = key y.
Proof.
  unfold compare_entries, key. destruct (Z.ltb_spec (l_size y) (l_size x)), (Z.ltb_spec (l_size x) (l_size y)); try lia.
  - split; [discriminate|]. intros E. assert (l_size x = l_size y) by congruence. lia.
  - split; [discriminate|]. intros E. assert (l_size x = l_size y) by congruence. lia.
  - rewrite strcmp_eq. assert (l_size x = l_size y) by lia. split; intros; congruence.
Qed.
Lemma compare_trans x y z : compare_entries x y <= 0 -> compare_entries y z <= 0 -> compare_entries x z <= 0.
Proof.
  unfold compare_entries.
  destruct (Z.ltb_spec (l_size y) (l_size x)), (Z.ltb_spec (l_size x) (l_size y)),
    (Z.ltb_spec (l_size z) (l_size y)), (Z.ltb_spec (l_size y) (l_size z)),
    (Z.ltb_spec (l_size z) (l_size x)), (Z.ltb_spec (l_size x) (l_size z)); try lia. apply strcmp_trans.
Qed.

(** a sorted arrangement is determined, up to entries of equal size and name *)
Definition sorted (l : list lent) : Prop := StronglySorted (fun x y => compare_entries x y <= 0) l.
Definition key_dec (x y : Z * bytes) : {x = y} + {x <> y}.
Proof. decide equality; [apply (list_eq_dec ascii_dec)|apply Z.eq_dec]. Defined.
Lemma sorted_unique l1 : forall l2, sorted l1 -> sorted l2 -> Permutation l1 l2 -> map key l1 = map key l2.
Proof.
  enough (forall l2, sorted l1 -> sorted l2 -> Permutation (map key l1) (map key l2) -> map key l1 = map key l2) as E.
  { intros l2 H1 H2 H3. apply E; auto. apply Permutation_map. exact H3. }
  induction l1 as [|x l1 IH]; intros l2 S1 S2 P.
  - apply Permutation_nil in P. rewrite P. reflexivity.
  - destruct l2 as [|y l2]; [symmetry in P; apply Permutation_nil in P; discriminate|].
    inversion S1 as [|? ? S1' F1]; subst. inversion S2 as [|? ? S2' F2]; subst. rewrite Forall_forall in F1, F2.
    assert (K : key x = key y).
    { apply compare_eq. cbn [map] in P.
      assert (Hx : In (key x) (key y :: map key l2)) by (eapply Permutation_in; [exact P|left; auto]).
      assert (Hy : In (key y) (key x :: map key l1)) by (eapply Permutation_in; [symmetry; exact P|left; auto]).
      destruct Hx as [Hx|Hx]; [apply compare_eq; auto|]. destruct Hy as [Hy|Hy]; [apply compare_eq; auto|].
      apply in_map_iff in Hx as (x' & Ex & Hx). apply in_map_iff in Hy as (y' & Ey & Hy).
      pose proof (F2 _ Hx) as A. pose proof (F1 _ Hy) as B.
      apply compare_eq in Ex. apply compare_eq in Ey.
      assert (compare_entries y x <= 0) by (eapply compare_trans; [exact A|lia]).
      assert (compare_entries x y <= 0) by (eapply compare_trans; [exact B|lia]).
      pose proof (compare_opp x y). lia. }
    cbn [map]. rewrite K. f_equal. apply IH; auto. cbn [map] in P. rewrite K in P. eapply Permutation_cons_inv. exact P.
Qed.
