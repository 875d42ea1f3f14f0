(** Lemmas behind the second part of C102: the order of the members of an archive of 0.5.1. *)
From Coq Require Import Permutation Sorted Lia.
From Verif Require Import Bytes Outcome TarSpec TarModel TarProofs TarMore Layout LayoutMore Mover MoverSpec MoverProofs Spider SpiderSpec SpiderProofs EndSpec EndProofs EndMore
  Legacy LegacyProofs LegacyLayout LegacySpec LegacyLayoutProofs LegacyRanks LegacyMore LegacyScan LegacyScanProofs LegacyCodec LegacyCodecProofs
  LegacyWrite LegacyEndSpec LegacyDriftSpec LegacyEnd LegacyRun LegacyCreate PropertiesLegacyScan LegacyTreeSpec LegacyCreateProofs SizeSpec LegacyOrderSpec.

Lemma byte_val_inj c d : byte_val c = byte_val d -> c = d.
Proof.
  unfold byte_val. intros H. rewrite <- (Ascii.ascii_N_embedding c), <- (Ascii.ascii_N_embedding d). f_equal. lia.
Qed.
Lemma strcmp_before x : forall y, strcmp x y <= 0 -> x = y \/ text_before x y.
Proof.
  induction x as [|c x IH]; intros [|d y] H; cbn [strcmp] in H.
  - auto.
  - right. left. exists d, y. reflexivity.
  - lia.
  - destruct (Z.ltb_spec (byte_val c) (byte_val d)); [right; right; exists [], c, d, x, y; auto|].
    destruct (Z.ltb_spec (byte_val d) (byte_val c)); [lia|]. assert (c = d) by (apply byte_val_inj; lia). subst d.
    destruct (IH y H) as [->|[(e & z & ->)|(p & c1 & d1 & x' & y' & -> & -> & L)]]; auto; right.
    + left. exists e, z. reflexivity.
    + right. exists (c :: p), c1, d1, x', y'. auto.
Qed.
Lemma text_before_strcmp x y : text_before x y -> strcmp x y = -1.
Proof.
  intros [(c & z & ->)|(p & c & d & x' & y' & -> & -> & L)].
  - induction x as [|a x IH]; cbn [app strcmp]; [reflexivity|]. rewrite Z.ltb_irrefl. exact IH.
  - induction p as [|a p IH]; cbn [app strcmp]; [|rewrite Z.ltb_irrefl; exact IH]. destruct (Z.ltb_spec (byte_val c) (byte_val d)); [reflexivity|lia].
Qed.

Lemma class_prune n : class (prune n) = class n /\ contents (prune n) = contents n.
Proof. destruct n; cbn; auto. Qed.
Lemma sorted_before top t N nodes : ends_with_slash top = false -> wf_node t ->
  Forall2 (fun x y => fst x = fst y /\ snd x = prune (snd y) /\ reached t (fst y) (snd y)) N nodes ->
  NoDup (map fst nodes) -> sorted (map (ent top) N) -> nodes_in_order nodes.
Proof.
  intros Hsl Hw F Nd Hso i j [p n] [q m] Hij Hi Hj. pose proof (Forall2_nth _ _ _ F) as Fn.
  pose proof (Fn i) as F1. rewrite Hi in F1. destruct (nth_error N i) as [[q1 m1]|] eqn:E1; [|contradiction]. destruct F1 as (A1 & B1 & R1). cbn [fst snd] in A1, B1, R1. subst q1 m1.
  pose proof (Fn j) as F2. rewrite Hj in F2. destruct (nth_error N j) as [[q2 m2]|] eqn:E2; [|contradiction]. destruct F2 as (A2 & B2 & R2). cbn [fst snd] in A2, B2, R2. subst q2 m2.
  pose proof (sorted_nth _ Hso i j _ _ Hij (map_nth_error (ent top) _ _ E1) (map_nth_error (ent top) _ _ E2)) as C.
  destruct (ent_fields top p (prune n) Hsl) as (_ & Fa & _ & _ & _ & _ & _ & _ & _ & _ & _ & _ & Fs); [apply archivable_prune; apply R1|].
  destruct (ent_fields top q (prune m) Hsl) as (_ & Ga & _ & _ & _ & _ & _ & _ & _ & _ & _ & _ & Gs); [apply archivable_prune; apply R2|].
  assert (Hpq : p <> q).
  { intros ->. assert (Hl : (i < length (map fst nodes))%nat) by (rewrite map_length; apply nth_error_Some; congruence).
    assert (i = j) by (eapply NoDup_nth_error; eauto; rewrite (map_nth_error fst _ _ Hi), (map_nth_error fst _ _ Hj); reflexivity). lia. }
  destruct (SpiderMore.at_path_wf _ _ _ (proj1 R1) Hw) as [W1 G1]. destruct (SpiderMore.at_path_wf _ _ _ (proj1 R2) Hw) as [W2 G2].
  assert (Hj' : join p <> join q) by (intros X; apply Hpq; apply join_inj; auto).
  unfold compare_entries in C. rewrite Fa, Ga in C.
  assert (T : strcmp (join p) (join q) <= 0 -> text_before (join p) (join q)) by (intros X; destruct (strcmp_before _ _ X); [contradiction|auto]).
  unfold node_before. cbn [fst snd].
  assert (K1 : l_size (ent top (p, prune n)) = match class n with 0 => -3 | 1 => -2 | _ => contents n end /\ (class n = 2 \/ contents n = 0) /\ 0 <= contents n /\ 0 <= class n <= 2).
  { destruct n; cbn [prune class contents] in *; try (destruct R1 as (_ & _ & []); fail); destruct Fs as (_ & _ & Fs); rewrite Fs; unfold SIZE_DIR, SIZE_LNK; repeat split; auto; try lia.
    inversion W1; subst; lia. }
  assert (K2 : l_size (ent top (q, prune m)) = match class m with 0 => -3 | 1 => -2 | _ => contents m end /\ (class m = 2 \/ contents m = 0) /\ 0 <= contents m /\ 0 <= class m <= 2).
  { destruct m; cbn [prune class contents] in *; try (destruct R2 as (_ & _ & []); fail); destruct Gs as (_ & _ & Gs); rewrite Gs; unfold SIZE_DIR, SIZE_LNK; repeat split; auto; try lia.
    inversion W2; subst; lia. }
  destruct K1 as (S1 & O1 & Z1 & D1). destruct K2 as (S2 & O2 & Z2 & D2). rewrite S1, S2 in C.
  assert (class n = 0 \/ class n = 1 \/ class n = 2) as [X1|[X1|X1]] by lia; assert (class m = 0 \/ class m = 1 \/ class m = 2) as [X2|[X2|X2]] by lia; rewrite X1, X2 in C |- *; cbn in C;
    repeat match type of C with context [?a <? ?b] => destruct (Z.ltb_spec a b) end; try lia; try (right; split; [reflexivity|]; right; split; [lia|apply T; exact C]).
Qed.

(** the order determines the list *)
Lemma before_irrefl x : ~ node_before x x.
Proof.
  intros [H|(_ & [H|(_ & H)])]; try lia. apply text_before_strcmp in H. assert (E : forall y, strcmp y y = 0) by (induction y; cbn [strcmp]; rewrite ?Z.ltb_irrefl; auto). rewrite E in H. discriminate.
Qed.
Lemma before_asym x y : node_before x y -> ~ node_before y x.
Proof.
  intros [H|(H0 & [H|(H1 & H)])] [K|(K0 & [K|(K1 & K)])]; try lia.
  apply text_before_strcmp in H, K. rewrite (strcmp_opp (join (fst x)) (join (fst y))) in K. lia.
Qed.
Lemma order_unique l : forall l', nodes_in_order l -> nodes_in_order l' -> Permutation l l' -> l = l'.
Proof.
  induction l as [|x l IH]; intros l' H H' P; [apply Permutation_nil in P; auto|].
  destruct l' as [|y l']; [apply Permutation_sym, Permutation_nil in P; discriminate|].
  assert (x = y) as ->.
  { assert (Iy : In y (x :: l)) by (eapply Permutation_in; [apply Permutation_sym; exact P|left; auto]).
    assert (Ix : In x (y :: l')) by (eapply Permutation_in; [exact P|left; auto]).
    destruct Iy as [E|Iy]; auto. destruct Ix as [E|Ix]; auto. exfalso.
    apply In_nth_error in Iy as (k & Ek). apply In_nth_error in Ix as (k' & Ek').
    apply (before_asym x y); [apply (H 0%nat (S k)); auto; lia|apply (H' 0%nat (S k')); auto; lia]. }
  f_equal. apply IH; [|intros i j a c Hij Ha Hc; apply (H' (S i) (S j)); auto; lia|eapply Permutation_cons_inv; eauto].
  intros i j a c Hij Ha Hc; apply (H (S i) (S j)); auto; lia.
Qed.

Lemma create_sorted fuel fs clock ev top t R prior l ar a cat :
  top <> [] -> ends_with_slash top = false -> no_byte NUL top -> no_byte TAB top -> wf_node t -> is_dir_node t -> shows fs top t -> tab_free t ->
  (forall p n, reached t p n -> still ev top p n) -> manageable top t -> (1 <= R)%nat ->
  create_run fuel fs clock ev top R prior l ar -> zlen l <= 4000000 -> total_size l <= 8000000000000000 ->
  concretises a ar -> list_to_buffer l L_BUCKET true = Ok (Some cat) -> (1024 + zlen cat) mod L_BUCKET <> 0 ->
  exists mc ms nodes, tar_list a = Some (mc :: ms) /\ is_catalog cat mc /\ NoDup (map fst nodes) /\
    (forall p n, In (p, n) nodes <-> reached t p n) /\
    interspersed (fun pn m => describes ev top (fst pn) (snd pn) m) is_spacer nodes ms /\ nodes_in_order nodes.
Proof.
  intros H1 H2 H3 H4 Hw Hd Hs Htf Hst Hman HR Hc Hlen Htot Ha Hcat Hg.
  destruct (run_list _ _ _ _ _ _ _ _ _ _ H1 H2 Hw Hd Hs Hc) as (N & nodes & El & F & Nd & Hn & Hso & Hr).
  assert (HN : forall x, In x N -> exists n, reached t (fst x) n /\ snd x = prune n).
  { intros x Hx. destruct (In_nth_error _ _ Hx) as (k & Hk). destruct (forall2_nth _ _ _ F k x Hk) as (y & _ & Y1 & Y2 & Y3). rewrite Y1. eauto. }
  pose proof (tree_proper ev top t H2 H3 H4 Hw Hd Htf Hst Hman l N El HN Hso Hlen Htot) as Hp.
  destruct (run_readable _ _ _ _ _ _ _ _ _ _ Hp HR Hr Ha Hcat Hg) as (mc & ms & M1 & M2 & M3).
  exists mc, ms, nodes. split; auto. split; auto. split; auto. split; auto. split; [|apply (sorted_before top t N nodes); auto; rewrite <- El; auto].
  eapply (inter_forall2 (fun e y => exists x, e = ent top x /\ fst x = fst y /\ snd x = prune (snd y) /\ reached t (fst y) (snd y))); [|exact M3|].
  - intros e y m (x & -> & X1 & X2 & X3) Hm. destruct x as [p q], y as [p' n]. cbn [fst snd] in *. subst p' q. eapply node_shown; eauto.
  - rewrite El. clear - F. induction F as [|x y ? ? Q _ IH]; cbn [map]; constructor; auto. exists x. auto.
Qed.
