(** Lemmas behind C102: the order of the members of an archive of 0.6. *)
From Coq Require Import Permutation Lia.
From Verif Require Import Bytes Outcome TarSpec TarModel TarProofs TarMore Layout LayoutSpec LayoutProofs LayoutMore OrderCodec OrderCodecProofs OrderMore
  Mover MoverSpec MoverProofs MoverMore Worker WorkerProofs Assemble AssembleProofs Boss BossProofs BossMore
  Spider SpiderSpec SpiderProofs SpiderMore Program ProgramProofs EndSpec EndProofs EndMore MemberOrderSpec.

Lemma order_of_members dirs files (files' : list entry) ms (Q : entry -> member -> Prop) :
  Forall2 Q (dirs ++ files') ms -> order_files files files' ->
  (forall e m, In e (dirs ++ files') -> Q e m -> m_type m = (match en_type e with TDir => "5" | TLink => "2" | TFile => "0" end)%char /\ m_size m = en_size e /\ 0 <= en_size e /\
     (en_type e = TLink -> en_target e <> []) /\ (en_type e = TFile -> en_target e = [])) ->
  Forall (fun e => en_type e = TDir) dirs -> Forall (fun e => en_type e <> TDir) files' -> in_size_order ms.
Proof.
  intros H2 Ho Hq Hd Hf i j x y Hij Hx Hy. pose proof (EndMore.Forall2_nth _ _ _ H2) as Hn.
  pose proof (Hn i) as Hi. pose proof (Hn j) as Hj. rewrite Hx in Hi. rewrite Hy in Hj.
  destruct (nth_error (dirs ++ files') i) as [e|] eqn:Ei; [|contradiction]. destruct (nth_error (dirs ++ files') j) as [e'|] eqn:Ej; [|contradiction].
  destruct (Hq e x (nth_error_In _ _ Ei) Hi) as (T & S & P & L & F). destruct (Hq e' y (nth_error_In _ _ Ej) Hj) as (T' & S' & P' & L' & F').
  rewrite Forall_forall in Hd, Hf. destruct (Ho sort_by_size_swo) as [_ So].
  destruct (Nat.lt_ge_cases i (length dirs)) as [Hi1|Hi1].
  - rewrite nth_error_app1 in Ei by auto. rewrite (Hd e (nth_error_In _ _ Ei)) in T. rewrite T. split; [auto|]. split; [discriminate|discriminate].
  - rewrite nth_error_app2 in Ei by auto. rewrite nth_error_app2 in Ej by lia.
    pose proof (Hf e (nth_error_In _ _ Ei)) as N. pose proof (Hf e' (nth_error_In _ _ Ej)) as N'.
    assert (Os : order_size e <= order_size e').
    { apply Z.ltb_ge. apply (So (i - length dirs)%nat (j - length dirs)%nat); auto. lia. }
    unfold order_size, SIZE_SYMLINK in Os.
    destruct (en_type e); try (exfalso; congruence); (destruct (en_type e'); try (exfalso; congruence));
      repeat match goal with H : ?a = ?a -> _ |- _ => specialize (H eq_refl) end;
      rewrite T, T'; (split; [intros X; discriminate X|]); (split; [intros X; try discriminate X; intros Y; try discriminate Y|intros X Y; try discriminate X; try discriminate Y]);
      repeat match goal with H : en_target ?e = [] |- _ => rewrite H in Os; clear H end;
      try (destruct (en_target e) as [|? ?] eqn:?; [congruence|]); try (destruct (en_target e') as [|? ?] eqn:?; [congruence|]); try lia.
Qed.

Lemma order_lemma fuel fs sort base t ev bucket maxo bs path R n s a :
  plan fuel fs sort base bucket maxo = Ok (Some bs) ->
  (forall l, order_files l (sort l)) -> base <> [] -> no_byte NUL base -> is_dir_node t -> wf_node t -> shows fs base t ->
  short_paths base t -> tab_free t -> 100000 <= bucket -> bucket mod 512 = 0 ->
  (forall p n, at_path t p n -> archivable n -> still ev base p n) ->
  (forall p n, at_path t p n -> is_dir_node n -> p <> [] -> slash_safe (node_path base p)) ->
  (1 <= R)%nat ->
  run (length bs) R (fun o => succeeds (jobs ev bucket path base bs o)) n s -> boss s = BEnd ->
  concretises a (assemble (jobs ev bucket path base bs) (map snd (log s))) ->
  exists ms, tar_list a = Some ms /\ in_size_order ms.
Proof.
  intros H Hs H2 Hbn H3 H4 H5 Hsh Htab Hb Hm Hst Hsl HR Hrun Hend Ha.
  destruct (tree_ready _ _ _ _ _ _ _ _ _ H Hs H2 Hbn H3 H4 H5 Hsh Htab Hb Hm Hst Hsl) as (dirs & files & d & f & Hsc & Hso & Hc & Hp & Hpl & Hu & Nd & Cm & All).
  destruct (finished ev base path 0 bucket maxo dirs (sort files) d f bs R n s Hp Hso Hc Hpl ltac:(unfold INT_MIN, INT_MAX; lia) Hu HR Hrun Hend) as (z & L & Sz & Cell).
  destruct (set_offsets_laid _ _ _ _ Hso) as (z0 & L0 & Md & Mf).
  assert (Mdf : map fst (d ++ f) = dirs ++ sort files) by (rewrite map_app; congruence).
  assert (Wf : Forall (fun eo => wf_item (fst eo)) (d ++ f)).
  { apply (Forall_fst wf_item (d ++ f) (dirs ++ sort files)); auto. destruct Hp as (_ & _ & _ & W & _). eapply Forall_impl; [|exact W]. intros ? []; auto. }
  set (ar := assemble (jobs ev bucket path base bs) (map snd (log s))) in *. destruct Ha as [A1 A2]. rewrite Sz in *.
  pose (F := fun e u => u_size u = en_size e /\ forall p n, at_path t p n -> en_rel e = join p -> describes ev base p n (member_of u (Dat ev base e))).
  destruct (walk a F (fun e _ => Dat ev base e) (Hdr ev base) (fun e u X => proj1 X) (d ++ f) 0 z L ltac:(lia) eq_refl Wf A1) with (fuel := S (length a)) as (ms & M1 & M2).
  { intros e off Hin. assert (Hine : In e (dirs ++ sort files)) by (rewrite <- Mdf; apply in_map with (f := fst) in Hin; exact Hin).
    destruct (All e Hine) as (p & nd & B1 & B2 & B3 & B4 & B5).
    destruct (entry_facts ev base t H2 Hbn H4 Hsh Htab Hst Hsl e p nd B1 B2 B3 B4 B5) as (_ & _ & E0 & E1 & E2 & E3 & E4).
    pose proof Wf as W'. rewrite Forall_forall in W'. destruct (W' _ Hin) as (W1 & W2 & W3). cbn [fst] in *.
    destruct (laid_facts _ _ _ L eq_refl Wf) as (_ & _ & Fi & _). destruct (Fi e off Hin) as (_ & Fo & Fe). unfold ext in Fe.
    split; auto. split; auto. split; [|split].
    - intros k Hk. specialize (Cell (off + k) ltac:(lia)).
      rewrite (layout_at_in (d ++ f) 0 z e off) in Cell by (auto; unfold ext; lia). unfold entry_at, piece_at in Cell. cbn [fst snd] in Cell.
      destruct (Z.leb_spec off (off + k)); [|lia]. destruct (Z.ltb_spec (off + k) (off + en_hdr e)); [|lia]. cbn [andb] in Cell.
      destruct Cell as (x & X1 & X2). unfold meant, entry_id in X1. rewrite E0 in X1. replace (off + k - off) with k in X1 by lia.
      rewrite X1. apply A2; auto. lia.
    - intros k Hk. specialize (Cell (off + en_hdr e + k) ltac:(lia)).
      rewrite (layout_at_in (d ++ f) 0 z e off) in Cell by (auto; unfold ext; lia). unfold entry_at, piece_at in Cell. cbn [fst snd] in Cell.
      destruct (Z.ltb_spec (off + en_hdr e + k) (off + en_hdr e)); [lia|]. rewrite Bool.andb_false_r in Cell.
      destruct (Z.leb_spec (off + en_hdr e) (off + en_hdr e + k)); [|lia]. destruct (Z.ltb_spec (off + en_hdr e + k) (off + en_hdr e + en_size e)); [|lia]. cbn [andb] in Cell.
      destruct Cell as (x & X1 & X2). unfold meant, entry_id in X1. destruct E3 as [E3|E3]; [lia|]. rewrite E3 in X1.
      replace (0 + (off + en_hdr e + k - (off + en_hdr e))) with k in X1 by lia. rewrite X1. apply A2; auto. lia.
    - intros rest. destruct (E4 rest) as (u & U1 & U2 & U3). exists u. split; auto. split; auto.
      intros p' n' B1' B2'. destruct (at_path_wf _ _ _ B1 H4) as [_ G1]. destruct (at_path_wf _ _ _ B1' H4) as [_ G2].
      assert (p' = p) as -> by (apply join_inj; auto; congruence). rewrite (at_path_det _ _ _ _ B1' H4 B1). exact U3. }
  { change (skipn (Z.to_nat 0) a) with a. lia. }
  change (skipn (Z.to_nat 0) a) with a in M1.
  exists ms. split; [exact M1|].
  assert (M3 : Forall2 (fun e m => exists u, F e u /\ m = member_of u (Dat ev base e)) (map fst (d ++ f)) ms).
  { clear - M2. induction M2; cbn [map]; constructor; auto. }
  rewrite Mdf in M3.
  destruct (scan_any _ _ _ _ _ _ Hsc H2 H3 H4 H5) as (_ & _ & _ & _ & Td & Tf & _).
  apply (order_of_members dirs files (sort files) ms _ M3 (Hs files)).
  - intros e m He (u & (Fs & Fu) & ->). destruct (All e He) as (p & nd & B1 & B2 & B3 & B4 & B5).
    destruct (Fu p nd B1 B2) as [Ds _]. destruct (at_path_wf _ _ _ B1 H4) as [Wn _].
    destruct nd; cbn [records] in B3; try contradiction; destruct B3 as (R1 & R2 & R3); rewrite R1, R2.
    all: repeat match goal with |- _ /\ _ => split end; try discriminate; try (intros; congruence); try tauto; try lia.
    all: inversion Wn; subst; try lia; try (intros _; congruence).
  - exact Td.
  - apply Forall_forall. intros e He. rewrite Forall_forall in Tf. apply Tf. destruct (Hs files sort_by_size_swo) as [Pm _].
    eapply Permutation_in; [apply Permutation_sym; exact Pm|exact He].
Qed.
