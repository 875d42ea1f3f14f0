(** The lemma of C71. *)
From Coq Require Import Permutation.
From Verif Require Import Bytes Outcome TarSpec TarModel TarProofs TarMore Layout LayoutSpec LayoutProofs LayoutMore OrderCodec OrderCodecProofs OrderMore
  Mover MoverSpec MoverProofs MoverMore Worker WorkerProofs Assemble AssembleProofs Boss BossProofs BossMore
  Spider SpiderSpec SpiderProofs SpiderMore Program ProgramProofs EndSpec EndProofs EndMore MembersSpec Members DriftSpec Drift.

Lemma small_hdr name link s s' : s <= MAX_FILE_SIZE -> s' <= MAX_FILE_SIZE -> compute_hdr_size name link s = compute_hdr_size name link s'.
Proof.
  intros H H'. unfold compute_hdr_size. apply hdr_size_ext; cbn [te_file te_link te_stat]; auto.
  - unfold need_size, is_reg. cbn [te_stat st_kind st_size andb]. rewrite !(proj2 (Z.ltb_ge _ _)) by auto. reflexivity.
  - unfold need_size, is_reg. cbn [te_stat st_kind st_size andb]. rewrite !(proj2 (Z.ltb_ge _ _)) by auto. discriminate.
Qed.

Lemma full_is_node base p : base <> [] -> full_name base (join p) = node_path base p.
Proof. intros H. unfold full_name, node_path. destruct base; [congruence|reflexivity]. Qed.

Lemma nth_ext {A} (l : list A) : forall l', (forall j, nth_error l j = nth_error l' j) -> l = l'.
Proof.
  induction l as [|x l IH]; intros [|y l'] H; auto; try (specialize (H 0%nat); discriminate H).
  f_equal; [specialize (H 0%nat); cbn in H; congruence|apply IH; intros j; apply (H (S j))].
Qed.

Section Resize.
Context (ev : env) (base : bytes).
Definition now (e : entry) : Z :=
  match en_type e with TFile => match e_data ev (full_name base (en_rel e)) with Some d => zlen d | None => 0 end | _ => en_size e end.
Definition resize (e : entry) : entry :=
  {| en_type := en_type e; en_base := en_base e; en_rel := en_rel e; en_target := en_target e; en_size := now e; en_hdr := en_hdr e |}.
Definition resize_at (eo : entry * Z) : entry * Z := (resize (fst eo), snd eo).

Lemma resize_laid l : forall w z, laid w l z -> w mod 512 = 0 -> Forall (fun eo => wf_item (fst eo) /\ up512 (now (fst eo)) = up512 (en_size (fst eo))) l ->
  laid w (map resize_at l) z.
Proof.
  induction l as [|[e off] l IH]; intros w z H Hw Hf; cbn [laid map resize_at fst snd] in *; auto. destruct H as [-> H].
  inversion Hf as [|? ? [(W1 & W2 & W3) U] Hf']; subst. cbn [fst] in *. split; auto.
  assert (E : up512 (w + ext (resize e)) = up512 (w + ext e)).
  { unfold ext. cbn [resize en_hdr en_size]. rewrite !(Z.add_assoc w), !up512_add by lia. congruence. }
  rewrite E. apply IH; auto. apply up512_bounds.
Qed.
End Resize.

Section C71.
Context (ev : env) (base : bytes) (t t' : node).
Context (Hb : base <> []) (Hbn : no_byte NUL base) (Hw : wf_node t) (Hw' : wf_node t') (Hd : drifted t t') (Hsh : short_paths base t) (Htab : tab_free t).
Context (Hst : forall p n, at_path t' p n -> archivable n -> still ev base p n).
Context (Hsl : forall p n, at_path t p n -> is_dir_node n -> p <> [] -> slash_safe (node_path base p)).

Lemma drift_short : short_paths base t'.
Proof using Hd Hsh.
  intros p n' H. destruct (proj2 (Hd p) n' H) as (n & A & N). destruct (Hsh p n A) as [S1 S2]. split; auto.
  destruct n, n'; cbn [near bare] in N; auto; try discriminate N; try contradiction. assert (target = target0) as <- by congruence. auto.
Qed.
Lemma drift_tab : tab_free t'.
Proof using Hd Htab.
  intros p n' H. destruct (proj2 (Hd p) n' H) as (n & A & N). destruct (Htab p n A) as [S1 S2]. split; auto.
  destruct n, n'; cbn [near bare] in N; auto; try discriminate N; try contradiction. assert (target = target0) as <- by congruence. auto.
Qed.
Lemma drift_slash : forall p n, at_path t' p n -> is_dir_node n -> p <> [] -> slash_safe (node_path base p).
Proof using Hd Hsl.
  intros p n' H Hn Hp. destruct (proj2 (Hd p) n' H) as (n & A & N). apply (Hsl p n A); auto.
  destruct n, n'; cbn [near bare] in N; auto; try discriminate N; try contradiction.
Qed.

Lemma drift_entry e p n : at_path t p n -> en_rel e = join p -> records n e -> en_base e = base ->
  mk_entry (en_type e) (en_base e) (en_rel e) (en_target e) (en_size e) = Ok e ->
  exists n', at_path t' p n' /\ near n n' /\ archivable n' /\ let e' := resize ev base e in
    records n' e' /\ mk_entry (en_type e') (en_base e') (en_rel e') (en_target e') (en_size e') = Ok e' /\
    up512 (now ev base e) = up512 (en_size e) /\ en_size e = known n.
Proof using Hb Hd Hst.
  intros A Er Rn Eb Mk. destruct (proj1 (Hd p) n A) as (n' & A' & N). exists n'. split; auto. split; auto.
  destruct n as [sz|tg|ch| | |]; cbn [records] in Rn; try contradiction; destruct Rn as (R1 & R2 & R3).
  - cbn [near] in N. destruct n' as [sz'| | | | |]; try discriminate N. assert (N1 : up512 sz = up512 sz') by (destruct N as [->|(N1 & _)]; auto).
    assert (Nh : forall nm lk, compute_hdr_size nm lk sz' = compute_hdr_size nm lk sz) by (intros nm lk; destruct N as [->|(_ & N2 & N3)]; auto; apply small_hdr; auto). split; [exact I|].
    destruct (Hst p (NFile sz') A' I) as (s & target & Hl & _ & _ & _ & _ & _ & _ & _ & (K1 & K2 & dd & K3 & K4) & _).
    assert (En : now ev base e = sz') by (unfold now; rewrite R1, Er, full_is_node by auto; rewrite K3; exact K4).
    cbv zeta. unfold resize. rewrite En. cbn [records en_type en_size en_target en_base en_rel known]. split; [auto|]. split; [|split; [congruence|exact R2]].
    unfold mk_entry in *. rewrite R2, R3 in Mk. rewrite R3. rewrite Nh.
    destruct (compute_hdr_size (cstr (absolute_path (en_base e) (en_rel e))) (cstr []) sz) as [h|]; cbn [bind] in *; [|discriminate].
    assert (E : en_hdr e = h) by (apply (f_equal (fun o => match o with Ok x => en_hdr x | Err _ => 0 end)) in Mk; cbn in Mk; auto). rewrite E. reflexivity.
  - assert (n' = NLink tg) as -> by (destruct n'; cbn [near bare] in N; try discriminate N; congruence). split; [exact I|].
    assert (En : now ev base e = en_size e) by (unfold now; rewrite R1; reflexivity).
    cbv zeta. unfold resize. rewrite En. cbn [records en_type en_size en_target en_base en_rel known]. split; [auto|]. split; [|split; auto].
    destruct e; exact Mk.
  - assert (exists ch', n' = NDir ch') as (ch' & ->) by (destruct n'; cbn [near bare] in N; try discriminate N; eauto). split; [exact I|].
    assert (En : now ev base e = en_size e) by (unfold now; rewrite R1; reflexivity).
    cbv zeta. unfold resize. rewrite En. cbn [records en_type en_size en_target en_base en_rel known]. split; [auto|]. split; [|split; auto].
    destruct e; exact Mk.
  - assert (n' = NLocked) as -> by (destruct n'; cbn [near bare] in N; try discriminate N; congruence). split; [exact I|].
    assert (En : now ev base e = en_size e) by (unfold now; rewrite R1; reflexivity).
    cbv zeta. unfold resize. rewrite En. cbn [records en_type en_size en_target en_base en_rel known]. split; [auto|]. split; [|split; auto].
    destruct e; exact Mk.
Qed.
Lemma near_archivable n n' : near n n' -> archivable n' -> archivable n.
Proof using. intros N A. destruct n, n'; cbn [near bare] in N; auto; try discriminate N; try contradiction. Qed.
End C71.

Lemma same_header ev ev2 path : extends ev ev2 -> file_header ev path = file_header ev2 path.
Proof. intros (A & B & _). unfold file_header. rewrite A, B. reflexivity. Qed.
(** bytes of member [n] that were read *)
Definition kept (ev : env) (base : bytes) (p : list bytes) (n : node) : Z :=
  match e_data ev (node_path base p) with Some d => Z.min (known n) (zlen d) | None => 0 end.

Lemma drift_gen fuel fs sort base t t' ev ev2 bucket maxo bs path R n s a :
  plan fuel fs sort base bucket maxo = Ok (Some bs) ->
  (forall l, order_files l (sort l)) -> base <> [] -> no_byte NUL base -> is_dir_node t -> wf_node t -> shows fs base t ->
  short_paths base t -> tab_free t -> 100000 <= bucket -> bucket mod 512 = 0 ->
  (forall p n, at_path t p n -> is_dir_node n -> p <> [] -> slash_safe (node_path base p)) ->
  wf_node t' -> drifted t t' -> extends ev ev2 ->
  (forall p n, at_path t' p n -> archivable n -> still ev2 base p n) ->
  (1 <= R)%nat ->
  run (length bs) R (fun o => succeeds (jobs ev bucket path base bs o)) n s -> boss s = BEnd ->
  concretises a (assemble (jobs ev bucket path base bs) (map snd (log s))) ->
  exists ms nodes, tar_list a = Some ms /\ NoDup (map fst nodes) /\
    (forall p n, In (p, n) nodes <-> at_path t' p n /\ archivable n) /\
    Forall2 (fun pn m => exists n m', at_path t (fst pn) n /\ describes ev2 base (fst pn) (snd pn) m' /\ alike (kept ev base (fst pn) n) m m') nodes ms /\
    parents_first nodes.
Proof.
  intros H Hs H2 Hbn H3 H4 H5 Hsh Htab Hb Hm Hsl H4' Hdf Hx Hst HR Hrun Hend Ha.
  apply plan_inv in H as (dirs & files & d & f & Hsc & Hso & Hc).
  pose proof (scan_plannable _ _ _ _ _ _ _ _ Hsc H2 H3 H4 H5 Hsh (Hs files) Hb Hm) as Hp.
  pose proof (scan_made _ _ _ _ _ Hsc) as Hmk.
  destruct (scan_any _ _ _ _ _ _ Hsc H2 H3 H4 H5) as (_ & Nd0 & W & Cm0 & _ & _ & Hdir & Hfile & _).
  destruct (Hs files sort_by_size_swo) as [Pm _].
  assert (PP : Permutation (dirs ++ files) (dirs ++ sort files)) by (apply Permutation_app_head; auto).
  assert (Hin : forall e, In e (dirs ++ sort files) -> In e (dirs ++ files)) by (intros e; apply Permutation_in, Permutation_sym; auto).
  assert (All : forall e, In e (dirs ++ sort files) -> exists p n, at_path t p n /\ en_rel e = join p /\ records n e /\ en_base e = base /\
       mk_entry (en_type e) (en_base e) (en_rel e) (en_target e) (en_size e) = Ok e).
  { intros e He. apply Hin in He. destruct (W e He) as (_ & Eb & p & n0 & A & B & C). exists p, n0. split; auto. }
  assert (Nd : NoDup (map en_rel (dirs ++ sort files))) by (eapply Permutation_NoDup; [apply Permutation_map; exact PP|exact Nd0]).
  assert (Cm : forall p n, at_path t p n -> archivable n -> exists e, In e (dirs ++ sort files) /\ en_rel e = join p).
  { intros p n0 A B. destruct (Cm0 p n0 A B) as (e & E1 & E2 & _). exists e. split; auto. eapply Permutation_in; eauto. }
  pose proof (drift_short base t t' Hdf Hsh) as Hsh'. pose proof (drift_tab t t' Hdf Htab) as Htab'. pose proof (drift_slash base t t' Hdf Hsl) as Hsl'.
  set (rz := resize ev2 base).
  assert (All' : forall e, In e (dirs ++ sort files) -> exists p n n', at_path t p n /\ at_path t' p n' /\ near n n' /\ archivable n' /\ en_rel e = join p /\
     en_size e = known n /\ up512 (now ev2 base e) = up512 (en_size e) /\
     plain e /\ file_header ev2 (full_name base (en_rel e)) = Some (Hdr ev2 base (rz e)) /\ zlen (Hdr ev2 base (rz e)) = en_hdr e /\
     zlen (Dat ev2 base (rz e)) = now ev2 base e /\ (now ev2 base e = 0 \/ e_data ev2 (full_name base (en_rel e)) = Some (Dat ev2 base (rz e))) /\
     forall rest, exists u, read_header (Hdr ev2 base (rz e) ++ rest) = Some (u, rest) /\ u_size u = now ev2 base e /\ describes ev2 base p n' (member_of u (Dat ev2 base (rz e)))).
  { intros e He. destruct (All e He) as (p & n0 & A & B & C & D & E).
    destruct (drift_entry ev2 base t t' H2 Hdf Hst e p n0 A B C D E) as (n' & A' & N & Ar & Rn & Mk & U & Kn).
    destruct (entry_facts ev2 base t' H2 Hbn H4' Hsh' Htab' Hst Hsl' (resize ev2 base e) p n' A' B Rn D Mk) as (_ & E1 & E2 & E3 & E4 & E5 & E6).
    exists p, n0, n'. repeat (split; [assumption|]). exact E6. }
  assert (Hpl : Forall plain (dirs ++ sort files)) by (apply Forall_forall; intros e He; destruct (All' e He) as (p & n0 & n' & X); apply X).
  assert (Hu : Forall (lax ev2 base) (dirs ++ sort files)).
  { apply Forall_forall. intros e He. destruct (All' e He) as (p & n0 & n' & _ & _ & _ & _ & _ & _ & U & _ & F1 & F2 & F3 & F4 & _).
    split; [eauto|]. destruct F4 as [F4|F4].
    - rewrite F4 in U. change (up512 0) with 0 in U. pose proof (up512_bounds (en_size e)). destruct Hp as (_ & _ & _ & W0 & _).
      rewrite Forall_forall in W0. destruct (W0 e He) as ((_ & _ & ?) & _). left. lia.
    - right. eexists. split; [exact F4|]. rewrite F3. pose proof (up512_bounds (en_size e)). pose proof (up512_bounds (now ev2 base e)). lia. }
  destruct (finished_lax ev ev2 base path 0 bucket maxo dirs (sort files) d f bs R n s Hp Hso Hc Hpl ltac:(unfold INT_MIN, INT_MAX; lia) Hx Hu HR Hrun Hend) as (z & L & Sz & Cell).
  destruct (set_offsets_laid _ _ _ _ Hso) as (z0 & L0 & Md & Mf).
  assert (Mdf : map fst (d ++ f) = dirs ++ sort files) by (rewrite map_app; congruence).
  assert (Wf : Forall (fun eo => wf_item (fst eo)) (d ++ f)).
  { apply (Forall_fst wf_item (d ++ f) (dirs ++ sort files)); auto. destruct Hp as (_ & _ & _ & W0 & _). eapply Forall_impl; [|exact W0]. intros ? []; auto. }
  set (ar := assemble (jobs ev bucket path base bs) (map snd (log s))) in *. destruct Ha as [A1 A2]. rewrite Sz in *.
  assert (Now : forall e, In e (dirs ++ sort files) -> 0 <= now ev2 base e).
  { intros e He. destruct (All' e He) as (p & n0 & n' & _ & _ & _ & _ & _ & _ & _ & _ & _ & _ & F3 & _). rewrite <- F3. unfold zlen. lia. }
  assert (Ine : forall e off, In (e, off) (d ++ f) -> In e (dirs ++ sort files)) by (intros e off I; rewrite <- Mdf; apply in_map with (f := fst) in I; exact I).
  assert (L' : laid 0 (map (resize_at ev2 base) (d ++ f)) z).
  { apply resize_laid; auto. apply Forall_forall. intros [e off] I. rewrite Forall_forall in Wf. split; [apply (Wf _ I)|]. cbn [fst].
    destruct (All' e (Ine _ _ I)) as (p & n0 & n' & _ & _ & _ & _ & _ & _ & U & _). exact U. }
  assert (Wf' : Forall (fun eo => wf_item (fst eo)) (map (resize_at ev2 base) (d ++ f))).
  { apply Forall_map, Forall_forall. intros [e off] I. rewrite Forall_forall in Wf. destruct (Wf _ I) as (W1 & W2 & W3). cbn [fst resize_at] in *.
    split; [|split]; auto. cbn [resize en_size]. apply Now. eapply Ine; eauto. }
  pose (DD := fun (e : entry) (off : Z) => read_at a (off + en_hdr e) (en_size e)).
  pose (F := fun (e : entry) (u : uhdr) => u_size u = en_size e /\
     forall p n', at_path t' p n' -> en_rel e = join p -> describes ev2 base p n' (member_of u (Dat ev2 base e))).
  destruct (walk a F DD (Hdr ev2 base) (fun e u X => proj1 X) _ 0 z L' ltac:(lia) eq_refl Wf' A1) with (fuel := S (length a)) as (ms & M1 & M2).
  { intros e' off Hin'. apply in_map_iff in Hin' as ([e off0] & Eq & I). unfold resize_at in Eq. cbn [fst snd] in Eq.
    assert (off0 = off) by congruence. subst off0. assert (Ee : e' = rz e) by (unfold rz; congruence). subst e'. clear Eq.
    destruct (All' e (Ine _ _ I)) as (p & n0 & n' & B1 & B2 & _ & _ & B3 & _ & U & _ & E0 & E1 & E2 & E3 & E4).
    pose proof Wf as W'. rewrite Forall_forall in W'. destruct (W' _ I) as (W1 & W2 & W3). cbn [fst] in *.
    destruct (laid_facts _ _ _ L eq_refl Wf) as (_ & _ & Fi & _). destruct (Fi e off I) as (_ & Fo & Fe). unfold ext in Fe.
    destruct (laid_facts _ _ _ L' eq_refl Wf') as (_ & _ & Fi' & _). destruct (Fi' (rz e) off) as (_ & _ & Fe').
    { apply in_map_iff. exists (e, off). split; auto. }
    unfold ext, rz in Fe'. cbn [resize en_hdr en_size] in Fe'. pose proof (Now e (Ine _ _ I)) as Hnow.
    split; [exact E1|]. split; [|split; [|split]].
    - unfold DD, read_at, rz, zlen in *. cbn [resize en_hdr en_size]. rewrite firstn_length, skipn_length. lia.
    - change (en_hdr (rz e)) with (en_hdr e). intros k Hk.
      destruct (nth_error (Hdr ev2 base (rz e)) (Z.to_nat k)) as [x|] eqn:Ex; [|exfalso; apply nth_error_None in Ex; unfold zlen in *; lia].
      apply A2; [lia|]. apply (Cell (off + k) (CHdr (entry_id e) k)); [lia| |unfold meant, entry_id; rewrite (same_header ev ev2), E0 by auto; exact Ex].
      rewrite (layout_at_in (d ++ f) 0 z e off) by (auto; unfold ext; lia). unfold entry_at, piece_at. cbn [fst snd].
      destruct (Z.leb_spec off (off + k)); [|lia]. destruct (Z.ltb_spec (off + k) (off + en_hdr e)); [|lia]. cbn [andb]. left. f_equal. lia.
    - intros k Hk. unfold DD. rewrite nth_read by (change (en_hdr (rz e)) with (en_hdr e); lia).
      destruct (Z.ltb_spec k (en_size (rz e))); [reflexivity|lia].
    - intros rest. destruct (E4 rest) as (u & U1 & U2 & U3). exists u. split; auto. split; auto.
      intros p' n1 B1' B2'. destruct (at_path_wf _ _ _ B2 H4') as [_ G1]. destruct (at_path_wf _ _ _ B1' H4') as [_ G2].
      assert (p' = p) as -> by (apply join_inj; auto; change (en_rel (rz e)) with (en_rel e) in B2'; congruence). rewrite (at_path_det _ _ _ _ B1' H4' B2). exact U3. }
  { change (skipn (Z.to_nat 0) a) with a. lia. }
  change (skipn (Z.to_nat 0) a) with a in M1.
  destruct (choose (fun e pn => at_path t' (fst pn) (snd pn) /\ archivable (snd pn) /\ en_rel e = join (fst pn)) (dirs ++ sort files)) as (nodes & Hn).
  { intros e He. destruct (All' e He) as (p & n0 & nd & _ & B1 & _ & B2 & B3 & _). exists (p, nd). cbn [fst snd]. auto. }
  exists ms, nodes. split; [exact M1|].
  assert (Hrel : map en_rel (dirs ++ sort files) = map join (map fst nodes)).
  { clear - Hn. induction Hn as [|e pn l l' (_ & _ & E) _ IH]; cbn [map]; [reflexivity|]. rewrite E, IH. reflexivity. }
  assert (Hall : forall pn, In pn nodes -> at_path t' (fst pn) (snd pn) /\ archivable (snd pn)).
  { clear - Hn. induction Hn as [|e pn l l' (A & B & _) _ IH]; intros x Hx; [destruct Hx|]. destruct Hx as [<-|Hx]; auto. }
  split; [|split; [|split]].
  - rewrite Hrel in Nd. apply NoDup_map_inv in Nd. exact Nd.
  - intros p nd. split; [intros Hin'; apply (Hall _ Hin')|]. intros [B1 B2].
    destruct (proj2 (Hdf p) nd B1) as (n0 & B0 & N0). destruct (Cm p n0 B0 (near_archivable _ _ N0 B2)) as (e & E1 & E2).
    assert (In (en_rel e) (map join (map fst nodes))) as Hj by (rewrite <- Hrel; apply in_map; auto).
    apply in_map_iff in Hj as (p' & J1 & J2). apply in_map_iff in J2 as ([p2 n2] & J2 & J3). cbn [fst] in J2. subst p2.
    destruct (Hall _ J3) as [J4 J5]. cbn [fst snd] in *. destruct (at_path_wf _ _ _ B1 H4') as [_ G1]. destruct (at_path_wf _ _ _ J4 H4') as [_ G2].
    assert (p' = p) as -> by (apply join_inj; auto; congruence). rewrite (at_path_det _ _ _ _ B1 H4' J4). exact J3.
  - assert (M3 : Forall2 (fun eo m => exists u, F (rz (fst eo)) u /\ m = member_of u (DD (rz (fst eo)) (snd eo))) (d ++ f) ms).
    { clear - M2. remember (map (resize_at ev2 base) (d ++ f)) as l' eqn:El. revert El. generalize (d ++ f) as l. induction M2; intros [|x0 l0] El; try discriminate El; constructor.
      - cbn [map] in El. assert (x = resize_at ev2 base x0) as -> by congruence. exact H.
      - apply IHM2. cbn [map] in El. congruence. }
    assert (M4 : Forall2 (fun e m => exists p n0 n' m', at_path t p n0 /\ at_path t' p n' /\ en_rel e = join p /\ describes ev2 base p n' m' /\ alike (kept ev base p n0) m m') (map fst (d ++ f)) ms).
    { assert (G : forall eo m, In eo (d ++ f) -> (exists u, F (rz (fst eo)) u /\ m = member_of u (DD (rz (fst eo)) (snd eo))) ->
        exists p n0 n' m', at_path t p n0 /\ at_path t' p n' /\ en_rel (fst eo) = join p /\ describes ev2 base p n' m' /\ alike (kept ev base p n0) m m').
      { intros [e off] m I (u & (Us & Fu) & ->). cbn [fst snd] in *.
        destruct (All' e (Ine _ _ I)) as (p & n0 & n' & B1 & B2 & _ & _ & B3 & Kn & U & _ & E0 & E1 & E2 & E3 & E4).
        exists p, n0, n', (member_of u (Dat ev2 base (rz e))). split; auto. split; auto. split; auto. split; [apply Fu; auto|].
        pose proof Wf as W'. rewrite Forall_forall in W'. destruct (W' _ I) as (W1 & W2 & W3). cbn [fst] in *.
        destruct (laid_facts _ _ _ L eq_refl Wf) as (_ & _ & Fi & _). destruct (Fi e off I) as (_ & Fo & Fe). unfold ext in Fe.
        destruct (laid_facts _ _ _ L' eq_refl Wf') as (_ & _ & Fi' & _). destruct (Fi' (rz e) off) as (_ & _ & Fe').
        { apply in_map_iff. exists (e, off). split; auto. }
        unfold ext, rz in Fe'. cbn [resize en_hdr en_size] in Fe'. pose proof (Now e (Ine _ _ I)) as Hnow.
        assert (Ld : zlen (DD (rz e) off) = now ev2 base e).
        { unfold DD, read_at, rz, zlen in *. cbn [resize en_hdr en_size]. rewrite firstn_length, skipn_length. lia. }
        unfold alike. cbn [member_of m_path m_type m_link m_mode m_uid m_gid m_mtime m_size m_uname m_gname m_data].
        do 10 (split; [reflexivity|]). split; [congruence|].
        apply nth_ext. intros j. rewrite !nth_firstn. destruct (Nat.ltb_spec j (Z.to_nat (kept ev base p n0))) as [Hj|]; [|reflexivity].
        assert (Hkn : (j < Z.to_nat (known n0))%nat) by (unfold kept in Hj; destruct (e_data ev (node_path base p)); lia).
        destruct (Z.ltb_spec (Z.of_nat j) (now ev2 base e)) as [Hj2|Hj2].
        2: { transitivity (@None byte); [|symmetry]; apply nth_error_None; unfold zlen in *; lia. }
        destruct (nth_error (Dat ev2 base (rz e)) j) as [x|] eqn:Ex; [|exfalso; apply nth_error_None in Ex; unfold zlen in *; lia].
        unfold DD. rewrite <- (Nat2Z.id j) at 1. rewrite nth_read by (change (en_hdr (rz e)) with (en_hdr e); lia). change (en_size (rz e)) with (now ev2 base e). change (en_hdr (rz e)) with (en_hdr e).
        rewrite (proj2 (Z.ltb_lt _ _)) by lia. apply A2; [lia|].
        apply (Cell _ (CData (entry_id e) (Z.of_nat j))); [lia| |].
        - rewrite (layout_at_in (d ++ f) 0 z e off) by (auto; unfold ext; lia). unfold entry_at, piece_at. cbn [fst snd].
          destruct (Z.ltb_spec (off + en_hdr e + Z.of_nat j) (off + en_hdr e)); [lia|]. rewrite Bool.andb_false_r.
          destruct (Z.leb_spec (off + en_hdr e) (off + en_hdr e + Z.of_nat j)); [|lia]. destruct (Z.ltb_spec (off + en_hdr e + Z.of_nat j) (off + en_hdr e + en_size e)); [|lia].
          cbn [andb]. left. f_equal. lia.
        - unfold meant, entry_id. destruct E3 as [E3|E3]; [lia|]. rewrite B3, full_is_node in * by auto. unfold kept in Hj.
          destruct (e_data ev (node_path base p)) as [d'|] eqn:Ed; [|change (Z.to_nat 0) with 0%nat in Hj; lia].
          destruct (proj2 (proj2 Hx) _ _ Ed) as (q & Hq). rewrite Hq in E3. assert (Eq : Dat ev2 base (rz e) = d' ++ q) by congruence.
          rewrite Nat2Z.id. rewrite Eq, nth_error_app1 in Ex by (unfold zlen in *; lia). exact Ex. }
      clear - M3 G. induction M3; cbn [map]; constructor; [apply G; auto; left; auto|apply IHM3; intros; apply G; auto; right; auto]. }
    rewrite Mdf in M4. clear - M4 Hn H4 H4'. revert ms M4. induction Hn as [|e pn l l' (A & _ & E) _ IH]; intros ms M4.
    + inversion M4; constructor.
    + inversion M4 as [|? m ? ms' (p & n0 & n' & m' & X1 & X2 & X3 & X4 & X5) M4']; subst. constructor; auto.
      destruct (at_path_wf _ _ _ A H4') as [_ G1]. destruct (at_path_wf _ _ _ X2 H4') as [_ G2].
      assert (Ep : fst pn = p) by (apply join_inj; auto; congruence). rewrite Ep in *. exists n0, m'. split; auto. split; auto.
      rewrite (at_path_det _ _ _ _ A H4' X2). exact X4.
  - intros l p x n0 r En. pose proof (Forall2_nth _ _ _ Hn) as Hnn.
    assert (Hat : at_path t' (p ++ [x]) n0) by (apply (Hall (p ++ [x], n0)); rewrite En; apply in_or_app; right; left; auto).
    destruct (at_path_wf _ _ _ Hat H4') as [_ Hg]. destruct (at_path_parent _ _ _ Hat p x eq_refl) as (ch & Hch).
    assert (Hi : nth_error nodes (length l) = Some (p ++ [x], n0)) by (rewrite En, nth_error_app2, Nat.sub_diag by lia; reflexivity).
    pose proof (Hnn (length l)) as Hnl. rewrite Hi in Hnl. destruct (nth_error (dirs ++ sort files) (length l)) as [e|] eqn:Ei; [|contradiction].
    destruct Hnl as (_ & _ & Er). cbn [fst] in Er.
    assert (exists j e', (j < length l)%nat /\ nth_error (dirs ++ sort files) j = Some e' /\ en_rel e' = join p) as (j & e' & Hj & Ej & Er').
    { destruct (Nat.lt_ge_cases (length l) (length dirs)) as [Hlt|Hge].
      - rewrite nth_error_app1 in Ei by auto. destruct (Hdir _ _ p x Ei Hg Er) as (j & e' & A & B & C). exists j, e'. split; auto. split; auto.
        rewrite nth_error_app1; auto. apply nth_error_Some. congruence.
      - rewrite nth_error_app2 in Ei by auto. apply nth_error_In in Ei.
        destruct (Hfile e p x) as (e' & A & B); auto; [eapply Permutation_in; [apply Permutation_sym|]; eauto|].
        apply In_nth_error in A as (j & A). assert (j < length dirs)%nat by (apply nth_error_Some; congruence).
        exists j, e'. split; [lia|]. split; auto. rewrite nth_error_app1; auto. }
    pose proof (Hnn j) as Hnj. rewrite Ej in Hnj. destruct (nth_error nodes j) as [[p' n']|] eqn:Ejn; [|contradiction]. destruct Hnj as (A & _ & C). cbn [fst snd] in *.
    destruct (at_path_wf _ _ _ A H4') as [_ Gp']. destruct (at_path_wf _ _ _ Hch H4') as [_ Gp].
    assert (p' = p) as -> by (apply join_inj; auto; congruence). exists n'. split.
    + rewrite En in Ejn. rewrite nth_error_app1 in Ejn by auto. apply nth_error_In in Ejn. exact Ejn.
    + rewrite (at_path_det _ _ _ _ A H4' Hch). exact I.
Qed.

Lemma extends_refl ev : extends ev ev.
Proof. split; auto. split; auto. intros p d H. exists []. rewrite app_nil_r. auto. Qed.
Lemma still_len ev base p n m : still ev base p n -> describes ev base p n m -> zlen (m_data m) = known n.
Proof.
  intros (s & tg & _ & _ & _ & _ & _ & _ & _ & _ & K & _) [D _]. destruct n; try contradiction.
  - destruct K as (_ & _ & d & E & L). destruct D as (_ & _ & _ & _ & E'). cbn [known]. congruence.
  - destruct D as (_ & _ & _ & _ & ->). reflexivity.
  - destruct D as (_ & _ & _ & _ & ->). reflexivity.
  - destruct D as (_ & _ & _ & _ & ->). reflexivity.
Qed.

Lemma C71_lemma fuel fs sort base t t' ev bucket maxo bs path R n s a :
  plan fuel fs sort base bucket maxo = Ok (Some bs) ->
  (forall l, order_files l (sort l)) -> base <> [] -> no_byte NUL base -> is_dir_node t -> wf_node t -> shows fs base t ->
  short_paths base t -> tab_free t -> 100000 <= bucket -> bucket mod 512 = 0 ->
  (forall p n, at_path t p n -> is_dir_node n -> p <> [] -> slash_safe (node_path base p)) ->
  wf_node t' -> drifted t t' ->
  (forall p n, at_path t' p n -> archivable n -> still ev base p n) ->
  (1 <= R)%nat ->
  run (length bs) R (fun o => succeeds (jobs ev bucket path base bs o)) n s -> boss s = BEnd ->
  concretises a (assemble (jobs ev bucket path base bs) (map snd (log s))) ->
  exists ms nodes, tar_list a = Some ms /\ NoDup (map fst nodes) /\
    (forall p n, In (p, n) nodes <-> at_path t' p n /\ archivable n) /\
    Forall2 (fun pn m => exists n m', at_path t (fst pn) n /\ describes ev base (fst pn) (snd pn) m' /\ alike (known n) m m') nodes ms /\
    parents_first nodes.
Proof.
  intros H1 H2 H3 H4 H5 H6 H7 H8 H9 H10 H11 H12 H13 H14 H15 H16 H17 H18 H19.
  destruct (drift_gen fuel fs sort base t t' ev ev bucket maxo bs path R n s a H1 H2 H3 H4 H5 H6 H7 H8 H9 H10 H11 H12 H13 H14 (extends_refl ev) H15 H16 H17 H18 H19) as (ms & nodes & A & B & C & D & E).
  exists ms, nodes. split; auto. split; auto. split; auto. split; auto.
  assert (G : forall pn, In pn nodes -> at_path t' (fst pn) (snd pn) /\ archivable (snd pn)) by (intros [p n'] I; apply C; auto).
  clear - D G H15 H14. induction D as [|[p n'] m l l' (n0 & m' & X1 & X2 & X3) D IH]; constructor; [|apply IH; intros; apply G; right; auto].
  cbn [fst snd] in *. destruct (G _ (or_introl eq_refl)) as [A Ar]. cbn [fst snd] in A, Ar. exists n0, m'. split; auto. split; auto.
  pose proof (still_len _ _ _ _ _ (H15 p n' A Ar) X2) as L.
  destruct X3 as (E1 & E2 & E3 & E4 & E5 & E6 & E7 & E8 & E9 & E10 & E11 & E12). repeat (split; [assumption|]).
  destruct X2 as [X2 _]. unfold kept in E12. 
  destruct n'; cbn in X2; try contradiction; try (destruct X2 as (_ & _ & _ & _ & X2); rewrite X2 in *; assert (Em : m_data m = []) by (destruct (m_data m); [reflexivity|cbn in E11; lia]); rewrite Em; reflexivity).
  destruct X2 as (_ & _ & _ & _ & X2). rewrite X2 in E12.
  destruct (Z.le_ge_cases (known n0) (zlen (m_data m'))); [rewrite Z.min_l in E12 by auto; exact E12|].
  rewrite Z.min_r in E12 by auto. rewrite !firstn_all2 in E12 by (unfold zlen in *; lia). rewrite E12. reflexivity.
Qed.

Lemma near_refl n : near n n.
Proof. destruct n; cbn [near bare]; auto. Qed.
Lemma drifted_refl t : drifted t t.
Proof. intros p. split; intros n H; exists n; split; auto; apply near_refl. Qed.
Lemma hides_extends ev ev' : hides ev ev' -> extends ev ev'.
Proof. intros (A & B & C). split; auto. split; auto. intros q d H. exists []. rewrite app_nil_r. destruct (C q); congruence. Qed.

Lemma C72_lemma fuel fs sort base t ev ev' bucket maxo bs path R n s a :
  plan fuel fs sort base bucket maxo = Ok (Some bs) ->
  (forall l, order_files l (sort l)) -> base <> [] -> no_byte NUL base -> is_dir_node t -> wf_node t -> shows fs base t ->
  short_paths base t -> tab_free t -> 100000 <= bucket -> bucket mod 512 = 0 ->
  (forall p n, at_path t p n -> is_dir_node n -> p <> [] -> slash_safe (node_path base p)) ->
  hides ev ev' -> (forall p n, at_path t p n -> archivable n -> still ev' base p n) ->
  (1 <= R)%nat ->
  run (length bs) R (fun o => succeeds (jobs ev bucket path base bs o)) n s -> boss s = BEnd ->
  concretises a (assemble (jobs ev bucket path base bs) (map snd (log s))) ->
  exists ms nodes, tar_list a = Some ms /\ NoDup (map fst nodes) /\
    (forall p n, In (p, n) nodes <-> at_path t p n /\ archivable n) /\
    Forall2 (fun pn m => (closed ev base (fst pn) (snd pn) /\ exists m', describes ev' base (fst pn) (snd pn) m' /\ alike 0 m m') \/
                         (~ closed ev base (fst pn) (snd pn) /\ describes ev' base (fst pn) (snd pn) m)) nodes ms.
Proof.
  intros H1 H2 H3 H4 H5 H6 H7 H8 H9 H10 H11 H12 Hh H15 H16 H17 H18 H19.
  destruct (drift_gen fuel fs sort base t t ev ev' bucket maxo bs path R n s a H1 H2 H3 H4 H5 H6 H7 H8 H9 H10 H11 H12 H6 (drifted_refl t) (hides_extends _ _ Hh) H15 H16 H17 H18 H19) as (ms & nodes & A & B & C & D & E).
  exists ms, nodes. split; auto. split; auto. split; auto.
  assert (G : forall pn, In pn nodes -> at_path t (fst pn) (snd pn) /\ archivable (snd pn)) by (intros [p n'] I; apply C; auto).
  clear - D G H15 Hh H6. induction D as [|[p n'] m l l' (n0 & m' & X1 & X2 & X3) D IH]; constructor; [|apply IH; intros; apply G; right; auto].
  cbn [fst snd] in *. destruct (G _ (or_introl eq_refl)) as [A Ar]. cbn [fst snd] in A, Ar. rewrite (at_path_det _ _ _ _ X1 H6 A) in X3.
  pose proof (still_len _ _ _ _ _ (H15 p n' A Ar) X2) as L.
  destruct X3 as (E1 & E2 & E3 & E4 & E5 & E6 & E7 & E8 & E9 & E10 & E11 & E12).
  assert (Same : m_data m = m_data m' -> describes ev' base p n' m).
  { intros Ed. replace m with m'; auto. destruct m, m'; cbn in *; subst; reflexivity. }
  assert (Emp : known n' = 0 -> m_data m = m_data m').
  { intros K. destruct (m_data m), (m_data m'); auto; cbn in *; lia. }
  destruct n'; try (right; split; [exact (fun F => F)|apply Same, Emp; reflexivity]).
  unfold closed. unfold kept in E12. destruct (e_data ev (node_path base p)) as [d|] eqn:Ed.
  - right. split; [discriminate|]. apply Same. assert (Ld : zlen d = size).
    { destruct (H15 p _ A Ar) as (s & tg & _ & _ & _ & _ & _ & _ & _ & _ & (_ & _ & d' & K1 & K2) & _). destruct Hh as (_ & _ & Hh). destruct (Hh (node_path base p)); congruence. }
    cbn [known] in *. rewrite Ld, Z.min_id, <- L in E12. rewrite !firstn_all2 in E12 by (unfold zlen in *; lia). exact E12.
  - left. split; auto. exists m'. split; auto. repeat (split; [assumption|]). exact E12.
Qed.

(** ** an entry that is gone when its header is made *)
Lemma move_orders_err ev base bucket start : forall os o, In o os -> 0 < o_hdr o -> e_lstat ev (full_name base (o_rel o)) = None ->
  forall st, exists e, move_orders ev base bucket start st os = Err e.
Proof.
  induction os as [|x os IH]; intros o Ho Hh Hl st; [destruct Ho|]. cbn [move_orders]. destruct (move_order ev base bucket start st x) as [st'|e] eqn:E; cbn [bind]; [|eauto].
  destruct Ho as [->|Ho]; [|apply (IH o); auto]. exfalso. destruct st as [m k]. unfold move_order, put_header, new_tarentry in E. rewrite Hl in E.
  destruct (o_hdr o =? 0) eqn:Eh; [lia|]. cbn [bind] in E. discriminate E.
Qed.

Lemma gone_hangs fuel fs sort base t ev bucket maxo bs path R n s p nd :
  plan fuel fs sort base bucket maxo = Ok (Some bs) ->
  (forall l, order_files l (sort l)) -> base <> [] -> is_dir_node t -> wf_node t -> shows fs base t ->
  short_paths base t -> tab_free t -> 100000 <= bucket -> bucket mod 512 = 0 ->
  at_path t p nd -> archivable nd -> e_lstat ev (node_path base p) = None ->
  (1 <= R)%nat ->
  run (length bs) R (fun o => succeeds (jobs ev bucket path base bs o)) n s -> boss s <> BEnd.
Proof.
  intros H Hs H2 H3 H4 H5 Hsh Htab Hb Hm Hat Har Hgone HR Hrun.
  apply plan_inv in H as (dirs & files & d & f & Hsc & Hso & Hc).
  pose proof (scan_plannable _ _ _ _ _ _ _ _ Hsc H2 H3 H4 H5 Hsh (Hs files) Hb Hm) as Hp.
  destruct (scan_any _ _ _ _ _ _ Hsc H2 H3 H4 H5) as (_ & _ & W & Cm & _).
  destruct (Hs files sort_by_size_swo) as [Pm _].
  assert (PP : Permutation (dirs ++ files) (dirs ++ sort files)) by (apply Permutation_app_head; auto).
  assert (Hpl : Forall plain (dirs ++ sort files)).
  { apply Forall_forall. intros e He. eapply Permutation_in in He; [|apply Permutation_sym; exact PP].
    destruct (W e He) as (_ & Eb & q & n0 & A & B & C). destruct (at_path_wf _ _ _ A H4) as [Wn Gp]. destruct (Htab q n0 A) as [T1 T2].
    unfold plain. rewrite B. split; auto. destruct n0; cbn in C; try contradiction; destruct C as (_ & _ & ->).
    - split; [intros []|]. split; [apply join_nonul; auto|intros []].
    - split; auto. split; [apply join_nonul; auto|]. inversion Wn; auto.
    - split; [intros []|]. split; [apply join_nonul; auto|intros []].
    - split; [intros []|]. split; [apply join_nonul; auto|intros []]. }
  destruct (Cm p nd Hat Har) as (e & E1 & E2 & _). eapply Permutation_in in E1; [|exact PP].
  destruct (set_offsets_laid _ _ _ _ Hso) as (z0 & L0 & Md & Mf).
  assert (Mdf : map fst (d ++ f) = dirs ++ sort files) by (rewrite map_app; congruence).
  rewrite <- Mdf in E1. apply in_map_iff in E1 as ([e0 off] & E0 & I). cbn [fst] in E0. subst e0.
  destruct (plannable_ok 0 bucket maxo _ _ _ _ Hp Hso) as (bs' & z' & E & L & C & N & O & _). rewrite Hc in E. assert (bs' = bs) by congruence. subst bs'. clear E.
  assert (Wf : Forall (fun eo => wf_item (fst eo)) (d ++ f)).
  { apply (Forall_fst wf_item (d ++ f) (dirs ++ sort files)); auto. destruct Hp as (_ & _ & _ & W0 & _). eapply Forall_impl; [|exact W0]. intros ? []; auto. }
  pose proof Wf as Wf'. rewrite Forall_forall in Wf'. destruct (Wf' _ I) as (W1 & W2 & W3). cbn [fst] in *.
  assert (Hc0 : In (CHdr (entry_id e) 0) (orders_at (concat bs) off)).
  { rewrite O, (layout_at_in (d ++ f) 0 z' e off) by (auto; unfold ext; lia). unfold entry_at, piece_at. cbn [fst snd].
    destruct (Z.leb_spec off off); [|lia]. destruct (Z.ltb_spec off (off + en_hdr e)); [|lia]. cbn [andb]. left. f_equal. lia. }
  unfold orders_at in Hc0. apply in_flat_map in Hc0 as (o & Ho & Hoc). apply in_concat in Ho as (B & HB & Ho).
  assert (Hor : o_rel o = join p /\ 0 < o_hdr o).
  { unfold order_at, piece_at, order_id, entry_id in Hoc. destruct (Z.leb_spec (o_pos o) off), (Z.ltb_spec off (o_pos o + o_hdr o)); cbn [andb] in Hoc;
      try (destruct (_ && _) in Hoc; [destruct Hoc as [Hoc|[]]; discriminate Hoc|destruct Hoc]).
    destruct Hoc as [Hoc|[]]. split; [congruence|lia]. }
  destruct Hor as [Or Oh]. apply In_nth_error in HB as (i & Hi).
  assert (Hil : (i < length bs)%nat) by (apply nth_error_Some; congruence).
  apply (crash_hangs (length bs) R (fun o => succeeds (jobs ev bucket path base bs o)) n s i); auto.
  destruct (jobs ev bucket path base bs i) as [w|] eqn:Ej; [|reflexivity]. exfalso.
  destruct (jobs_inv ev bucket path base 0 maxo dirs (sort files) d f bs i w Hp Hso Hc Hpl ltac:(unfold INT_MIN, INT_MAX; lia) Ej Hil) as (B' & HB' & HM).
  assert (B' = B) by congruence. subst B'. destruct B as [|o0 B]; [destruct Ho|].
  destruct (move_orders_err ev base bucket (o_pos o0) (o0 :: B) o Ho Oh) with (st := (fresh, 0)) as (er & Er); [rewrite Or, full_is_node by auto; exact Hgone|].
  unfold move_data_Create in HM. rewrite Er in HM. discriminate HM.
Qed.
