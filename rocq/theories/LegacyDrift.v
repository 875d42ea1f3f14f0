(** Files whose size changes between the listing and the copying, in the 0.5.1
    program (C89). *)
From Coq Require Import Lia Permutation Sorted.
From Verif Require Import Bytes Outcome TarSpec TarModel TarProofs TarMore Layout LayoutSpec LayoutProofs LayoutMore Mover MoverSpec MoverProofs Worker Boss Spider SpiderSpec SpiderProofs Program EndSpec EndProofs EndMore MembersSpec DriftSpec
  Legacy LegacyProofs LegacyLayout LegacySpec LegacyScan LegacyScanProofs LegacyCodec LegacyCodecProofs LegacyWrite LegacyEndSpec LegacyDriftSpec LegacyEnd LegacyRun LegacyCreate
  PropertiesLegacyScan LegacyTreeSpec LegacyCreateProofs LegacyTotal Mpi LegacyMpi LegacyMpiSpec LegacyMpiProofs LegacyMpiMore LegacyMpiEnd LegacyMpiWhole LegacyMpiRun.

Lemma hdr_small name link s s' : s <= MAX_FILE_SIZE -> s' <= MAX_FILE_SIZE -> compute_hdr_size name link s = compute_hdr_size name link s'.
Proof.
  intros H H'. unfold compute_hdr_size. apply hdr_size_ext; cbn [te_file te_link te_stat]; auto; unfold need_size, is_reg; cbn [te_stat st_kind st_size andb];
  repeat match goal with |- context [?x <? ?y] => destruct (Z.ltb_spec x y) end; auto; try lia; discriminate.
Qed.
Lemma kin_entry top p n n' : kin n n' -> ent top (p, prune n') = sized (ent top (p, prune n)) (l_size (ent top (p, prune n'))).
Proof.
  intros H. destruct n, n'; cbn [kin bare] in H; try discriminate H; try reflexivity.
  - destruct H as [->|(A & B)]; [symmetry; apply sized_self|]. unfold ent. cbn [prune lof]. unfold named_t. rewrite (hdr_small _ _ _ _ A B). unfold fill_rel, sized. cbn.
    repeat match goal with |- context [match ?x with _ => _ end] => destruct x end; reflexivity.
  - injection H as ->. symmetry. apply sized_self.
Qed.

Lemma kin_arch n n' : kin n n' -> (archivable n <-> archivable n').
Proof. destruct n, n'; cbn [kin bare archivable]; intros H; try discriminate H; tauto. Qed.
Lemma kin_dir n n' : kin n n' -> is_dir_node n -> is_dir_node n'.
Proof. destruct n, n'; cbn [kin bare is_dir_node]; intros H; try discriminate H; tauto. Qed.
Lemma resized_dir t t' : resized t t' -> is_dir_node t -> is_dir_node t'.
Proof. intros H Hd. destruct (proj1 (H []) t (At_here t)) as (n' & A & N). inversion A; subst. eapply kin_dir; eauto. Qed.
Lemma resized_tab t t' : resized t t' -> tab_free t -> tab_free t'.
Proof.
  intros H Ht p n' A. destruct (proj2 (H p) n' A) as (n & B & N). destruct (Ht p n B) as [T1 T2]. split; [exact T1|].
  destruct n, n'; cbn [kin bare] in N; try discriminate N; auto. injection N as ->. exact T2.
Qed.
Lemma resized_short top t t' : resized t t' -> short_names top t -> short_names top t'.
Proof.
  intros H Hs p n' (A & B & C). destruct (proj2 (H p) n' A) as (n & A' & N).
  destruct (Hs p n) as [S1 S2]. { split; auto. split; auto. apply (kin_arch _ _ N). exact C. }
  split; [exact S1|]. destruct n, n'; cbn [kin bare] in N; try discriminate N; auto; [destruct N as [->|(_ & N)]; auto|]. injection N as ->. exact S2.
Qed.
Lemma resized_reached t t' p n : resized t t' -> reached t p n -> exists n', reached t' p n' /\ kin n n'.
Proof. intros H (A & B & C). destruct (proj1 (H p) n A) as (n' & A' & N). exists n'. split; auto. split; auto. split; auto. apply (kin_arch _ _ N). exact C. Qed.
Lemma resized_reached' t t' p n' : resized t t' -> reached t' p n' -> exists n, reached t p n /\ kin n n'.
Proof. intros H (A & B & C). destruct (proj2 (H p) n' A) as (n & A' & N). exists n. split; auto. split; auto. split; auto. apply (kin_arch _ _ N). exact C. Qed.

Lemma near_kin n n' : near n n' -> kin n n'.
Proof. destruct n, n'; cbn [near kin]; auto. intros [H|(_ & H)]; auto. Qed.
Lemma drifted_resized t t' : drifted t t' -> resized t t'.
Proof.
  intros H p. destruct (H p) as [A B]. split; intros n Hn; [destruct (A n Hn) as (x & X1 & X2)|destruct (B n Hn) as (x & X1 & X2)]; exists x; split; auto; apply near_kin; auto.
Qed.
Lemma drifted_reached t t' p n : drifted t t' -> reached t p n -> exists n', reached t' p n' /\ near n n'.
Proof. intros H (A & B & C). destruct (proj1 (H p) n A) as (n' & A' & N). exists n'. split; auto. split; auto. split; auto. apply (kin_arch _ _ (near_kin _ _ N)). exact C. Qed.
Lemma drifted_reached' t t' p n' : drifted t t' -> reached t' p n' -> exists n, reached t p n /\ near n n'.
Proof. intros H (A & B & C). destruct (proj2 (H p) n' A) as (n & A' & N). exists n. split; auto. split; auto. split; auto. apply (kin_arch _ _ (near_kin _ _ N)). exact C. Qed.

Section drift.
Variables (ev : env) (top : bytes) (t t' : node).
Hypothesis Hslash : ends_with_slash top = false.
Hypothesis Hnul : no_byte NUL top.
Hypothesis Htabs : no_byte TAB top.
Hypothesis Hw : wf_node t.
Hypothesis Hw' : wf_node t'.
Hypothesis Hdir : is_dir_node t.
Hypothesis Htf : tab_free t.
Hypothesis Hst : forall p n, reached t' p n -> still ev top p n.
Hypothesis Hman : manageable top t'.

Lemma kin_listed p n n' : resized t t' -> reached t' p n' -> kin n n' -> as_listed ev (sized (ent top (p, prune n)) (l_size (ent top (p, prune n')))).
Proof.
  intros Hrz Hr' N. rewrite <- (kin_entry top p n n' N).
  apply (node_listed ev top t' Hslash Hnul Htabs Hw' (resized_dir _ _ Hrz Hdir) (resized_tab _ _ Hrz Htf) Hst Hman p n' _ Hr'). auto.
Qed.
Lemma node_there p n : resized t t' -> reached t p n -> as_there ev (ent top (p, prune n)).
Proof.
  intros Hrz Hr. destruct (resized_reached _ _ _ _ Hrz Hr) as (n' & Hr' & N). pose proof (found_there _ _ (listed_found _ _ (kin_listed p n n' Hrz Hr' N))) as X. exact X.
Qed.
Hypothesis Hdr : drifted t t'.

Lemma near_found p n n' : reached t p n -> reached t' p n' -> near n n' -> found_sized ev (ent top (p, prune n)) (l_size (ent top (p, prune n'))).
Proof.
  intros Hr Hr' N. split.
  - apply (kin_listed p n n' (drifted_resized _ _ Hdr) Hr' (near_kin _ _ N)).
  - destruct (ent_fields top p (prune n) Hslash) as (_ & _ & _ & _ & _ & _ & _ & _ & _ & _ & _ & _ & X); [apply archivable_prune; apply Hr|].
    destruct (ent_fields top p (prune n') Hslash) as (_ & _ & _ & _ & _ & _ & _ & _ & _ & _ & _ & _ & X'); [apply archivable_prune; apply Hr'|].
    pose proof (wf_at _ _ _ Hw (proj1 Hr)) as Wn. pose proof (wf_at _ _ _ Hw' (proj1 Hr')) as Wn'.
    destruct n, n'; cbn [near bare prune] in *; try discriminate N; destruct X as (_ & _ & X); destruct X' as (_ & _ & X'); rewrite ?X, ?X'; try reflexivity; try (destruct Hr as (_ & _ & []); fail).
    inversion Wn; inversion Wn'; subst. rewrite !Z.max_r by lia. rewrite (up512_round size), (up512_round size0) by lia. destruct N as [->|(N & _)]; congruence.
Qed.
Lemma node_found p n : reached t p n -> as_found ev (ent top (p, prune n)).
Proof. intros Hr. destruct (drifted_reached _ _ _ _ Hdr Hr) as (n' & Hr' & N). exists (l_size (ent top (p, prune n'))). apply near_found; auto. Qed.

(** the member of an entry *)
Lemma node_member p n n' m : reached t p n -> reached t' p n' -> near n n' -> entry_found ev (ent top (p, prune n)) m ->
  exists m', describes ev top p n' m' /\ alike (known n) m m'.
Proof.
  intros Hr Hr' N (z & m' & (F & _) & Hs & Ha). pose proof (near_found p n n' Hr Hr' N) as (F' & _). exists m'. split.
  - apply (node_shown ev top t' Hslash Hw' Hst p n' m' Hr'). rewrite (kin_entry top p n n' (near_kin _ _ N)).
    set (z' := l_size (ent top (p, prune n'))) in *. set (e := ent top (p, prune n)) in *.
    destruct Hs as (s & tg & L & S1 & S2 & S3 & S4 & S5 & K). exists s, tg. cbn [sized l_rel l_type l_size] in *. split; [exact L|]. split; [exact S1|]. split; [exact S2|]. split; [exact S3|]. split; [exact S4|]. split; [exact S5|].
    destruct F as (s1 & t1 & _ & _ & _ & _ & _ & _ & _ & _ & K1 & _). destruct F' as (s2 & t2 & _ & _ & _ & _ & _ & _ & _ & _ & K2 & _). cbn [sized l_rel l_type l_size] in *.
    destruct (l_type e); auto. destruct K1 as (_ & _ & _ & d1 & D1 & Z1). destruct K2 as (_ & _ & _ & d2 & D2 & Z2). assert (z = z') as <- by congruence. exact K.
  - destruct (ent_fields top p (prune n) Hslash) as (_ & _ & _ & _ & _ & _ & _ & _ & _ & _ & _ & _ & X); [apply archivable_prune; apply Hr|].
    destruct n; cbn [prune known] in *; destruct X as (_ & _ & X); rewrite X in Ha; try exact Ha; destruct Hr as (_ & _ & []).
Qed.
End drift.

Lemma drift_lemma fuel fs clock ev top t t' R prior l ar a cat :
  top <> [] -> ends_with_slash top = false -> no_byte NUL top -> no_byte TAB top -> wf_node t -> is_dir_node t -> shows fs top t -> tab_free t -> manageable top t ->
  wf_node t' -> drifted t t' -> manageable top t' -> (forall p n, reached t' p n -> still ev top p n) -> (1 <= R)%nat ->
  create_run fuel fs clock ev top R prior l ar -> zlen l <= 4000000 -> total_size l <= 8000000000000000 ->
  concretises a ar -> list_to_buffer l L_BUCKET true = Ok (Some cat) -> (1024 + zlen cat) mod L_BUCKET <> 0 ->
  exists mc ms nodes, tar_list a = Some (mc :: ms) /\ is_catalog cat mc /\ NoDup (map fst nodes) /\
    (forall p n, In (p, n) nodes <-> reached t' p n) /\
    interspersed (fun pn m => exists n m', at_path t (fst pn) n /\ describes ev top (fst pn) (snd pn) m' /\ alike (known n) m m') is_spacer nodes ms.
Proof.
  intros H1 H2 H3 H4 Hw Hd Hs Htf Hman Hw' Hdr Hman' Hst HR Hc Hlen Htot Ha Hcat Hg.
  destruct (run_list _ _ _ _ _ _ _ _ _ _ H1 H2 Hw Hd Hs Hc) as (N & nodes & El & F & Nd & Hn & Hso & Hr).
  assert (HN : forall x, In x N -> exists n, reached t (fst x) n /\ snd x = prune n).
  { intros x Hx. destruct (In_nth_error _ _ Hx) as (k & Hk). destruct (forall2_nth _ _ _ F k x Hk) as (y & _ & Y1 & Y2 & Y3). rewrite Y1. eauto. }
  assert (Hfo : forall e, In e l -> as_found ev e).
  { intros e He. rewrite El in He. apply in_map_iff in He as ([p m] & <- & Hx). destruct (HN _ Hx) as (n & Hrn & Em). cbn [fst snd] in *. subst m.
    apply (node_found ev top t t' H2 H3 H4 Hw Hw' Hd Htf Hst Hman' Hdr). exact Hrn. }
  assert (Hp : fair L_BUCKET L_PAD ev l).
  { split; [|apply Forall_forall; exact Hfo]. apply (tree_present top t H2 H3 H4 Hw Htf Hman ev l N El HN Hso Hlen Htot). intros e He. apply found_there. auto. }
  destruct (fair_readable _ _ _ _ _ _ _ _ _ _ Hp HR Hr Ha Hcat Hg) as (mc & ms & M1 & M2 & M3).
  assert (X : forall x, In x N -> exists y, fst x = fst y /\ reached t' (fst y) (snd y) /\ exists n, reached t (fst y) n /\ snd x = prune n /\ near n (snd y)).
  { intros [p m] Hx. destruct (HN _ Hx) as (n & Hrn & Em). cbn [fst snd] in *. destruct (drifted_reached _ _ _ _ Hdr Hrn) as (n' & Hr' & Nn). exists (p, n'). cbn [fst snd]. split; auto. split; auto. exists n. auto. }
  destruct (choose _ _ X) as (nodes' & F').
  exists mc, ms, nodes'. split; auto. split; auto.
  assert (Ef : map fst nodes' = map fst N). { clear - F'. induction F' as [|x y ? ? (E & _) _ IH]; cbn [map]; congruence. }
  assert (Ef0 : map fst nodes = map fst N). { clear - F. induction F as [|x y ? ? (E & _) _ IH]; cbn [map]; congruence. }
  assert (Hall : forall y, In y nodes' -> reached t' (fst y) (snd y)). { intros y Hy. destruct (forall2_in _ _ _ F' y Hy) as (x & _ & _ & Y & _). exact Y. }
  split; [rewrite Ef, <- Ef0; exact Nd|]. split.
  - intros p n. split; [intros Hin; apply (Hall _ Hin)|]. intros Hrn.
    destruct (drifted_reached' _ _ _ _ Hdr Hrn) as (n0 & Hr0 & N0). apply Hn in Hr0. apply in_map with (f := fst) in Hr0. rewrite Ef0, <- Ef in Hr0. cbn [fst] in Hr0. apply in_map_iff in Hr0 as ([p' n'] & Ep & Hin). cbn [fst] in Ep. subst p'.
    destruct (Hall _ Hin) as (S1 & _). cbn [fst snd] in S1. rewrite (at_path_det _ _ _ _ (proj1 Hrn) Hw' S1). exact Hin.
  - eapply (inter_forall2 (fun e y => exists x n, e = ent top x /\ fst x = fst y /\ snd x = prune n /\ reached t (fst y) n /\ reached t' (fst y) (snd y) /\ near n (snd y))); [|exact M3|].
    + intros e y m (x & n & -> & X1 & X2 & X3 & X4 & X5) Hm. destruct x as [p q], y as [p' n']. cbn [fst snd] in *. subst p' q.
      destruct (node_member ev top t t' H2 H3 H4 Hw Hw' Hd Htf Hst Hman' Hdr p n n' m X3 X4 X5 Hm) as (m' & D1 & D2). exists n, m'. split; [apply X3|]. auto.
    + rewrite El. clear - F'. induction F' as [|x y ? ? (Q1 & Q2 & n & Q3 & Q4 & Q5) _ IH]; cbn [map]; constructor; auto. exists x, n. auto 10.
Qed.

(** over every run of the ranks *)
Lemma resized_whole M R fs sort clock ev opens rest arc top more t t' nodes dk :
  (1 <= R)%nat -> Forall (no_byte NUL) (("C"%char :: rest) :: arc :: top :: more) -> arc <> [] -> opens arc = true ->
  (forall l, Permutation l (sort l) /\ StronglySorted (fun x y => compare_entries x y <= 0) (sort l)) ->
  top <> [] -> ends_with_slash top = false -> no_byte TAB top -> wf_node t -> is_dir_node t -> shows fs top t -> tab_free t ->
  manageable top t -> names_to M top t -> (forall p, Forall plain p -> ~ at_path t p NLocked) ->
  NoDup (map fst nodes) -> (forall p n, In (p, n) nodes <-> reached t p n) -> few_enough M nodes ->
  wf_node t' -> manageable top t' -> resized t t' -> (forall p n, reached t' p n -> still ev top p n) ->
  exists f0, forall fuel, (f0 <= fuel)%nat -> let p := lmain R fuel fs sort clock ev (("C"%char :: rest) :: arc :: top :: more) in
  (forall n s, lrun R opens p n s -> exists s', lleads R opens s s' /\ all_zero R s') /\
  (forall n s r, lrun R opens p n s -> (r < R)%nat -> l_prog s r = LReturn 0 -> exists ar cat l, disk_after dk (l_log s) arc = Some ar /\
     zlen cat <= (M + 167) * zlen nodes + 55 /\ create_run fuel fs clock ev top R (before dk arc) l ar /\ list_to_buffer l L_BUCKET true = Ok (Some cat) /\
     zlen l = zlen nodes /\ total_size l = nodes_bytes nodes).
Proof.
  intros HR HA Harc Hop Hsort H1 H2 H4 Hw Hd Hsh Htf Hman Hshort Hlock Hnd Hin Hlen Hw' Hman' Hrz Hst.
  assert (Hn : no_byte NUL arc) by (inversion HA as [|? ? _ HA1]; inversion HA1; auto).
  assert (H3 : no_byte NUL top) by (inversion HA as [|? ? _ HA1]; inversion HA1 as [|? ? _ HA2]; inversion HA2; auto).
  destruct (create_present M fs clock ev top t nodes) as (f0 & A); auto.
  { intros p n Hr. apply (node_there ev top t t' H2 H3 H4 Hw' Hd Htf Hst Hman' p n Hrz Hr). }
  exists f0. intros fuel Hf p. destruct (A fuel Hf) as (es & E1 & B).
  assert (E2 : fill_rels top es = Ok (map (fill_rel top) es)) by (unfold fill_rels; destruct top; [congruence|reflexivity]).
  destruct (Hsort (map (fill_rel top) es)) as [S1 S2].
  destruct (B _ S1 S2) as (_ & _ & _ & C). destruct (C R) as (ws0 & D & text & starts & C1 & C2 & C3).
  destruct (pick (fun r ws => rank_part L_BLOCK L_BUCKET D clock ev text starts (Z.of_nat R) (Z.of_nat r) = Ok (Some ws)) [] R) as (part & Hpart).
  { intros r Hr. apply C3. lia. }
  assert (Hwk : works R fuel fs sort clock ev opens arc top ws0 D text starts part).
  { exists es, (map (fill_rel top) es). split; [exact E1|]. split; [exact E2|]. split; [exact C1|]. split; [exact Hpart|]. split; [exact C2|]. split; [exact Hop|exact Harc]. }
  split.
  - intros n s Hrun. apply (leads_done R opens p _ (main_matched R fuel fs sort clock ev opens _ HR HA) n s Hrun). eapply works_even; eauto.
  - intros n s r Hrun Hr Er.
    destruct (works_archive R fuel fs sort clock ev opens rest arc top more HR Hn HA Hsort n s r ws0 D text starts part dk Hrun Hr Er Hwk) as (l & ar & Hcr & Hdk).
    pose proof Hcr as Hcr'. inversion Hcr' as [es0 es0' l0 ar0 X1 X2 X3 X4 X5]; subst. rewrite E1 in X1. injection X1 as <-. rewrite E2 in X2. injection X2 as <-.
    destruct (B l X3 X4) as (Zl & Tl & (cat & Ec & Lc) & _). exists ar, cat, l. auto 10.
Qed.

Lemma drift_whole M R fs sort clock ev opens rest arc top more t t' nodes dk :
  (1 <= R)%nat -> Forall (no_byte NUL) (("C"%char :: rest) :: arc :: top :: more) -> arc <> [] -> opens arc = true ->
  (forall l, Permutation l (sort l) /\ StronglySorted (fun x y => compare_entries x y <= 0) (sort l)) ->
  top <> [] -> ends_with_slash top = false -> no_byte TAB top -> wf_node t -> is_dir_node t -> shows fs top t -> tab_free t ->
  manageable top t -> names_to M top t -> (forall p, Forall plain p -> ~ at_path t p NLocked) ->
  NoDup (map fst nodes) -> (forall p n, In (p, n) nodes <-> reached t p n) -> few_enough M nodes ->
  wf_node t' -> manageable top t' -> drifted t t' -> (forall p n, reached t' p n -> still ev top p n) ->
  exists f0, forall fuel, (f0 <= fuel)%nat -> let p := lmain R fuel fs sort clock ev (("C"%char :: rest) :: arc :: top :: more) in
  (forall n s, lrun R opens p n s -> exists s', lleads R opens s s' /\ all_zero R s') /\
  (forall n s r, lrun R opens p n s -> (r < R)%nat -> l_prog s r = LReturn 0 -> exists ar cat, disk_after dk (l_log s) arc = Some ar /\
     zlen cat <= (M + 167) * zlen nodes + 55 /\ ((1024 + zlen cat) mod L_BUCKET <> 0 -> forall a, concretises a ar ->
     exists mc ms nodes', tar_list a = Some (mc :: ms) /\ is_catalog cat mc /\ NoDup (map fst nodes') /\ (forall q m, In (q, m) nodes' <-> reached t' q m) /\
       interspersed (fun pn m => exists n m', at_path t (fst pn) n /\ describes ev top (fst pn) (snd pn) m' /\ alike (known n) m m') is_spacer nodes' ms)).
Proof.
  intros HR HA Harc Hop Hsort H1 H2 H4 Hw Hd Hsh Htf Hman Hshort Hlock Hnd Hin Hlen Hw' Hman' Hdr Hst.
  destruct (resized_whole M R fs sort clock ev opens rest arc top more t t' nodes dk HR HA Harc Hop Hsort H1 H2 H4 Hw Hd Hsh Htf Hman Hshort Hlock Hnd Hin Hlen Hw' Hman' (drifted_resized _ _ Hdr) Hst) as (f0 & A).
  assert (H3 : no_byte NUL top) by (inversion HA as [|? ? _ HA1]; inversion HA1 as [|? ? _ HA2]; inversion HA2; auto).
  exists f0. intros fuel Hf p. destruct (A fuel Hf) as (B & C). split; [exact B|]. intros n s r Hrun Hr Er.
  destruct (C n s r Hrun Hr Er) as (ar & cat & l & Q1 & Q2 & Q3 & Q4 & Q5 & Q6). exists ar, cat. split; [exact Q1|]. split; [exact Q2|]. intros Hmod a Ha.
  apply (drift_lemma fuel fs clock ev top t t' R (before dk arc) l ar a cat); auto; destruct Hlen as (L1 & L2 & _); lia.
Qed.

(** when no file grew, the members are the files as they now are *)
Lemma shrunk_exact ev top t t' nodes ms : (forall p n n', at_path t p n -> at_path t' p n' -> known n' <= known n) ->
  (forall p n, reached t' p n -> still ev top p n) -> (forall p n, In (p, n) nodes -> reached t' p n) ->
  interspersed (fun pn m => exists n m', at_path t (fst pn) n /\ describes ev top (fst pn) (snd pn) m' /\ alike (known n) m m') is_spacer nodes ms ->
  interspersed (fun pn m => describes ev top (fst pn) (snd pn) m) is_spacer nodes ms.
Proof.
  intros Hk Hst Hn. apply inter_in. intros [p n'] m Hin (n & m' & A & D & E). cbn [fst snd] in *. pose proof (Hn p n' Hin) as Hr. specialize (Hk p n n' A (proj1 Hr)).
  assert (Hl : zlen (m_data m') <= known n).
  { destruct D as [D _]. destruct Hr as (Ha & Hp & Ar). destruct n'; cbn in Ar, D; try contradiction.
    - destruct D as (_ & _ & _ & Es & Ed). destruct (Hst p _ (conj Ha (conj Hp I))) as (s & tg & _ & _ & _ & _ & _ & _ & _ & _ & (_ & _ & d & Q & L) & _).
      cbn [known] in Hk. assert (m_data m' = d) by congruence. congruence.
    - destruct D as (_ & _ & _ & _ & ->). exact Hk.
    - destruct D as (_ & _ & _ & _ & ->). exact Hk.
    - destruct D as (_ & _ & _ & _ & ->). exact Hk. }
  destruct E as (E1 & E2 & E3 & E4 & E5 & E6 & E7 & E8 & E9 & E10 & E11 & E12).
  assert (m = m') as ->; [|exact D]. unfold zlen in *. rewrite !firstn_all2 in E12 by lia. destruct m, m'; cbn in *; subst; reflexivity.
Qed.
