(** Lemmas behind C75: the archives parfu 0.6 and parfu 0.5.1 make of a tree. *)
From Coq Require Import Permutation.
From Verif Require Import Bytes Outcome TarSpec TarModel Layout LayoutSpec LayoutMore Mover MoverSpec Boss Assemble Spider SpiderSpec SpiderProofs SpiderMore
  Program ProgramProofs EndSpec EndProofs EndMore MembersSpec Members LegacyEndSpec Legacy LegacyTreeSpec LegacyScan LegacyScanProofs PropertiesLegacyScan
  LegacyCodec LegacyWrite LegacyCreate LegacySpec LegacyCreateProofs.

Lemma inter_split {A} (Q : A -> member -> Prop) sp l ms : interspersed Q sp l ms -> exists cm, Forall2 Q l cm /\ interspersed eq sp cm ms.
Proof.
  induction 1 as [|m l ms H _ (cm & F & G)|e m l ms H _ (cm & F & G)].
  - exists []. split; constructor.
  - exists cm. split; auto. apply In_spacer; auto.
  - exists (m :: cm). split; [constructor; auto|]. apply In_entry; auto.
Qed.
Lemma filter_perm {A} (f : A -> bool) l : Permutation l (filter f l ++ filter (fun x => negb (f x)) l).
Proof.
  induction l as [|x l IH]; cbn [filter app]; auto. destruct (f x); cbn [negb app]; [constructor; auto|]. apply Permutation_cons_app. auto.
Qed.
(** members with their paths *)
Definition keyed (nodes : list (list bytes * node)) (ms : list member) : list (list bytes * member) := combine (map fst nodes) ms.
Section keyed.
Context (D : list bytes * node -> member -> Prop).
Lemma keyed_fst nodes ms : Forall2 D nodes ms -> map fst (keyed nodes ms) = map fst nodes /\ map snd (keyed nodes ms) = ms.
Proof. unfold keyed. induction 1 as [|pn m nodes ms H F [IH1 IH2]]; cbn [map combine fst snd]; auto. rewrite IH1, IH2. auto. Qed.
Lemma keyed_in nodes ms : Forall2 D nodes ms -> forall p m, In (p, m) (keyed nodes ms) -> exists n, In (p, n) nodes /\ D (p, n) m.
Proof.
  unfold keyed. induction 1 as [|[q n] m0 nodes ms H F IH]; cbn [map combine fst]; intros p m; [intros []|]. intros [E|E].
  - assert (q = p) by congruence. assert (m0 = m) by congruence. subst. exists n. split; [left; auto|auto].
  - destruct (IH _ _ E) as (n' & I & X). exists n'. split; [right; auto|auto].
Qed.
Lemma in_keyed nodes ms : Forall2 D nodes ms -> forall p n, In (p, n) nodes -> exists m, In (p, m) (keyed nodes ms) /\ D (p, n) m.
Proof.
  unfold keyed. induction 1 as [|[q n0] m0 nodes ms H F IH]; intros p n; [intros []|]. cbn [map combine fst]. intros [E|E].
  - injection E as -> ->. exists m0. split; [left; auto|auto].
  - destruct (IH _ _ E) as (n' & I & X). exists n'. split; [right; auto|auto].
Qed.
End keyed.

Definition plainb (p : list bytes) : bool := forallb (fun x => negb (starts_with_dot x)) p.
Lemma plainb_spec p : plainb p = true <-> Forall plain p.
Proof.
  unfold plainb. rewrite forallb_forall, Forall_forall. split; intros H x Hx.
  - apply plain_vis. unfold vis. specialize (H x Hx). destruct (starts_with_dot x); auto; discriminate.
  - specialize (H x Hx). apply plain_vis in H. unfold vis in H. rewrite H. reflexivity.
Qed.

Lemma nodup_filter_keys {A B} (f : A * B -> bool) (l : list (A * B)) : NoDup (map fst l) -> NoDup (filter f l).
Proof. intros H. apply NoDup_filter. apply (nodup_map fst). exact H. Qed.

Lemma both_versions ev base t t' nodes ms nodes' ms' : wf_node t -> wf_node t' -> same_tree t t' ->
  NoDup (map fst nodes) -> (forall p n, In (p, n) nodes <-> at_path t p n /\ archivable n) ->
  Forall2 (fun pn m => describes ev base (fst pn) (snd pn) m) nodes ms ->
  NoDup (map fst nodes') -> (forall p n, In (p, n) nodes' <-> reached t' p n) ->
  interspersed (fun pn m => describes ev base (fst pn) (snd pn) m) is_spacer nodes' ms' ->
  exists common hidden, interspersed eq is_spacer common ms' /\ Permutation ms (common ++ hidden) /\
    forall m, In m hidden -> exists p n, at_path t p n /\ ~ Forall plain p /\ describes ev base p n m.
Proof.
  intros Hw Hw' Hst N I F N' I' G. destruct (inter_split _ _ _ _ G) as (cm & F' & G').
  set (K := keyed nodes ms). set (K' := keyed nodes' cm). set (f := fun x : list bytes * member => plainb (fst x)).
  destruct (keyed_fst _ _ _ F) as [K1 K2]. destruct (keyed_fst _ _ _ F') as [K1' K2']. fold K in K1, K2. fold K' in K1', K2'.
  exists cm, (map snd (filter (fun x => negb (f x)) K)). split; auto. split.
  - assert (P : Permutation (filter f K) K').
    { apply NoDup_Permutation; [apply nodup_filter_keys; rewrite K1; auto|apply (nodup_map fst); rewrite K1'; auto|].
      intros [p m]. rewrite filter_In. unfold f. cbn [fst]. rewrite plainb_spec. split.
      - intros [H Hp]. destruct (keyed_in _ _ _ F _ _ H) as (n & Hn & Dn). apply I in Hn as [Ha Har].
        destruct (same_at _ _ p n Hst Ha) as (n' & Ha' & E).
        assert (R : In (p, n') nodes') by (apply I'; split; auto; split; auto; eapply bare_arch; eauto).
        destruct (in_keyed _ _ _ F' _ _ R) as (m' & Hm & Dm). cbn [fst snd] in *.
        rewrite (describes_det ev base p n n' m m' (eq_sym E) Dn Dm). exact Hm.
      - intros H. destruct (keyed_in _ _ _ F' _ _ H) as (n' & Hn & Dn). apply I' in Hn as (Ha & Hp & Har). split; auto.
        destruct (same_at _ _ p n' (bare_sym _ _ Hst) Ha) as (n & Ha' & E).
        assert (R : In (p, n) nodes) by (apply I; split; auto; eapply bare_arch; eauto).
        destruct (in_keyed _ _ _ F _ _ R) as (m' & Hm & Dm). cbn [fst snd] in *.
        rewrite (describes_det ev base p n' n m m' (eq_sym E) Dn Dm). exact Hm. }
    rewrite <- K2, <- K2', <- map_app. apply Permutation_map. rewrite <- P. apply filter_perm.
  - intros m Hm. apply in_map_iff in Hm as ([p m'] & E & Hm). cbn [snd] in E. subst m'. apply filter_In in Hm as [Hm Hf].
    destruct (keyed_in _ _ _ F _ _ Hm) as (n & Hn & Dn). apply I in Hn as [Ha _]. exists p, n. split; auto. split; auto.
    intros X. apply plainb_spec in X. unfold f in Hf. cbn [fst] in Hf. rewrite X in Hf. discriminate.
Qed.

Lemma C75_lemma fs fs' sort base t t' ev : (forall l, order_files l (sort l)) ->
  base <> [] -> ends_with_slash base = false -> no_byte NUL base -> no_byte TAB base -> is_dir_node t -> wf_node t -> wf_node t' ->
  shows fs base t -> shows fs' base t' -> same_tree t t' ->
  short_paths base t -> tab_free t -> manageable base t' ->
  (forall p n, at_path t p n -> archivable n -> still ev base p n) ->
  (forall p n, at_path t p n -> is_dir_node n -> p <> [] -> slash_safe (node_path base p)) ->
  (* parfu 0.6 *)
  forall fuel bucket maxo bs path R n s a,
  plan fuel fs sort base bucket maxo = Ok (Some bs) -> 100000 <= bucket -> bucket mod 512 = 0 -> (1 <= R)%nat ->
  run (length bs) R (fun o => succeeds (jobs ev bucket path base bs o)) n s -> boss s = BEnd ->
  concretises a (assemble (jobs ev bucket path base bs) (map snd (log s))) ->
  (* parfu 0.5.1 *)
  forall fuel' clock R' prior l ar a' cat, (1 <= R')%nat ->
  create_run fuel' fs' clock ev base R' prior l ar -> zlen l <= 4000000 -> total_size l <= 8000000000000000 ->
  concretises a' ar -> list_to_buffer l L_BUCKET true = Ok (Some cat) -> (1024 + zlen cat) mod L_BUCKET <> 0 ->
  exists ms mc ms' common hidden, tar_list a = Some ms /\ tar_list a' = Some (mc :: ms') /\ is_catalog cat mc /\
    interspersed eq is_spacer common ms' /\ Permutation ms (common ++ hidden) /\
    forall m, In m hidden -> exists p n, at_path t p n /\ ~ Forall plain p /\ describes ev base p n m.
Proof.
  intros A1 A2 A3 A4 A5 A6 A7 A8 A9 A10 A11 A12 A13 A14 A15 A16 fuel bucket maxo bs path R n s a B1 B2 B3 B4 B5 B6 B7 fuel' clock R' prior l ar a' cat D1 D2 D3 D4 D5 D6 D7.
  destruct (C19_lemma fuel fs sort base t ev bucket maxo bs path R n s a B1 A1 A2 A4 A6 A7 A9 A12 A13 B2 B3 A15 A16 B4 B5 B6 B7) as (ms & nodes & T & N & I & F).
  assert (Dt : is_dir_node t') by exact (other_dir t t' A6 A11).
  assert (Tt : tab_free t') by exact (other_tab t t' A11 A13).
  assert (St : forall p n, reached t' p n -> still ev base p n).
  { intros p n0 (X & _ & Y). exact (other_still base t t' ev A11 A15 p n0 X Y). }
  destruct (create_lemma fuel' fs' clock ev base t' R' prior l ar a' cat A2 A3 A4 A5 A8 Dt A10 Tt St A14 D1 D2 D3 D4 D5 D6 D7) as (mc & ms' & nodes' & T' & C' & N' & I' & G).
  destruct (both_versions ev base t t' nodes ms nodes' ms' A7 A8 A11 N I F N' I' G) as (common & hidden & X1 & X2 & X3).
  exists ms, mc, ms', common, hidden. repeat (split; [assumption|]). assumption.
Qed.
