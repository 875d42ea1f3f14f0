(** Lemmas behind C68: size and members of the archive do not depend on bucket
    size, order limit, ranks, schedule, or the order directories are read in. *)
From Coq Require Import Permutation.
From Verif Require Import Bytes Outcome TarSpec TarModel TarProofs Layout LayoutSpec LayoutProofs LayoutMore Mover MoverSpec
  Boss BossProofs Assemble Spider SpiderSpec SpiderProofs SpiderMore Program ProgramProofs EndSpec EndProofs EndMore MembersSpec.

(** ** the archive ends where the entries, rounded to blocks, add up *)
Definition total (l : list entry) : Z := fold_right (fun e s => up512 (ext e) + s) 0 l.

Lemma total_perm l l' : Permutation l l' -> total l = total l'.
Proof. unfold total. induction 1; cbn [fold_right]; lia. Qed.

Lemma laid_total l : forall w z, w mod 512 = 0 -> laid w l z -> z = w + total (map fst l).
Proof.
  induction l as [|[e off] l IH]; intros w z Hw H; cbn [laid map fst total fold_right] in *; [lia|].
  destruct H as [_ H]. rewrite up512_add in H by auto. apply IH in H; [unfold total in *; lia|].
  pose proof (up512_bounds (ext e)). lia.
Qed.

Lemma bare_sym t t' : same_tree t t' -> same_tree t' t.
Proof. intros H p m. symmetry. apply H. Qed.

Lemma same_at t t' p n : same_tree t t' -> at_path t p n -> exists n', at_path t' p n' /\ bare n' = bare n.
Proof. intros H Ha. apply H. eauto. Qed.

Lemma bare_arch n n' : bare n' = bare n -> archivable n -> archivable n'.
Proof. destruct n, n'; cbn; intros; try discriminate; auto. Qed.
Lemma bare_dir n n' : bare n' = bare n -> is_dir_node n -> is_dir_node n'.
Proof. destruct n, n'; cbn; intros; try discriminate; auto. Qed.
Lemma bare_rec n n' e : bare n' = bare n -> records n e -> records n' e.
Proof. destruct n, n'; cbn; intros H; try discriminate; auto; injection H as <-; auto. Qed.

Lemma same_fields e e' n n' : records n e -> records n' e' -> bare n = bare n' -> en_base e = en_base e' -> en_rel e = en_rel e' ->
  mk_entry (en_type e) (en_base e) (en_rel e) (en_target e) (en_size e) = Ok e ->
  mk_entry (en_type e') (en_base e') (en_rel e') (en_target e') (en_size e') = Ok e' -> e = e'.
Proof.
  intros H1 H2 Hn Hb Hr M1 M2.
  assert (en_type e = en_type e' /\ en_size e = en_size e' /\ en_target e = en_target e') as (T & S & G).
  { apply (bare_rec _ _ _ (eq_sym Hn)) in H1. destruct n'; cbn in *; try contradiction; intuition congruence. }
  rewrite T, Hb, Hr, G, S, M2 in M1. congruence.
Qed.

Lemma nodup_map {A B} (g : A -> B) l : NoDup (map g l) -> NoDup l.
Proof.
  induction l as [|x l IH]; cbn [map]; intros H; [constructor|]. inversion H as [|? ? H1 H2]; subst. constructor; auto.
  intros Hin. apply H1. apply in_map. exact Hin.
Qed.

Lemma describes_det ev base p n n' m m' : bare n = bare n' -> describes ev base p n m -> describes ev base p n' m' -> m = m'.
Proof.
  intros Hn (H1 & s & tg & L & A1 & A2 & A3 & A4 & un & gn & B1 & B2 & B3 & B4) (H1' & s' & tg' & L' & A1' & A2' & A3' & A4' & un' & gn' & B1' & B2' & B3' & B4').
  assert (s' = s) by congruence. subst s'. assert (un' = un) by congruence. assert (gn' = gn) by congruence. subst un' gn'.
  destruct m as [a1 a2 a3 a4 a5 a6 a7 a8 a9 a10 a11], m' as [c1 c2 c3 c4 c5 c6 c7 c8 c9 c10 c11].
  cbn [m_path m_type m_link m_mode m_uid m_gid m_mtime m_size m_uname m_gname m_data] in *.
  destruct n, n'; cbn [bare] in Hn; try discriminate; try contradiction;
    intuition (subst; try congruence).
Qed.

Section two.
Context (fs fs' : fsys) (sort sort' : list entry -> list entry) (base : bytes) (t t' : node) (ev : env).
Context (Hso : forall l, order_files l (sort l)) (Hso' : forall l, order_files l (sort' l)).
Context (Hb : base <> []) (Hbn : no_byte NUL base) (Hd : is_dir_node t) (Hw : wf_node t) (Hw' : wf_node t').
Context (Hs : shows fs base t) (Hs' : shows fs' base t') (Hst : same_tree t t').
Context (Hsh : short_paths base t) (Htab : tab_free t).
Context (Hstill : forall p n, at_path t p n -> archivable n -> still ev base p n).
Context (Hsl : forall p n, at_path t p n -> is_dir_node n -> p <> [] -> slash_safe (node_path base p)).

Lemma back p n' : at_path t' p n' -> exists n, at_path t p n /\ bare n = bare n'.
Proof. apply same_at. apply bare_sym. exact Hst. Qed.

Lemma other_dir : is_dir_node t'.
Proof using Hd Hst.
  destruct (same_at t t' [] t Hst (At_here t)) as (n' & H & E). inversion H as [m|]; subst m n'. exact (bare_dir _ _ E Hd).
Qed.
Lemma other_short : short_paths base t'.
Proof using Hsh Hst.
  intros p n' Ha. destruct (back p n' Ha) as (n & H & E). destruct (Hsh p n H) as [A1 A2]. split; auto.
  destruct n, n'; cbn in *; try discriminate; auto. injection E as <-. auto.
Qed.
Lemma other_tab : tab_free t'.
Proof using Htab Hst.
  intros p n' Ha. destruct (back p n' Ha) as (n & H & E). destruct (Htab p n H) as [A1 A2]. split; auto.
  destruct n, n'; cbn in *; try discriminate; auto. injection E as <-. auto.
Qed.
Lemma other_still p n' : at_path t' p n' -> archivable n' -> still ev base p n'.
Proof using Hstill Hst.
  intros Ha Hn. destruct (back p n' Ha) as (n & H & E).
  destruct (Hstill p n H (bare_arch _ _ E Hn)) as (s & tg & A). exists s, tg.
  destruct n, n'; cbn in *; try discriminate; try contradiction; auto; injection E as <-; exact A.
Qed.
Lemma other_safe p n' : at_path t' p n' -> is_dir_node n' -> p <> [] -> slash_safe (node_path base p).
Proof using Hsl Hst.
  intros Ha Hn Hp. destruct (back p n' Ha) as (n & H & E). apply (Hsl p n H); auto. destruct n, n'; cbn in *; try discriminate; auto.
Qed.

Context (fuel fuel' : nat) (bucket bucket' maxo maxo' : Z) (bs bs' : list (list order)).
Context (Hp : plan fuel fs sort base bucket maxo = Ok (Some bs)) (Hp' : plan fuel' fs' sort' base bucket' maxo' = Ok (Some bs')).
Context (Hk : 100000 <= bucket) (Hm : bucket mod 512 = 0) (Hk' : 100000 <= bucket') (Hm' : bucket' mod 512 = 0).

Lemma same_entries : exists dirs files dirs' files' d f d' f',
  scan fuel fs base = Ok (dirs, files) /\ set_offsets dirs (sort files) = (d, f) /\
  scan fuel' fs' base = Ok (dirs', files') /\ set_offsets dirs' (sort' files') = (d', f') /\
  Permutation (dirs ++ sort files) (dirs' ++ sort' files').
Proof.
  destruct (tree_ready _ _ _ _ _ _ _ _ _ Hp Hso Hb Hbn Hd Hw Hs Hsh Htab Hk Hm Hstill Hsl) as (dirs & files & d & f & A1 & A2 & _ & _ & _ & _ & N & C & All).
  destruct (tree_ready _ _ _ _ _ _ _ _ _ Hp' Hso' Hb Hbn other_dir Hw' Hs' other_short other_tab Hk' Hm' other_still other_safe) as (dirs' & files' & d' & f' & A1' & A2' & _ & _ & _ & _ & N' & C' & All').
  exists dirs, files, dirs', files', d, f, d', f'. do 4 (split; auto).
  apply NoDup_Permutation; [apply (nodup_map en_rel); auto|apply (nodup_map en_rel); auto|].
  intros e. split; intros He.
  - destruct (All e He) as (p & n & B1 & B2 & B3 & B4 & B5). destruct (same_at _ _ p n Hst B1) as (n' & B1' & E).
    destruct (C' p n' B1') as (e' & He' & Er); [apply (bare_arch n); auto; destruct n; cbn in *; auto|].
    destruct (All' e' He') as (p' & m & D1 & D2 & D3 & D4 & D5).
    assert (p' = p) as ->. { apply join_inj; [apply (at_path_wf _ _ _ D1 Hw')|apply (at_path_wf _ _ _ B1 Hw)|congruence]. }
    rewrite (at_path_det _ _ _ _ D1 Hw' B1') in D3.
    rewrite (same_fields e e' n n' B3 D3 (eq_sym E)); auto; congruence.
  - destruct (All' e He) as (p & n' & B1 & B2 & B3 & B4 & B5). destruct (back p n' B1) as (n & B1' & E).
    destruct (C p n B1') as (e' & He' & Er); [apply (bare_arch n'); auto; destruct n'; cbn in *; auto|].
    destruct (All e' He') as (p' & m & D1 & D2 & D3 & D4 & D5).
    assert (p' = p) as ->. { apply join_inj; [apply (at_path_wf _ _ _ D1 Hw)|apply (at_path_wf _ _ _ B1 Hw')|congruence]. }
    rewrite (at_path_det _ _ _ _ D1 Hw B1') in D3.
    rewrite (same_fields e e' n' n B3 D3 (eq_sym E)); auto; congruence.
Qed.

Lemma same_size path path' R n s R' n' s' : (1 <= R)%nat -> (1 <= R')%nat ->
  run (length bs) R (fun o => succeeds (jobs ev bucket path base bs o)) n s -> boss s = BEnd ->
  run (length bs') R' (fun o => succeeds (jobs ev bucket' path' base bs' o)) n' s' -> boss s' = BEnd ->
  ar_size (assemble (jobs ev bucket path base bs) (map snd (log s))) =
  ar_size (assemble (jobs ev bucket' path' base bs') (map snd (log s'))).
Proof.
  intros HR HR' H1 H2 H1' H2'. destruct same_entries as (dirs & files & dirs' & files' & d & f & d' & f' & A & B & A' & B' & P).
  destruct (C33_lemma _ _ _ _ _ _ _ _ _ _ _ _ _ Hp Hso Hb Hbn Hd Hw Hs Hsh Htab Hk Hm Hstill Hsl HR H1 H2) as (ds & fl & d1 & f1 & e & off & l & S1 & S2 & S3 & ->).
  destruct (C33_lemma _ _ _ _ _ _ _ _ _ _ _ _ _ Hp' Hso' Hb Hbn other_dir Hw' Hs' other_short other_tab Hk' Hm' other_still other_safe HR' H1' H2') as (ds' & fl' & d1' & f1' & e' & off' & l' & S1' & S2' & S3' & ->).
  assert (ds = dirs /\ fl = files) as [-> ->] by (split; congruence). assert (ds' = dirs' /\ fl' = files') as [-> ->] by (split; congruence).
  assert (G : forall x y d f l e off, set_offsets x y = (d, f) -> d ++ f = l ++ [(e, off)] -> up512 (off + en_hdr e + en_size e) = total (x ++ y)).
  { clear. intros x y d f l e off H E. destruct (set_offsets_laid _ _ _ _ H) as (z & L & M1 & M2).
    pose proof (laid_total _ 0 z eq_refl L) as T. rewrite map_app, M1, M2 in T. rewrite E in L. apply laid_app in L as (m & _ & L2).
    cbn [laid] in L2. destruct L2 as [-> L2]. unfold ext in L2. replace (m + en_hdr e + en_size e) with (m + (en_hdr e + en_size e)) by lia. lia. }
  rewrite (G _ _ _ _ _ _ _ S2 S3), (G _ _ _ _ _ _ _ S2' S3'). apply total_perm. exact P.
Qed.

Lemma same_members path path' R n s R' n' s' a a' : (1 <= R)%nat -> (1 <= R')%nat ->
  run (length bs) R (fun o => succeeds (jobs ev bucket path base bs o)) n s -> boss s = BEnd ->
  run (length bs') R' (fun o => succeeds (jobs ev bucket' path' base bs' o)) n' s' -> boss s' = BEnd ->
  concretises a (assemble (jobs ev bucket path base bs) (map snd (log s))) ->
  concretises a' (assemble (jobs ev bucket' path' base bs') (map snd (log s'))) ->
  zlen a = zlen a' /\ exists ms ms', tar_list a = Some ms /\ tar_list a' = Some ms' /\ Permutation ms ms'.
Proof.
  intros HR HR' H1 H2 H1' H2' Ca Ca'. split.
  { destruct Ca as [-> _], Ca' as [-> _]. exact (same_size path path' R n s R' n' s' HR HR' H1 H2 H1' H2'). }
  destruct (C19_lemma _ _ _ _ _ _ _ _ _ _ _ _ _ _ Hp Hso Hb Hbn Hd Hw Hs Hsh Htab Hk Hm Hstill Hsl HR H1 H2 Ca) as (ms & nodes & T & N & In1 & F).
  destruct (C19_lemma _ _ _ _ _ _ _ _ _ _ _ _ _ _ Hp' Hso' Hb Hbn other_dir Hw' Hs' other_short other_tab Hk' Hm' other_still other_safe HR' H1' H2' Ca') as (ms' & nodes' & T' & N' & In1' & F').
  exists ms, ms'. split; auto. split; auto.
  set (D := fun p m => exists n, at_path t p n /\ describes ev base p n m).
  set (D' := fun p m => exists n, at_path t' p n /\ describes ev base p n m).
  assert (G : forall X (nd : list (list bytes * node)) l, (forall p n, In (p, n) nd -> at_path X p n) ->
    Forall2 (fun pn m => describes ev base (fst pn) (snd pn) m) nd l -> Forall2 (fun p m => exists n, at_path X p n /\ describes ev base p n m) (map fst nd) l).
  { clear. intros X nd l Hin F. induction F as [|[p n] m nd l H F IH]; cbn [map fst]; constructor.
    - exists n. split; [apply Hin; left; auto|exact H].
    - apply IH. intros. apply Hin. right. auto. }
  assert (F1 : Forall2 D (map fst nodes) ms) by (apply G; auto; intros; apply In1; auto).
  assert (F1' : Forall2 D' (map fst nodes') ms') by (apply G; auto; intros; apply In1'; auto).
  assert (P : Permutation (map fst nodes) (map fst nodes')).
  { apply NoDup_Permutation; auto. intros p. rewrite !in_map_iff. split.
    - intros ([q m] & <- & Hin). cbn [fst]. apply In1 in Hin as [Ha Hn]. destruct (same_at _ _ q m Hst Ha) as (m' & Ha' & E).
      exists (q, m'). split; auto. apply In1'. split; auto. eapply bare_arch; eauto.
    - intros ([q m] & <- & Hin). cbn [fst]. apply In1' in Hin as [Ha Hn]. destruct (back q m Ha) as (m' & Ha' & E).
      exists (q, m'). split; auto. apply In1. split; auto. eapply bare_arch; eauto. }
  destruct (Permutation_Forall2 P F1) as (l & Pl & Fl).
  assert (l = ms'); [|subst; auto].
  clear - Fl F1' Hst Hw Hw'. revert ms' F1'. induction Fl as [|p m ps l H Fl IH]; intros ms' F'; inversion F' as [|? m' ? ? H' F'' ]; subst; auto.
  f_equal; [|apply IH; auto]. destruct H as (n & Ha & Dn), H' as (n' & Ha' & Dn').
  destruct (same_at _ _ p n Hst Ha) as (n2 & Ha2 & E). rewrite (at_path_det _ _ _ _ Ha2 Hw' Ha') in E.
  exact (describes_det ev base p n n' m m' (eq_sym E) Dn Dn').
Qed.
End two.
