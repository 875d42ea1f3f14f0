(** Lemmas behind C97: an unpacked archive, archived again, gives the same
    members and the same length. *)
From Coq Require Import Permutation.
From Verif Require Import Bytes Outcome TarSpec TarModel TarProofs Layout LayoutSpec LayoutProofs LayoutMore Mover MoverSpec
  Boss BossProofs Assemble Spider SpiderSpec SpiderProofs SpiderMore Program ProgramProofs EndSpec EndProofs EndMore MembersSpec Members UnpackSpec RepackSpec.

(** what is left of a node in an archive *)
Definition kind_of (n : node) : node := match n with NDir _ | NLocked => NDir [] | _ => n end.
Lemma kind_arch n n' : kind_of n = kind_of n' -> archivable n -> archivable n'.
Proof. destruct n, n'; cbn; intros; try discriminate; auto. Qed.
Lemma kind_dir n n' : kind_of n = kind_of n' -> is_dir_node n -> is_dir_node n'.
Proof. destruct n, n'; cbn; intros; try discriminate; try contradiction; auto. Qed.
Lemma kind_rec n n' e : kind_of n = kind_of n' -> records n e -> records n' e.
Proof. destruct n, n'; cbn; intros H; try discriminate; auto; injection H as <-; auto. Qed.
Lemma kind_fields e e' n n' : records n e -> records n' e' -> kind_of n = kind_of n' -> en_base e = en_base e' -> en_rel e = en_rel e' ->
  mk_entry (en_type e) (en_base e) (en_rel e) (en_target e) (en_size e) = Ok e ->
  mk_entry (en_type e') (en_base e') (en_rel e') (en_target e') (en_size e') = Ok e' -> e = e'.
Proof.
  intros H1 H2 Hn Hb Hr M1 M2.
  assert (en_type e = en_type e' /\ en_size e = en_size e' /\ en_target e = en_target e') as (T & S & G).
  { apply (kind_rec _ _ _ Hn) in H1. destruct n'; cbn in *; try contradiction; intuition congruence. }
  rewrite T, Hb, Hr, G, S, M2 in M1. congruence.
Qed.
(** a member tells the kind of its node *)
Lemma described_kind ev ev' base p n n' m : describes ev base p n m -> describes ev' base p n' m -> kind_of n = kind_of n'.
Proof.
  intros (H & _) (H' & _). destruct n, n'; cbn in H, H'; cbn [kind_of]; try contradiction; auto; destruct H as (_ & A & B & C & _), H' as (_ & A' & B' & C' & _); try congruence; rewrite A in A'; discriminate A'.
Qed.
Lemma det ev base p n m m' : describes ev base p n m -> describes ev base p n m' -> m = m'.
Proof. apply describes_det. reflexivity. Qed.

Section again.
Context (fs fs' : fsys) (sort sort' : list entry -> list entry) (base : bytes) (t t' : node) (ev ev' : env) (S : place).
Context (Hso : forall l, order_files l (sort l)) (Hso' : forall l, order_files l (sort' l)).
Context (Hb : base <> []) (Hbn : no_byte NUL base) (Hd : is_dir_node t) (Hw : wf_node t) (Hw' : wf_node t').
Context (Hs : shows fs base t) (Hs' : shows fs' base t').
Context (Hsh : short_paths base t) (Htab : tab_free t).
Context (Hstill : forall p n, at_path t p n -> archivable n -> still ev base p n).
Context (Hstill' : forall p n, at_path t' p n -> archivable n -> still ev' base p n).
Context (Hsl : forall p n, at_path t p n -> is_dir_node n -> p <> [] -> slash_safe (node_path base p)).
Context (Hun : unpacked_as S ev' base t').
Context (Hmade : forall p n, at_path t p n -> archivable n -> exists m, S (components base ++ p) = Some (Made m) /\ describes ev base p n m).
Context (Hold : forall p m, S (components base ++ p) = Some (Made m) -> exists n, at_path t p n /\ archivable n).

Lemma there p n : at_path t p n -> archivable n -> exists n' m, at_path t' p n' /\ describes ev base p n m /\ describes ev' base p n' m /\ kind_of n = kind_of n'.
Proof using Hun Hmade Hw'.
  intros Ha Hn. destruct (Hmade p n Ha Hn) as (m & E & D). destruct Hun as [U1 U2]. destruct (U2 p m E) as (n' & Ha'). destruct (U1 p n' Ha') as (m' & E' & D').
  assert (m' = m) by congruence. subst m'. exists n', m. do 3 (split; auto). eapply described_kind; eauto.
Qed.
Lemma and_back p n' : at_path t' p n' -> exists n m, at_path t p n /\ archivable n /\ describes ev base p n m /\ describes ev' base p n' m /\ kind_of n = kind_of n'.
Proof using Hun Hmade Hold.
  intros Ha'. destruct Hun as [U1 _]. destruct (U1 p n' Ha') as (m & E & D'). destruct (Hold p m E) as (n & Ha & Hn). destruct (Hmade p n Ha Hn) as (m' & E' & D).
  assert (m' = m) by congruence. subst m'. exists n, m. do 4 (split; auto). eapply described_kind; eauto.
Qed.

Lemma again_dir : is_dir_node t'.
Proof using Hd Hun Hmade Hold Hw.
  destruct (and_back [] t' (At_here t')) as (n & m & Ha & _ & _ & _ & K). assert (E : n = t) by (apply (at_path_det _ _ _ _ Ha Hw (At_here t))). rewrite E in K. exact (kind_dir _ _ K Hd).
Qed.
Lemma again_short : short_paths base t'.
Proof using Hsh Hun Hmade Hold.
  intros p n' Ha. destruct (and_back p n' Ha) as (n & m & H & _ & _ & _ & K). destruct (Hsh p n H) as [A1 A2]. split; auto.
  destruct n, n'; cbn in *; try discriminate; auto. injection K as <-. auto.
Qed.
Lemma again_tab : tab_free t'.
Proof using Htab Hun Hmade Hold.
  intros p n' Ha. destruct (and_back p n' Ha) as (n & m & H & _ & _ & _ & K). destruct (Htab p n H) as [A1 A2]. split; auto.
  destruct n, n'; cbn in *; try discriminate; auto. injection K as <-. auto.
Qed.
Lemma again_safe p n' : at_path t' p n' -> is_dir_node n' -> p <> [] -> slash_safe (node_path base p).
Proof using Hsl Hun Hmade Hold.
  intros Ha Hn Hp. destruct (and_back p n' Ha) as (n & m & H & _ & _ & _ & K). apply (Hsl p n H); auto. destruct n, n'; cbn in *; try discriminate; try contradiction; auto.
Qed.

Context (fuel fuel' : nat) (bucket bucket' maxo maxo' : Z) (bs bs' : list (list order)).
Context (Hp : plan fuel fs sort base bucket maxo = Ok (Some bs)) (Hp' : plan fuel' fs' sort' base bucket' maxo' = Ok (Some bs')).
Context (Hk : 100000 <= bucket) (Hm : bucket mod 512 = 0) (Hk' : 100000 <= bucket') (Hm' : bucket' mod 512 = 0).

Lemma again_entries : exists dirs files dirs' files',
  scan fuel fs base = Ok (dirs, files) /\ scan fuel' fs' base = Ok (dirs', files') /\ Permutation (dirs ++ sort files) (dirs' ++ sort' files').
Proof.
  destruct (tree_ready _ _ _ _ _ _ _ _ _ Hp Hso Hb Hbn Hd Hw Hs Hsh Htab Hk Hm Hstill Hsl) as (dirs & files & d & f & A1 & A2 & _ & _ & _ & _ & N & C & All).
  destruct (tree_ready _ _ _ _ _ _ _ _ _ Hp' Hso' Hb Hbn again_dir Hw' Hs' again_short again_tab Hk' Hm' Hstill' again_safe) as (dirs' & files' & d' & f' & A1' & A2' & _ & _ & _ & _ & N' & C' & All').
  exists dirs, files, dirs', files'. do 2 (split; auto).
  apply NoDup_Permutation; [apply (nodup_map en_rel); auto|apply (nodup_map en_rel); auto|].
  intros e. split; intros He.
  - destruct (All e He) as (p & n & B1 & B2 & B3 & B4 & B5). assert (Hn : archivable n) by (destruct n; cbn in *; auto).
    destruct (there p n B1 Hn) as (n' & m & B1' & _ & _ & E).
    destruct (C' p n' B1') as (e' & He' & Er); [apply (kind_arch n); auto|].
    destruct (All' e' He') as (p' & x & D1 & D2 & D3 & D4 & D5).
    assert (p' = p) as ->. { apply join_inj; [apply (at_path_wf _ _ _ D1 Hw')|apply (at_path_wf _ _ _ B1 Hw)|congruence]. }
    rewrite (at_path_det _ _ _ _ D1 Hw' B1') in D3.
    rewrite (kind_fields e e' n n' B3 D3 E); auto; congruence.
  - destruct (All' e He) as (p & n' & B1 & B2 & B3 & B4 & B5). destruct (and_back p n' B1) as (n & m & B1' & Hn & _ & _ & E).
    destruct (C p n B1') as (e' & He' & Er); [auto|].
    destruct (All e' He') as (p' & x & D1 & D2 & D3 & D4 & D5).
    assert (p' = p) as ->. { apply join_inj; [apply (at_path_wf _ _ _ D1 Hw)|apply (at_path_wf _ _ _ B1 Hw')|congruence]. }
    rewrite (at_path_det _ _ _ _ D1 Hw B1') in D3.
    rewrite (kind_fields e e' n' n B3 D3 (eq_sym E)); auto; congruence.
Qed.

Lemma again_members path path' R n s R' n' s' a a' : (1 <= R)%nat -> (1 <= R')%nat ->
  run (length bs) R (fun o => succeeds (jobs ev bucket path base bs o)) n s -> boss s = BEnd ->
  run (length bs') R' (fun o => succeeds (jobs ev' bucket' path' base bs' o)) n' s' -> boss s' = BEnd ->
  concretises a (assemble (jobs ev bucket path base bs) (map snd (log s))) ->
  concretises a' (assemble (jobs ev' bucket' path' base bs') (map snd (log s'))) ->
  zlen a = zlen a' /\ exists ms ms', tar_list a = Some ms /\ tar_list a' = Some ms' /\ Permutation ms ms'.
Proof.
  intros HR HR' H1 H2 H1' H2' Ca Ca'. split.
  { destruct Ca as [-> _], Ca' as [-> _]. destruct again_entries as (dirs & files & dirs' & files' & A & A' & P).
    destruct (C33_lemma _ _ _ _ _ _ _ _ _ _ _ _ _ Hp Hso Hb Hbn Hd Hw Hs Hsh Htab Hk Hm Hstill Hsl HR H1 H2) as (ds & fl & d1 & f1 & e & off & l & S1 & S2 & S3 & ->).
    destruct (C33_lemma _ _ _ _ _ _ _ _ _ _ _ _ _ Hp' Hso' Hb Hbn again_dir Hw' Hs' again_short again_tab Hk' Hm' Hstill' again_safe HR' H1' H2') as (ds' & fl' & d1' & f1' & e' & off' & l' & S1' & S2' & S3' & ->).
    assert (ds = dirs /\ fl = files) as [-> ->] by (split; congruence). assert (ds' = dirs' /\ fl' = files') as [-> ->] by (split; congruence).
    assert (G : forall x y d f l e off, set_offsets x y = (d, f) -> d ++ f = l ++ [(e, off)] -> up512 (off + en_hdr e + en_size e) = total (x ++ y)).
    { clear. intros x y d f l e off H E. destruct (set_offsets_laid _ _ _ _ H) as (z & L & M1 & M2).
      pose proof (laid_total _ 0 z eq_refl L) as T. rewrite map_app, M1, M2 in T. rewrite E in L. apply laid_app in L as (m & _ & L2).
      cbn [laid] in L2. destruct L2 as [-> L2]. unfold ext in L2. replace (m + en_hdr e + en_size e) with (m + (en_hdr e + en_size e)) by lia. lia. }
    rewrite (G _ _ _ _ _ _ _ S2 S3), (G _ _ _ _ _ _ _ S2' S3'). apply total_perm. exact P. }
  destruct (C19_lemma _ _ _ _ _ _ _ _ _ _ _ _ _ _ Hp Hso Hb Hbn Hd Hw Hs Hsh Htab Hk Hm Hstill Hsl HR H1 H2 Ca) as (ms & nodes & T & N & In1 & F).
  destruct (C19_lemma _ _ _ _ _ _ _ _ _ _ _ _ _ _ Hp' Hso' Hb Hbn again_dir Hw' Hs' again_short again_tab Hk' Hm' Hstill' again_safe HR' H1' H2' Ca') as (ms' & nodes' & T' & N' & In1' & F').
  exists ms, ms'. split; auto. split; auto.
  assert (G : forall X v (nd : list (list bytes * node)) l, (forall p n, In (p, n) nd -> at_path X p n) ->
    Forall2 (fun pn m => describes v base (fst pn) (snd pn) m) nd l -> Forall2 (fun p m => exists n, at_path X p n /\ describes v base p n m) (map fst nd) l).
  { clear. intros X v nd l Hin F. induction F as [|[p n] m nd l H F IH]; cbn [map fst]; constructor.
    - exists n. split; [apply Hin; left; auto|exact H].
    - apply IH. intros. apply Hin. right. auto. }
  assert (F1 := G t ev nodes ms (fun p n H => proj1 (proj1 (In1 p n) H)) F).
  assert (F1' := G t' ev' nodes' ms' (fun p n H => proj1 (proj1 (In1' p n) H)) F').
  assert (P : Permutation (map fst nodes) (map fst nodes')).
  { apply NoDup_Permutation; auto. intros p. rewrite !in_map_iff. split.
    - intros ([q x] & <- & Hin). cbn [fst]. apply In1 in Hin as [Ha Hn]. destruct (there q x Ha Hn) as (x' & m & Ha' & _ & _ & E).
      exists (q, x'). split; auto. apply In1'. split; auto. eapply kind_arch; eauto.
    - intros ([q x] & <- & Hin). cbn [fst]. apply In1' in Hin as [Ha Hn]. destruct (and_back q x Ha) as (x' & m & Ha' & Hn' & _ & _ & E).
      exists (q, x'). split; auto. apply In1. split; auto. }
  destruct (Permutation_Forall2 P F1) as (l & Pl & Fl).
  assert (l = ms'); [|subst; auto].
  clear P Pl F F' G T T' N N' In1 In1' F1. revert ms' F1'. induction Fl as [|p m ps l H Fl IH]; intros ms' F'; inversion F' as [|? m' ? ? H' F'' ]; subst; auto.
  f_equal; [|apply IH; auto]. destruct H as (x & Ha & Dn), H' as (x' & Ha' & Dn').
  destruct (and_back p x' Ha') as (y & m0 & Hy & _ & D1 & D2 & _). rewrite (at_path_det _ _ _ _ Ha Hw Hy) in Dn.
  rewrite (det _ _ _ _ _ _ Dn D1). exact (det _ _ _ _ _ _ D2 Dn').
Qed.
End again.
