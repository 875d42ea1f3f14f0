(** Lemmas for C73, C74: neither program looks at what the target itself is,
    beyond opening it (0.6) or refusing what is neither directory nor link (0.5.1). *)
From Coq Require Import Permutation.
From Verif Require Import Bytes Outcome TarSpec TarModel Layout LayoutSpec LayoutMore Mover MoverSpec Spider SpiderSpec SpiderProofs SpiderMore Program ProgramProofs
  OrderCodec Worker Assemble Boss EndSpec EndProofs EndMore Legacy LegacyScan LegacyCreate TargetSpec DriftProofs Args ArgsSpec ArgsProofs.

Definition a_dir : stat := {| st_kind := KDir; st_perm := 493; st_uid := 0; st_gid := 0; st_size := 0; st_mtime := 0 |}.
(** the file system with a directory in the place of [base] *)
Definition seen (fs : fsys) (base : bytes) : fsys :=
  {| f_readdir := f_readdir fs; f_lstat := fun p => if bytes_eqb p base then Some (a_dir, []) else f_lstat fs p; f_heap := f_heap fs |}.

Lemma seen_other fs base p : p <> base -> f_lstat (seen fs base) p = f_lstat fs p.
Proof. intros H. cbn [seen f_lstat]. destruct (bytes_eqb p base) eqn:E; auto. apply bytes_eqb_spec in E. contradiction. Qed.
Lemma longer (p q : bytes) : zlen q < zlen p -> p <> q.
Proof. intros H ->. lia. Qed.

Lemma shows_seen fs base : forall p n, shows fs p n -> zlen base < zlen p -> shows (seen fs base) p n.
Proof.
  fix IH 3. intros p n H L. pose proof (seen_other fs base p (longer _ _ L)) as Hl. destruct H as [path s l E K|path s t E K Z|path s l names ch E K R F A|path s l E K R|path s l E K|path E|path s t E K Z].
  - apply (Sh_file _ _ s l); auto. rewrite Hl; auto.
  - apply (Sh_link _ _ s t); auto. rewrite Hl; auto.
  - apply (Sh_dir _ _ s l names ch); auto. rewrite Hl; auto. clear F. induction A as [|c ch0 Hc A IHA]; constructor; [|exact IHA].
    apply IH; auto. rewrite !zlen_app. pose proof (zlen_nonneg (fst c)). change (zlen [SLASH]) with 1. lia.
  - apply (Sh_locked _ _ s l); auto. rewrite Hl; auto.
  - apply (Sh_other _ _ s l); auto. rewrite Hl; auto.
  - apply Sh_gone. rewrite Hl; auto.
  - apply (Sh_badlink _ _ s t); auto. rewrite Hl; auto.
Qed.

Lemma opens_shows fs base t : opens_as fs base t -> shows (seen fs base) base t.
Proof.
  assert (Hb : f_lstat (seen fs base) base = Some (a_dir, [])).
  { cbn [seen f_lstat]. destruct (bytes_eqb base base) eqn:E; auto. assert (X : bytes_eqb base base = true) by (apply bytes_eqb_spec; auto). congruence. }
  intros [names ch R F A|R].
  - apply (Sh_dir _ _ a_dir [] names ch); auto. eapply Forall_impl; [|exact A]. cbv beta. intros c Hc. apply shows_seen; auto.
    rewrite !zlen_app. pose proof (zlen_nonneg (fst c)). change (zlen [SLASH]) with 1. lia.
  - apply (Sh_locked _ _ a_dir []); auto.
Qed.
Lemma shows_opens fs base t : shows fs base t -> is_dir_node t -> opens_as fs base t.
Proof. intros H D. destruct H; cbn in D; try contradiction; [econstructor; eauto|constructor; auto]. Qed.

(** *** 0.6 *)
Lemma entry_not_base base r : base <> [] -> entry_full_name base r <> base.
Proof.
  intros H. apply longer. unfold entry_full_name. destruct base; [contradiction|]. rewrite !zlen_app. pose proof (zlen_nonneg r). change (zlen [SLASH]) with 1. lia.
Qed.
Lemma read_seen fs base rel : base <> [] -> forall names, read_entries (seen fs base) base rel names = read_entries fs base rel names.
Proof.
  intros H. induction names as [|name names IH]; cbn [read_entries]; auto. destruct (is_dot name); auto. rewrite IH. f_equal.
  unfold what_is_path. rewrite seen_other by (apply entry_not_base; auto). reflexivity.
Qed.
Lemma for_each_ext {A B} (f g : A -> outcome B) l : (forall x, f x = g x) -> for_each f l = for_each g l.
Proof. intros H. induction l as [|x l IH]; cbn [for_each]; auto. rewrite H, IH. reflexivity. Qed.
Lemma spider_seen fs base : base <> [] -> forall fuel rel, spider fuel (seen fs base) base rel = spider fuel fs base rel.
Proof.
  intros H. induction fuel as [|f IH]; intros rel; cbn [spider]; auto. change (f_readdir (seen fs base)) with (f_readdir fs).
  destruct (f_readdir fs (dir_path base rel)); auto. rewrite read_seen by auto. destruct (read_entries fs base rel l) as [[subs files]|]; cbn [bind]; auto.
  rewrite (for_each_ext _ _ subs IH). reflexivity.
Qed.
Lemma plan_seen fs base fuel sort bucket maxo : base <> [] -> plan fuel (seen fs base) sort base bucket maxo = plan fuel fs sort base bucket maxo.
Proof. intros H. unfold plan, scan. rewrite spider_seen by auto. reflexivity. Qed.

Lemma C73_lemma fuel fs sort base t ev bucket maxo bs path R n s a :
  plan fuel fs sort base bucket maxo = Ok (Some bs) ->
  (forall l, order_files l (sort l)) -> base <> [] -> no_byte NUL base -> is_dir_node t -> wf_node t -> opens_as fs base t ->
  short_paths base t -> tab_free t -> 100000 <= bucket -> bucket mod 512 = 0 ->
  (forall p n, at_path t p n -> archivable n -> still ev base p n) ->
  (forall p n, at_path t p n -> is_dir_node n -> p <> [] -> slash_safe (node_path base p)) ->
  (1 <= R)%nat ->
  run (length bs) R (fun o => succeeds (jobs ev bucket path base bs o)) n s -> boss s = BEnd ->
  concretises a (assemble (jobs ev bucket path base bs) (map snd (log s))) ->
  exists ms nodes, tar_list a = Some ms /\
    NoDup (map fst nodes) /\ (forall p n, In (p, n) nodes <-> at_path t p n /\ archivable n) /\
    Forall2 (fun pn m => describes ev base (fst pn) (snd pn) m) nodes ms.
Proof.
  intros H1 H2 H3 H4 H5 H6 H7. rewrite <- (plan_seen fs base) in H1 by auto. apply opens_shows in H7.
  exact (C19_lemma fuel (seen fs base) sort base t ev bucket maxo bs path R n s a H1 H2 H3 H4 H5 H6 H7).
Qed.

(** *** 0.5.1 *)
Definition below (top rel : bytes) : Prop := rel = top \/ zlen top < zlen rel.
Lemma next_not_base top rel name : ends_with_slash top = false -> below top rel -> zlen top < zlen (next_rel rel name).
Proof.
  intros H B. unfold next_rel. pose proof (zlen_nonneg name). destruct B as [->|B]; [rewrite H|destruct (ends_with_slash rel)];
    rewrite !zlen_app; try change (zlen [SLASH]) with 1; lia.
Qed.
Lemma list_entries_seen fs top rel arc : ends_with_slash top = false -> below top rel -> forall names,
  list_entries (seen fs top) rel arc names = list_entries fs rel arc names /\
  forall es ds, list_entries fs rel arc names = Ok (es, ds) -> Forall (fun d => below top (fst d)) ds.
Proof.
  intros Ht Hb. induction names as [|name names [IH1 IH2]]; cbn [list_entries].
  { split; auto. intros es ds E. assert (ds = []) by congruence. subst. constructor. }
  destruct (starts_with_dot name); [split; auto|]. pose proof (next_not_base top rel name Ht Hb) as L.
  rewrite IH1. assert (W : legacy_what_is_path (seen fs top) (next_rel rel name) = legacy_what_is_path fs (next_rel rel name)).
  { unfold legacy_what_is_path. rewrite seen_other by (apply longer; auto). reflexivity. }
  rewrite W. split; [reflexivity|]. intros es ds.
  destruct (legacy_what_is_path fs (next_rel rel name)); eauto;
    destruct (named _ _ _ _ _); cbn [bind]; try discriminate; destruct (list_entries fs rel arc names) as [[es' ds']|] eqn:E; cbn [bind]; try discriminate;
    intros X; specialize (IH2 _ _ eq_refl).
  - assert (ds = ds') by congruence. subst; auto.
  - assert (ds = (next_rel rel name, next_arc arc name) :: ds') by congruence. subst. constructor; auto. right. auto.
  - assert (ds = ds') by congruence. subst; auto.
Qed.
Lemma list_dirs_seen fs top : ends_with_slash top = false -> forall fuel queue, Forall (fun d => below top (fst d)) queue ->
  list_dirs fuel (seen fs top) queue = list_dirs fuel fs queue.
Proof.
  intros Ht. induction fuel as [|f IH]; intros [|[rel arc] q] Hq; cbn [list_dirs]; auto.
  change (f_readdir (seen fs top)) with (f_readdir fs). destruct (f_readdir fs rel) as [names|]; auto. destruct rel as [|c rel']; auto.
  inversion Hq as [|? ? H1 H2]; subst. cbn [fst] in H1. destruct (list_entries_seen fs top (c :: rel') arc Ht H1 names) as [E1 E2]. rewrite E1.
  destruct (list_entries fs (c :: rel') arc names) as [[es ds]|]; cbn [bind]; auto. rewrite IH; auto. apply Forall_app. split; auto. eapply E2; eauto.
Qed.
Lemma list_seen fs top fuel : ends_with_slash top = false -> is_link fs top -> list_directory fuel (seen fs top) top = list_directory fuel fs top.
Proof.
  intros Ht (s & t & E & K & Z). unfold list_directory.
  assert (W : legacy_what_is_path (seen fs top) top = FoundDir).
  { unfold legacy_what_is_path. cbn [seen f_lstat]. assert (X : bytes_eqb top top = true) by (apply bytes_eqb_spec; auto). rewrite X. reflexivity. }
  rewrite W. unfold legacy_what_is_path. rewrite E, K. destruct (Z.eqb_spec (zlen t) (st_size s)); [|lia].
  assert (Q : Forall (fun d => below top (fst d)) [(top, @nil byte)]) by (constructor; [left; reflexivity|constructor]). rewrite (list_dirs_seen fs top Ht fuel _ Q). reflexivity.
Qed.
Lemma create_seen fuel fs clock ev top R prior l ar : ends_with_slash top = false -> is_link fs top ->
  create_run fuel fs clock ev top R prior l ar -> create_run fuel (seen fs top) clock ev top R prior l ar.
Proof.
  intros Ht Hl H. destruct H as [es es' l ar H1 H2 H3 H4 H5]. apply (Create_run fuel (seen fs top) clock ev top R prior es es' l ar); auto. rewrite list_seen; auto.
Qed.
Lemma seen_create fuel fs clock ev top R prior l ar : ends_with_slash top = false -> is_link fs top ->
  create_run fuel (seen fs top) clock ev top R prior l ar -> create_run fuel fs clock ev top R prior l ar.
Proof.
  intros Ht Hl H. destruct H as [es es' l ar H1 H2 H3 H4 H5]. apply (Create_run fuel fs clock ev top R prior es es' l ar); auto. rewrite <- list_seen; auto.
Qed.

(** *** C74: no directory there *)
Lemma refused_listing fs top fuel : no_directory fs top -> list_directory fuel fs top = Ok None.
Proof.
  unfold no_directory, list_directory, legacy_what_is_path. destruct (f_lstat fs top) as [[s t]|]; auto. intros [A B]. destruct (st_kind s); auto; contradiction.
Qed.
Section missing.
Variables (fs : fsys) (base : bytes).
Hypothesis (Hb : base <> []) (Hr : f_readdir fs base = None) (Hz : zlen base < 40000).
Lemma locked_short : short_paths base NLocked.
Proof using Hz. intros p nd A. inversion A; subst. change (zlen (join [])) with 0. split; [lia|exact I]. Qed.
Lemma locked_shows : shows (seen fs base) base NLocked.
Proof using Hr. apply opens_shows. constructor. auto. Qed.
Lemma missing_plans fuel sort bucket maxo : (forall l, order_files l (sort l)) -> 100000 <= bucket -> bucket mod 512 = 0 ->
  exists bs, plan (S fuel) fs sort base bucket maxo = Ok (Some bs).
Proof using Hb Hr Hz.
  intros Hs H1 H2. assert (E : spider (S fuel) (seen fs base) base [] = Ok (-2, PDir [] [] [])).
  { cbn [spider dir_path]. change (f_readdir (seen fs base)) with (f_readdir fs). rewrite Hr. reflexivity. }
  assert (S : exists d, scan (S fuel) (seen fs base) base = Ok ([d], [])).
  { unfold scan. rewrite E. cbn [bind snd]. unfold collection. cbn [grow nth_error d_subs app].
    assert (G : grow fuel 1 [PDir [] [] []] = Ok [PDir [] [] []]) by (destruct fuel; reflexivity). rewrite G. cbn [bind for_each flat_map d_files app].
    unfold dir_entry. destruct (mk_entry_ok TDir base (d_rel (PDir [] [] [])) [] 0) as (e & He). rewrite He. cbn [bind]. exists e. reflexivity. }
  destruct S as (d & S). pose proof (scan_plannable _ _ _ NLocked _ _ _ bucket S Hb I Wf_locked locked_shows locked_short (Hs []) H1 H2) as P.
  destruct (set_offsets [d] (sort [])) as [dd ff] eqn:Eo. destruct (plannable_ok 0 bucket maxo _ _ _ _ P Eo) as (bs & w & C & _).
  exists bs. rewrite <- plan_seen by auto. unfold plan. rewrite S. cbn [bind]. rewrite Eo. exact C.
Qed.
Lemma missing_hangs fuel sort ev bucket maxo bs path R n s :
  plan fuel fs sort base bucket maxo = Ok (Some bs) ->
  (forall l, order_files l (sort l)) -> 100000 <= bucket -> bucket mod 512 = 0 ->
  e_lstat ev (base ++ [SLASH]) = None -> (1 <= R)%nat ->
  run (length bs) R (fun o => succeeds (jobs ev bucket path base bs o)) n s -> boss s <> BEnd.
Proof using Hb Hr Hz.
  intros H1 H2 Hbu Hm Hg HR Hru. rewrite <- (plan_seen fs base) in H1 by auto.
  apply (gone_hangs fuel (seen fs base) sort base NLocked ev bucket maxo bs path R n s [] NLocked H1 H2 Hb I Wf_locked locked_shows locked_short); auto; try exact I.
  - intros p nd A. inversion A; subst. split; [intros []|exact I].
  - constructor.
Qed.
End missing.

(** the block size on the command line is always rounded to 512 *)
Lemma parsed_aligned junk args o base : Forall short args ->
  parse_args {| op_bucket := DEFAULT_BUCKET_SIZE; op_maxo := junk; op_archive := [] |} args = Ok (Some (o, [base])) -> op_bucket o mod 512 = 0.
Proof.
  intros Hsh Hp.
  destruct (C30_lemma {| op_bucket := DEFAULT_BUCKET_SIZE; op_maxo := junk; op_archive := [] |} args Hsh) as (_ & L & _).
    specialize (L o [base] Hp). destruct L as (_ & _ & _ & _ & _ & L1 & L2).
    assert (never_given (b "bucketsize") args \/ exists v, last_value (b "bucketsize") args v) as [N|(v & V)].
    { clear. induction args as [|a args IH]; [left; intros w []|]. destruct IH as [N|(v & pre & post & -> & N)].
      - destruct (list_eq_dec Ascii.ascii_dec (firstn 11 a) (b "bucketsize" ++ [EQ])) as [E|E].
        + right. exists (skipn 11 a), [], args. split; [|exact N]. cbn [app]. f_equal. rewrite <- (firstn_skipn 11 a) at 1. rewrite E, <- app_assoc. reflexivity.
        + left. intros w [X|X]; [|exact (N w X)]. apply E. rewrite X. reflexivity.
      - right. exists v, (a :: pre), post. auto. }
    - rewrite (L2 N). reflexivity.
    - destruct (L1 v V) as (n & _ & _ & M & _). exact M.
Qed.
