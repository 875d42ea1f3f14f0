(** Lemmas behind C76: a slash behind the target. *)
From Coq Require Import Permutation Sorted.
From Verif Require Import Bytes Outcome TarSpec TarModel TarMore Layout LayoutSpec LayoutMore Mover MoverSpec Boss Assemble Spider SpiderSpec SpiderProofs SpiderMore
  Program ProgramProofs EndSpec EndProofs EndMore MembersSpec Members Legacy LegacyScan LegacyScanProofs LegacyWrite LegacyCreate LegacyCreateProofs UnpackSpec TargetSpec Target.

Section s06.
Context (base : bytes).
Notation base' := (base ++ [SLASH]).
Lemma path' q : base' ++ [SLASH] ++ q = base ++ [SLASH; SLASH] ++ q.
Proof. rewrite <- app_assoc. reflexivity. Qed.

Lemma shows_blind fs : fs_blind base fs -> forall path n, shows fs path n -> forall q, path = base ++ [SLASH] ++ q -> shows fs (base ++ [SLASH; SLASH] ++ q) n.
Proof.
  intros (Hl & Hr & _). fix IH 3. intros path n H q Hq. specialize (Hl q). specialize (Hr q). rewrite <- Hq in Hl, Hr.
  destruct H as [path s l E K|path s t E K Z|path s l names ch E K R F A|path s l E K R|path s l E K|path E|path s t E K Z].
  - apply (Sh_file _ _ s l); auto. rewrite Hl; auto.
  - apply (Sh_link _ _ s t); auto. rewrite Hl; auto.
  - apply (Sh_dir _ _ s l names ch); auto; [rewrite Hl; auto|rewrite Hr; auto|]. clear F. induction A as [|c ch0 Hc A IHA]; constructor; [|exact IHA].
    rewrite <- !app_assoc. apply (IH _ _ Hc). rewrite Hq, <- !app_assoc. reflexivity.
  - apply (Sh_locked _ _ s l); auto; [rewrite Hl; auto|rewrite Hr; auto].
  - apply (Sh_other _ _ s l); auto. rewrite Hl; auto.
  - apply Sh_gone. rewrite Hl; auto.
  - apply (Sh_badlink _ _ s t); auto. rewrite Hl; auto.
Qed.
Lemma opens_blind fs t : fs_blind base fs -> opens_as fs base t -> opens_as fs base' t.
Proof.
  intros B [names ch R F A|R]; pose proof B as (_ & _ & Hb).
  - apply (Opens fs base' names ch); [rewrite Hb; auto|auto|]. eapply Forall_impl; [|exact A]. cbv beta. intros c Hc. rewrite path'. apply (shows_blind fs B _ _ Hc). reflexivity.
  - apply Opens_not. rewrite Hb. auto.
Qed.

Context (ev : env) (Bl : slash_blind base (e_lstat ev)) (Bd : slash_blind base (e_data ev)).
Lemma node_path' p : node_path base' p = base ++ [SLASH; SLASH] ++ join p.
Proof. unfold node_path. apply path'. Qed.
Lemma still_blind p n : still ev base p n -> still ev base' p n.
Proof using Bl Bd.
  intros (s & tg & H). exists s, tg. rewrite node_path', (Bl (join p)), (Bd (join p)). exact H.
Qed.
Lemma describes_blind p n m m' : describes ev base p n m -> describes ev base' p n m' -> respelt base m m'.
Proof using Bl Bd.
  intros (H1 & s & tg & L & A1 & A2 & A3 & A4 & un & gn & B1 & B2 & B3 & B4) (H1' & s' & tg' & L' & A1' & A2' & A3' & A4' & un' & gn' & B1' & B2' & B3' & B4').
  rewrite node_path', (Bl (join p)) in L'. rewrite node_path' in H1'. unfold node_path in L, H1. pose proof (Bd (join p)) as Ed. 
  assert (s' = s) by congruence. subst s'. assert (un' = un) by congruence. assert (gn' = gn) by congruence. subst un' gn'.
  unfold respelt. destruct n; try contradiction.
  - destruct H1 as (P & T & K & S & D), H1' as (P' & T' & K' & S' & D'). split; [exists (join p); auto|]. repeat (split; [congruence|]). rewrite Ed in D'. congruence.
  - destruct H1 as (P & T & K & S & D), H1' as (P' & T' & K' & S' & D'). split; [exists (join p); auto|]. repeat (split; [congruence|]). congruence.
  - destruct H1 as (P & T & K & S & D), H1' as (P' & T' & K' & S' & D'). split; [exists (join p ++ match p with [] => [] | _ => [SLASH] end); rewrite P, P', <- !app_assoc; auto|]. repeat (split; [congruence|]). congruence.
  - destruct H1 as (P & T & K & S & D), H1' as (P' & T' & K' & S' & D'). split; [exists (join p ++ match p with [] => [] | _ => [SLASH] end); rewrite P, P', <- !app_assoc; auto|]. repeat (split; [congruence|]). congruence.
Qed.

Lemma two_listings t nodes ms nodes' ms' : wf_node t ->
  NoDup (map fst nodes) -> (forall p n, In (p, n) nodes <-> at_path t p n /\ archivable n) ->
  Forall2 (fun pn m => describes ev base (fst pn) (snd pn) m) nodes ms ->
  NoDup (map fst nodes') -> (forall p n, In (p, n) nodes' <-> at_path t p n /\ archivable n) ->
  Forall2 (fun pn m => describes ev base' (fst pn) (snd pn) m) nodes' ms' ->
  exists ms2, Permutation ms2 ms' /\ Forall2 (respelt base) ms ms2.
Proof using Bl Bd.
  intros Hw N I F N' I' F'.
  assert (P : Permutation nodes' nodes).
  { apply NoDup_Permutation; [apply (nodup_map fst); auto|apply (nodup_map fst); auto|]. intros [p n]. rewrite I, I'. reflexivity. }
  destruct (Permutation_Forall2 P F') as (l & Pl & Fl). exists l. split; [symmetry; exact Pl|].
  clear - F Fl Bl Bd. revert l Fl. induction F as [|[p n] m nodes ms H F IH]; intros l Fl; inversion Fl as [|? m' ? ? H' F'']; subst; constructor; auto.
  cbn [fst snd] in *. exact (describes_blind p n m m' H H').
Qed.
End s06.

Lemma C76_lemma fs fs' sort sort' base t ev :
  (forall l, order_files l (sort l)) -> (forall l, order_files l (sort' l)) ->
  base <> [] -> no_byte NUL base -> is_dir_node t -> wf_node t ->
  opens_as fs base t -> opens_as fs' base t -> fs_blind base fs' -> slash_blind base (e_lstat ev) -> slash_blind base (e_data ev) ->
  short_paths (base ++ [SLASH]) t -> tab_free t ->
  (forall p n, at_path t p n -> archivable n -> still ev base p n) ->
  (forall p n, at_path t p n -> is_dir_node n -> p <> [] -> slash_safe (node_path base p) /\ slash_safe (node_path (base ++ [SLASH]) p)) ->
  forall fuel fuel' bucket bucket' maxo maxo' bs bs',
  plan fuel fs sort base bucket maxo = Ok (Some bs) -> plan fuel' fs' sort' (base ++ [SLASH]) bucket' maxo' = Ok (Some bs') ->
  100000 <= bucket -> bucket mod 512 = 0 -> 100000 <= bucket' -> bucket' mod 512 = 0 ->
  forall path path' R n s R' n' s' a a', (1 <= R)%nat -> (1 <= R')%nat ->
  run (length bs) R (fun o => succeeds (jobs ev bucket path base bs o)) n s -> boss s = BEnd ->
  run (length bs') R' (fun o => succeeds (jobs ev bucket' path' (base ++ [SLASH]) bs' o)) n' s' -> boss s' = BEnd ->
  concretises a (assemble (jobs ev bucket path base bs) (map snd (log s))) ->
  concretises a' (assemble (jobs ev bucket' path' (base ++ [SLASH]) bs') (map snd (log s'))) ->
  exists ms ms' ms2, tar_list a = Some ms /\ tar_list a' = Some ms' /\ Permutation ms2 ms' /\ Forall2 (respelt base) ms ms2.
Proof.
  intros H1 H1' H2 H3 H4 H5 H6 H6' B Bl Bd H7 H8 H9 H10 fuel fuel' bucket bucket' maxo maxo' bs bs' P P' K1 K2 K1' K2' path path' R n s R' n' s' a a' HR HR' Q1 Q2 Q1' Q2' Ca Ca'.
  assert (S7 : short_paths base t). { intros p nd A. destruct (H7 p nd A) as [X Y]. rewrite zlen_app in X. change (zlen [SLASH]) with 1 in X. split; [lia|auto]. }
  destruct (C73_lemma fuel fs sort base t ev bucket maxo bs path R n s a) as (ms & nodes & T & N & I & F); auto.
  { intros p nd A D Np. apply (H10 p nd A D Np). }
  destruct (C73_lemma fuel' fs' sort' (base ++ [SLASH]) t ev bucket' maxo' bs' path' R' n' s' a') as (ms' & nodes' & T' & N' & I' & F'); auto.
  { intros E. apply app_eq_nil in E as [_ E]. discriminate. }
  { unfold no_byte in *. rewrite in_app_iff. intros [X|[X|[]]]; [auto|discriminate X]. }
  { apply opens_blind; auto. }
  { intros p nd A D. apply still_blind; auto. }
  { intros p nd A D Np. apply (H10 p nd A D Np). }
  destruct (two_listings base ev Bl Bd t nodes ms nodes' ms' H5 N I F N' I' F') as (ms2 & X & Y).
  exists ms, ms', ms2. auto.
Qed.

(** the places the members unpack to *)
Lemma cut_app cur l l' : cut cur (l ++ [SLASH] ++ l') = cut cur l ++ cut [] l'.
Proof.
  revert cur. induction l as [|c l IH]; intros cur; cbn [app cut].
  - replace (beq SLASH SLASH) with true by reflexivity. reflexivity.
  - destruct (beq c SLASH); [cbn [app]; f_equal; apply IH|apply IH].
Qed.
Lemma components_blind base rest : components (base ++ [SLASH; SLASH] ++ rest) = components (base ++ [SLASH] ++ rest).
Proof.
  unfold components. change (base ++ [SLASH; SLASH] ++ rest) with (base ++ [SLASH] ++ ([] ++ [SLASH] ++ rest)). rewrite !cut_app. rewrite !filter_app. cbn [cut filter names_nothing]. 
  replace (negb (names_nothing [])) with false by reflexivity. reflexivity.
Qed.

(** *** 0.5.1: the very same run *)
Lemma ends_slash_app top : ends_with_slash (top ++ [SLASH]) = true.
Proof. unfold ends_with_slash. rewrite rev_app_distr. reflexivity. Qed.
Lemma fill_rels_ok q es : q <> [] -> fill_rels q es = Ok (map (fill_rel q) es).
Proof. destruct q; [contradiction|reflexivity]. Qed.
Section s051.
Context (fs : fsys) (top : bytes) (Ht : ends_with_slash top = false) (Hn : top <> []) (Hr : f_readdir fs (top ++ [SLASH]) = f_readdir fs top).
Lemma list_entries_slash names : list_entries fs (top ++ [SLASH]) [] names = list_entries fs top [] names.
Proof using Ht.
  induction names as [|x names IH]; cbn [list_entries]; auto. destruct (starts_with_dot x); auto.
  assert (E : next_rel (top ++ [SLASH]) x = next_rel top x) by (unfold next_rel; rewrite ends_slash_app, Ht, <- app_assoc; reflexivity).
  rewrite E, IH. reflexivity.
Qed.
Lemma list_dirs_slash fuel : list_dirs fuel fs [(top ++ [SLASH], [])] = list_dirs fuel fs [(top, [])].
Proof using Ht Hn Hr.
  destruct fuel as [|f]; cbn [list_dirs]; auto. rewrite Hr. destruct (f_readdir fs top) as [names|]; auto. rewrite list_entries_slash.
  destruct (top ++ [SLASH]) as [|c r] eqn:E; [apply app_eq_nil in E as [_ E]; discriminate|]. destruct top; [contradiction|]. reflexivity.
Qed.
Lemma enters q : dir_or_link fs q -> exists w, legacy_what_is_path fs q = w /\ match w with FoundDir | FoundLink _ => True | _ => False end.
Proof.
  intros (s & tg & E & [K|[K Z]]); eexists; (split; [reflexivity|]); unfold legacy_what_is_path; rewrite E, K; auto. destruct (Z.eqb_spec (zlen tg) (st_size s)); [exact I|lia].
Qed.
Lemma list_slash fuel : dir_or_link fs top -> dir_or_link fs (top ++ [SLASH]) -> slash_safe top ->
  forall r, (exists es, list_directory fuel fs (top ++ [SLASH]) = Ok (Some es) /\ fill_rels (top ++ [SLASH]) es = Ok r) <->
            (exists es, list_directory fuel fs top = Ok (Some es) /\ fill_rels top es = Ok r).
Proof using Ht Hn Hr.
  intros D D' S r.
  assert (G : forall q, dir_or_link fs q -> list_directory fuel fs q =
    (y <- list_dirs fuel fs [(q, [])] ;; match y with Some es => Ok (Some (named_t LDir q [] [] SIZE_DIR :: es)) | None => Ok None end)).
  { intros q Dq. destruct (enters q Dq) as (w & E & W). unfold list_directory. rewrite E, named_ok. destruct w; try contradiction; reflexivity. }
  rewrite (G _ D), (G _ D'), list_dirs_slash.
  assert (F : forall es, fill_rels (top ++ [SLASH]) (named_t LDir (top ++ [SLASH]) [] [] SIZE_DIR :: es) = fill_rels top (named_t LDir top [] [] SIZE_DIR :: es)).
  { intros es. rewrite (fill_rels_ok top) by auto. rewrite (fill_rels_ok (top ++ [SLASH])) by (intros E; apply app_eq_nil in E as [_ E]; discriminate).
    assert (X : forall e, fill_rel (top ++ [SLASH]) e = fill_rel top e) by (intros e; unfold fill_rel; rewrite ends_slash_app, Ht; reflexivity).
    f_equal. cbn [map]. rewrite (map_ext _ _ X). f_equal. rewrite X.
    unfold fill_rel, named_t, stored, name_request. cbn [l_rel l_arc l_type l_tgt l_size l_hdr l_loc l_orig l_ploc l_pname l_phdr l_psize l_nfrag l_fptr l_bucket
      q_rel q_arc q_type q_tgt q_size q_hdr q_loc q_orig q_ploc q_pname q_phdr q_psize q_nfrag q_fptr q_bucket or_empty].
    rewrite (hdr_neg (top ++ [SLASH])), (hdr_neg top), <- S by (unfold SIZE_DIR; lia). reflexivity. }
  destruct (list_dirs fuel fs [(top, [])]) as [[es0|]|]; cbn [bind].
  - split; intros (es & E & X).
    + assert (es = named_t LDir (top ++ [SLASH]) [] [] SIZE_DIR :: es0) by congruence. subst es. rewrite F in X. eauto.
    + assert (es = named_t LDir top [] [] SIZE_DIR :: es0) by congruence. subst es. rewrite <- F in X. eauto.
  - split; intros (es & E & _); discriminate.
  - split; intros (es & E & _); discriminate.
Qed.
Lemma create_slash fuel clock ev R prior l ar : dir_or_link fs top -> dir_or_link fs (top ++ [SLASH]) -> slash_safe top ->
  create_run fuel fs clock ev (top ++ [SLASH]) R prior l ar <-> create_run fuel fs clock ev top R prior l ar.
Proof using Ht Hn Hr.
  intros D D' S. split; intros H; destruct H as [es es' l ar H1 H2 H3 H4 H5].
  - destruct (proj1 (list_slash fuel D D' S es')) as (es2 & X1 & X2); [eauto|]. apply (Create_run fuel fs clock ev top R prior es2 es' l ar); auto.
  - destruct (proj2 (list_slash fuel D D' S es')) as (es2 & X1 & X2); [eauto|]. apply (Create_run fuel fs clock ev (top ++ [SLASH]) R prior es2 es' l ar); auto.
Qed.
End s051.
