(** Lemmas behind C26-C29. *)
From Coq Require Import Permutation.
From Verif Require Import Bytes Outcome TarModel Layout LayoutSpec LayoutProofs LayoutMore Spider SpiderSpec SpiderProofs.

Lemma mk_entry_fields ty base rel target size e : mk_entry ty base rel target size = Ok e ->
  en_type e = ty /\ en_base e = base /\ en_rel e = rel /\ en_target e = target /\ en_size e = size.
Proof.
  unfold mk_entry, compute_hdr_size. destruct (hdr_size _) as [h|]; cbn [bind]; [|discriminate]. intros H; injection H as <-. auto.
Qed.
Definition ent (base : bytes) (r : rawfile) : entry :=
  match file_entry base r with Ok e => e
  | Err _ => {| en_type := TFile; en_base := []; en_rel := []; en_target := []; en_size := 0; en_hdr := 0 |} end.
Lemma ent_ok base r : file_entry base r = Ok (ent base r).
Proof. unfold ent, file_entry. destruct (mk_entry_ok (rf_type r) base (rf_rel r) (rf_target r) (rf_size r)) as (e & ->). reflexivity. Qed.
Lemma ent_fields base r : en_type (ent base r) = rf_type r /\ en_base (ent base r) = base /\ en_rel (ent base r) = rf_rel r /\
  en_target (ent base r) = rf_target r /\ en_size (ent base r) = rf_size r.
Proof. pose proof (ent_ok base r) as H. unfold file_entry in H. apply mk_entry_fields in H. exact H. Qed.

Lemma at_path_wf n p m : at_path n p m -> wf_node n -> wf_node m /\ Forall good_name p.
Proof.
  induction 1 as [n|ch nm n p m Hin Ha IH]; intros Hw; [split; auto|]. inversion Hw as [| |? Hnd Hg Hwc| | |]; subst.
  rewrite Forall_forall in Hg, Hwc. destruct (IH (Hwc _ Hin)). split; auto. constructor; auto. apply (Hg _ Hin).
Qed.

(** what the constructor makes of a directory object that mirrors a tree *)
Lemma collection_ok base n : is_dir_node n -> wf_node n -> exists ds,
  (forall fuel, (weight [mirror [] n] <= fuel)%nat -> collection fuel base (mirror [] n) =
     Ok (map (ent base) (map raw_dir ds), map (ent base) (flat_map d_files ds))) /\
  Permutation ds (all_dirs (mirror [] n)) /\
  (forall i d, nth_error ds i = Some d -> d = mirror [] n \/ exists j d', (j < i)%nat /\ nth_error ds j = Some d' /\ In d (d_subs d')).
Proof.
  intros Hd Hw. set (m := mirror [] n). destruct (bfs_perm (weight [m]) [m] ltac:(lia)) as (ds & Hb & Hp).
  assert (Hmono : forall fuel q r, bfs fuel q = Some r -> forall fuel', (fuel <= fuel')%nat -> bfs fuel' q = Some r).
  { clear. induction fuel as [|f IH]; intros [|d q] r H fuel' Hle; cbn [bfs] in H; try discriminate.
    - destruct fuel'; exact H.
    - destruct fuel'; exact H.
    - destruct fuel' as [|f']; [lia|]. cbn [bfs]. destruct (bfs f (q ++ d_subs d)) as [r'|] eqn:E; [|discriminate].
      rewrite (IH _ _ E f') by lia. exact H. }
  exists ds. split; [|split].
  - intros fuel Hf. unfold collection. pose proof (grow_bfs fuel [] [m]) as Hg. cbn [length app] in Hg. rewrite Hg.
    rewrite (Hmono _ _ _ Hb fuel Hf). cbn [bind].
    rewrite (for_each_ok (dir_entry base) (fun d => ent base (raw_dir d))) by (intros a _; exact (ent_ok base (raw_dir a))).
    cbn [bind]. rewrite (for_each_ok (file_entry base) (ent base)) by (intros a _; apply ent_ok). cbn [bind].
    rewrite map_map. reflexivity.
  - rewrite Hp. cbn [flat_map]. rewrite app_nil_r. apply Permutation_refl.
  - intros i d Hi. destruct (bfs_parent _ _ _ Hb i d Hi) as [[<-|[]]|H]; auto.
Qed.

Lemma all_dirs_mirror n : is_dir_node n -> wf_node n -> forall p, Forall good_name p -> forall d, In d (all_dirs (mirror (join p) n)) ->
  exists q m, Forall good_name q /\ is_dir_node m /\ wf_node m /\ d = mirror (join q) m.
Proof.
  induction n as [s|t|ch IH| | |] using node_ind'; intros Hd Hw p Hp d Hin; try contradiction.
  - change (mirror (join p) (NDir ch) :: flat_map all_dirs (d_subs (mirror (join p) (NDir ch))))
      with (all_dirs (mirror (join p) (NDir ch))) in *.
    cbn [all_dirs mirror] in Hin. destruct Hin as [<-|Hin]; [exists p, (NDir ch); auto|].
    apply in_flat_map in Hin as (x & Hx & Hin). apply in_flat_map in Hx as ([nm c] & Hc & Hx). cbn [fst snd] in Hx.
    inversion Hw as [| |? Hnd Hg Hwc| | |]; subst. rewrite Forall_forall in IH, Hg, Hwc.
    specialize (IH _ Hc). specialize (Hg _ Hc). specialize (Hwc _ Hc). cbn [fst snd] in *.
    rewrite sub_rel_join in Hx by auto.
    assert (Hp' : Forall good_name (p ++ [nm])) by (apply Forall_app; auto).
    destruct c; try contradiction; destruct Hx as [<-|[]]; eapply IH; eauto; exact I.
  - destruct Hin as [<-|[]]. exists p, NLocked. repeat split; auto.
Qed.

Lemma mirror_children q m : Forall good_name q -> is_dir_node m -> wf_node m ->
  (forall d, In d (d_subs (mirror (join q) m)) -> exists nm, good_name nm /\ d_rel d = join (q ++ [nm])) /\
  (forall r, In r (d_files (mirror (join q) m)) -> rf_type r <> TDir /\ exists nm, good_name nm /\ rf_rel r = join (q ++ [nm])) /\
  d_rel (mirror (join q) m) = join q.
Proof.
  intros Hq Hd Hw. destruct m as [| |ch| | |]; try contradiction; cbn [mirror d_subs d_files d_rel]; [|firstorder].
  inversion Hw as [| |? Hnd Hg Hwc| | |]; subst. rewrite Forall_forall in Hg. split; [|split; auto].
  - intros d Hin. apply in_flat_map in Hin as ([nm c] & Hc & Hx). cbn [fst snd] in Hx. exists nm. specialize (Hg _ Hc). split; auto.
    rewrite sub_rel_join in Hx by auto. destruct c; try contradiction; destruct Hx as [<-|[]]; reflexivity.
  - intros d Hin. apply in_flat_map in Hin as ([nm c] & Hc & Hx). unfold raw_child in Hx. cbn [fst snd] in Hx. rewrite sub_rel_join in Hx by auto.
    specialize (Hg _ Hc). destruct c; try contradiction; destruct Hx as [<-|[]]; split; try discriminate; exists nm; split; auto.
Qed.

Lemma raw_of_records base p m : archivable m -> records m (ent base (raw_of (p, m))) /\ en_rel (ent base (raw_of (p, m))) = join p.
Proof.
  intros H. pose proof (ent_fields base (raw_of (p, m))) as (F1 & F2 & F3 & F4 & F5).
  destruct m; try contradiction; cbn [records raw_of rf_rel rf_type rf_size rf_target] in *; auto.
Qed.

Definition scan_result (fs : fsys) (base : bytes) (n : node) (dirs files : list entry) : Prop :=
  (exists f0, forall fuel, (f0 <= fuel)%nat -> scan fuel fs base = Ok (dirs, files)) /\
  NoDup (map en_rel (dirs ++ files)) /\
  (forall e, In e (dirs ++ files) -> wf_item e /\ en_base e = base /\ exists p m, at_path n p m /\ en_rel e = join p /\ records m e) /\
  (forall p m, at_path n p m -> archivable m -> exists e, In e (dirs ++ files) /\ en_rel e = join p /\ records m e) /\
  Forall (fun e => en_type e = TDir) dirs /\ Forall (fun e => en_type e <> TDir) files /\
  (forall i e p name, nth_error dirs i = Some e -> Forall good_name (p ++ [name]) -> en_rel e = join (p ++ [name]) ->
     exists j e', (j < i)%nat /\ nth_error dirs j = Some e' /\ en_rel e' = join p) /\
  (forall e p name, In e files -> Forall good_name (p ++ [name]) -> en_rel e = join (p ++ [name]) ->
     exists e', In e' dirs /\ en_rel e' = join p) /\
  (exists r, nth_error dirs 0 = Some r /\ en_rel r = []).

Lemma nth_error_map_inv {A B} (f : A -> B) l i y : nth_error (map f l) i = Some y -> exists x, nth_error l i = Some x /\ y = f x.
Proof. revert i; induction l as [|a l IH]; intros [|i] H; cbn in H; try discriminate; [injection H as <-; exists a; auto|eauto]. Qed.

Lemma scan_lemma fs base n : quiet_heap fs -> base <> [] -> is_dir_node n -> wf_node n -> shows fs base n ->
  exists dirs files, scan_result fs base n dirs files.
Proof.
  intros Hq Hb Hd Hw Hs. destruct (spider_dirlike fs base Hq Hb n Hd Hw) as (f0 & Hsp).
  destruct (collection_ok base n Hd Hw) as (ds & Hc & Hperm & Hpar).
  exists (map (ent base) (map raw_dir ds)), (map (ent base) (flat_map d_files ds)).
  assert (P : Permutation (map raw_dir ds ++ flat_map d_files ds) (map raw_of (enum [] n))).
  { rewrite <- (mirror_perm n Hd Hw [] (Forall_nil _)). apply Permutation_app; [apply Permutation_map|apply Permutation_flat_map]; exact Hperm. }
  assert (Hen : forall p m, In (p, m) (enum [] n) -> at_path n p m /\ archivable m /\ Forall good_name p /\ wf_node m).
  { intros p m Hin. apply enum_prefix in Hin as (r & E & Ha & Hm). cbn in E. subst r. destruct (at_path_wf _ _ _ Ha Hw). auto. }
  assert (Hds : forall d, In d ds -> exists q m, Forall good_name q /\ is_dir_node m /\ wf_node m /\ d = mirror (join q) m).
  { intros d Hin. apply (all_dirs_mirror n Hd Hw [] (Forall_nil _)). eapply Permutation_in; eauto. }
  split; [|split; [|split; [|split; [|split; [|split; [|split; [|split]]]]]]].
  - exists (Nat.max f0 (weight [mirror [] n])). intros fuel Hf. unfold scan. rewrite (Hsp fuel []) by (auto; lia). cbn [bind snd].
    apply Hc. lia.
  - rewrite <- map_app, map_map.
    assert (E : map (fun x => en_rel (ent base x)) (map raw_dir ds ++ flat_map d_files ds) = map rf_rel (map raw_dir ds ++ flat_map d_files ds)).
    { apply map_ext. intros a. apply ent_fields. }
    rewrite E. apply Permutation_NoDup with (map rf_rel (map raw_of (enum [] n))); [apply Permutation_map, Permutation_sym, P|].
    rewrite map_map. assert (E' : map (fun x => rf_rel (raw_of x)) (enum [] n) = map join (map fst (enum [] n))).
    { rewrite map_map. apply map_ext. intros [p m]. destruct m; reflexivity. }
    rewrite E'. pose proof (enum_nodup n Hw []) as Hnd.
    assert (Hg : Forall (Forall good_name) (map fst (enum [] n))).
    { apply Forall_forall. intros p Hin. apply in_map_iff in Hin as ([p' m] & <- & Hin). apply (Hen p' m Hin). }
    clear - Hnd Hg. induction Hnd as [|p l Hp Hl IH]; cbn [map]; constructor.
    + intros Hin. apply in_map_iff in Hin as (q & E & Hin). inversion Hg; subst. rewrite Forall_forall in H2.
      apply join_inj in E; auto. subst. auto.
    + apply IH. inversion Hg; auto.
  - intros e Hin. rewrite <- map_app in Hin. apply in_map_iff in Hin as (r & <- & Hin).
    apply (Permutation_in _ P) in Hin. apply in_map_iff in Hin as ([p m] & <- & Hin).
    destruct (Hen p m Hin) as (Ha & Hm & Hg & Hwm). destruct (raw_of_records base p m Hm). split; [|split].
    + assert (Hr : 0 <= rf_size (raw_of (p, m)) < 2 ^ 63) by (destruct m; cbn; inversion Hwm; subst; auto; lia).
      pose proof (ent_ok base (raw_of (p, m))) as Ho. unfold file_entry in Ho. apply mk_entry_wf in Ho; auto. apply Ho.
    + apply ent_fields.
    + exists p, m. auto.
  - intros p m Ha Hm. pose proof (enum_complete _ _ _ Ha Hm []) as Hin. cbn [app] in Hin.
    exists (ent base (raw_of (p, m))). destruct (raw_of_records base p m Hm). split; auto.
    rewrite <- map_app. apply in_map. apply (Permutation_in _ (Permutation_sym P)). apply in_map; auto.
  - apply Forall_forall. intros e Hin. apply in_map_iff in Hin as (r & <- & Hin). apply in_map_iff in Hin as (d & <- & Hin).
    apply (ent_fields base (raw_dir d)).
  - apply Forall_forall. intros e Hin. apply in_map_iff in Hin as (r & <- & Hin). apply in_flat_map in Hin as (d & Hin & Hr).
    destruct (Hds d Hin) as (q & m & Gq & Dm & Wm & ->). destruct (mirror_children q m Gq Dm Wm) as (_ & Hf & _).
    destruct (ent_fields base r) as [-> _]. apply (Hf r Hr).
  - intros i e p name Hi Hg Hr. apply nth_error_map_inv in Hi as (r & Hi & ->). apply nth_error_map_inv in Hi as (d & Hi & ->).
    destruct (ent_fields base (raw_dir d)) as (_ & _ & Er & _). rewrite Er in Hr. cbn [raw_dir rf_rel] in Hr.
    apply Forall_app in Hg as [Gp Gn].
    destruct (Hpar i d Hi) as [->|(j & d' & Hj & Hj' & Hsub)].
    + exfalso. destruct n; try contradiction; cbn [mirror d_rel] in Hr; symmetry in Hr; apply join_nonempty in Hr; auto;
        try (apply Forall_app; auto); destruct p; discriminate.
    + destruct (Hds d' (nth_error_In _ _ Hj')) as (q & m & Gq & Dm & Wm & ->).
      destruct (mirror_children q m Gq Dm Wm) as (Hsb & _ & Hrel). destruct (Hsb d Hsub) as (nm & Gnm & E). rewrite Hr in E.
      apply join_inj in E; [|apply Forall_app; auto|apply Forall_app; auto]. apply app_inj_tail in E as [<- <-].
      exists j, (ent base (raw_dir (mirror (join p) m))). split; auto. split.
      * rewrite map_map. erewrite map_nth_error by exact Hj'. reflexivity.
      * destruct (ent_fields base (raw_dir (mirror (join p) m))) as (_ & _ & -> & _). exact Hrel.
  - intros e p name Hin Hg Hr. apply in_map_iff in Hin as (r & <- & Hin). apply in_flat_map in Hin as (d & Hin & Hf).
    destruct (ent_fields base r) as (_ & _ & Er & _). rewrite Er in Hr. apply Forall_app in Hg as [Gp Gn].
    destruct (Hds d Hin) as (q & m & Gq & Dm & Wm & ->). destruct (mirror_children q m Gq Dm Wm) as (_ & Hfl & Hrel).
    destruct (Hfl r Hf) as (_ & nm & Gnm & E). rewrite Hr in E.
    apply join_inj in E; [|apply Forall_app; auto|apply Forall_app; auto]. apply app_inj_tail in E as [<- <-].
    exists (ent base (raw_dir (mirror (join p) m))). split; [rewrite map_map; change (ent base (raw_dir (mirror (join p) m))) with ((fun x => ent base (raw_dir x)) (mirror (join p) m)); apply in_map; auto|].
    destruct (ent_fields base (raw_dir (mirror (join p) m))) as (_ & _ & -> & _). exact Hrel.
  - destruct (In_nth_error ds (mirror [] n)) as [k Hk].
    { apply (Permutation_in _ (Permutation_sym Hperm)). destruct n; try contradiction; left; reflexivity. }
    assert (Hz : exists d, nth_error ds 0 = Some d) by (destruct ds; [destruct k; discriminate|eexists; reflexivity]).
    destruct Hz as [d Hz]. destruct (Hpar 0%nat d Hz) as [->|(j & _ & Hj & _)]; [|lia].
    exists (ent base (raw_dir (mirror [] n))). rewrite map_map. split; [erewrite map_nth_error by exact Hz; reflexivity|].
    destruct (ent_fields base (raw_dir (mirror [] n))) as (_ & _ & -> & _). destruct n; try contradiction; reflexivity.
Qed.

(** C28, to positions in the archive *)
Lemma C28_lemma fs base n dirs files files' d f : scan_result fs base n dirs files -> order_files files files' ->
  set_offsets dirs files' = (d, f) ->
  forall e off p name, In (e, off) (d ++ f) -> Forall good_name (p ++ [name]) -> en_rel e = join (p ++ [name]) ->
  exists e' off', In (e', off') (d ++ f) /\ en_type e' = TDir /\ en_rel e' = join p /\ off' + en_hdr e' <= off.
Proof.
  intros (_ & _ & Hwf & _ & Hty & Htf & Hdir & Hfile & _) Ho Hso e off p name Hin Hg Hr.
  destruct (Ho sort_by_size_swo) as [Hp _].
  assert (W : Forall wf_item (dirs ++ files')).
  { apply Forall_forall. intros x Hx. apply in_app_or in Hx as [Hx|Hx]; apply Hwf; apply in_or_app; auto. right. eapply Permutation_in; [apply Permutation_sym|]; eauto. }
  destruct (C09_lemma _ _ _ _ W Hso) as (Md & Mf & _ & _ & _ & Hsep). rewrite Forall_forall in Hty.
  assert (exists i j e', (j < i)%nat /\ nth_error (map fst (d ++ f)) i = Some e /\ nth_error (d ++ f) i = Some (e, off) /\ nth_error (map fst (d ++ f)) j = Some e' /\ en_type e' = TDir /\ en_rel e' = join p) as (i & j & e' & Hij & Hi & Hi' & Hj & Ht' & Hr').
  { apply In_nth_error in Hin as (i & Hi). exists i.
    assert (Hi1 : nth_error (map fst (d ++ f)) i = Some e) by (erewrite map_nth_error by exact Hi; reflexivity).
    rewrite map_app, Md, Mf in *. destruct (Nat.lt_ge_cases i (length dirs)) as [Hlt|Hge].
    - rewrite nth_error_app1 in Hi1 by auto. destruct (Hdir i e p name Hi1 Hg Hr) as (j & e' & Hj & Hj' & Hr').
      exists j, e'. split; auto. split; [rewrite nth_error_app1; auto|]. split; auto. split; [rewrite nth_error_app1; auto; apply nth_error_Some; congruence|].
      split; auto. apply Hty. eapply nth_error_In; eauto.
    - pose proof Hi1 as Hi2. rewrite nth_error_app2 in Hi2 by auto. apply nth_error_In in Hi2.
      destruct (Hfile e p name) as (e' & He' & Hr'); auto; [eapply Permutation_in; [apply Permutation_sym|]; eauto|].
      apply In_nth_error in He' as (j & Hj). exists j, e'. assert (j < length dirs)%nat by (apply nth_error_Some; congruence).
      split; [lia|]. split; auto. split; auto. split; [rewrite nth_error_app1; auto|]. split; auto. apply Hty. eapply nth_error_In; eauto. }
  destruct (nth_error_map_inv _ _ _ _ Hj) as ([e2 off'] & Hj' & E). cbn [fst] in E. subst e2.
  exists e', off'. split; [eapply nth_error_In; eauto|]. split; auto. split; auto.
  specialize (Hsep j i e' off' e off Hij Hj' Hi').
  assert (wf_item e') as (_ & _ & Hz). { rewrite Forall_forall in W. apply W. rewrite <- Md, <- Mf, <- map_app. eapply nth_error_In; eauto. }
  lia.
Qed.

(** C27: the value the scan returns says nothing about subdirectories *)
Lemma spider_code fuel fs base rel r d : spider fuel fs base rel = Ok (r, d) ->
  r = match f_readdir fs (dir_path base rel) with None => -2 | Some _ => 0 end.
Proof.
  destruct fuel; cbn [spider]; [discriminate|]. destruct (f_readdir fs (dir_path base rel)) as [names|]; [|congruence].
  destruct (read_entries _ _ _ _) as [[x y]|]; cbn [bind]; [|discriminate]. destruct (for_each _ _); cbn [bind]; [|discriminate]. congruence.
Qed.

(** C29: whenever the scan ends without undefined behaviour, what it recorded for links is right *)
Lemma what_is_path_link fs path t : what_is_path fs path = Ok (FoundLink t) ->
  exists s t0, f_lstat fs path = Some (s, t0) /\ st_kind s = KLnk /\ (no_byte NUL t0 -> t = t0).
Proof.
  unfold what_is_path. destruct (f_lstat fs path) as [[s t0]|]; [|discriminate]. destruct (st_kind s) eqn:K; try discriminate.
  destruct (zlen t0 =? st_size s); [|discriminate]. cbn zeta. destruct (beq (f_heap fs path) NUL) eqn:E.
  - apply beq_spec in E. rewrite E. intros H. exists s, t0. repeat split; auto. intros Hn. rewrite find_byte_app in H by auto.
    rewrite firstn_app, Nat.sub_diag, firstn_all, app_nil_r in H. congruence.
  - destruct (find_byte NUL (t0 ++ [f_heap fs path])) as [k|] eqn:F; [|discriminate]. intros _. exists s, t0. repeat split; auto. intros Hn.
    exfalso. rewrite find_byte_none in F; [discriminate|]. apply no_byte_app. split; auto. intros [H|[]]. rewrite H, beq_refl in E. discriminate.
Qed.
Lemma read_entries_links fs base rel names subs files : read_entries fs base rel names = Ok (subs, files) ->
  forall r, In r files -> rf_type r = TLink -> exists s t0, f_lstat fs (entry_full_name base (rf_rel r)) = Some (s, t0) /\ st_kind s = KLnk /\ (no_byte NUL t0 -> rf_target r = t0).
Proof.
  revert subs files. induction names as [|x names IH]; intros subs files H r Hin Hr; cbn [read_entries] in H.
  - injection H as <- <-. destruct Hin.
  - destruct (is_dot x); [eapply IH; eauto|]. cbn zeta in H. destruct (what_is_path _ _) as [w|] eqn:W; cbn [bind] in H; [|discriminate].
    destruct (read_entries fs base rel names) as [[s0 f0]|]; cbn [bind] in H; [|discriminate]. specialize (IH s0 f0 eq_refl r).
    destruct w; injection H as <- <-; auto; destruct Hin as [<-|Hin]; auto; try discriminate.
    apply what_is_path_link in W. exact W.
Qed.
Lemma spider_links fuel : forall fs base rel code d, spider fuel fs base rel = Ok (code, d) ->
  forall d' r, In d' (all_dirs d) -> In r (d_files d') -> rf_type r = TLink ->
  exists s t0, f_lstat fs (entry_full_name base (rf_rel r)) = Some (s, t0) /\ st_kind s = KLnk /\ (no_byte NUL t0 -> rf_target r = t0).
Proof.
  induction fuel as [|f IH]; intros fs base rel code d H d' r Hd Hr Ht; cbn [spider] in H; [discriminate|].
  destruct (f_readdir fs (dir_path base rel)) as [names|].
  - destruct (read_entries fs base rel names) as [[sr fl]|] eqn:E; cbn [bind] in H; [|discriminate].
    destruct (for_each (spider f fs base) sr) as [subs|] eqn:F; cbn [bind] in H; [|discriminate].
    assert (d = PDir rel (map snd subs) fl) by congruence. subst d. cbn [all_dirs] in Hd. destruct Hd as [<-|Hd].
    + cbn [d_files] in Hr. eapply read_entries_links; eauto.
    + apply in_flat_map in Hd as (x & Hx & Hd). apply in_map_iff in Hx as ([c x'] & <- & Hx). cbn [snd] in Hd.
      clear H E. revert subs F Hx. induction sr as [|s0 sr IHs]; intros subs F Hx; cbn [for_each] in F.
      * injection F as <-. destruct Hx.
      * destruct (spider f fs base s0) as [[c0 d0]|] eqn:S0; cbn [bind] in F; [|discriminate].
        destruct (for_each _ sr) as [subs'|] eqn:F'; cbn [bind] in F; [|discriminate]. injection F as <-.
        destruct Hx as [Hx|Hx]; [|eapply IHs; eauto]. injection Hx as -> ->. eapply IH; eauto.
  - assert (d = PDir rel [] []) by congruence. subst d. destruct Hd as [<-|[]]. destruct Hr.
Qed.
Lemma for_each_inv {A B} (f : A -> outcome B) l r : for_each f l = Ok r -> forall y, In y r -> exists x, In x l /\ f x = Ok y.
Proof.
  revert r. induction l as [|a l IH]; intros r H y Hy; cbn [for_each] in H; [injection H as <-; destruct Hy|].
  destruct (f a) as [x|] eqn:E; cbn [bind] in H; [|discriminate]. destruct (for_each f l) as [r'|]; cbn [bind] in H; [|discriminate].
  injection H as <-. destruct Hy as [<-|Hy]; [exists a; split; [left|]; auto|]. destruct (IH _ eq_refl y Hy) as (z & Hz & E'). exists z. split; [right|]; auto.
Qed.
Lemma bfs_in fuel : forall q r, bfs fuel q = Some r -> forall d, In d r -> In d (flat_map all_dirs q).
Proof.
  induction fuel as [|f IH]; intros [|d0 q] r H d Hin; cbn [bfs] in H; try discriminate; try (injection H as <-; destruct Hin).
  destruct (bfs f (q ++ d_subs d0)) as [r'|] eqn:E; [|discriminate]. injection H as <-. destruct d0 as [rel subs fl]. cbn [flat_map all_dirs].
  destruct Hin as [<-|Hin]; [left; auto|]. specialize (IH _ _ E d Hin). rewrite flat_map_app in IH. cbn [d_subs] in IH.
  cbn [app]. right. rewrite in_app_iff in *. tauto.
Qed.
Lemma C29_lemma fuel fs base dirs files : scan fuel fs base = Ok (dirs, files) ->
  forall e, In e files -> en_type e = TLink ->
  exists s t, f_lstat fs (entry_full_name base (en_rel e)) = Some (s, t) /\ st_kind s = KLnk /\ (no_byte NUL t -> en_target e = t).
Proof.
  unfold scan. destruct (spider fuel fs base []) as [[c d]|] eqn:S; cbn [bind]; [|discriminate]. cbn [snd]. unfold collection.
  pose proof (grow_bfs fuel [] [d]) as G. cbn [length app] in G. rewrite G. destruct (bfs fuel [d]) as [ds|] eqn:B; cbn [bind]; [|discriminate].
  destruct (for_each (dir_entry base) ds) as [dirs0|]; cbn [bind]; [|discriminate].
  destruct (for_each (file_entry base) (flat_map d_files ds)) as [files0|] eqn:F; cbn [bind]; [|discriminate].
  intros H e Hin Ht. assert (files0 = files) by congruence. subst files0.
  destruct (for_each_inv _ _ _ F e Hin) as (r & Hr & E). unfold file_entry in E. apply mk_entry_fields in E as (E1 & E2 & E3 & E4 & E5).
  apply in_flat_map in Hr as (d' & Hd' & Hr). apply (bfs_in _ _ _ B) in Hd'. cbn [flat_map] in Hd'. rewrite app_nil_r in Hd'.
  rewrite E3, E4. eapply spider_links; eauto. congruence.
Qed.

(** a scan that ends does not depend on the fuel, nor on the uninitialised bytes *)
Definition quiet (fs : fsys) : fsys := {| f_readdir := f_readdir fs; f_lstat := f_lstat fs; f_heap := fun _ => NUL |}.
Lemma find_byte_last c l x k : find_byte c (l ++ [x]) = Some k -> find_byte c (l ++ [c]) = Some k /\ firstn k (l ++ [x]) = firstn k (l ++ [c]).
Proof.
  revert k. induction l as [|d l IH]; intros k H; cbn [find_byte app] in *.
  - rewrite beq_refl. destruct (beq x c) eqn:E; [|discriminate]. injection H as <-. auto.
  - destruct (beq d c); [injection H as <-; auto|]. destruct (find_byte c (l ++ [x])) as [k'|]; cbn in *; [|discriminate].
    injection H as <-. destruct (IH k' eq_refl) as [-> E]. split; auto. cbn [firstn]. rewrite E. reflexivity.
Qed.
Lemma what_quiet fs path w : what_is_path fs path = Ok w -> what_is_path (quiet fs) path = Ok w.
Proof.
  unfold what_is_path. cbn [f_lstat quiet f_heap]. destruct (f_lstat fs path) as [[s t]|]; auto. destruct (st_kind s); auto.
  destruct (zlen t =? st_size s); auto. cbn zeta. destruct (find_byte NUL (t ++ [f_heap fs path])) as [k|] eqn:E; [|discriminate].
  apply find_byte_last in E as [-> <-]. auto.
Qed.
Lemma read_quiet fs base rel names x : read_entries fs base rel names = Ok x -> read_entries (quiet fs) base rel names = Ok x.
Proof.
  revert x. induction names as [|n names IH]; intros x; cbn [read_entries]; auto. destruct (is_dot n); auto. cbn zeta.
  destruct (what_is_path fs _) as [w|] eqn:W; cbn [bind]; [|discriminate]. rewrite (what_quiet _ _ _ W). cbn [bind].
  destruct (read_entries fs base rel names) as [y|]; cbn [bind]; [|discriminate]. rewrite (IH _ eq_refl). auto.
Qed.
Lemma for_each_mono {A B} (f g : A -> outcome B) l : (forall a y, f a = Ok y -> g a = Ok y) -> forall r, for_each f l = Ok r -> for_each g l = Ok r.
Proof.
  intros H. induction l as [|a l IH]; intros r; cbn [for_each]; auto. destruct (f a) as [y|] eqn:E; cbn [bind]; [|discriminate].
  rewrite (H _ _ E). cbn [bind]. destruct (for_each f l); cbn [bind]; [|discriminate]. rewrite (IH _ eq_refl). auto.
Qed.
Lemma spider_quiet fuel : forall fs base rel x, spider fuel fs base rel = Ok x ->
  forall fuel', (fuel <= fuel')%nat -> spider fuel' (quiet fs) base rel = Ok x.
Proof.
  induction fuel as [|f IH]; intros fs base rel x H [|f'] Hle; cbn [spider] in *; try discriminate; [lia|].
  cbn [f_readdir quiet]. destruct (f_readdir fs (dir_path base rel)); auto.
  destruct (read_entries fs base rel l) as [[sr fl]|] eqn:E; cbn [bind] in *; [|discriminate]. apply read_quiet in E. cbn [quiet] in E. unfold quiet in E at 1.
  change {| f_readdir := f_readdir fs; f_lstat := f_lstat fs; f_heap := fun _ => NUL |} with (quiet fs) in *. rewrite E. cbn [bind].
  destruct (for_each (spider f fs base) sr) as [subs|] eqn:F; cbn [bind] in H; [|discriminate].
  rewrite (for_each_mono (spider f fs base) (spider f' (quiet fs) base) sr) with (r := subs); auto. intros a y Hy. apply (IH _ _ _ _ Hy). lia.
Qed.
Lemma grow_mono fuel : forall i l r, grow fuel i l = Ok r -> forall fuel', (fuel <= fuel')%nat -> grow fuel' i l = Ok r.
Proof.
  induction fuel as [|f IH]; intros i l r H [|f'] Hle; cbn [grow] in *; destruct (nth_error l i); auto; try discriminate; [lia|].
  apply IH; auto. lia.
Qed.
Lemma scan_quiet fuel fs base r : scan fuel fs base = Ok r -> forall fuel', (fuel <= fuel')%nat -> scan fuel' (quiet fs) base = Ok r.
Proof.
  unfold scan. intros H fuel' Hle. destruct (spider fuel fs base []) as [x|] eqn:E; cbn [bind] in H; [|discriminate].
  rewrite (spider_quiet _ _ _ _ _ E _ Hle). cbn [bind]. unfold collection in *.
  destruct (grow fuel 0 [snd x]) as [ds|] eqn:G; cbn [bind] in H; [|discriminate]. rewrite (grow_mono _ _ _ _ G _ Hle). auto.
Qed.
Lemma shows_quiet fs path n : shows fs path n -> shows (quiet fs) path n.
Proof.
  revert path. induction n as [s|t|ch IH| | |] using node_ind'; intros path H; inversion H; subst; try (econstructor; eauto; fail).
  eapply Sh_dir; eauto. rewrite Forall_forall in *. intros c Hc. apply IH; auto.
Qed.
(** any scan that ends without undefined behaviour *)
Lemma scan_any fuel fs base n dirs files : scan fuel fs base = Ok (dirs, files) ->
  base <> [] -> is_dir_node n -> wf_node n -> shows fs base n -> scan_result (quiet fs) base n dirs files.
Proof.
  intros H Hb Hd Hw Hs. destruct (scan_lemma (quiet fs) base n) as (dirs' & files' & R); auto; [intros p; reflexivity|apply shows_quiet; auto|].
  pose proof R as ((f0 & A) & _). specialize (A (Nat.max f0 fuel) ltac:(lia)). rewrite (scan_quiet _ _ _ _ H) in A by lia. 
  assert (dirs = dirs' /\ files = files') as [-> ->] by (split; congruence). exact R.
Qed.
