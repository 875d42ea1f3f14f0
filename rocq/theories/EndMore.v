(** C19 and C33 lemmas. *)
From Coq Require Import Permutation.
From Verif Require Import Bytes Outcome TarSpec TarModel TarProofs TarMore Layout LayoutSpec LayoutProofs LayoutMore OrderCodec OrderCodecProofs OrderMore
  Mover MoverSpec MoverProofs MoverMore Worker WorkerProofs Assemble AssembleProofs Boss BossProofs BossMore
  Spider SpiderSpec SpiderProofs SpiderMore Program ProgramProofs EndSpec EndProofs.

(** *** header lengths, exactly *)
Lemma header_exact nm lstat fn off e h s target :
  lstat fn = Some (s, target) -> new_tarentry lstat fn off = Ok e -> make_tar_header nm e = Ok h ->
  compute_hdr_size (match st_kind s with KDir => if ends_with_slash fn then fn else fn ++ [SLASH] | _ => fn end)
    (match st_kind s with KLnk => cstr target | _ => [] end) (match st_kind s with KReg => st_size s | _ => 0 end) = Ok (zlen h).
Proof.
  intros Hl H Hh. rewrite <- (make_tar_header_length _ _ _ Hh).
  pose proof Hh as Hh0. apply make_tar_header_inv in Hh0 as (recs & pax & blk & _ & _ & Hb & _).
  apply new_tarentry_inv in H as (s' & target' & Hl' & Es & _ & Ef & El).
  rewrite Hl in Hl'. injection Hl' as <- <-. unfold compute_hdr_size.
  destruct (st_kind s) eqn:Hk.
  - apply hdr_size_ext; cbn [te_file te_link te_stat]; auto.
    + unfold need_size, is_reg. cbn [te_stat st_kind st_size]. rewrite Es, Hk. auto.
    + intros _. cbn. rewrite Es. auto.
  - apply hdr_size_ext; cbn [te_file te_link te_stat]; auto.
    + unfold need_size, is_reg. cbn [te_stat st_kind st_size]. rewrite Es, Hk. reflexivity.
    + unfold need_size, is_reg. cbn. discriminate.
  - apply hdr_size_ext; cbn [te_file te_link te_stat]; auto.
    + unfold need_size, is_reg. cbn [te_stat st_kind st_size]. rewrite Es, Hk. reflexivity.
    + unfold need_size, is_reg. cbn. discriminate.
  - exfalso. unfold ustar_block in Hb. rewrite Es, Hk in Hb. discriminate.
Qed.

(** *** trees *)
Lemma at_path_det t p n n' : at_path t p n -> wf_node t -> at_path t p n' -> n = n'.
Proof.
  intros H. revert n'. induction H as [n|ch nm n p m Hin Ha IH]; intros n' Hw H'; [inversion H'; auto|].
  inversion H' as [|? ? n0 ? ? Hin' Ha']; subst. inversion Hw as [| |? Hnd Hg Hwc| | |]; subst. rewrite Forall_forall in Hwc.
  assert (E0 : n = n0).
  { clear - Hnd Hin Hin'. induction ch as [|[x y] ch IH]; [destruct Hin|]. cbn [map fst] in Hnd. inversion Hnd as [|? ? N1 N2]; subst.
    destruct Hin as [E|Hin], Hin' as [E'|Hin']; [congruence|..|apply IH; auto].
    - exfalso. apply N1. assert (x = nm) as -> by congruence. apply in_map with (f := fst) in Hin'. exact Hin'.
    - exfalso. apply N1. assert (x = nm) as -> by congruence. apply in_map with (f := fst) in Hin. exact Hin. }
  subst n0. apply IH; auto. apply (Hwc _ Hin).
Qed.

Lemma choose {A B} (Q : A -> B -> Prop) l : (forall x, In x l -> exists y, Q x y) -> exists l', Forall2 Q l l'.
Proof.
  induction l as [|x l IH]; intros H; [exists []; constructor|]. destruct (H x (or_introl eq_refl)) as (y & Hy).
  destruct IH as (l' & Hl'); [intros; apply H; right; auto|]. exists (y :: l'). constructor; auto.
Qed.

Lemma join_cons_ne p : Forall good_name p -> p <> [] -> join p <> [].
Proof.
  intros Hg Hn. destruct p as [|x p]; [congruence|]. inversion Hg as [|? ? (G & _) _]; subst. destruct p; cbn [join]; auto.
  intros E. apply app_eq_nil in E as [-> _]. congruence.
Qed.
Lemma join_no_end p : Forall good_name p -> p <> [] -> ends_with_slash (join p) = false.
Proof.
  intros Hg. induction Hg as [|x p Hx Hg IH]; intros Hn; [congruence|].
  destruct p as [|y p].
  - cbn [join]. destruct Hx as (G & _ & _ & S & _). unfold ends_with_slash. destruct (rev x) as [|c r] eqn:E.
    + apply (f_equal (@rev byte)) in E. rewrite rev_involutive in E. cbn in E. congruence.
    + destruct (beq c SLASH) eqn:Eb; auto. apply Ascii.eqb_eq in Eb. subst c. exfalso. apply S. apply in_rev. rewrite E. left. auto.
  - specialize (IH ltac:(discriminate)). cbn [join] in *. unfold ends_with_slash in *. rewrite !rev_app_distr.
    destruct (rev (match p with [] => y | _ :: _ => y ++ [SLASH] ++ join p end)) as [|c r] eqn:E; [|exact IH].
    exfalso. apply (f_equal (@rev byte)) in E. rewrite rev_involutive in E. cbn [rev] in E.
    inversion Hg as [|? ? (G & _) _]; subst. destruct p; [congruence|]. apply app_eq_nil in E as [-> _]. congruence.
Qed.
Lemma ends_app a c : c <> [] -> ends_with_slash (a ++ c) = ends_with_slash c.
Proof.
  intros H. unfold ends_with_slash. rewrite rev_app_distr. destruct (rev c) eqn:E; auto.
  apply (f_equal (@rev byte)) in E. rewrite rev_involutive in E. cbn in E. congruence.
Qed.

Lemma join_nonul p : Forall good_name p -> no_byte NUL (join p).
Proof.
  induction 1 as [|x p Hx Hg IH]; [intros []|]. destruct Hx as (_ & _ & _ & _ & N). destruct p; cbn [join]; auto.
  apply no_byte_app. split; auto. apply no_byte_app. split; auto. intros [E|[]]. discriminate E.
Qed.

Section Entry.
Context (ev : env) (base : bytes) (t : node).
Context (Hb : base <> []) (Hbn : no_byte NUL base) (Hw : wf_node t) (Hsh : short_paths base t) (Htab : tab_free t).
Context (Hst : forall p n, at_path t p n -> archivable n -> still ev base p n).
Context (Hsl : forall p n, at_path t p n -> is_dir_node n -> p <> [] -> slash_safe (node_path base p)).

Lemma full_node p : full_name base (join p) = node_path base p.
Proof. unfold full_name, node_path. destruct base; [congruence|reflexivity]. Qed.

Definition Dat (e : entry) : bytes :=
  match en_type e with TFile => match e_data ev (full_name base (en_rel e)) with Some d => d | None => [] end | _ => [] end.
Definition Hdr (e : entry) : bytes := match file_header ev (full_name base (en_rel e)) with Some h => h | None => [] end.

Lemma entry_facts e p n : at_path t p n -> en_rel e = join p -> records n e -> en_base e = base ->
  mk_entry (en_type e) (en_base e) (en_rel e) (en_target e) (en_size e) = Ok e ->
  unchanged ev base e /\ plain e /\ file_header ev (full_name base (en_rel e)) = Some (Hdr e) /\ zlen (Hdr e) = en_hdr e /\ zlen (Dat e) = en_size e /\
  (en_size e = 0 \/ e_data ev (full_name base (en_rel e)) = Some (Dat e)) /\
  forall rest, exists u, read_header (Hdr e ++ rest) = Some (u, rest) /\ u_size u = en_size e /\ describes ev base p n (member_of u (Dat e)).
Proof.
  intros Ha Er Rn Eb Mk. assert (Harch : archivable n) by (destruct n; cbn in *; auto).
  destruct (at_path_wf _ _ _ Ha Hw) as [Wn Gp].
  destruct (Hsh p n Ha) as [S1 S2]. destruct (Htab p n Ha) as [T1 T2].
  destruct (Hst p n Ha Harch) as (s & target & Hl & U & G & M & Z1 & Z2 & Ng & Nu & K & Kt).
  set (path := node_path base p) in *.
  assert (Epath : full_name base (en_rel e) = path) by (rewrite Er; apply full_node).
  assert (Hpn : no_byte NUL path).
  { unfold path, node_path. apply no_byte_app. split; auto. apply no_byte_app. split; [intros [X|[]]; discriminate X|apply join_nonul; auto]. }
  assert (Hplen : zlen path <= 40000).
  { unfold path, node_path. rewrite !zlen_app. change (zlen [SLASH]) with 1. lia. }
  assert (Hkind : st_kind s <> KOther) by (destruct n; cbn in *; try contradiction; [destruct K as (-> & _)|destruct K as (-> & _)|rewrite K|rewrite K]; discriminate).
  assert (Htgt : match n with NLink l => target = l /\ no_byte NUL l /\ zlen l <= 40000 | _ => target = [] end).
  { destruct n; cbn in *; try contradiction; try (apply Kt; first [rewrite K; discriminate | destruct K as (-> & _); discriminate]).
    destruct K as (_ & _ & ->). inversion Wn; subst. auto. }
  assert (Htn : no_byte NUL target /\ zlen target < 2 ^ 30).
  { change (2 ^ 30) with 1073741824. destruct n; cbn in *; try contradiction; try (subst target; split; [intros []|cbn; lia]).
    destruct Htgt as (-> & A & B). split; auto. lia. }
  destruct Htn as [Htn1 Htn2].
  destruct (new_tarentry (e_lstat ev) path 0) as [te|] eqn:Et; cycle 1.
  { exfalso. unfold new_tarentry in Et. rewrite Hl in Et. destruct (st_kind s) eqn:Ek; cbn [bind] in Et; try discriminate.
    destruct n; cbn in *; try contradiction; try (destruct K as (K & _); discriminate K); try discriminate K.
    destruct K as (_ & Ks & Kt'). subst target. rewrite Ks, Z.eqb_refl in Et. discriminate Et. }
  destruct (make_tar_header (e_names ev) te) as [h|] eqn:Eh; cycle 1.
  { exfalso. destruct (proj2 (C02_lemma (e_names ev) te)) as (h & Hh); [..|congruence];
      apply new_tarentry_inv in Et as (s' & t' & Hl' & Es & _); rewrite Hl in Hl'; assert (s' = s) as -> by congruence; rewrite Es; auto. }
  assert (Hfh : file_header ev path = Some h) by (unfold file_header; rewrite Et, Eh; reflexivity).
  assert (EH : Hdr e = h) by (unfold Hdr; rewrite Epath, Hfh; reflexivity).
  assert (Hlen : zlen h = en_hdr e).
  { pose proof (header_exact _ _ _ _ _ _ _ _ Hl Et Eh) as X.
    unfold mk_entry in Mk. destruct (compute_hdr_size (cstr (absolute_path (en_base e) (en_rel e))) (cstr (en_target e)) (en_size e)) as [hh|] eqn:Ec; cbn [bind] in Mk; [|discriminate].
    assert (Hhh : en_hdr e = hh) by (assert (Y : Ok {| en_type := en_type e; en_base := en_base e; en_rel := en_rel e; en_target := en_target e; en_size := en_size e; en_hdr := hh |} = Ok e) by exact Mk; apply (f_equal (fun o => match o with Ok x => en_hdr x | Err _ => 0 end)) in Y; cbn in Y; auto).
    assert (Eab : cstr (absolute_path (en_base e) (en_rel e)) = path).
    { rewrite Eb, Er. change (absolute_path base (join p)) with path. apply cstr_id. exact Hpn. }
    rewrite Eab in Ec. rewrite Hhh. enough (Ok (zlen h) = Ok hh) by congruence. rewrite <- X, <- Ec.
    destruct n; cbn in Rn, K; try contradiction.
    - destruct K as (-> & Ks & _). destruct Rn as (_ & -> & ->). rewrite Ks. reflexivity.
    - destruct K as (-> & Ks & ->). destruct Rn as (_ & -> & ->). reflexivity.
    - rewrite K. destruct Rn as (_ & -> & ->). change (cstr []) with (@nil byte).
      destruct p as [|x p']; [|destruct (ends_with_slash path); [reflexivity|symmetry; apply (Hsl (x :: p') _ Ha); [exact I|discriminate]]].
      replace (ends_with_slash path) with true; [reflexivity|]. unfold path, node_path. cbn [join]. rewrite app_nil_r, ends_app by discriminate. reflexivity.
    - rewrite K. destruct Rn as (_ & -> & ->). change (cstr []) with (@nil byte).
      destruct p as [|x p']; [|destruct (ends_with_slash path); [reflexivity|symmetry; apply (Hsl (x :: p') _ Ha); [exact I|discriminate]]].
      replace (ends_with_slash path) with true; [reflexivity|]. unfold path, node_path. cbn [join]. rewrite app_nil_r, ends_app by discriminate. reflexivity. }
  assert (HD : zlen (Dat e) = en_size e /\ (en_size e = 0 \/ e_data ev path = Some (Dat e)) /\
    match n with NFile _ => e_data ev path = Some (Dat e) | _ => Dat e = [] end).
  { unfold Dat. rewrite Epath. destruct n; cbn in Rn, K; try contradiction; destruct Rn as (-> & -> & _); auto.
    destruct K as (_ & _ & dd & Hdd & Ldd). rewrite Hdd. auto. }
  destruct HD as (HD1 & HD2 & HD3).
  split; [|split; [|split; [|split; [|split; [|split]]]]].
  - split; [exists h; rewrite Epath; auto|]. destruct HD2 as [X|X]; auto. right. exists (Dat e). rewrite Epath. split; auto. lia.
  - unfold plain. rewrite Er. split; auto. destruct n; cbn in Rn; try contradiction; destruct Rn as (_ & _ & ->).
    + split; [intros []|]. split; [apply join_nonul; auto|intros []].
    + split; auto. split; [apply join_nonul; auto|]. inversion Wn; auto.
    + split; [intros []|]. split; [apply join_nonul; auto|intros []].
    + split; [intros []|]. split; [apply join_nonul; auto|intros []].
  - rewrite Epath, EH. exact Hfh.
  - rewrite EH. exact Hlen.
  - exact HD1.
  - rewrite Epath. exact HD2.
  - intros rest. rewrite EH.
    destruct (C03_lemma (e_names ev) (e_lstat ev) path 0 te h rest s target Hl Et Eh) as (u & R1 & R2 & R3 & R4 & R5 & R6 & R7 & R8 & R9);
      auto; [change (2 ^ 30) with 1073741824; lia|].
    destruct (read_full (e_names ev) (e_lstat ev) path 0 te h rest s target Hl Et Eh) as (u' & R1' & _ & _ & _ & _ & _ & _ & _ & _ & un & gn & Nm);
      auto; try lia. assert (u' = u) as -> by congruence.
    exists u. split; auto.
    assert (Hmeta : exists s0 target0, e_lstat ev (node_path base p) = Some (s0, target0) /\
       m_mode (member_of u (Dat e)) = st_perm s0 mod 2 ^ 12 /\ m_uid (member_of u (Dat e)) = st_uid s0 /\ m_gid (member_of u (Dat e)) = st_gid s0 /\ m_mtime (member_of u (Dat e)) = st_mtime s0 /\ owned_as (e_names ev) s0 (member_of u (Dat e))).
    { exists s, target. repeat (split; [auto; fail|]). exists un, gn. exact Nm. }
    destruct n; cbn in Rn, K; try contradiction.
    + destruct K as (Kk & Ks & _). rewrite Kk in *. destruct Rn as (_ & Es & _). rewrite R9, Ks, Es. split; auto.
      split; auto. cbn [member_of m_path m_type m_link m_size m_data]. repeat split; auto. congruence.
    + destruct K as (Kk & Ks & Ktt). rewrite Kk in *. destruct Rn as (_ & Es & _). rewrite R9, Es. split; auto.
      split; auto. cbn [member_of m_path m_type m_link m_size m_data]. repeat split; auto; congruence.
    + rewrite K in *. destruct Rn as (_ & Es & _). rewrite R9, Es. split; auto. split; auto.
      cbn [member_of m_path m_type m_link m_size m_data]. split; [|auto]. rewrite R2. fold path.
      destruct p as [|x p'].
      * replace (ends_with_slash path) with true; [rewrite app_nil_r; reflexivity|]. unfold path, node_path. cbn [join]. rewrite app_nil_r, ends_app by discriminate. reflexivity.
      * replace (ends_with_slash path) with false; [reflexivity|]. unfold path, node_path. rewrite app_assoc, ends_app; [symmetry; apply join_no_end; auto; discriminate|apply join_cons_ne; auto; discriminate].
    + rewrite K in *. destruct Rn as (_ & Es & _). rewrite R9, Es. split; auto. split; auto.
      cbn [member_of m_path m_type m_link m_size m_data]. split; [|auto]. rewrite R2. fold path.
      destruct p as [|x p'].
      * replace (ends_with_slash path) with true; [rewrite app_nil_r; reflexivity|]. unfold path, node_path. cbn [join]. rewrite app_nil_r, ends_app by discriminate. reflexivity.
      * replace (ends_with_slash path) with false; [reflexivity|]. unfold path, node_path. rewrite app_assoc, ends_app; [symmetry; apply join_no_end; auto; discriminate|apply join_cons_ne; auto; discriminate].
Qed.
End Entry.

Lemma plan_inv fuel fs sort base bucket maxo bs : plan fuel fs sort base bucket maxo = Ok (Some bs) ->
  exists dirs files d f, scan fuel fs base = Ok (dirs, files) /\ set_offsets dirs (sort files) = (d, f) /\
    create_transfer_orders 0 bucket maxo d f = Ok (Some bs).
Proof.
  unfold plan. destruct (scan fuel fs base) as [[dirs files]|]; cbn [bind]; [|discriminate].
  destruct (set_offsets dirs (sort files)) as [d f] eqn:E. intros H. exists dirs, files, d, f. auto.
Qed.

(** everything the planner and the workers assume follows from the tree *)
Lemma tree_ready fuel fs sort base t ev bucket maxo bs :
  plan fuel fs sort base bucket maxo = Ok (Some bs) ->
  (forall l, order_files l (sort l)) -> base <> [] -> no_byte NUL base -> is_dir_node t -> wf_node t -> shows fs base t ->
  short_paths base t -> tab_free t -> 100000 <= bucket -> bucket mod 512 = 0 ->
  (forall p n, at_path t p n -> archivable n -> still ev base p n) ->
  (forall p n, at_path t p n -> is_dir_node n -> p <> [] -> slash_safe (node_path base p)) ->
  exists dirs files d f, scan fuel fs base = Ok (dirs, files) /\ set_offsets dirs (sort files) = (d, f) /\
    create_transfer_orders 0 bucket maxo d f = Ok (Some bs) /\ plannable bucket dirs (sort files) /\
    Forall plain (dirs ++ sort files) /\ Forall (unchanged ev base) (dirs ++ sort files) /\
    NoDup (map en_rel (dirs ++ sort files)) /\
    (forall p n, at_path t p n -> archivable n -> exists e, In e (dirs ++ sort files) /\ en_rel e = join p) /\
    (forall e, In e (dirs ++ sort files) -> exists p n, at_path t p n /\ en_rel e = join p /\ records n e /\ en_base e = base /\
       mk_entry (en_type e) (en_base e) (en_rel e) (en_target e) (en_size e) = Ok e).
Proof.
  intros H Hs H2 Hbn H3 H4 H5 Hsh Htab Hb Hm Hst Hsl. apply plan_inv in H as (dirs & files & d & f & Hsc & Hso & Hc).
  exists dirs, files, d, f. split; auto. split; auto. split; auto.
  pose proof (scan_plannable _ _ _ _ _ _ _ _ Hsc H2 H3 H4 H5 Hsh (Hs files) Hb Hm) as Hp. split; auto.
  pose proof (scan_made _ _ _ _ _ Hsc) as Hmk.
  destruct (scan_any _ _ _ _ _ _ Hsc H2 H3 H4 H5) as (_ & Nd & W & Cm & _).
  destruct (Hs files sort_by_size_swo) as [Pm _].
  assert (PP : Permutation (dirs ++ files) (dirs ++ sort files)) by (apply Permutation_app_head; auto).
  assert (Hin : forall e, In e (dirs ++ sort files) -> In e (dirs ++ files)) by (intros e; apply Permutation_in, Permutation_sym; auto).
  assert (All : forall e, In e (dirs ++ sort files) -> exists p n, at_path t p n /\ en_rel e = join p /\ records n e /\ en_base e = base /\
       mk_entry (en_type e) (en_base e) (en_rel e) (en_target e) (en_size e) = Ok e).
  { intros e He. apply Hin in He. destruct (W e He) as (_ & Eb & p & n & A & B & C). exists p, n. split; auto. }
  split; [|split; [|split; [|split; auto]]].
  - apply Forall_forall. intros e He. destruct (All e He) as (p & n & A & B & C & D & E).
    apply (entry_facts ev base t H2 Hbn H4 Hsh Htab Hst Hsl e p n A B C D E).
  - apply Forall_forall. intros e He. destruct (All e He) as (p & n & A & B & C & D & E).
    apply (entry_facts ev base t H2 Hbn H4 Hsh Htab Hst Hsl e p n A B C D E).
  - eapply Permutation_NoDup; [apply Permutation_map; exact PP|exact Nd].
  - intros p n A B. destruct (Cm p n A B) as (e & E1 & E2 & _). exists e. split; auto. eapply Permutation_in; eauto.
Qed.


(** every entry comes after the directory it lies in *)
Definition parents_first (nodes : list (list bytes * node)) : Prop :=
  forall l p x n r, nodes = l ++ (p ++ [x], n) :: r -> exists n', In (p, n') l /\ is_dir_node n'.

Lemma at_path_parent t q n : at_path t q n -> forall p x, q = p ++ [x] -> exists ch, at_path t p (NDir ch).
Proof.
  induction 1 as [n|ch nm n p m Hin Ha IH]; intros q x E; [destruct q; discriminate|].
  destruct q as [|y q]; cbn [app] in E; [exists ch; constructor|].
  assert (y = nm) by congruence. assert (p = q ++ [x]) as E' by congruence. subst y.
  destruct (IH q x E') as (ch' & H). exists ch'. econstructor; eauto.
Qed.
Lemma Forall2_nth {A B} (Q : A -> B -> Prop) l l' : Forall2 Q l l' -> forall i, match nth_error l i, nth_error l' i with
  | Some x, Some y => Q x y | None, None => True | _, _ => False end.
Proof. induction 1; intros [|i]; cbn; auto. apply IHForall2. Qed.

Lemma C19_ordered fuel fs sort base t ev bucket maxo bs path R n s a :
  plan fuel fs sort base bucket maxo = Ok (Some bs) ->
  (forall l, order_files l (sort l)) -> base <> [] -> no_byte NUL base -> is_dir_node t -> wf_node t -> shows fs base t ->
  short_paths base t -> tab_free t -> 100000 <= bucket -> bucket mod 512 = 0 ->
  (forall p n, at_path t p n -> archivable n -> still ev base p n) ->
  (forall p n, at_path t p n -> is_dir_node n -> p <> [] -> slash_safe (node_path base p)) ->
  (1 <= R)%nat ->
  run (length bs) R (fun o => succeeds (jobs ev bucket path base bs o)) n s -> boss s = BEnd ->
  concretises a (assemble (jobs ev bucket path base bs) (map snd (log s))) ->
  exists ms nodes, tar_list a = Some ms /\ NoDup (map fst nodes) /\
    (forall p n, In (p, n) nodes <-> at_path t p n /\ archivable n) /\
    Forall2 (fun pn m => describes ev base (fst pn) (snd pn) m) nodes ms /\ parents_first nodes.
Proof.
  intros H Hs H2 Hbn H3 H4 H5 Hsh Htab Hb Hm Hst Hsl HR Hrun Hend Ha.
  destruct (tree_ready _ _ _ _ _ _ _ _ _ H Hs H2 Hbn H3 H4 H5 Hsh Htab Hb Hm Hst Hsl) as (dirs & files & d & f & Hsc & Hso & Hc & Hp & Hpl & Hu & Nd & Cm & All).
  destruct (finished ev base path 0 bucket maxo dirs (sort files) d f bs R n s Hp Hso Hc Hpl ltac:(unfold INT_MIN, INT_MAX; lia) Hu HR Hrun Hend) as (z & L & Sz & Cell).
  destruct (set_offsets_laid _ _ _ _ Hso) as (z0 & L0 & Md & Mf).
  assert (Mdf : map fst (d ++ f) = dirs ++ sort files) by (rewrite map_app; congruence).
  assert (Wf : Forall (fun eo => wf_item (fst eo)) (d ++ f)).
  { apply (Forall_fst wf_item (d ++ f) (dirs ++ sort files)); auto. destruct Hp as (_ & _ & _ & W & _). eapply Forall_impl; [|exact W]. intros ? []; auto. }
  set (ar := assemble (jobs ev bucket path base bs) (map snd (log s))) in *. destruct Ha as [A1 A2]. rewrite Sz in *.
  pose (F := fun e u => u_size u = en_size e /\ forall p n, at_path t p n -> en_rel e = join p -> describes ev base p n (member_of u (Dat ev base e))).
  destruct (walk a F (fun e _ => Dat ev base e) (Hdr ev base) (fun e u X => proj1 X) (d ++ f) 0 z L ltac:(lia) eq_refl Wf A1) with (fuel := S (length a)) as (ms & M1 & M2).
  { intros e off Hin. assert (Hine : In e (dirs ++ sort files)) by (rewrite <- Mdf; apply in_map with (f := fst) in Hin; exact Hin).
    destruct (All e Hine) as (p & nd & B1 & B2 & B3 & B4 & B5).
    destruct (entry_facts ev base t H2 Hbn H4 Hsh Htab Hst Hsl e p nd B1 B2 B3 B4 B5) as (_ & _ & E0 & E1 & E2 & E3 & E4).
    pose proof Wf as W'. rewrite Forall_forall in W'. destruct (W' _ Hin) as (W1 & W2 & W3). cbn [fst] in *.
    destruct (laid_facts _ _ _ L eq_refl Wf) as (_ & _ & Fi & _). destruct (Fi e off Hin) as (_ & Fo & Fe). unfold ext in Fe.
    split; auto. split; auto. split; [|split].
    - intros k Hk. specialize (Cell (off + k) ltac:(lia)).
      rewrite (layout_at_in (d ++ f) 0 z e off) in Cell by (auto; unfold ext; lia). unfold entry_at, piece_at in Cell. cbn [fst snd] in Cell.
      destruct (Z.leb_spec off (off + k)); [|lia]. destruct (Z.ltb_spec (off + k) (off + en_hdr e)); [|lia]. cbn [andb] in Cell.
      destruct Cell as (x & X1 & X2). unfold meant, entry_id in X1. rewrite E0 in X1. replace (off + k - off) with k in X1 by lia.
      rewrite X1. apply A2; auto. lia.
    - intros k Hk. specialize (Cell (off + en_hdr e + k) ltac:(lia)).
      rewrite (layout_at_in (d ++ f) 0 z e off) in Cell by (auto; unfold ext; lia). unfold entry_at, piece_at in Cell. cbn [fst snd] in Cell.
      destruct (Z.ltb_spec (off + en_hdr e + k) (off + en_hdr e)); [lia|]. rewrite Bool.andb_false_r in Cell.
      destruct (Z.leb_spec (off + en_hdr e) (off + en_hdr e + k)); [|lia]. destruct (Z.ltb_spec (off + en_hdr e + k) (off + en_hdr e + en_size e)); [|lia]. cbn [andb] in Cell.
      destruct Cell as (x & X1 & X2). unfold meant, entry_id in X1. destruct E3 as [E3|E3]; [lia|]. rewrite E3 in X1.
      replace (0 + (off + en_hdr e + k - (off + en_hdr e))) with k in X1 by lia. rewrite X1. apply A2; auto. lia.
    - intros rest. destruct (E4 rest) as (u & U1 & U2 & U3). exists u. split; auto. split; auto.
      intros p' n' B1' B2'. destruct (at_path_wf _ _ _ B1 H4) as [_ G1]. destruct (at_path_wf _ _ _ B1' H4) as [_ G2].
      assert (p' = p) as -> by (apply join_inj; auto; congruence). rewrite (at_path_det _ _ _ _ B1' H4 B1). exact U3. }
  { change (skipn (Z.to_nat 0) a) with a. lia. }
  change (skipn (Z.to_nat 0) a) with a in M1.
  destruct (choose (fun e pn => at_path t (fst pn) (snd pn) /\ archivable (snd pn) /\ en_rel e = join (fst pn)) (dirs ++ sort files)) as (nodes & Hn).
  { intros e He. destruct (All e He) as (p & nd & B1 & B2 & B3 & _). exists (p, nd). cbn [fst snd]. split; auto. split; auto. destruct nd; cbn in *; auto. }
  exists ms, nodes. split; [exact M1|].
  assert (Hrel : map en_rel (dirs ++ sort files) = map join (map fst nodes)).
  { clear - Hn. induction Hn as [|e pn l l' (_ & _ & E) _ IH]; cbn [map]; [reflexivity|]. rewrite E, IH. reflexivity. }
  assert (Hall : forall pn, In pn nodes -> at_path t (fst pn) (snd pn) /\ archivable (snd pn)).
  { clear - Hn. induction Hn as [|e pn l l' (A & B & _) _ IH]; intros x Hx; [destruct Hx|]. destruct Hx as [<-|Hx]; auto. }
  split; [|split; [|split]].
  - rewrite Hrel in Nd. apply NoDup_map_inv in Nd. exact Nd.
  - intros p nd. split; [intros Hin; apply (Hall _ Hin)|]. intros [B1 B2]. destruct (Cm p nd B1 B2) as (e & E1 & E2).
    assert (In (en_rel e) (map join (map fst nodes))) as Hj by (rewrite <- Hrel; apply in_map; auto).
    apply in_map_iff in Hj as (p' & J1 & J2). apply in_map_iff in J2 as ([p2 n2] & J2 & J3). cbn [fst] in J2. subst p2.
    destruct (Hall _ J3) as [J4 J5]. cbn [fst snd] in *. destruct (at_path_wf _ _ _ B1 H4) as [_ G1]. destruct (at_path_wf _ _ _ J4 H4) as [_ G2].
    assert (p' = p) as -> by (apply join_inj; auto; congruence). rewrite (at_path_det _ _ _ _ B1 H4 J4). exact J3.
  - assert (M3 : Forall2 (fun e m => exists u, F e u /\ m = member_of u (Dat ev base e)) (map fst (d ++ f)) ms).
    { clear - M2. induction M2; cbn [map]; constructor; auto. }
    rewrite Mdf in M3. clear - M3 Hn. revert ms M3. induction Hn as [|e pn l l' (A & _ & E) _ IH]; intros ms M3.
    + inversion M3; constructor.
    + inversion M3 as [|? m ? ms' (u & (_ & Fu) & ->) M3']; subst. constructor; auto.
  - destruct (scan_any _ _ _ _ _ _ Hsc H2 H3 H4 H5) as (_ & _ & _ & _ & _ & _ & Hdir & Hfile & _).
    intros l p x n0 r En. pose proof (Forall2_nth _ _ _ Hn) as Hnn.
    assert (Hat : at_path t (p ++ [x]) n0) by (apply (Hall (p ++ [x], n0)); rewrite En; apply in_or_app; right; left; auto).
    destruct (at_path_wf _ _ _ Hat H4) as [_ Hg]. destruct (at_path_parent _ _ _ Hat p x eq_refl) as (ch & Hch).
    assert (Hi : nth_error nodes (length l) = Some (p ++ [x], n0)) by (rewrite En, nth_error_app2, Nat.sub_diag by lia; reflexivity).
    pose proof (Hnn (length l)) as Hnl. rewrite Hi in Hnl. destruct (nth_error (dirs ++ sort files) (length l)) as [e|] eqn:Ei; [|contradiction].
    destruct Hnl as (_ & _ & Er). cbn [fst] in Er.
    assert (exists j e', (j < length l)%nat /\ nth_error (dirs ++ sort files) j = Some e' /\ en_rel e' = join p) as (j & e' & Hj & Ej & Er').
    { destruct (Nat.lt_ge_cases (length l) (length dirs)) as [Hlt|Hge].
      - rewrite nth_error_app1 in Ei by auto. destruct (Hdir _ _ p x Ei Hg Er) as (j & e' & A & B & C). exists j, e'. split; auto. split; auto.
        rewrite nth_error_app1; auto. apply nth_error_Some. congruence.
      - rewrite nth_error_app2 in Ei by auto. apply nth_error_In in Ei. destruct (Hs files sort_by_size_swo) as [Pm _].
        destruct (Hfile e p x) as (e' & A & B); auto; [eapply Permutation_in; [apply Permutation_sym|]; eauto|].
        apply In_nth_error in A as (j & A). assert (j < length dirs)%nat by (apply nth_error_Some; congruence).
        exists j, e'. split; [lia|]. split; auto. rewrite nth_error_app1; auto. }
    pose proof (Hnn j) as Hnj. rewrite Ej in Hnj. destruct (nth_error nodes j) as [[p' n']|] eqn:Ejn; [|contradiction]. destruct Hnj as (A & _ & C). cbn [fst snd] in *.
    destruct (at_path_wf _ _ _ A H4) as [_ Gp']. destruct (at_path_wf _ _ _ Hch H4) as [_ Gp].
    assert (p' = p) as -> by (apply join_inj; auto; congruence). exists n'. split.
    + rewrite En in Ejn. rewrite nth_error_app1 in Ejn by auto. apply nth_error_In in Ejn. exact Ejn.
    + rewrite (at_path_det _ _ _ _ A H4 Hch). exact I.
Qed.
Lemma C19_lemma fuel fs sort base t ev bucket maxo bs path R n s a :
  plan fuel fs sort base bucket maxo = Ok (Some bs) ->
  (forall l, order_files l (sort l)) -> base <> [] -> no_byte NUL base -> is_dir_node t -> wf_node t -> shows fs base t ->
  short_paths base t -> tab_free t -> 100000 <= bucket -> bucket mod 512 = 0 ->
  (forall p n, at_path t p n -> archivable n -> still ev base p n) ->
  (forall p n, at_path t p n -> is_dir_node n -> p <> [] -> slash_safe (node_path base p)) ->
  (1 <= R)%nat ->
  run (length bs) R (fun o => succeeds (jobs ev bucket path base bs o)) n s -> boss s = BEnd ->
  concretises a (assemble (jobs ev bucket path base bs) (map snd (log s))) ->
  exists ms nodes, tar_list a = Some ms /\ NoDup (map fst nodes) /\
    (forall p n, In (p, n) nodes <-> at_path t p n /\ archivable n) /\
    Forall2 (fun pn m => describes ev base (fst pn) (snd pn) m) nodes ms.
Proof.
  intros A1 A2 A3 A4 A5 A6 A7 A8 A9 A10 A11 A12 A13 A14 A15 A16 A17.
  destruct (C19_ordered _ _ _ _ _ _ _ _ _ _ _ _ _ _ A1 A2 A3 A4 A5 A6 A7 A8 A9 A10 A11 A12 A13 A14 A15 A16 A17) as (ms & nodes & B1 & B2 & B3 & B4 & _).
  exists ms, nodes. auto.
Qed.

Lemma C33_lemma fuel fs sort base t ev bucket maxo bs path R n s :
  plan fuel fs sort base bucket maxo = Ok (Some bs) ->
  (forall l, order_files l (sort l)) -> base <> [] -> no_byte NUL base -> is_dir_node t -> wf_node t -> shows fs base t ->
  short_paths base t -> tab_free t -> 100000 <= bucket -> bucket mod 512 = 0 ->
  (forall p n, at_path t p n -> archivable n -> still ev base p n) ->
  (forall p n, at_path t p n -> is_dir_node n -> p <> [] -> slash_safe (node_path base p)) ->
  (1 <= R)%nat ->
  run (length bs) R (fun o => succeeds (jobs ev bucket path base bs o)) n s -> boss s = BEnd ->
  exists dirs files d f e off l', scan fuel fs base = Ok (dirs, files) /\ set_offsets dirs (sort files) = (d, f) /\ d ++ f = l' ++ [(e, off)] /\
    ar_size (assemble (jobs ev bucket path base bs) (map snd (log s))) = up512 (off + en_hdr e + en_size e).
Proof.
  intros H Hs H2 Hbn H3 H4 H5 Hsh Htab Hb Hm Hst Hsl HR Hrun Hend.
  destruct (tree_ready _ _ _ _ _ _ _ _ _ H Hs H2 Hbn H3 H4 H5 Hsh Htab Hb Hm Hst Hsl) as (dirs & files & d & f & Hsc & Hso & Hc & Hp & Hpl & Hu & _).
  destruct (finished ev base path 0 bucket maxo dirs (sort files) d f bs R n s Hp Hso Hc Hpl ltac:(unfold INT_MIN, INT_MAX; lia) Hu HR Hrun Hend) as (z & L & Sz & _).
  destruct (set_offsets_laid _ _ _ _ Hso) as (z0 & L0 & Md & Mf).
  assert (Mdf : map fst (d ++ f) = dirs ++ sort files) by (rewrite map_app; congruence).
  assert (Wf : Forall (fun eo => wf_item (fst eo)) (d ++ f)).
  { apply (Forall_fst wf_item (d ++ f) (dirs ++ sort files)); auto. destruct Hp as (_ & _ & _ & W & _). eapply Forall_impl; [|exact W]. intros ? []; auto. }
  assert (Hne : d ++ f <> []). { intros E. rewrite E in Mdf. destruct Hp as (_ & _ & Hne & _). apply Hne. symmetry. exact Mdf. }
  destruct (exists_last Hne) as (l' & [e off] & El). exists dirs, files, d, f, e, off, l'. split; auto. split; auto. split; auto.
  rewrite Sz. destruct (laid_facts _ _ _ L eq_refl Wf) as (_ & _ & _ & _ & _ & _ & F7). rewrite (F7 e off l' El). unfold ext. f_equal. lia.
Qed.
Lemma path_header p : no_byte NUL p -> 101 <= zlen p <= 502 -> compute_hdr_size p [] 0 = Ok 1536.
Proof.
  intros Hn HL. unfold compute_hdr_size, hdr_size, get_paxsize, need_path, need_link, need_size, opt_record_length; cbn [te_file te_link te_stat is_reg st_kind st_size].
  rewrite cstr_id by auto. change (zlen (@nil byte)) with 0. replace (100 <? zlen p) with true by (symmetry; apply Z.ltb_lt; lia).
  destruct (record_length_ok (b "path") p) as (n & -> & Hp & Hz). change (100 <? 0) with false. cbn [bind andb].
  change (is_reg _) with true. change (MAX_FILE_SIZE <? 0) with false. cbn [andb bind].
  rewrite pax_record_zlen in Hz by lia. change (zlen (b "path")) with 4 in Hz.
  destruct (ndig_spec 10 n ltac:(lia) ltac:(lia)) as (D1 & D2 & D3 & _). specialize (D3 Hp).
  assert (D : ndig 10 n = 3).
  { destruct (Z_lt_dec (ndig 10 n) 3) as [Q|Q].
    - assert (ndig 10 n = 1 \/ ndig 10 n = 2) as [E|E] by lia; rewrite E in *; [change (10 ^ 1) with 10 in D2|change (10 ^ 2) with 100 in D2]; lia.
    - assert (10 ^ 3 <= 10 ^ (ndig 10 n - 1) \/ ndig 10 n = 3) as [W|W]; auto.
      + destruct (Z.eq_dec (ndig 10 n) 3); auto. left. apply Z.pow_le_mono_r; lia.
      + change (10 ^ 3) with 1000 in W. assert (1000 <= n) by lia. pose proof (pow10_gt (ndig 10 n - 1 - 1) ltac:(lia)).
        replace (ndig 10 n - 1) with ((ndig 10 n - 1 - 1) + 1) in D3 by lia. rewrite Z.pow_add_r in D3 by lia. change (10 ^ 1) with 10 in D3. lia. }
  rewrite D in *. unfold pax_hdr_sz. replace (0 <? n + 0 + 0) with true by (symmetry; apply Z.ltb_lt; lia).
  rewrite round_to_block_spec. unfold BLOCKSIZE, round512. f_equal.
  replace ((512 + (n + 0 + 0) + 511) / 512) with 2; [reflexivity|]. apply Z.div_unique with (r := 512 + (n+0+0) + 511 - 1024); lia.
Qed.
Lemma slash_safe_long p : no_byte NUL p -> 101 <= zlen p <= 501 -> slash_safe p.
Proof.
  intros Hn HL. unfold slash_safe. rewrite !path_header; auto; try lia.
  - unfold no_byte in *. rewrite in_app_iff. cbn. intros [F|[F|F]]; auto. discriminate.
  - rewrite zlen_app. change (zlen [SLASH]) with 1. lia.
Qed.
