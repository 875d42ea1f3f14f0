(** Lemmas about Spider.v *)
From Coq Require Import Permutation.
From Verif Require Import Bytes Outcome TarModel Layout LayoutSpec LayoutMore Spider SpiderSpec.

(** induction over trees *)
Lemma node_ind' (P : node -> Prop) :
  (forall s, P (NFile s)) -> (forall t, P (NLink t)) ->
  (forall ch, Forall (fun c => P (snd c)) ch -> P (NDir ch)) ->
  P NLocked -> P NOther -> P NUnreadable -> forall n, P n.
Proof.
  intros H1 H2 H3 H4 H5 H6. fix IH 1. intros [s|t|ch| | |].
  - apply H1.
  - apply H2.
  - apply H3. induction ch as [|c ch IHc]; constructor; [apply IH|exact IHc].
  - exact H4.
  - exact H5.
  - exact H6.
Qed.

(** ** paths *)
Lemma sub_rel_join p n : Forall good_name p -> sub_rel (join p) n = join (p ++ [n]).
Proof.
  destruct p as [|a p]; [reflexivity|]. intros H.
  assert (E : forall p a, join (a :: p ++ [n]) = join (a :: p) ++ [SLASH] ++ n).
  { clear. induction p as [|c p IH]; intros a; [reflexivity|].
    change (join (a :: (c :: p) ++ [n])) with (a ++ [SLASH] ++ join (c :: p ++ [n])). rewrite IH.
    change (join (a :: c :: p)) with (a ++ [SLASH] ++ join (c :: p)). rewrite <- !app_assoc. reflexivity. }
  cbn [app]. rewrite E. unfold sub_rel. destruct (join (a :: p)) eqn:J; auto.
  exfalso. inversion H; subst. destruct H2 as [Ha _]. destruct p; cbn in J; [auto|]. destruct a; [auto|discriminate].
Qed.
Lemma join_nonempty p : Forall good_name p -> p <> [] -> join p <> [].
Proof.
  intros H Hp. destruct p as [|a p]; [congruence|]. inversion H as [|? ? [Ha _] ?]; subst.
  destruct p; cbn; [auto|]. destruct a; [auto|discriminate].
Qed.
Lemma split_slash n r m r' : no_byte SLASH n -> no_byte SLASH m ->
  (r = [] \/ exists x, r = SLASH :: x) -> (r' = [] \/ exists x, r' = SLASH :: x) -> n ++ r = m ++ r' -> n = m /\ r = r'.
Proof.
  intros Hn. revert m. induction n as [|c n IH]; intros m Hm Hr Hr' E.
  - destruct m as [|d m]; [auto|]. cbn [app] in E. destruct Hr as [->|[x ->]]; [discriminate|].
    exfalso. apply Hm. left. congruence.
  - destruct m as [|d m].
    + cbn [app] in E. destruct Hr' as [->|[x ->]]; [discriminate|]. exfalso. apply Hn. left. congruence.
    + cbn [app] in E. assert (c = d) by congruence. subst d. assert (E' : n ++ r = m ++ r') by congruence.
      destruct (IH (fun H => Hn (or_intror H)) m (fun H => Hm (or_intror H)) Hr Hr' E'). split; congruence.
Qed.
Lemma join_cons a p : join (a :: p) = a ++ match p with [] => [] | _ => SLASH :: join p end.
Proof. destruct p; [cbn; rewrite app_nil_r; reflexivity|reflexivity]. Qed.
Lemma join_inj p : Forall good_name p -> forall q, Forall good_name q -> join p = join q -> p = q.
Proof.
  induction 1 as [|a p Ha Hp IH]; intros q Hq E.
  - destruct q as [|c q]; auto. exfalso. apply (join_nonempty (c :: q)); auto. congruence.
  - destruct q as [|c q]; [exfalso; apply (join_nonempty (a :: p)); [constructor; auto|congruence|auto]|].
    inversion Hq; subst. rewrite !join_cons in E.
    apply split_slash in E; try (apply Ha); try (apply H1); try (destruct p; eauto; fail); try (destruct q; eauto; fail).
    destruct E as [-> E]. f_equal.
    destruct p, q; try discriminate; auto. apply IH; auto. congruence.
Qed.

(** ** the directory object a scan of a tree builds *)
Definition raw_child (rel : bytes) (c : bytes * node) : list rawfile :=
  match snd c with
  | NFile s => [{| rf_type := TFile; rf_rel := sub_rel rel (fst c); rf_target := []; rf_size := s |}]
  | NLink t => [{| rf_type := TLink; rf_rel := sub_rel rel (fst c); rf_target := t; rf_size := 0 |}]
  | _ => []
  end.
Fixpoint mirror (rel : bytes) (n : node) : pdir :=
  match n with
  | NDir ch =>
      PDir rel
        (flat_map (fun c => match snd c with NDir _ | NLocked => [mirror (sub_rel rel (fst c)) (snd c)] | _ => [] end) ch)
        (flat_map (raw_child rel) ch)
  | _ => PDir rel [] []
  end.
Definition sub_dirs (rel : bytes) (ch : list (bytes * node)) : list bytes :=
  flat_map (fun c => match snd c with NDir _ | NLocked => [sub_rel rel (fst c)] | _ => [] end) ch.

Lemma full_name_dir base rel name : base <> [] -> entry_full_name base (sub_rel rel name) = dir_path base rel ++ [SLASH] ++ name.
Proof.
  intros H. unfold entry_full_name, dir_path, sub_rel. destruct base; [congruence|]. destruct rel; auto.
  rewrite <- !app_assoc. cbn [app]. f_equal. 
Qed.
Lemma dir_path_sub base rel name : name <> [] -> dir_path base (sub_rel rel name) = dir_path base rel ++ [SLASH] ++ name.
Proof.
  intros H. unfold dir_path, sub_rel. destruct rel; [destruct name; [congruence|reflexivity]|].
  cbn [app]. rewrite <- !app_assoc. reflexivity.
Qed.

Lemma what_is_shown fs path n : quiet_heap fs -> shows fs path n -> wf_node n ->
  what_is_path fs path = Ok (match n with NFile s => FoundReg s | NLink t => FoundLink t | NDir _ | NLocked => FoundDir
                                        | NOther => FoundIgnored | NUnreadable => FoundError end).
Proof.
  intros Hq Hs Hw. unfold what_is_path. inversion Hs; subst; rewrite H; try rewrite H0; auto.
  - rewrite H1, Z.eqb_refl. cbn zeta. rewrite Hq. inversion Hw; subst. rewrite find_byte_app by auto.
    rewrite firstn_app, Nat.sub_diag, firstn_all, app_nil_r. reflexivity.
  - destruct (Z.eqb_spec (zlen t) (st_size s)); auto. congruence.
Qed.

Lemma read_entries_ok fs base rel : quiet_heap fs -> base <> [] -> forall names ch,
  filter (fun n => negb (bytes_eqb n (b ".") || bytes_eqb n (b ".."))) names = map fst ch ->
  Forall (fun c => shows fs (dir_path base rel ++ [SLASH] ++ fst c) (snd c)) ch -> Forall (fun c => wf_node (snd c)) ch ->
  read_entries fs base rel names = Ok (sub_dirs rel ch, flat_map (raw_child rel) ch).
Proof.
  intros Hq Hb. induction names as [|x names IH]; intros ch Hf Hs Hw.
  - destruct ch; [reflexivity|discriminate].
  - cbn [filter] in Hf. cbn [read_entries]. unfold is_dot. destruct (_ || _); cbn [negb] in Hf; [apply IH; auto|].
    destruct ch as [|[m n] ch]; [discriminate|]. cbn [map fst] in Hf. injection Hf as -> Hf.
    inversion Hs as [|? ? S1 S2]; subst. inversion Hw as [|? ? W1 W2]; subst. cbn [fst snd] in *.
    cbn zeta. rewrite full_name_dir, (what_is_shown _ _ _ Hq S1 W1) by auto. cbn [bind].
    rewrite (IH ch) by auto. cbn [bind]. unfold sub_dirs. cbn [flat_map snd fst].
    change (raw_child rel (m, n)) with (match n with
      | NFile s => [{| rf_type := TFile; rf_rel := sub_rel rel m; rf_target := []; rf_size := s |}]
      | NLink t => [{| rf_type := TLink; rf_rel := sub_rel rel m; rf_target := t; rf_size := 0 |}]
      | _ => [] end).
    destruct n; reflexivity.
Qed.

Lemma for_each_ok {A B} (f : A -> outcome B) (g : A -> B) l : (forall a, In a l -> f a = Ok (g a)) -> for_each f l = Ok (map g l).
Proof.
  induction l as [|a l IH]; intros H; [reflexivity|]. cbn [for_each map]. rewrite (H a) by (left; auto). cbn [bind].
  rewrite IH by (intros; apply H; right; auto). reflexivity.
Qed.

Lemma spider_dirlike fs base : quiet_heap fs -> base <> [] -> forall n, is_dir_node n -> wf_node n ->
  exists f0, forall fuel rel, (f0 <= fuel)%nat -> shows fs (dir_path base rel) n ->
    spider fuel fs base rel = Ok (match n with NLocked => -2 | _ => 0 end, mirror rel n).
Proof.
  intros Hq Hb. induction n as [s|t|ch IH| | |] using node_ind'; intros Hd Hw; try contradiction.
  - inversion Hw as [| |? Hnd Hg Hwc| | |]; subst.
    assert (exists f0, forall c, In c ch -> is_dir_node (snd c) -> forall fuel rel, (f0 <= fuel)%nat ->
      shows fs (dir_path base rel) (snd c) -> spider fuel fs base rel = Ok (match snd c with NLocked => -2 | _ => 0 end, mirror rel (snd c))) as [f0 Hf].
    { clear - IH Hwc. induction ch as [|c ch IHc]; [exists O; intros ? []|].
      inversion IH as [|? ? H1 H2]; inversion Hwc as [|? ? H5 H6]; subst. destruct (IHc H2 H6) as [f1 Hf1].
      assert (exists f2, is_dir_node (snd c) -> forall fuel rel, (f2 <= fuel)%nat -> shows fs (dir_path base rel) (snd c) ->
         spider fuel fs base rel = Ok (match snd c with NLocked => -2 | _ => 0 end, mirror rel (snd c))) as [f2 Hf2].
      { destruct (snd c) eqn:E; try (exists O; intros []; fail); destruct (H1 I H5) as [f2 Hf2]; exists f2; intros _; exact Hf2. }
      exists (Nat.max f1 f2). intros c' [<-|Hin] Hd' fuel rel Hle Hs; [apply Hf2; auto; lia|apply Hf1; auto; lia]. }
    exists (S f0). intros [|fuel] rel Hle Hs; [lia|]. inversion Hs; subst. cbn [spider]. rewrite H2.
    rewrite (read_entries_ok fs base rel Hq Hb names ch) by auto. cbn [bind].
    assert (Hgen : for_each (spider fuel fs base) (sub_dirs rel ch) =
      Ok (flat_map (fun c => match snd c with NDir _ | NLocked => [(match snd c with NLocked => -2 | _ => 0 end, mirror (sub_rel rel (fst c)) (snd c))] | _ => [] end) ch)).
    { assert (Hc : forall c, In c ch -> is_dir_node (snd c) -> spider fuel fs base (sub_rel rel (fst c)) =
         Ok (match snd c with NLocked => -2 | _ => 0 end, mirror (sub_rel rel (fst c)) (snd c))).
      { intros c Hin Hdc. apply Hf; auto; [lia|]. rewrite Forall_forall in H5, Hg.
        rewrite dir_path_sub by (apply (Hg c Hin)). apply H5; auto. }
      clear - Hc. induction ch as [|c ch IHc]; [reflexivity|]. unfold sub_dirs. cbn [flat_map]. fold (sub_dirs rel ch).
      assert (Hc' := Hc c (or_introl eq_refl)). specialize (IHc (fun c H => Hc c (or_intror H))).
      destruct (snd c) eqn:E; cbn [app]; auto; cbn [for_each]; rewrite (Hc' I); cbn [bind]; rewrite IHc; reflexivity. }
    rewrite Hgen. cbn [bind mirror]. f_equal. f_equal. f_equal.
    clear. induction ch as [|c ch IHc]; [reflexivity|]. cbn [flat_map]. rewrite map_app, IHc. f_equal. destruct (snd c); reflexivity.
  - exists 1%nat. intros [|fuel] rel Hle Hs; [lia|]. inversion Hs; subst. cbn [spider]. rewrite H1. reflexivity.
Qed.

(** ** the growing directory list *)
Fixpoint all_dirs (d : pdir) : list pdir := let 'PDir _ subs _ := d in d :: flat_map all_dirs subs.
Definition weight (q : list pdir) : nat := length (flat_map all_dirs q).
Fixpoint bfs (fuel : nat) (q : list pdir) : option (list pdir) :=
  match q with
  | [] => Some []
  | d :: q' => match fuel with O => None | S f => option_map (cons d) (bfs f (q' ++ d_subs d)) end
  end.
Lemma grow_bfs fuel : forall done q, grow fuel (length done) (done ++ q) =
  match bfs fuel q with Some r => Ok (done ++ r) | None => Err EHang end.
Proof.
  induction fuel as [|f IH]; intros done q.
  - destruct q as [|d q]; cbn [grow bfs].
    + rewrite app_nil_r. assert (E : nth_error done (length done) = None) by (apply nth_error_None; lia). rewrite E. reflexivity.
    + rewrite nth_error_app2, Nat.sub_diag by lia. reflexivity.
  - destruct q as [|d q]; cbn [grow bfs].
    + rewrite app_nil_r. assert (E : nth_error done (length done) = None) by (apply nth_error_None; lia). rewrite E. reflexivity.
    + rewrite nth_error_app2, Nat.sub_diag by lia. cbn [nth_error].
      specialize (IH (done ++ [d]) (q ++ d_subs d)). rewrite app_length in IH. cbn [length] in IH.
      rewrite Nat.add_1_r in IH. rewrite <- !app_assoc in *. cbn [app] in *. rewrite IH.
      destruct (bfs f (q ++ d_subs d)); cbn [option_map]; [rewrite <- app_assoc|]; reflexivity.
Qed.
Lemma weight_app q r : weight (q ++ r) = (weight q + weight r)%nat.
Proof. unfold weight. rewrite flat_map_app, app_length. reflexivity. Qed.
Lemma bfs_perm fuel : forall q, (weight q <= fuel)%nat -> exists r, bfs fuel q = Some r /\ Permutation r (flat_map all_dirs q).
Proof.
  induction fuel as [|f IH]; intros [|d q] H; try (exists []; split; [reflexivity|constructor]).
  - destruct d; unfold weight in H; cbn [flat_map all_dirs app length] in H. lia.
  - destruct d as [rel subs files] eqn:E. destruct (IH (q ++ subs)) as (r & Hr & Hp).
    { rewrite weight_app. unfold weight in *. cbn [flat_map all_dirs] in H. rewrite !app_length in H. cbn [length] in H. lia. }
    exists (d :: r). split; [cbn [bfs d_subs]; rewrite Hr; subst; reflexivity|]. subst d. cbn [flat_map all_dirs app].
    constructor. rewrite Hp, flat_map_app. apply Permutation_app_comm.
Qed.
(** every listed directory is in the initial queue or a subdirectory of an earlier one *)
Lemma bfs_parent fuel : forall q r, bfs fuel q = Some r -> forall i d, nth_error r i = Some d ->
  In d q \/ exists j d', (j < i)%nat /\ nth_error r j = Some d' /\ In d (d_subs d').
Proof.
  induction fuel as [|f IH]; intros [|d0 q] r H i d Hi; cbn [bfs] in H; try discriminate.
  - injection H as <-. destruct i; discriminate.
  - injection H as <-. destruct i; discriminate.
  - destruct (bfs f (q ++ d_subs d0)) as [r'|] eqn:E; [|discriminate]. injection H as <-.
    destruct i as [|i]; [cbn in Hi; left; left; congruence|]. cbn [nth_error] in Hi.
    destruct (IH _ _ E i d Hi) as [Hin|(j & d' & Hj & Hn & Hs)].
    + apply in_app_or in Hin as [?|Hs]; [left; right; auto|]. right. exists O, d0. repeat split; auto. lia.
    + right. exists (S j), d'. repeat split; auto. lia.
Qed.
Lemma bfs_head fuel d r : bfs fuel [d] = Some r -> exists r', r = d :: r'.
Proof. destruct fuel; cbn [bfs]; [discriminate|]. destruct (bfs _ _); [|discriminate]. intros H; injection H as <-. eauto. Qed.

(** ** enumeration of a tree *)
Fixpoint enum (p : list bytes) (n : node) : list (list bytes * node) :=
  match n with
  | NDir ch => (p, n) :: flat_map (fun c => enum (p ++ [fst c]) (snd c)) ch
  | NOther | NUnreadable => []
  | _ => [(p, n)]
  end.
Lemma enum_prefix n : forall p q m, In (q, m) (enum p n) -> exists r, q = p ++ r /\ at_path n r m /\ archivable m.
Proof.
  induction n as [s|t|ch IH| | |] using node_ind'; intros p q m H; cbn [enum] in H;
    try (destruct H as [H|[]]; assert (q = p /\ m = m) as [-> _] by (split; congruence); injection H as <-; exists []; rewrite app_nil_r; repeat split; constructor); try contradiction.
  destruct H as [H|H].
  - injection H as <- <-. exists []. rewrite app_nil_r. repeat split. constructor.
  - apply in_flat_map in H as ([nm c] & Hin & H). rewrite Forall_forall in IH. cbn [fst snd] in H.
    destruct (IH _ Hin _ _ _ H) as (r & -> & Ha & Hm). exists (nm :: r). rewrite <- app_assoc. repeat split; auto.
    econstructor; eauto.
Qed.
Lemma enum_complete n r m : at_path n r m -> archivable m -> forall p, In (p ++ r, m) (enum p n).
Proof.
  induction 1 as [n|ch name n r n' Hin Ha IH]; intros Hm p.
  - rewrite app_nil_r. destruct n; cbn [enum]; try contradiction; left; reflexivity.
  - cbn [enum]. right. apply in_flat_map. exists (name, n). split; auto. cbn [fst snd].
    specialize (IH Hm (p ++ [name])). rewrite <- app_assoc in IH. exact IH.
Qed.
Lemma NoDup_flat_map {A B} (f : A -> list B) l : NoDup l -> (forall a, In a l -> NoDup (f a)) ->
  (forall a a' x, In a l -> In a' l -> In x (f a) -> In x (f a') -> a = a') -> NoDup (flat_map f l).
Proof.
  induction 1 as [|a l Ha Hl IH]; intros H1 H2; [constructor|]. cbn [flat_map].
  assert (D : forall x, In x (f a) -> ~ In x (flat_map f l)).
  { intros x Hx Hx'. apply in_flat_map in Hx' as (a' & Hin & Hx'). assert (a = a') by (eapply H2; eauto; [left; auto|right; auto]). subst. auto. }
  assert (Hfa : NoDup (f a)) by (apply H1; left; auto).
  assert (Hr : NoDup (flat_map f l)) by (apply IH; [intros; apply H1; right; auto|intros; eapply H2; eauto; right; auto]).
  clear - Hfa Hr D. induction Hfa; cbn [app]; auto. constructor; [|apply IHHfa; intros; apply D; right; auto].
  intros Hin. apply in_app_or in Hin as [|Hin]; [auto|]. apply (D x); [left; auto|auto].
Qed.
Lemma map_flat_map {A B C} (g : B -> C) (f : A -> list B) l : map g (flat_map f l) = flat_map (fun a => map g (f a)) l.
Proof. induction l; cbn [flat_map map]; auto. rewrite map_app, IHl. reflexivity. Qed.
Lemma NoDup_of_map {A B} (f : A -> B) l : NoDup (map f l) -> NoDup l.
Proof. apply NoDup_map_inv. Qed.
Lemma enum_nodup n : wf_node n -> forall p, NoDup (map fst (enum p n)).
Proof.
  induction n as [s|t|ch IH| | |] using node_ind'; intros Hw p; cbn [enum map fst];
    try (repeat constructor; auto; fail).
  - inversion Hw as [| |? Hnd Hg Hwc| | |]; subst. constructor.
    + intros Hin. apply in_map_iff in Hin as ([q m] & Hq & Hin). cbn [fst] in Hq. subst q.
      apply in_flat_map in Hin as (c & Hc & Hin). apply enum_prefix in Hin as (r & E & _).
      apply (f_equal (@length _)) in E. rewrite !app_length in E. cbn [length] in E. lia.
    + rewrite map_flat_map. apply NoDup_flat_map.
      * apply NoDup_of_map with (f := fst). auto.
      * intros c Hc. rewrite Forall_forall in IH, Hwc. apply IH; auto.
      * intros a a' x Ha Ha' Hx Hx'. apply in_map_iff in Hx as ([q m] & E & Hx), Hx' as ([q' m'] & E' & Hx'). cbn [fst] in E, E'. subst q q'.
        apply enum_prefix in Hx as (r & E & _), Hx' as (r' & E' & _). rewrite E in E'. rewrite <- !app_assoc in E'.
        apply app_inv_head in E'. cbn [app] in E'. assert (En : fst a = fst a') by congruence.
        clear - Hnd Ha Ha' En. destruct a as [x n], a' as [y m]. cbn [fst] in En. subst y. f_equal.
        induction ch as [|[z k] ch IH]; [destruct Ha|]. inversion Hnd; subst. destruct Ha as [Ha|Ha], Ha' as [Ha'|Ha'].
        -- congruence.
        -- exfalso. apply H1. injection Ha as -> ->. cbn. change x with (fst (x, m)). apply in_map; auto.
        -- exfalso. apply H1. injection Ha' as -> ->. cbn. change x with (fst (x, n)). apply in_map; auto.
        -- auto.
Qed.

(** what the scan keeps of a node *)
Definition raw_of (x : list bytes * node) : rawfile :=
  let '(p, n) := x in
  match n with
  | NFile s => {| rf_type := TFile; rf_rel := join p; rf_target := []; rf_size := s |}
  | NLink t => {| rf_type := TLink; rf_rel := join p; rf_target := t; rf_size := 0 |}
  | _ => {| rf_type := TDir; rf_rel := join p; rf_target := []; rf_size := 0 |}
  end.
Definition raw_dir (d : pdir) : rawfile := {| rf_type := TDir; rf_rel := d_rel d; rf_target := []; rf_size := 0 |}.

Lemma perm5 {A} (a x y z w : list A) : Permutation ((a ++ x) ++ y ++ z ++ w) ((a ++ z) ++ x ++ y ++ w).
Proof.
  rewrite <- !app_assoc. apply Permutation_app_head. rewrite !app_assoc. apply Permutation_app_tail.
  rewrite <- (app_assoc z). apply Permutation_app_comm.
Qed.

Lemma mirror_perm n : is_dir_node n -> wf_node n -> forall p, Forall good_name p ->
  Permutation (map raw_dir (all_dirs (mirror (join p) n)) ++ flat_map d_files (all_dirs (mirror (join p) n)))
              (map raw_of (enum p n)).
Proof.
  induction n as [s|t|ch IH| | |] using node_ind'; intros Hd Hw p Hp; try contradiction; [|apply Permutation_refl].
  inversion Hw as [| |? Hnd Hg Hwc| | |]; subst. cbn [mirror all_dirs enum map flat_map d_files raw_dir d_rel raw_of app].
  constructor. 
  assert (G : forall ch, Forall (fun c => is_dir_node (snd c) -> wf_node (snd c) -> forall p, Forall good_name p ->
      Permutation (map raw_dir (all_dirs (mirror (join p) (snd c))) ++ flat_map d_files (all_dirs (mirror (join p) (snd c)))) (map raw_of (enum p (snd c)))) ch ->
      Forall (fun c => good_name (fst c)) ch -> Forall (fun c => wf_node (snd c)) ch ->
      Permutation
        (map raw_dir (flat_map all_dirs (flat_map (fun c => match snd c with NDir _ | NLocked => [mirror (sub_rel (join p) (fst c)) (snd c)] | _ => [] end) ch)) ++
         flat_map (raw_child (join p)) ch ++
         flat_map d_files (flat_map all_dirs (flat_map (fun c => match snd c with NDir _ | NLocked => [mirror (sub_rel (join p) (fst c)) (snd c)] | _ => [] end) ch)))
        (map raw_of (flat_map (fun c => enum (p ++ [fst c]) (snd c)) ch))).
  { clear - Hp. induction ch as [|[nm c] ch IHc]; intros H1 H2 H3; [constructor|].
    inversion H1 as [|? ? A1 A2]; inversion H2 as [|? ? B1 B2]; inversion H3 as [|? ? C1 C2]; subst. cbn [fst snd] in *.
    specialize (IHc A2 B2 C2).
    assert (Hp' : Forall good_name (p ++ [nm])) by (apply Forall_app; auto).
    cbn [flat_map snd fst]. rewrite map_app. rewrite (sub_rel_join p nm) by auto.
    destruct c as [s|t|ch'| | |].
    - cbn [app enum map raw_of]. unfold raw_child at 1. cbn [snd fst app]. rewrite sub_rel_join by auto.
      rewrite <- Permutation_middle. constructor. exact IHc.
    - cbn [app enum map raw_of]. unfold raw_child at 1. cbn [snd fst app]. rewrite sub_rel_join by auto.
      rewrite <- Permutation_middle. constructor. exact IHc.
    - change (raw_child (join p) (nm, NDir ch')) with (@nil rawfile). cbn [app].
      rewrite <- IHc, <- (A1 I C1 (p ++ [nm]) Hp'). cbn [flat_map app]. rewrite !map_app, !flat_map_app.
      apply perm5.
    - change (raw_child (join p) (nm, NLocked)) with (@nil rawfile). cbn [app flat_map all_dirs mirror map raw_dir d_rel d_files enum raw_of].
      constructor. exact IHc.
    - exact IHc.
    - exact IHc. }
  apply G; auto.
Qed.
