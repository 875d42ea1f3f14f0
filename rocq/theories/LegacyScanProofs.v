(** Lemmas about LegacyScan.v *)
From Coq Require Import Permutation.
From Verif Require Import Bytes Outcome TarModel TarProofs Layout LayoutSpec LayoutMore Spider SpiderSpec SpiderProofs Legacy LegacyScan.

(** the tree without the names that start with a dot *)
Fixpoint prune (n : node) : node :=
  match n with
  | NDir ch => NDir (flat_map (fun c => if starts_with_dot (fst c) then [] else [(fst c, prune (snd c))]) ch)
  | _ => n
  end.
Definition hid (x : bytes) : Prop := starts_with_dot x = true.
Definition vis (x : bytes) : Prop := starts_with_dot x = false.
Lemma prune_at n p m' : at_path (prune n) p m' -> exists m, at_path n p m /\ m' = prune m /\ Forall vis p.
Proof.
  revert p m'. induction n as [s|t|ch IH| | |] using node_ind'; intros p m' H;
    try (cbn [prune] in H; inversion H; subst; eexists; split; [constructor|split; [reflexivity|constructor]]).
  cbn [prune] in H. inversion H as [|ch0 name n0 p0 n' Hin Ha]; subst.
  - eexists. split; [constructor|split; [reflexivity|constructor]].
  - apply in_flat_map in Hin as ([nm c] & Hc & Hin). cbn [fst snd] in Hin. destruct (starts_with_dot nm) eqn:E; [destruct Hin|].
    destruct Hin as [Hin|[]]. injection Hin as <- <-. rewrite Forall_forall in IH. destruct (IH _ Hc _ _ Ha) as (m & Hm & -> & Hv).
    exists m. split; [econstructor; eauto|]. split; [reflexivity|constructor; auto].
Qed.
Lemma at_prune n p m : at_path n p m -> Forall vis p -> at_path (prune n) p (prune m).
Proof.
  induction 1 as [n|ch name n p n' Hin Ha IH]; intros Hv; [constructor|]. inversion Hv as [|? ? V1 V2]; subst. cbn [prune].
  econstructor; [|apply IH; auto]. apply in_flat_map. exists (name, n). split; auto. cbn [fst snd]. unfold vis in V1. rewrite V1. left. reflexivity.
Qed.
Lemma prune_fst ch : map fst (flat_map (fun c => if starts_with_dot (fst c) then [] else [(fst c, prune (snd c))]) ch) = filter (fun x => negb (starts_with_dot x)) (map fst ch).
Proof. induction ch as [|[x n] ch IH]; [reflexivity|]. cbn [flat_map map filter fst]. destruct (starts_with_dot x); cbn [negb app map fst]; rewrite IH; reflexivity. Qed.
Lemma NoDup_filter' {A} (f : A -> bool) l : NoDup l -> NoDup (filter f l).
Proof. apply NoDup_filter. Qed.
Lemma prune_wf n : wf_node n -> wf_node (prune n).
Proof.
  induction n as [s|t|ch IH| | |] using node_ind'; intros H; cbn [prune]; auto. inversion H as [| |? Hn Hg Hw| | |]; subst. constructor.
  - rewrite prune_fst. apply NoDup_filter. exact Hn.
  - rewrite Forall_forall in *. intros c Hc. apply in_flat_map in Hc as ([x n] & Hin & Hc). cbn [fst snd] in Hc. destruct (starts_with_dot x); [destruct Hc|].
    destruct Hc as [<-|[]]. apply (Hg _ Hin).
  - rewrite Forall_forall in *. intros c Hc. apply in_flat_map in Hc as ([x n] & Hin & Hc). cbn [fst snd] in Hc. destruct (starts_with_dot x); [destruct Hc|].
    destruct Hc as [<-|[]]. cbn [snd]. apply (IH _ Hin). apply (Hw _ Hin).
Qed.

(** ** entries *)
Definition named_t (ty : ltype) (rel arc tgt : bytes) (size : Z) : lent :=
  stored (name_request ty rel arc (Some tgt) size (match compute_hdr_size rel tgt size with Ok h => h | Err _ => 0 end)).
Lemma named_ok ty rel arc tgt size : named ty rel arc tgt size = Ok (named_t ty rel arc tgt size).
Proof.
  unfold named, named_t. assert (E : exists h, compute_hdr_size rel tgt size = Ok h).
  { unfold compute_hdr_size. match goal with |- context [hdr_size ?x] => destruct (hdr_size_ok x) as (n & -> & _) end. eauto. }
  destruct E as (h & ->). reflexivity.
Qed.
Definition lof (top : bytes) (x : list bytes * node) : lent :=
  let '(p, n) := x in
  let rel := dir_path top (join p) in
  match n with
  | NFile s => named_t LReg rel (join p) [] s
  | NLink t => named_t LLnk rel (join p) t SIZE_LNK
  | _ => named_t LDir rel (join p) [] SIZE_DIR
  end.

Lemma what_shown fs path n : shows fs path n -> wf_node n ->
  legacy_what_is_path fs path = match n with NFile s => FoundReg s | NLink t => FoundLink t | NDir _ | NLocked => FoundDir
                                        | NOther => FoundIgnored | NUnreadable => FoundError end.
Proof.
  intros Hs Hw. unfold legacy_what_is_path. inversion Hs; subst; rewrite H; try rewrite H0; auto.
  - rewrite H1, Z.eqb_refl. inversion Hw as [|? T1 T2| | | |]; subst. rewrite cstr_id; auto.
  - destruct (Z.eqb_spec (zlen t) (st_size s)); auto. congruence.
Qed.

Lemma ends_app x n : n <> [] -> no_byte SLASH n -> ends_with_slash (x ++ n) = false.
Proof.
  intros Hn Hs. unfold ends_with_slash. rewrite rev_app_distr. destruct (rev n) as [|c r] eqn:E.
  - destruct n; [congruence|]. apply (f_equal (@length _)) in E. rewrite rev_length in E. discriminate.
  - cbn [app]. destruct (beq c SLASH) eqn:B; auto. apply beq_spec in B. subst c. exfalso. apply Hs. apply in_rev. rewrite E. left. reflexivity.
Qed.

Section one.
Variables (fs : fsys) (top : bytes).
Hypothesis Htop : top <> [].
Hypothesis Hslash : ends_with_slash top = false.

Definition rel_of (p : list bytes) : bytes := dir_path top (join p).
Lemma rel_next p name : Forall good_name p -> good_name name ->
  ends_with_slash (rel_of p) = false -> next_rel (rel_of p) name = rel_of (p ++ [name]) /\ next_arc (join p) name = join (p ++ [name]) /\
  rel_of p ++ [SLASH] ++ name = rel_of (p ++ [name]).
Proof.
  intros Hp Hn He. unfold next_rel. rewrite He. unfold rel_of.
  assert (Hn0 : name <> []) by apply Hn.
  rewrite <- (sub_rel_join p name Hp), dir_path_sub by auto. repeat split; auto.
Qed.
Lemma rel_slash p : Forall good_name p -> ends_with_slash (rel_of p) = false.
Proof.
  induction p as [|name p _] using rev_ind; intros H; [exact Hslash|]. apply Forall_app in H as (Hp & Hn). inversion Hn as [|? ? Hg _]; subst.
  unfold rel_of. rewrite <- (sub_rel_join p name Hp), dir_path_sub by apply Hg. rewrite app_assoc. apply ends_app; apply Hg.
Qed.
Lemma rel_nonempty p : rel_of p <> [].
Proof. unfold rel_of, dir_path. destruct (join p); auto. destruct top; [congruence|discriminate]. Qed.

Definition child_dirs (p : list bytes) (ch : list (bytes * node)) : list (list bytes * list (bytes * node)) :=
  flat_map (fun c => match snd c with NDir g => if starts_with_dot (fst c) then [] else [(p ++ [fst c], g)] | _ => [] end) ch.
Definition child_ents (p : list bytes) (ch : list (bytes * node)) : list lent :=
  flat_map (fun c => if starts_with_dot (fst c) then [] else match snd c with NOther | NUnreadable => [] | n => [lof top (p ++ [fst c], n)] end) ch.
Definition qof (x : list bytes * list (bytes * node)) : bytes * bytes := (rel_of (fst x), join (fst x)).

Lemma list_entries_ok p : Forall good_name p -> forall names ch,
  filter (fun n => negb (bytes_eqb n (b ".") || bytes_eqb n (b ".."))) names = map fst ch ->
  Forall (fun c => shows fs (rel_of p ++ [SLASH] ++ fst c) (snd c)) ch -> Forall (fun c => wf_node (snd c)) ch -> Forall (fun c => good_name (fst c)) ch ->
  Forall (fun c => vis (fst c) -> snd c <> NLocked) ch ->
  list_entries fs (rel_of p) (join p) names = Ok (child_ents p ch, map qof (child_dirs p ch)).
Proof.
  intros Hp. induction names as [|x names IH]; intros ch Hf Hs Hw Hg Hl.
  - destruct ch; [reflexivity|discriminate].
  - cbn [filter] in Hf. cbn [list_entries]. destruct (bytes_eqb x (b ".") || bytes_eqb x (b "..")) eqn:Ed; cbn [negb] in Hf.
    + assert (D : starts_with_dot x = true). { apply orb_prop in Ed as [E|E]; apply bytes_eqb_spec in E; subst; reflexivity. }
      rewrite D. apply IH; auto.
    + destruct ch as [|[m n] ch]; [discriminate|]. cbn [map fst] in Hf. injection Hf as -> Hf.
      inversion Hs as [|? ? S1 S2]; subst. inversion Hw as [|? ? W1 W2]; subst. inversion Hg as [|? ? G1 G2]; subst. inversion Hl as [|? ? L1 L2]; subst. cbn [fst snd] in *.
      unfold child_ents, child_dirs. cbn [flat_map fst snd]. destruct (starts_with_dot m) eqn:D.
      * replace (match n with NDir _ => [] | _ => [] end) with (@nil (list bytes * list (bytes * node))) by (destruct n; reflexivity). cbn [app]. apply IH; auto.
      * cbn zeta. destruct (rel_next p m Hp G1 (rel_slash p Hp)) as (R1 & R2 & R3). rewrite R1, R2. rewrite R3 in S1.
        rewrite (what_shown _ _ _ S1 W1). specialize (L1 D).
        destruct n; try (destruct (L1 eq_refl)); rewrite ?named_ok; cbn [bind]; rewrite (IH ch) by auto; reflexivity.
Qed.

(** weight of a queue, for the fuel *)
Definition wt (x : list bytes * list (bytes * node)) : nat := length (enum (fst x) (NDir (snd x))).
Definition below (p : list bytes) (ch : list (bytes * node)) : list (list bytes * node) :=
  flat_map (fun c => if starts_with_dot (fst c) then [] else enum (p ++ [fst c]) (prune (snd c))) ch.

Lemma prune_flat p g : flat_map (fun c => enum (p ++ [fst c]) (snd c)) (flat_map (fun c => if starts_with_dot (fst c) then [] else [(fst c, prune (snd c))]) g) = below p g.
Proof.
  unfold below. induction g as [|[y m] g IHg]; [reflexivity|]. cbn [flat_map fst snd]. rewrite flat_map_app, <- IHg. f_equal. destruct (starts_with_dot y); [reflexivity|].
  cbn [flat_map fst snd]. rewrite app_nil_r. reflexivity.
Qed.
Lemma below_step p ch : Forall (fun c => vis (fst c) -> snd c <> NLocked) ch ->
  Permutation (child_ents p ch ++ flat_map (fun x => map (lof top) (below (fst x) (snd x))) (child_dirs p ch)) (map (lof top) (below p ch)).
Proof.
  induction ch as [|[x n] ch IH]; intros H; [constructor|]. inversion H as [|? ? H1 H2]; subst. cbn [fst snd] in *.
  unfold child_ents, child_dirs, below in *. cbn [flat_map fst snd]. rewrite map_app.
  destruct (starts_with_dot x) eqn:D.
  - replace (match n with NDir _ => [] | _ => [] end) with (@nil (list bytes * list (bytes * node))) by (destruct n; reflexivity). cbn [app map]. apply IH; auto.
  - specialize (IH H2). destruct n as [s|t|g| | |]; cbn [app prune enum map flat_map]; try (apply IH); try (constructor; apply IH).
    cbn [lof]. constructor. rewrite <- IH.
      replace (flat_map (fun c => enum ((p ++ [x]) ++ [fst c]) (snd c)) (flat_map (fun c => if starts_with_dot (fst c) then [] else [(fst c, prune (snd c))]) g))
        with (flat_map (fun c => if starts_with_dot (fst c) then [] else enum ((p ++ [x]) ++ [fst c]) (prune (snd c))) g).
      2:{ clear. induction g as [|[y m] g IHg]; [reflexivity|]. cbn [flat_map fst snd]. rewrite flat_map_app, <- IHg. f_equal. destruct (starts_with_dot y); [reflexivity|].
          cbn [flat_map fst snd]. rewrite app_nil_r. reflexivity. }
      apply Permutation_app_swap_app.
Qed.
Lemma child_weight p ch : (list_sum (map wt (child_dirs p ch)) < length (enum p (NDir ch)))%nat.
Proof.
  cbn [enum length]. apply Nat.lt_succ_r. induction ch as [|[x n] ch IH]; [auto|]. unfold child_dirs in *. cbn [flat_map fst snd]. rewrite map_app, list_sum_app, app_length.
  apply Nat.add_le_mono; [|exact IH]. destruct n; cbn [map]; try apply Nat.le_0_l. destruct (starts_with_dot x); cbn [map]; [apply Nat.le_0_l|].
  unfold list_sum, wt. cbn [fold_right fst snd]. rewrite Nat.add_0_r. apply Nat.le_refl.
Qed.

Definition good_item (x : list bytes * list (bytes * node)) : Prop :=
  Forall good_name (fst x) /\ shows fs (rel_of (fst x)) (NDir (snd x)) /\ wf_node (NDir (snd x)) /\
  (forall q, Forall vis q -> ~ at_path (NDir (snd x)) q NLocked).

Lemma list_dirs_ok fuel : forall q, (list_sum (map wt q) <= fuel)%nat -> Forall good_item q ->
  exists es, list_dirs fuel fs (map qof q) = Ok (Some es) /\ Permutation es (flat_map (fun x => map (lof top) (below (fst x) (snd x))) q).
Proof.
  induction fuel as [|f IH]; intros q Hf Hq.
  - destruct q as [|x q]; [exists []; split; [reflexivity|constructor]|]. cbn [map list_sum fold_right] in Hf. unfold wt in Hf at 1. cbn [enum length] in Hf. unfold list_sum in Hf. cbn [fold_right] in Hf. lia.
  - destruct q as [|[p ch] q]; [exists []; split; [reflexivity|constructor]|]. inversion Hq as [|? ? (G1 & G2 & G3 & G4) Gq]; subst. cbn [fst snd] in *.
    change (map qof ((p, ch) :: q)) with ((rel_of p, join p) :: map qof q). cbn [list_dirs].
    inversion G2 as [| |? ? ? names ? S1 S2 S3 S4 S5| | | |]; subst. rewrite S3.
    inversion G3 as [| |? Hn Hg Hw| | |]; subst.
    assert (HL : Forall (fun c => vis (fst c) -> snd c <> NLocked) ch).
    { rewrite Forall_forall. intros [x n] Hin V E. cbn [fst snd] in *. subst n. apply (G4 [x]); [auto|]. econstructor; [exact Hin|constructor]. }
    rewrite (list_entries_ok p G1 names ch S4 S5 Hw Hg HL). cbn [bind].
    rewrite <- map_app. destruct (IH (q ++ child_dirs p ch)) as (es & E & Pe).
    { rewrite map_app, list_sum_app. pose proof (child_weight p ch) as CW.
      change (map wt ((p, ch) :: q)) with (wt (p, ch) :: map wt q) in Hf. unfold list_sum in *. cbn [fold_right] in Hf. unfold wt in Hf at 1. cbn [fst snd] in Hf. lia. }
    { apply Forall_app. split; auto. rewrite Forall_forall. intros [p' g] Hin. unfold child_dirs in Hin. apply in_flat_map in Hin as ([x n] & Hc & Hin). cbn [fst snd] in Hin.
      destruct n as [| |g'| | |]; try destruct Hin. destruct (starts_with_dot x) eqn:D; [destruct Hin|]. destruct Hin as [Hin|[]]. injection Hin as <- <-.
      rewrite Forall_forall in Hg, Hw, S5. specialize (Hg _ Hc). specialize (Hw _ Hc). specialize (S5 _ Hc). cbn [fst snd] in *.
      destruct (rel_next p x G1 Hg (rel_slash p G1)) as (_ & _ & R3). rewrite R3 in S5.
      split; [apply Forall_app; auto|]. split; [exact S5|]. split; [exact Hw|].
      intros qq V A. apply (G4 (x :: qq)); [constructor; auto|]. econstructor; eauto. }
    rewrite E. destruct (rel_of p) eqn:ER; [destruct (rel_nonempty p ER)|]. cbn [bind].
    eexists. split; [reflexivity|]. cbn [flat_map fst snd]. rewrite <- (below_step p ch HL), Pe, flat_map_app. rewrite <- app_assoc.
    apply Permutation_app_head. apply Permutation_app_comm.
Qed.

Lemma list_directory_ok ch : shows fs top (NDir ch) -> wf_node (NDir ch) -> (forall q, Forall vis q -> ~ at_path (NDir ch) q NLocked) ->
  exists es f0, (forall fuel, (f0 <= fuel)%nat -> exists es', list_directory fuel fs top = Ok (Some es') /\ Permutation es' es) /\
    es = map (lof top) (enum [] (prune (NDir ch))).
Proof.
  intros Hs Hw Hl. eexists. exists (length (enum [] (NDir ch))). split; [|reflexivity]. intros fuel Hf.
  destruct (list_dirs_ok fuel [([], ch)]) as (es & E & P).
  { unfold list_sum, wt. cbn [map fold_right fst snd]. lia. }
  { constructor; [|constructor]. split; [constructor|]. split; [exact Hs|]. split; auto. }
  unfold list_directory. rewrite (what_shown _ _ _ Hs Hw). rewrite named_ok. cbn [bind].
  change (map qof [([], ch)]) with [(top, @nil byte)] in E. rewrite E. cbn [bind]. eexists. split; [reflexivity|].
  cbn [prune enum map]. change (lof top ([], NDir _)) with (named_t LDir top [] [] SIZE_DIR). constructor.
  rewrite P. cbn [flat_map fst snd]. rewrite app_nil_r. rewrite <- prune_flat. apply Permutation_refl.
Qed.

(** ** a list is returned only if every visible directory could be opened *)
Definition child_dirs2 (p : list bytes) (ch : list (bytes * node)) : list (list bytes * node) :=
  flat_map (fun c => match snd c with NDir _ | NLocked => if starts_with_dot (fst c) then [] else [(p ++ [fst c], snd c)] | _ => [] end) ch.
Definition qof2 (x : list bytes * node) : bytes * bytes := (rel_of (fst x), join (fst x)).
Lemma list_entries_ok2 p : Forall good_name p -> forall names ch,
  filter (fun n => negb (bytes_eqb n (b ".") || bytes_eqb n (b ".."))) names = map fst ch ->
  Forall (fun c => shows fs (rel_of p ++ [SLASH] ++ fst c) (snd c)) ch -> Forall (fun c => wf_node (snd c)) ch -> Forall (fun c => good_name (fst c)) ch ->
  exists es, list_entries fs (rel_of p) (join p) names = Ok (es, map qof2 (child_dirs2 p ch)).
Proof.
  intros Hp. induction names as [|x names IH]; intros ch Hf Hs Hw Hg.
  - destruct ch; [eexists; reflexivity|discriminate].
  - cbn [filter] in Hf. cbn [list_entries]. destruct (bytes_eqb x (b ".") || bytes_eqb x (b "..")) eqn:Ed; cbn [negb] in Hf.
    + assert (D : starts_with_dot x = true). { apply orb_prop in Ed as [E|E]; apply bytes_eqb_spec in E; subst; reflexivity. }
      rewrite D. apply IH; auto.
    + destruct ch as [|[m n] ch]; [discriminate|]. cbn [map fst] in Hf. injection Hf as -> Hf.
      inversion Hs as [|? ? S1 S2]; subst. inversion Hw as [|? ? W1 W2]; subst. inversion Hg as [|? ? G1 G2]; subst. cbn [fst snd] in *.
      destruct (IH ch Hf S2 W2 G2) as (es & E).
      unfold child_dirs2. cbn [flat_map fst snd]. destruct (starts_with_dot m) eqn:D.
      * replace (match n with NDir _ => [] | NLocked => [] | _ => [] end) with (@nil (list bytes * node)) by (destruct n; reflexivity). cbn [app]. eauto.
      * cbn zeta. destruct (rel_next p m Hp G1 (rel_slash p Hp)) as (R1 & R2 & R3). rewrite R1, R2. rewrite R3 in S1.
        rewrite (what_shown _ _ _ S1 W1).
        destruct n; rewrite ?named_ok; cbn [bind]; rewrite E; eexists; reflexivity.
Qed.
Definition good_item2 (x : list bytes * node) : Prop :=
  Forall good_name (fst x) /\ shows fs (rel_of (fst x)) (snd x) /\ wf_node (snd x) /\ is_dir_node (snd x).
Lemma list_dirs_open fuel : forall q es, Forall good_item2 q -> list_dirs fuel fs (map qof2 q) = Ok (Some es) ->
  Forall (fun x => forall r, Forall vis r -> ~ at_path (snd x) r NLocked) q.
Proof.
  induction fuel as [|f IH]; intros q es Hq H; (destruct q as [|[p n] q]; [constructor|]); [discriminate|].
  inversion Hq as [|? ? (G1 & G2 & G3 & G4) Gq]; subst. cbn [fst snd] in *.
  change (map qof2 ((p, n) :: q)) with ((rel_of p, join p) :: map qof2 q) in H. cbn [list_dirs] in H.
  destruct n as [| |ch| | |]; try destruct G4.
  - inversion G2 as [| |? ? ? names ? S1 S2 S3 S4 S5| | | |]; subst. rewrite S3 in H.
    inversion G3 as [| |? Hn Hg Hw| | |]; subst.
    destruct (list_entries_ok2 p G1 names ch S4 S5 Hw Hg) as (e0 & E0). rewrite E0 in H.
    destruct (rel_of p) eqn:ER; [destruct (rel_nonempty p ER)|]. rewrite <- ER in *. cbn [bind] in H.
    rewrite <- map_app in H. destruct (list_dirs f fs (map qof2 (q ++ child_dirs2 p ch))) as [[es'|]|] eqn:EL; cbn [bind] in H; try discriminate.
    apply IH in EL.
    + apply Forall_app in EL as (E1 & E2). constructor; auto. cbn [snd]. intros r Vr A. rewrite Forall_forall in E2.
      inversion A as [|ch0 name n0 r0 n' Hin Ha]; subst. inversion Vr as [|? ? V1 V2]; subst.
      assert (Dn : is_dir_node n0). { inversion Ha; subst; [exact I|exact I]. }
      assert (Hc : In (p ++ [name], n0) (child_dirs2 p ch)).
      { unfold child_dirs2. apply in_flat_map. exists (name, n0). split; auto. cbn [fst snd]. unfold vis in V1. rewrite V1. destruct n0; try destruct Dn; left; reflexivity. }
      exact (E2 _ Hc r0 V2 Ha).
    + apply Forall_app. split; auto. rewrite Forall_forall. intros [p' g] Hin. unfold child_dirs2 in Hin. apply in_flat_map in Hin as ([x n] & Hc & Hin). cbn [fst snd] in Hin.
      rewrite Forall_forall in Hg, Hw, S5. specialize (Hg _ Hc). specialize (Hw _ Hc). specialize (S5 _ Hc). cbn [fst snd] in *.
      destruct (rel_next p x G1 Hg (rel_slash p G1)) as (_ & _ & R3). rewrite R3 in S5.
      assert (K : p' = p ++ [x] /\ g = n /\ is_dir_node n).
      { destruct n as [| |g'| | |]; try destruct Hin; (destruct (starts_with_dot x); [destruct Hin|]; destruct Hin as [Hin|[]]; injection Hin as <- <-; repeat split). }
      destruct K as (-> & -> & K). split; [apply Forall_app; auto|]. split; [exact S5|]. split; [exact Hw|exact K].
  - inversion G2 as [| | |? ? ? L1 L2 L3| | |]; subst. rewrite L3 in H. discriminate.
Qed.
End one.

(** entry [e] records node [n] *)
Definition lrecords (n : node) (e : lent) : Prop :=
  match n with
  | NFile s => l_type e = LReg /\ l_size e = s /\ l_tgt e = []
  | NLink t => l_type e = LLnk /\ l_size e = SIZE_LNK /\ l_tgt e = t
  | NDir _ | NLocked => l_type e = LDir /\ l_size e = SIZE_DIR /\ l_tgt e = []
  | NOther | NUnreadable => False
  end.
Lemma lof_fields top p n : archivable n -> l_arc (lof top (p, n)) = join p /\ l_rel (lof top (p, n)) = dir_path top (join p) /\ lrecords n (lof top (p, n)).
Proof. destruct n; intros H; try destruct H; repeat split; reflexivity. Qed.
Lemma lrecords_prune n e : lrecords (prune n) e <-> lrecords n e.
Proof. destruct n; cbn; tauto. Qed.
Lemma archivable_prune n : archivable (prune n) <-> archivable n.
Proof. destruct n; cbn; tauto. Qed.
Lemma at_good n p m : wf_node n -> at_path n p m -> Forall good_name p.
Proof.
  intros Hw H. revert Hw. induction H as [n|ch name n p n' Hin Ha IH]; intros Hw; [constructor|]. inversion Hw as [| |? Hn Hg Hc| | |]; subst.
  rewrite Forall_forall in Hg, Hc. constructor; [exact (Hg _ Hin)|]. apply IH. exact (Hc _ Hin).
Qed.
Lemma C36_lemma fs top ch : top <> [] -> ends_with_slash top = false -> wf_node (NDir ch) -> shows fs top (NDir ch) ->
  (forall q, Forall vis q -> ~ at_path (NDir ch) q NLocked) ->
  exists f0, forall fuel, (f0 <= fuel)%nat -> exists es, list_directory fuel fs top = Ok (Some es) /\
    NoDup (map l_arc es) /\
    (forall e, In e es -> exists p n, at_path (NDir ch) p n /\ Forall vis p /\ l_arc e = join p /\ l_rel e = dir_path top (join p) /\ lrecords n e) /\
    (forall p n, at_path (NDir ch) p n -> Forall vis p -> archivable n -> exists e, In e es /\ l_arc e = join p /\ lrecords n e).
Proof.
  intros H1 H2 Hw Hs Hl. destruct (list_directory_ok fs top H1 H2 ch Hs Hw Hl) as (es0 & f0 & A & ->). exists f0. intros fuel Hf.
  destruct (A fuel Hf) as (es & E & P). exists es. split; auto.
  assert (Hwp : wf_node (prune (NDir ch))) by (apply prune_wf; exact Hw).
  split; [|split].
  - apply (Permutation_NoDup (l := map l_arc (map (lof top) (enum [] (prune (NDir ch)))))); [apply Permutation_map; symmetry; exact P|].
    rewrite map_map. pose proof (enum_nodup _ Hwp []) as Hn.
    assert (G : forall x, In x (enum [] (prune (NDir ch))) -> Forall good_name (fst x) /\ archivable (snd x)).
    { intros [q m] Hin. apply enum_prefix in Hin as (r & -> & Ha & Hm). cbn [fst snd app]. split; auto. eapply at_good; eauto. }
    revert Hn G. generalize (enum [] (prune (NDir ch))) as L. clear. induction L as [|[q m] L IH]; intros Hn G; [constructor|]. cbn [map fst] in Hn. inversion Hn as [|? ? N1 N2]; subst.
    cbn [map]. constructor; [|apply IH; auto; intros; apply G; right; auto].
    intros Hin. apply in_map_iff in Hin as ([q' m'] & Eq & Hin). apply N1. apply in_map_iff. exists (q', m'). split; auto. cbn [fst].
    destruct (G (q, m) (or_introl eq_refl)) as (g1 & g2). destruct (G (q', m') (or_intror Hin)) as (g3 & g4). cbn [fst snd] in *.
    destruct (lof_fields top q m g2) as (a1 & _). destruct (lof_fields top q' m' g4) as (a2 & _).
    apply join_inj; auto. rewrite <- a1, <- a2. exact Eq.
  - intros e He. apply (Permutation_in _ P) in He. apply in_map_iff in He as ([q m] & <- & Hin). apply enum_prefix in Hin as (r & -> & Ha & Hm). cbn [app].
    destruct (lof_fields top r m Hm) as (a1 & a2 & a3). apply prune_at in Ha as (m0 & Ha & -> & Hv). exists r, m0. rewrite lrecords_prune in a3. auto.
  - intros p n Ha Hv Hn. assert (Hin : In ([] ++ p, prune n) (enum [] (prune (NDir ch)))).
    { apply enum_complete; [apply at_prune; auto|]. apply archivable_prune. exact Hn. }
    cbn [app] in Hin. exists (lof top (p, prune n)). split; [apply (Permutation_in _ (Permutation_sym P)); apply in_map; exact Hin|].
    destruct (lof_fields top p (prune n)) as (a1 & a2 & a3); [apply archivable_prune; exact Hn|]. rewrite lrecords_prune in a3. auto.
Qed.
Lemma open_lemma fs top n fuel es : top <> [] -> ends_with_slash top = false -> wf_node n -> is_dir_node n -> shows fs top n ->
  list_directory fuel fs top = Ok (Some es) -> forall q, Forall vis q -> ~ at_path n q NLocked.
Proof.
  intros H1 H2 Hw Hd Hs H. unfold list_directory in H. rewrite (what_shown _ _ _ Hs Hw) in H.
  assert (HL : exists es', list_dirs fuel fs (map (qof2 top) [([], n)]) = Ok (Some es')).
  { change (map (qof2 top) [([], n)]) with [(top, @nil byte)]. destruct n; try destruct Hd; rewrite named_ok in H; cbn [bind] in H;
      (destruct (list_dirs fuel fs [(top, [])]) as [[es'|]|]; cbn [bind] in H; [eauto|discriminate|discriminate]). }
  destruct HL as (es' & HL). apply list_dirs_open in HL; auto.
  - inversion HL; subst. auto.
  - constructor; [|constructor]. repeat split; auto; constructor.
Qed.
