(** Lemmas behind C69 and C70. *)
From Coq Require Import Permutation.
From Verif Require Import Bytes Outcome TarSpec TarModel Mover MoverSpec Spider SpiderSpec SpiderProofs SpiderMore EndSpec EndMore UnpackSpec
  Legacy LegacyLayout LegacySpec LegacyEndSpec.

(** ** paths *)
Lemma cut_app_slash cur a r : no_byte SLASH a -> cut cur (a ++ SLASH :: r) = (cur ++ a) :: cut [] r.
Proof.
  revert cur. induction a as [|c a IH]; intros cur H; cbn [app cut].
  - change (beq SLASH SLASH) with true. rewrite app_nil_r. reflexivity.
  - destruct (beq c SLASH) eqn:E; [apply Ascii.eqb_eq in E; subst c; exfalso; apply H; left; auto|].
    rewrite IH; [rewrite <- app_assoc; reflexivity|]. intros X. apply H. right. auto.
Qed.
Lemma cut_end cur a : no_byte SLASH a -> cut cur a = [cur ++ a].
Proof.
  revert cur. induction a as [|c a IH]; intros cur H; cbn [cut]; [rewrite app_nil_r; reflexivity|].
  destruct (beq c SLASH) eqn:E; [apply Ascii.eqb_eq in E; subst c; exfalso; apply H; left; auto|].
  rewrite IH; [rewrite <- app_assoc; reflexivity|]. intros X. apply H. right. auto.
Qed.
Lemma cut_join_slash a r : forall cur, cut cur (a ++ SLASH :: r) = cut cur a ++ cut [] r.
Proof.
  induction a as [|c a IH]; intros cur; cbn [app cut]; [reflexivity|]. destruct (beq c SLASH); rewrite IH; reflexivity.
Qed.
Lemma components_app a r : components (a ++ SLASH :: r) = components a ++ components r.
Proof. unfold components. rewrite cut_join_slash, filter_app. reflexivity. Qed.
Lemma good_names_nothing n : good_name n -> names_nothing n = false.
Proof.
  intros (A & B & _). unfold names_nothing. apply Bool.orb_false_iff. split.
  - destruct (bytes_eqb n []) eqn:E; auto. apply bytes_eqb_spec in E. contradiction.
  - destruct (bytes_eqb n (b ".")) eqn:E; auto. apply bytes_eqb_spec in E. contradiction.
Qed.
Lemma components_join p : Forall good_name p -> components (join p) = p.
Proof.
  induction 1 as [|x p Hx Hp IH]; [reflexivity|].
  assert (Ex : components x = [x]).
  { unfold components. rewrite cut_end by apply Hx. cbn [app filter]. rewrite good_names_nothing by auto. reflexivity. }
  destruct p as [|y p]; cbn [join]; [exact Ex|]. change (x ++ [SLASH] ++ ?r) with (x ++ SLASH :: r).
  rewrite components_app, Ex. change (match p with [] => y | _ :: _ => y ++ [SLASH] ++ join p end) with (join (y :: p)). rewrite IH. reflexivity.
Qed.
Lemma components_node base p : Forall good_name p -> components (node_path base p) = components base ++ p.
Proof. intros H. unfold node_path. cbn [app]. rewrite components_app, components_join by auto. reflexivity. Qed.
Lemma components_slash path : components (path ++ [SLASH]) = components path.
Proof. rewrite components_app. unfold components at 2. cbn. apply app_nil_r. Qed.
Lemma described_components ev base p n m : Forall good_name p -> describes ev base p n m -> components (m_path m) = components base ++ p.
Proof.
  intros Hg (H & _). rewrite <- components_node by auto.
  destruct n; try contradiction; destruct H as (-> & _); auto; (destruct p; [rewrite app_nil_r; reflexivity|apply components_slash]).
Qed.

Lemma same_place_eq p q : same_place p q = true <-> p = q.
Proof.
  revert q. induction p as [|x p IH]; intros [|y q]; cbn [same_place]; split; intros H; try discriminate; auto.
  - apply andb_prop in H as [H1 H2]. apply bytes_eqb_spec in H1. apply IH in H2. congruence.
  - assert (x = y) by congruence. assert (p = q) by congruence. subst. apply andb_true_intro. split; [apply bytes_eqb_spec; auto|apply IH; auto].
Qed.
Lemma put_same S q o : put S q o q = Some o.
Proof. unfold put. rewrite (proj2 (same_place_eq q q) eq_refl). reflexivity. Qed.
Lemma put_other S q o q' : q' <> q -> put S q o q' = S q'.
Proof. intros H. unfold put. destruct (same_place q q') eqn:E; auto. apply same_place_eq in E. congruence. Qed.

(** ** unpacking *)
Section unpacking.
Context (ev : env) (base : bytes) (S0 : place) (spacer : member -> Prop) (junk : list bytes -> Prop).
Context (Hdd : ~ In (b "..") (components base)) (Hroom : room_for S0 (components base)).
Context (Hsp : forall m, spacer m -> exists x, components (m_path m) = [x] /\ x <> b ".." /\ junk [x] /\ m_type m = "0"%char).
Context (Hjunk : forall q, junk q -> exists x, q = [x] /\ is_directory (S0 []) = true /\ is_directory (S0 q) = false /\ hd_error (components base) <> Some x).
Context (nodes : list (list bytes * node)).
Context (Hnd : NoDup (map fst nodes)) (Hpf : parents_first nodes) (Hgood : Forall (fun pn => Forall good_name (fst pn)) nodes).
Context (Hroot : forall q n, In (q, n) nodes -> q = [] -> is_dir_node n).
Context (Hout : forall q n x, In (q, n) nodes -> components base = [] -> junk [x] -> hd_error q <> Some x).

Let c := components base.
Definition inv_at (done : list (list bytes * node)) (S : place) : Prop :=
  (forall p n, In (p, n) done -> exists m, S (c ++ p) = Some (Made m) /\ describes ev base p n m) /\
  (forall q, S q = S0 q \/ (exists p n, In (p, n) done /\ q = c ++ p) \/ junk q) /\
  (forall q, junk q -> is_directory (S q) = false).

Lemma junk_off q p n : junk q -> In (p, n) nodes -> q <> c ++ p.
Proof using Hdd Hjunk Hout Hroom.
  intros Hj Hin E. destruct (Hjunk q Hj) as (x & -> & D1 & D2 & D3). unfold c in *. destruct (components base) as [|y l] eqn:Ec.
  - cbn [app] in E. apply (Hout p n x Hin eq_refl Hj). rewrite <- E. reflexivity.
  - apply D3. cbn in E. cbn [hd_error]. congruence.
Qed.
Lemma not_dotdot p : Forall good_name p -> existsb (bytes_eqb (b "..")) (c ++ p) = false.
Proof using Hdd.
  intros Hg. destruct (existsb (bytes_eqb (b "..")) (c ++ p)) eqn:E; auto. apply existsb_exists in E as (x & Hx & Ex). apply bytes_eqb_spec in Ex. subst x.
  apply in_app_or in Hx as [Hx|Hx]; [contradiction|]. rewrite Forall_forall in Hg. destruct (Hg _ Hx) as (_ & _ & G & _). congruence.
Qed.
Lemma dir_type p n m : is_dir_node n -> describes ev base p n m -> m_type m = "5"%char.
Proof. intros Hd (H & _). destruct n; try contradiction; apply H. Qed.
Lemma root_dir : c = [] -> is_directory (S0 []) = true.
Proof using Hroom. intros E. destruct Hroom as (_ & H & _). fold c in H. rewrite E in H. rewrite (H eq_refl). reflexivity. Qed.

Lemma removelast_snoc {A} (l : list A) x : removelast (l ++ [x]) = l.
Proof. rewrite removelast_app by discriminate. apply app_nil_r. Qed.
Lemma shorter {A} (l p : list A) : l <> [] -> removelast l <> l ++ p.
Proof.
  intros H E. apply (f_equal (@length A)) in E. rewrite app_length in E. destruct (exists_last H) as (l' & x & ->).
  rewrite removelast_snoc, app_length in E. cbn in E. lia.
Qed.

Lemma unpack_spacer done S m : inv_at done S -> (forall pn, In pn done -> In pn nodes) -> spacer m -> exists S', unpack_one S m = Some S' /\ inv_at done S'.
Proof using Hdd Hsp Hjunk Hout Hroom Hroot.
  intros (I1 & I2 & I3) Hd Hm. destruct (Hsp m Hm) as (x & Ex & Hx & Hj & Ht). destruct (Hjunk _ Hj) as (y & Ey & D1 & D2 & D3).
  assert (y = x) by congruence. subst y.
  exists (put S [x] (Made m)). split.
  - unfold unpack_one. rewrite Ex. cbn [existsb removelast]. rewrite Ht.
    replace (bytes_eqb (b "..") x) with false by (symmetry; destruct (bytes_eqb (b "..") x) eqn:E; auto; apply bytes_eqb_spec in E; congruence).
    cbn [orb].
    assert (Hr : is_directory (S []) = true).
    { destruct (I2 []) as [E|[(p & n & Hin & E)|Hj0]].
      - rewrite E. exact D1.
      - destruct (I1 p n Hin) as (m' & E' & Dm). rewrite E, E'. cbn [is_directory]. symmetry in E. apply app_eq_nil in E as [_ Ep].
        rewrite (dir_type p n m'); auto. apply (Hroot p n); auto.
      - destruct (Hjunk _ Hj0) as (? & F & _). discriminate F. }
    rewrite Hr. cbn [negb]. change (beq "0"%char "5"%char) with false. change (beq "0"%char "0"%char) with true. cbn [orb].
    rewrite (I3 _ Hj). reflexivity.
  - split; [|split].
    + intros p n Hin. destruct (I1 p n Hin) as (m' & E & Dm). exists m'. split; auto. rewrite put_other; auto.
      intros F. apply (junk_off [x] p n); auto.
    + intros q. destruct (same_place [x] q) eqn:E; [apply same_place_eq in E; subst q; auto|].
      rewrite put_other; [apply I2|]. intros F. subst q. rewrite (proj2 (same_place_eq _ _) eq_refl) in E. discriminate.
    + intros q Hq. destruct (same_place [x] q) eqn:E.
      * apply same_place_eq in E. subst q. rewrite put_same. cbn [is_directory]. rewrite Ht. reflexivity.
      * rewrite put_other; auto. intros F. subst q. rewrite (proj2 (same_place_eq _ _) eq_refl) in E. discriminate.
Qed.

Lemma unpack_node done p n r S m : nodes = done ++ (p, n) :: r -> inv_at done S -> describes ev base p n m ->
  exists S', unpack_one S m = Some S' /\ inv_at (done ++ [(p, n)]) S'.
Proof using Hnd Hpf Hgood Hroot Hdd Hroom Hjunk Hout.
  intros En (I1 & I2 & I3) Hm.
  assert (Hin : In (p, n) nodes) by (rewrite En; apply in_or_app; right; left; auto).
  assert (Hg : Forall good_name p) by (rewrite Forall_forall in Hgood; apply (Hgood _ Hin)).
  assert (Hfresh : forall p' n', In (p', n') done -> p' <> p).
  { intros p' n' Hd ->. rewrite En, map_app in Hnd. cbn [map fst] in Hnd. apply NoDup_remove_2 in Hnd. apply Hnd. apply in_or_app. left.
    apply in_map with (f := fst) in Hd. exact Hd. }
  assert (Hsub : forall pn, In pn done -> In pn nodes) by (intros pn H; rewrite En; apply in_or_app; auto).
  pose proof (described_components _ _ _ _ _ Hg Hm) as Ec. fold c in Ec.
  assert (Hcur : S (c ++ p) = S0 (c ++ p)).
  { destruct (I2 (c ++ p)) as [E|[(p' & n' & H & E)|Hj]]; auto.
    - apply app_inv_head in E. exfalso. apply (Hfresh p' n' H). auto.
    - exfalso. apply (junk_off _ p n Hj Hin eq_refl). }
  assert (Hpar : match c ++ p with [] => true | _ => is_directory (S (removelast (c ++ p))) end = true).
  { enough (G : is_directory (S (removelast (c ++ p))) = true) by (rewrite G; destruct (c ++ p); reflexivity).
    destruct p as [|x0 p0] eqn:Ep.
    - rewrite app_nil_r in *. assert (Hcases : c = [] \/ c <> []) by (destruct c; [left|right]; congruence). destruct Hcases as [Hc0|Hcn].
      { rewrite Hc0 at 1. cbn [removelast]. pose proof (root_dir Hc0) as Hr. rewrite Hc0 in Hcur. rewrite Hcur. exact Hr. }
      destruct (I2 (removelast c)) as [E|[(p' & n' & H & E)|Hj]].
      + rewrite E. destruct Hroom as (R1 & _). apply R1. exact Hcn.
      + exfalso. exact (shorter c p' Hcn E).
      + exfalso. destruct (Hjunk _ Hj) as (x & E & _ & _ & D). apply D. fold c. revert E. clear. destruct c as [|y [|z l]]; intros E; try discriminate E.
        cbn [removelast] in E. cbn [hd_error]. assert (y = x) by congruence. congruence.
    - destruct (@exists_last _ (x0 :: p0)) as (p' & x & E); [discriminate|]. rewrite E, app_assoc, removelast_snoc.
      rewrite E in En. destruct (Hpf done p' x n r En) as (n' & H & Dn). destruct (I1 _ _ H) as (m' & -> & Dm). cbn [is_directory].
      rewrite (dir_type _ _ _ Dn Dm). reflexivity. }
  exists (put S (c ++ p) (Made m)). split.
  - unfold unpack_one. rewrite Ec, not_dotdot, Hpar, Hcur by auto. cbn [negb].
    destruct Hroom as (R1 & R2 & R3). fold c in R1, R2, R3.
    assert (Hfree : S0 (c ++ p) = None \/ (c ++ p = [] /\ S0 (c ++ p) = Some Given)).
    { destruct p as [|x p']; [|left; apply R3; discriminate]. rewrite app_nil_r. destruct c as [|y l]; [right; split; [reflexivity|apply R2; reflexivity]|left; apply R1; discriminate]. }
    pose proof (fun H => dir_type p n m H Hm) as Hty. destruct Hm as (Hm & _).
    destruct n; try contradiction.
    + destruct Hm as (_ & -> & _). change (beq "0"%char "5"%char) with false. change (beq "0"%char "0"%char) with true. cbn [orb].
      destruct Hfree as [->|[E _]]; [destruct (c ++ p) eqn:Eq; auto|].
      * apply app_eq_nil in Eq as [_ ->]. destruct (Hroot _ _ Hin eq_refl).
      * apply app_eq_nil in E as [_ ->]. destruct (Hroot _ _ Hin eq_refl).
    + destruct Hm as (_ & -> & _). change (beq "2"%char "5"%char) with false. change (beq "2"%char "0"%char || beq "2"%char "2"%char)%bool with true. cbv iota.
      destruct Hfree as [->|[E _]]; [destruct (c ++ p) eqn:Eq; auto|].
      * apply app_eq_nil in Eq as [_ ->]. destruct (Hroot _ _ Hin eq_refl).
      * apply app_eq_nil in E as [_ ->]. destruct (Hroot _ _ Hin eq_refl).
    + rewrite (Hty I). change (beq "5"%char "5"%char) with true. destruct Hfree as [->|[_ ->]]; reflexivity.
    + rewrite (Hty I). change (beq "5"%char "5"%char) with true. destruct Hfree as [->|[_ ->]]; reflexivity.
  - split; [|split].
    + intros p' n' H. apply in_app_or in H as [H|[H|[]]].
      * destruct (I1 _ _ H) as (m' & E & Dm). exists m'. split; auto. rewrite put_other; auto. intros F. apply app_inv_head in F. exact (Hfresh _ _ H F).
      * assert (p' = p) by congruence. assert (n' = n) by congruence. subst p' n'. exists m. split; [apply put_same|exact Hm].
    + intros q. destruct (same_place (c ++ p) q) eqn:E.
      * apply same_place_eq in E. subst q. right. left. exists p, n. split; auto. apply in_or_app. right. left. auto.
      * assert (F : q <> c ++ p) by (intros F; subst q; rewrite (proj2 (same_place_eq _ _) eq_refl) in E; discriminate).
        rewrite put_other by auto. destruct (I2 q) as [H|[(p' & n' & H & Eq)|H]]; auto. right. left. exists p', n'. split; auto. apply in_or_app. auto.
    + intros q Hq. rewrite put_other; auto. intros F. exact (junk_off q p n Hq Hin F).
Qed.

Lemma unpack_all rest ms : interspersed (fun pn m => describes ev base (fst pn) (snd pn) m) spacer rest ms ->
  forall done S, nodes = done ++ rest -> inv_at done S -> exists S', unpack S ms = Some S' /\ inv_at nodes S'.
Proof using Hnd Hpf Hgood Hroot Hdd Hroom Hjunk Hout Hsp.
  induction 1 as [|m l ms Hs _ IH|[p n] m l ms Hm _ IH]; intros done S En I.
  - exists S. split; auto. rewrite app_nil_r in En. subst. exact I.
  - cbn [unpack]. destruct (unpack_spacer done S m I) as (S' & -> & I'); auto; [|apply (IH done S' En I')].
    intros pn H. rewrite En. apply in_or_app. auto.
  - cbn [unpack]. destruct (unpack_node done p n l S m En I Hm) as (S' & -> & I'). apply (IH (done ++ [(p, n)]) S'); auto.
    rewrite <- app_assoc. exact En.
Qed.

Lemma unpacked ms : interspersed (fun pn m => describes ev base (fst pn) (snd pn) m) spacer nodes ms ->
  exists S, unpack S0 ms = Some S /\
    (forall p n, In (p, n) nodes -> exists m, S (c ++ p) = Some (Made m) /\ describes ev base p n m) /\
    (forall q, S q = S0 q \/ (exists p n, In (p, n) nodes /\ q = c ++ p) \/ junk q).
Proof using Hnd Hpf Hgood Hroot Hdd Hroom Hjunk Hout Hsp.
  intros H. destruct (unpack_all nodes ms H [] S0 eq_refl) as (S & E & I1 & I2 & _); [|exists S; auto].
  split; [|split]; auto.
  - intros p n [].
  - intros q Hq. destruct (Hjunk q Hq) as (x & _ & _ & D & _). exact D.
Qed.
End unpacking.
