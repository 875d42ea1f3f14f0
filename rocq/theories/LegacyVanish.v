(** 0.5.1: what was found to be there when a run ended well. *)
From Coq Require Import Lia Permutation Sorted.
From Verif Require Import Bytes Outcome TarSpec TarModel TarProofs Layout Mover MoverSpec Worker Boss Spider SpiderSpec SpiderProofs Program EndSpec EndProofs EndMore
  Legacy LegacyProofs LegacyLayout LegacySpec LegacyLayoutProofs LegacyRanks LegacyMore LegacyScan LegacyScanProofs LegacyCodec LegacyCodecProofs LegacyWrite LegacySeats LegacyImage LegacyArchive LegacyEndSpec LegacyWalk LegacySend LegacyEnd LegacyRun LegacyCreate
  PropertiesLegacyScan LegacyTreeSpec LegacyCreateProofs LegacyTotal Mpi LegacyMpi LegacyMpiSpec LegacyMpiProofs LegacyMpiMore LegacyMpiEnd LegacyMpiWhole LegacyMpiRun.

Lemma entries_all blk P ev bloc es : forall st st', bucket_entries blk P ev bloc st es = Ok (Some st') ->
  forall f, In f es -> exists st1 st2, bucket_entry blk P ev bloc st1 f = Ok (Some st2).
Proof.
  induction es as [|x es IH]; intros st st' E f Hf; [destruct Hf|]. cbn [bucket_entries] in E.
  destruct (bucket_entry blk P ev bloc st x) as [[st1|]|e] eqn:E1; cbn [bind] in E; try discriminate E.
  destruct Hf as [->|Hf]; eauto.
Qed.
Lemma buckets_all blk P D clock ev l starts is : forall m ws, all_buckets blk P D clock ev l starts m is = Ok (Some ws) ->
  forall i, In i is -> exists m1 x, one_bucket blk P D (clock i) ev l starts m1 i = Ok (Some x).
Proof.
  induction is as [|j is IH]; intros m ws E i Hi; [destruct Hi|]. cbn [all_buckets] in E.
  destruct (one_bucket blk P D (clock j) ev l starts m j) as [[[m1 w1]|]|e] eqn:E1; cbn [bind] in E; try discriminate E.
  destruct (all_buckets blk P D clock ev l starts m1 is) as [[w2|]|e] eqn:E2; cbn [bind] in E; try discriminate E.
  destruct Hi as [->|Hi]; eauto.
Qed.
(** an entry that was moved *)
Lemma entry_there blk P ev bloc st st' f : bucket_entry blk P ev bloc st f = Ok (Some st') ->
  (l_orig f = 0 -> e_lstat ev (l_rel f) <> None) /\ (l_type f = LReg -> 0 < l_size f -> e_data ev (l_rel f) <> None).
Proof.
  unfold bucket_entry. destruct st as [m w]. intros E.
  destruct ((match l_type f with LReg => true | _ => false end && (0 <? l_size f))%bool) eqn:Er.
  - split.
    + intros H0 N. destruct (e_data ev (l_rel f)); [|discriminate E]. destruct (_ || _)%bool in E; [discriminate E|]. destruct (store _ _ _ _) in E; cbn [bind] in E; try discriminate E.
      rewrite H0 in E. cbn [Z.eqb] in E. unfold put_header, new_tarentry in E. rewrite N in E. discriminate E.
    + intros _ _ N. rewrite N in E. discriminate E.
  - split.
    + intros H0 N. cbn [bind] in E. rewrite H0 in E. cbn [Z.eqb] in E. unfold put_header, new_tarentry in E. rewrite N in E. discriminate E.
    + intros Ht Hs. rewrite Ht in Er. cbn [andb] in Er. apply Z.ltb_ge in Er. lia.
Qed.
(** an entry has a first fragment, which is not empty if the entry is not *)
Lemma first_fragment blk P i w l fs : seated blk P i w l fs -> forall e, In e l -> exists f, In f fs /\ same_file e f /\ l_orig f = 0 /\ (0 < l_size e -> 0 < l_size f).
Proof.
  induction 1 as [|i w e l f g fs j u i' w' total Hj Hu Hsf Hb Ho Hloc Hneg Hpos Hf Hend Hw' Hse IH]; intros x Hx; [destruct Hx|].
  destruct Hx as [<-|Hx].
  - exists f. split; [left; reflexivity|]. split; [exact Hsf|]. split; [exact Ho|]. intros Hp. destruct (Hpos ltac:(lia)) as [P1 P2].
    destruct (Z.eq_dec (l_size f) 0) as [E0|]; [|lia]. exfalso. rewrite E0 in Hf. inversion Hf; subst; lia.
  - destruct (IH x Hx) as (f' & A & B). exists f'. split; [right; apply in_or_app; right; exact A|exact B].
Qed.

Lemma run_there P pad clock ev ev0 l R prior ar : (1 <= R)%nat -> proper P pad ev0 l -> legacy_run 512 P pad clock ev l R prior ar ->
  forall e, In e l -> e_lstat ev (l_rel e) <> None /\ (l_type e = LReg -> 0 < l_size e -> e_data ev (l_rel e) <> None).
Proof.
  intros HR Hp Hrun e He. pose proof (proper_hdr _ _ _ _ Hp) as Hh. destruct Hp as [HP HPb Hpad Hlen Hsend Hlisted Hfirst Hhdr Hroom Hvol].
  inversion Hrun as [ws0 D text starts wss ws Hpro Hparts Hil]; subst.
  destruct (prologue_inv _ _ _ _ _ _ _ _ HP Hlen Hpro) as (cat & es & fs & nb & E1 & E2 & E3 & E4 & E5 & E6 & E7 & E8).
  assert (Hs : seated 512 P (-1) P l fs) by (eapply layout_seated; eauto; lia).
  assert (Hl2 : 2 <= zlen l) by (apply split_inv in E3; tauto). pose proof (seated_len _ _ _ _ _ _ Hs) as Hge.
  assert (Hsd : Forall sendable fs) by (eapply split_sendable; eauto; lia).
  destruct (first_fragment _ _ _ _ _ _ Hs e He) as (f & F1 & (S1 & S2 & S3 & S4 & S5) & F3 & F4).
  destruct (text_count _ _ _ _ E4 ltac:(change (10 ^ 10) with 10000000000; lia)) as (T3 & T1 & T2).
  destruct (visited_lemma (map received fs) starts ltac:(rewrite received_rank; exact E5)) as (V1 & V2).
  { rewrite <- E6. clear. generalize 0. induction starts as [|k st IH]; intros i; cbn [check_calls]; auto.
    rewrite nth_received. destruct (nth_error fs (Z.to_nat k)) as [f|]; auto. change (l_bucket (received f)) with (l_bucket f). destruct (l_bucket f =? i); auto. }
  assert (Fr : In (received f) (map received fs)) by (apply in_map; exact F1).
  rewrite Forall_forall in V1. pose proof (V1 _ Fr) as Hb. cbv beta in Hb. set (i := l_bucket (received f)) in *.
  assert (Hm : 0 <= i mod Z.of_nat R < Z.of_nat R) by (apply Z.mod_pos_bound; lia).
  destruct (forall2_nth _ _ _ Hparts (Z.to_nat (i mod Z.of_nat R)) (Z.to_nat (i mod Z.of_nat R))) as (w1 & _ & Hpart).
  { rewrite (nth_error_nth' _ 0%nat) by (rewrite seq_length; lia). rewrite seq_nth by lia. reflexivity. }
  rewrite Z2Nat.id in Hpart by lia. unfold rank_part in Hpart. rewrite (buffer_to_list_text fs P false text T3 T1 HP ltac:(lia) Hsd) in Hpart. cbn [bind] in Hpart. change (back false) with received in Hpart.
  destruct (check_calls (map received fs) 0 starts) as [[|]|err]; cbn [bind] in Hpart; try discriminate Hpart.
  assert (Hin : In i (rank_loop (Z.of_nat R) (i mod Z.of_nat R) (zlen starts))) by (apply (rank_loop_spec _ _ (zlen starts) Hm); auto).
  destruct (buckets_all _ _ _ _ _ _ _ _ _ _ Hpart i Hin) as (m1 & x & Hone). specialize (V2 i Hb). unfold one_bucket in Hone. unfold visited in V2.
  destruct (P <? 10000); [discriminate Hone|]. destruct (nth_error starts (Z.to_nat i)) as [k|]; [|discriminate Hone]. destruct (nth_error (map received fs) (Z.to_nat k)) as [e0|]; [|discriminate Hone].
  destruct (negb (l_bucket e0 =? i)); [discriminate Hone|]. injection V2 as V2. rewrite V2 in Hone.
  destruct (bucket_entries 512 P ev (P * i) (m1, 0) (filter (fun e => l_bucket e =? i) (map received fs))) as [[st'|]|err] eqn:Eb; cbn [bind] in Hone; try discriminate Hone.
  destruct (entries_all _ _ _ _ _ _ _ Eb (received f)) as (st1 & st2 & Ee). { apply filter_In. split; [exact Fr|apply Z.eqb_refl]. }
  destruct (entry_there _ _ _ _ _ _ _ Ee) as [G1 G2]. change (l_rel (received f)) with (l_rel f) in *. change (l_orig (received f)) with (l_orig f) in *.
  change (l_type (received f)) with (l_type f) in *. change (l_size (received f)) with (l_size f) in *. rewrite S1 in *. split; [auto|]. intros Ht Hz. apply G2; [congruence|auto].
Qed.

Lemma create_there fuel fs clock ev ev0 top t R prior l ar :
  top <> [] -> ends_with_slash top = false -> no_byte NUL top -> no_byte TAB top -> wf_node t -> is_dir_node t -> shows fs top t -> tab_free t ->
  (forall p n, reached t p n -> still ev0 top p n) -> manageable top t -> (1 <= R)%nat ->
  create_run fuel fs clock ev top R prior l ar -> zlen l <= 4000000 -> total_size l <= 8000000000000000 ->
  forall p n, reached t p n -> e_lstat ev (node_path top p) <> None /\ match n with NFile s => 0 < s -> e_data ev (node_path top p) <> None | _ => True end.
Proof.
  intros H1 H2 H3 H4 Hw Hd Hs Htf Hst Hman HR Hc Hlen Htot p n Hr.
  destruct (run_list _ _ _ _ _ _ _ _ _ _ H1 H2 Hw Hd Hs Hc) as (N & nodes & El & F & Nd & Hn & Hso & Hrun).
  assert (HN : forall x, In x N -> exists n, reached t (fst x) n /\ snd x = prune n).
  { intros x Hx. destruct (In_nth_error _ _ Hx) as (k & Hk). destruct (forall2_nth _ _ _ F k x Hk) as (y & _ & Y1 & Y2 & Y3). rewrite Y1. eauto. }
  pose proof (tree_proper ev0 top t H2 H3 H4 Hw Hd Htf Hst Hman l N El HN Hso Hlen Htot) as Hp.
  destruct (forall2_in _ _ _ F (p, n) (proj2 (Hn p n) Hr)) as ([q m] & Hq & Q1 & Q2 & _). cbn [fst snd] in Q1, Q2. subst q m.
  assert (He : In (ent top (p, prune n)) l) by (rewrite El; apply in_map; exact Hq).
  destruct (run_there _ _ _ ev ev0 _ _ _ _ HR Hp Hrun _ He) as [A B].
  destruct (ent_fields top p (prune n) H2) as (F1 & _ & _ & _ & _ & _ & _ & _ & _ & _ & _ & _ & F2); [apply archivable_prune; apply Hr|].
  rewrite F1 in *. split; [exact A|]. destruct n; cbn [prune] in *; auto.
Qed.

(** the same, from the command line and with the bounds on the tree *)
Lemma zero_there R fuel fs sort clock ev ev0 opens rest arc top more t nodes n s r :
  (1 <= R)%nat -> Forall (no_byte NUL) (("C"%char :: rest) :: arc :: top :: more) ->
  (forall l, Permutation l (sort l) /\ StronglySorted (fun x y => compare_entries x y <= 0) (sort l)) ->
  top <> [] -> ends_with_slash top = false -> no_byte TAB top -> wf_node t -> is_dir_node t -> shows fs top t -> tab_free t ->
  (forall p m, reached t p m -> still ev0 top p m) -> manageable top t ->
  NoDup (map fst nodes) -> (forall p m, In (p, m) nodes <-> reached t p m) -> zlen nodes <= 4000000 -> nodes_bytes nodes <= 8000000000000000 ->
  lrun R opens (lmain R fuel fs sort clock ev (("C"%char :: rest) :: arc :: top :: more)) n s -> (r < R)%nat -> l_prog s r = LReturn 0 ->
  forall p m, reached t p m -> e_lstat ev (node_path top p) <> None /\ match m with NFile z => 0 < z -> e_data ev (node_path top p) <> None | _ => True end.
Proof.
  intros HR HA Hsort H1 H2 H4 Hw Hd Hs Htf Hst Hman Hnd Hin Hlen Htot Hrun Hr Er.
  assert (Hn : no_byte NUL arc) by (inversion HA as [|? ? _ HA1]; inversion HA1; auto).
  assert (H3 : no_byte NUL top) by (inversion HA as [|? ? _ HA1]; inversion HA1 as [|? ? _ HA2]; inversion HA2; auto).
  destruct (returned_lemma R fuel fs sort clock ev opens rest arc top more HR Hn HA Hsort n s r (fun _ => None) Hrun Hr Er) as ((l & ar & Hc & _) & _).
  destruct (run_list _ _ _ _ _ _ _ _ _ _ H1 H2 Hw Hd Hs Hc) as (N & nodes' & El & F & Nd & Hn' & Hso & _).
  assert (PN : Permutation nodes' nodes). { apply NoDup_Permutation; [apply nodup_of_fst; auto|apply nodup_of_fst; auto|]. intros [p m]. rewrite Hin. apply Hn'. }
  destruct (nodes_size top t N nodes' H2 F Hw) as (S1 & S2).
  assert (Zl : zlen l = zlen nodes). { rewrite El. unfold zlen in *. rewrite map_length. rewrite <- (Permutation_length PN). lia. }
  assert (Tl : total_size l = nodes_bytes nodes) by (rewrite El, S1; apply nodes_bytes_perm; exact PN).
  apply (create_there fuel fs clock ev ev0 top t R (before (fun _ => None) arc) l ar); auto; lia.
Qed.
