(** The 0.5.1 create mode on R ranks: a rank that returned 0, and runs that end (LegacyMpi.v). *)
From Coq Require Import Lia Permutation Sorted.
From Verif Require Import Bytes Outcome TarModel TarProofs Layout Mover Worker Boss Spider Program Legacy LegacyLayout LegacyScan LegacyCodec LegacyWrite LegacyCreate Mpi LegacyMpi LegacyMpiSpec LegacyMpiProofs LegacyMpiMore LegacyMpiEnd LegacyMpiWhole.
Local Open Scope nat_scope.

(** the writes in the log, with their ranks *)
Definition wlog (l : list (nat * event)) : list (nat * wr) := flat_map (fun x => match snd x with EvWrite _ w => [(fst x, w)] | _ => [] end) l.
Lemma wlog_app a b : wlog (a ++ b) = wlog a ++ wlog b. Proof. apply flat_map_app. Qed.
Lemma proj_wlog r l : proj r (wlog l) = map snd (mine r l).
Proof.
  unfold proj, wlog, mine. induction l as [|[q e] l IH]; [reflexivity|]. cbn [flat_map fst snd]. rewrite flat_map_app, map_app, IH. f_equal.
  destruct e; cbn; destruct (Nat.eqb q r); reflexivity.
Qed.
Lemma wlog_split l : forall a r w c, wlog l = a ++ (r, w) :: c -> exists l1 path l2, l = l1 ++ (r, EvWrite path w) :: l2 /\ wlog l1 = a.
Proof.
  induction l as [|[q e] l IH]; intros a r w c E; [destruct a; discriminate E|]. cbn [wlog flat_map fst snd] in E. fold (wlog l) in E.
  assert (Skip : wlog l = a ++ (r, w) :: c -> wlog [(q, e)] = [] -> exists l1 path l2, (q, e) :: l = l1 ++ (r, EvWrite path w) :: l2 /\ wlog l1 = a).
  { intros E' W0. destruct (IH _ _ _ _ E') as (l1 & path & l2 & -> & W). exists ((q, e) :: l1), path, l2. split; [reflexivity|].
    change ((q, e) :: l1) with ([(q, e)] ++ l1). rewrite wlog_app, W0. exact W. }
  destruct e as [q' o| | |q' w'| | |]; cbn [app] in E; try (apply Skip; [exact E|reflexivity]).
  destruct a as [|y a]; cbn [app] in E.
  - injection E as -> -> E. exists [], q', l. split; reflexivity.
  - injection E as <- E. destruct (IH _ _ _ _ E) as (l1 & path & l2 & -> & W). exists ((q, EvWrite q' w') :: l1), path, l2. split; [reflexivity|]. cbn [wlog flat_map snd fst app]. rewrite <- W. reflexivity.
Qed.
Lemma disk_log opens arc l : Forall (fun re => event_ok opens arc (snd re)) l -> forall dk,
  before (disk_after dk l) arc = fold_left write_at (map snd (wlog l)) (before dk arc) /\
  ((exists r w, In (r, w) (wlog l)) \/ dk arc <> None -> disk_after dk l arc = Some (before (disk_after dk l) arc)).
Proof.
  assert (S : forall dk a, set_file dk arc a arc = Some a) by (intros d a; unfold set_file; rewrite bytes_eqb_refl; reflexivity).
  induction 1 as [|[r e] l He Hl IH]; intros dk.
  - split; [reflexivity|]. intros [(r & w & [])|Hd]. unfold before. cbn. destruct (dk arc); [reflexivity|congruence].
  - change (disk_after dk ((r, e) :: l)) with (disk_after (on_disk dk e) l). destruct (IH (on_disk dk e)) as [A B]. cbn [snd] in He. cbn [wlog flat_map snd fst]. fold (wlog l).
    destruct e as [q o| | |q w| | |]; cbn [event_ok] in He; try contradiction.
    + destruct He as [-> ->]. destruct (opens arc); cbn [on_disk app] in *.
      * split; [rewrite A; f_equal; unfold before at 1; rewrite S; reflexivity|]. intros _. apply B. right. rewrite S. discriminate.
      * split; auto.
    + subst q. cbn [on_disk app map snd fold_left] in *. split; [rewrite A; f_equal; unfold before at 1; rewrite S; reflexivity|]. intros _. apply B. right. rewrite S. discriminate.
Qed.
Lemma disk_rest opens arc l q : Forall (fun re => event_ok opens arc (snd re)) l -> q <> arc -> forall dk, disk_after dk l q = dk q.
Proof.
  intros Hl Hq. induction Hl as [|[r e] l He Hl IH]; intros dk; [reflexivity|]. change (disk_after dk ((r, e) :: l)) with (disk_after (on_disk dk e) l). rewrite IH.
  assert (S : forall a, set_file dk arc a q = dk q) by (intros a; unfold set_file; rewrite bytes_eqb_neq; auto).
  cbn [snd] in He. destruct e as [q' [|]| | |q' w| | |]; cbn [event_ok on_disk] in *; try contradiction; auto; [destruct He as [-> _]|subst]; apply S.
Qed.

Lemma pick {A} (Q : nat -> A -> Prop) (x0 : A) m : (forall r, r < m -> exists x, Q r x) -> exists f, forall r, r < m -> Q r (f r).
Proof.
  induction m as [|m IH]; intros E; [exists (fun _ => x0); lia|]. destruct IH as (f & F); [intros r Hr; apply E; lia|]. destruct (E m ltac:(lia)) as (x & X).
  exists (fun r => if r =? m then x else f r). intros r Hr. destruct (Nat.eqb_spec r m) as [->|N]; [exact X|apply F; lia].
Qed.

Section Create.
Context (R fuel : nat) (fs : fsys) (sort : list lent -> list lent) (clock : Z -> Z) (ev : env) (opens : bytes -> bool) (rest arc top : bytes) (more : list bytes)
  (HR : 1 <= R) (Hn : no_byte NUL arc) (Hrest : Forall (no_byte NUL) (("C"%char :: rest) :: arc :: top :: more)).
Let p := lmain R fuel fs sort clock ev (("C"%char :: rest) :: arc :: top :: more).
Let H := bc opens (p 0).
Let HM : matched R opens p H := main_matched R fuel fs sort clock ev opens (("C"%char :: rest) :: arc :: top :: more) HR Hrest.

(** everything a rank does works *)
Definition works (ws0 : list wr) (D : Z) (text : bytes) (starts : list Z) (part : nat -> list wr) : Prop :=
  exists es es', list_directory fuel fs top = Ok (Some es) /\ fill_rels top es = Ok es' /\
    prologue L_BLOCK L_BUCKET L_PAD clock (sort es') = Ok (Some (ws0, D, text, starts)) /\
    (forall r, r < R -> rank_part L_BLOCK L_BUCKET D clock ev text starts (Z.of_nat R) (Z.of_nat r) = Ok (Some (part r))) /\
    (zlen text <= INT_MAX)%Z /\ opens arc = true /\ arc <> [].

Definition shape (ws0 : list wr) (D : Z) (text : bytes) (starts : list Z) (part : nat -> list wr) (r : nat) : list item :=
  head_items arc D text starts (if r =? 0 then ws0 else []) ++ ICall KBarrier :: tail_items arc (part r).
Lemma works_shape ws0 D text starts part : works ws0 D text starts part ->
  H = all_calls arc D text starts /\ forall r, r < R -> items opens H (p r) = shape ws0 D text starts part r /\ endp opens H (p r) = LReturn 0.
Proof.
  intros (es & es' & E1 & E2 & E3 & E4 & E5 & E6 & E7).
  assert (Ep0 : p 0 = create0 L_BUCKET L_PAD clock ev R arc (sort es')) by (unfold p; rewrite main_create; cbn [Nat.eqb]; rewrite E1, E2; reflexivity).
  assert (E40 := E4 0 HR). change (Z.of_nat 0) with 0%Z in E40.
  assert (S0 : forall H0, items opens H0 (p 0) = shape ws0 D text starts part 0 /\ endp opens H0 (p 0) = LReturn 0).
  { intros H0. rewrite Ep0. unfold shape. cbn [Nat.eqb]. exact (boss_shape opens L_BUCKET L_PAD clock ev R arc (sort es') ws0 D text starts (part 0) H0 E3 E40 E5 E6 E7). }
  assert (EH : H = all_calls arc D text starts).
  { unfold H, bc. rewrite (proj1 (S0 [])). unfold shape. rewrite calls_app, head_calls. change (ICall KBarrier :: tail_items arc (part 0)) with ([ICall KBarrier] ++ tail_items arc (part 0)). rewrite calls_app, tail_calls. reflexivity. }
  split; [exact EH|]. intros [|r] Hr; [apply S0|]. rewrite EH. unfold p. rewrite main_create. cbn [Nat.eqb].
  pose proof (worker_shape opens L_BUCKET D clock ev R (S r) arc text starts Hn E6 E5) as W. rewrite (E4 (S r) Hr) in W. unfold shape. cbn [Nat.eqb]. exact W.
Qed.
Lemma shape_calls ws0 D text starts part r : calls (shape ws0 D text starts part r) = all_calls arc D text starts.
Proof.
  unfold shape. rewrite calls_app, head_calls. change (ICall KBarrier :: tail_items arc (part r)) with ([ICall KBarrier] ++ tail_items arc (part r)). rewrite calls_app, tail_calls. reflexivity.
Qed.
Lemma works_even ws0 D text starts part : works ws0 D text starts part -> even R opens p H.
Proof.
  intros Hw r Hr. destruct (works_shape _ _ _ _ _ Hw) as [EH S]. destruct (S r Hr) as [S1 S2]. split; [|exact S2]. rewrite S1, shape_calls, EH. reflexivity.
Qed.

(** a rank returned 0: then everything worked, on every rank *)
Lemma final_place D text starts i : nth_error (all_calls arc D text starts) i = Some KFinal -> i = 13.
Proof. intros E. do 13 (destruct i as [|i]; [discriminate E|]). destruct i as [|i]; [reflexivity|]. destruct i; discriminate E. Qed.
Lemma returned_final n s r : lrun R opens p n s -> r < R -> l_prog s r = LReturn 0 -> exists i, i < l_seen s r /\ nth_error H i = Some KFinal.
Proof.
  intros Hrun Hr Ep. pose proof (good_run R opens p H HM n s Hrun) as G. pose proof (g_end _ _ _ _ _ G r Hr) as E. rewrite Ep in E. cbn [endp] in E.
  pose proof (late0_final opens (p r) (late0_main R fuel fs sort clock ev _ r) H (eq_sym E)) as F. apply In_nth_error in F as (i & F).
  destruct (g_split _ _ _ _ _ G r Hr) as (d & D1 & D2 & _). rewrite Ep in D1. cbn [items] in D1. rewrite app_nil_r in D1.
  assert (Li : i < l_seen s r) by (rewrite <- D2, <- D1; apply nth_error_Some; rewrite F; discriminate).
  exists i. split; [exact Li|]. apply (okay_prefix opens (p r) H (mt_ok _ _ _ _ HM r Hr) i KFinal F).
  pose proof (g_seen _ _ _ _ _ G r Hr). pose proof (g_most _ _ _ _ _ G). lia.
Qed.
Lemma final_works i r s : good R opens p H s -> r < R -> i < l_seen s r -> nth_error H i = Some KFinal -> exists ws0 D text starts part, works ws0 D text starts part.
Proof.
  intros G Hr Hi Hf. assert (I : In KFinal (bc opens (p 0))) by (eapply nth_error_In; exact Hf).
  assert (E : exists es es', list_directory fuel fs top = Ok (Some es) /\ fill_rels top es = Ok es' /\ p 0 = create0 L_BUCKET L_PAD clock ev R arc (sort es')).
  { unfold p in I |- *. rewrite main_create in I |- *. cbn [Nat.eqb] in I |- *. destruct (list_directory fuel fs top) as [[es|]|e]; [|destruct I..].
    destruct (fill_rels top es) as [es'|e] eqn:Ef; cbn [value_of] in I |- *; [|destruct I]. exists es, es'. repeat split; auto. }
  destruct E as (es & es' & E1 & E2 & E3). rewrite E3 in I. destruct (boss_final _ _ _ _ _ _ _ _ I) as (ws0 & D & text & starts & wsr & B1 & B2 & B3 & B4 & B5).
  assert (EH : H = all_calls arc D text starts).
  { unfold H, bc. rewrite E3. rewrite (proj1 (boss_shape opens L_BUCKET L_PAD clock ev R arc (sort es') ws0 D text starts wsr [] B1 B2 B3 B4 B5)).
    rewrite calls_app, head_calls. change (ICall KBarrier :: tail_items arc wsr) with ([ICall KBarrier] ++ tail_items arc wsr). rewrite calls_app, tail_calls. reflexivity. }
  assert (Ei : i = 13) by (rewrite EH in Hf; apply (final_place _ _ _ _ Hf)). subst i.
  assert (P : forall q, q < R -> exists ws, rank_part L_BLOCK L_BUCKET D clock ev text starts (Z.of_nat R) (Z.of_nat q) = Ok (Some ws)).
  { intros [|q] Hq; [eauto|]. pose proof (g_sync _ _ _ _ _ G r 13 KFinal (S q) Hr Hi Hf eq_refl Hq) as Sy. pose proof (entered_most R opens p H s (S q) G Hq) as Em.
    pose proof (worker_shape opens L_BUCKET D clock ev R (S q) arc text starts Hn B4 B3) as W. unfold p in Em. rewrite main_create in Em. cbn [Nat.eqb] in Em. rewrite EH in Em.
    destruct (rank_part L_BLOCK L_BUCKET D clock ev text starts (Z.of_nat R) (Z.of_nat (S q))) as [[ws|]|e]; [eauto|exfalso; destruct W as [W _]; lia..]. }
  destruct (pick _ [] R P) as (part & Pp). exists ws0, D, text, starts, part, es, es'. auto 10.
Qed.
(** then all ranks have made all their writes, rank 0's first ones before any other rank's *)
Lemma works_done n s r i ws0 D text starts part : lrun R opens p n s -> works ws0 D text starts part -> r < R -> i < l_seen s r -> nth_error H i = Some KFinal ->
  exists ws, map snd (wlog (l_log s)) = ws0 ++ ws /\ interleave (map part (seq 0 R)) ws.
Proof.
  intros Hrun Hw Hr Hi Hf. pose proof (good_run R opens p H HM n s Hrun) as G. destruct (works_shape _ _ _ _ _ Hw) as [EH S].
  assert (Ei : i = 13) by (rewrite EH in Hf; apply (final_place _ _ _ _ Hf)). subst i.
  assert (Hmine : forall q, q < R -> mine q (l_log s) = map (pair arc) ((if q =? 0 then ws0 else []) ++ part q)).
  { intros q Hq. destruct (S q Hq) as [Sq _].
    set (pre := head_items arc D text starts (if q =? 0 then ws0 else []) ++ ICall KBarrier :: map (IPut arc) (part q) ++ [ICall KBarrier]).
    assert (Epre : shape ws0 D text starts part q = pre ++ ICall KFinal :: []).
    { unfold shape, pre, tail_items. rewrite <- app_assoc. f_equal. cbn [app]. f_equal. rewrite <- app_assoc. reflexivity. }
    assert (Ppre : puts pre = map (pair arc) ((if q =? 0 then ws0 else []) ++ part q)).
    { unfold pre, head_items. rewrite !puts_app. change (ICall KBarrier :: map (IPut arc) (part q) ++ [ICall KBarrier]) with ([ICall KBarrier] ++ map (IPut arc) (part q) ++ [ICall KBarrier]).
      rewrite !puts_app, !puts_puts, map_app. cbn [map puts flat_map app]. rewrite !app_nil_r. reflexivity. }
    assert (Lpre : length (calls pre) = 13).
    { assert (E := shape_calls ws0 D text starts part q). rewrite Epre, calls_app in E. apply (f_equal (@length lcall)) in E. rewrite app_length in E. change (length (calls [ICall KFinal])) with 1 in E. change (length (all_calls arc D text starts)) with 14 in E. lia. }
    rewrite Epre in Sq.
    destruct (before_call R opens p H s q pre KFinal [] G Hq Sq) as (m & M1).
    { rewrite Lpre. exact (g_sync _ _ _ _ _ G r 13 KFinal q Hr Hi Hf eq_refl Hq). }
    destruct (mine_some R opens p H s q G Hq) as (m' & M2). rewrite Sq, puts_app, M1 in M2. cbn [puts flat_map] in M2. rewrite app_nil_r, <- app_assoc in M2.
    rewrite <- (app_nil_r (puts pre)) in M2 at 1. apply app_inv_head in M2. symmetry in M2. apply app_eq_nil in M2 as [-> _]. rewrite app_nil_r in M1. rewrite M1. exact Ppre. }
  set (T := wlog (l_log s)).
  assert (Pr : forall q, q < R -> proj q T = (if q =? 0 then ws0 else []) ++ part q).
  { intros q Hq. unfold T. rewrite proj_wlog, (Hmine q Hq), map_map. cbn [snd]. apply map_id. }
  assert (TR : forall q x, In (q, x) T -> q < R).
  { intros q x I. unfold T, wlog in I. apply in_flat_map in I as ([q' e] & I1 & I2). cbn [fst snd] in I2. destruct e; try (destruct I2; fail). destruct I2 as [I2|[]]. injection I2 as <- <-. exact (g_log _ _ _ _ _ G q' _ I1). }
  pose proof (Pr 0 HR) as P0. cbn [Nat.eqb] in P0.
  destruct (head_own (length ws0) T) as [A1 A2].
  { rewrite P0, app_length. lia. }
  { intros l1 q x l2 E Hq. destruct (wlog_split _ _ _ _ _ E) as (k1 & path & k2 & Ek & Ew).
    assert (Hlate : forall q d path w t, 1 <= q < R -> items opens H (p q) = d ++ IPut path w :: t -> length (calls (head_items arc D text starts ws0)) < length (calls d)).
    { intros q' d path' w' t Hq' E'. destruct (S q' ltac:(lia)) as [Sq _]. rewrite Sq in E'. rewrite head_calls. cbn [length].
      unfold shape in E'. destruct (Nat.eqb_spec q' 0) as [?|_]; [lia|].
      assert (Lh : length (calls (head_items arc D text starts [])) = 11) by (rewrite head_calls; reflexivity).
      assert (Nh : puts (head_items arc D text starts []) = []) by reflexivity.
      destruct (Nat.lt_ge_cases 11 (length (calls d))) as [?|L]; [auto|exfalso].
      (* the put is in the head or right at the barrier *)
      clear -E' L Lh Nh. remember (head_items arc D text starts []) as h eqn:Eh. clear Eh. revert d E' L Lh. generalize 11 as N. revert Nh.
      induction h as [|y h IH]; intros Nh N d E' L Lh; cbn [app] in E'.
      - destruct d as [|y d]; cbn [app] in E'; [discriminate E'|]. injection E' as <- E'. cbn [calls flat_map app length] in L, Lh. lia.
      - destruct y as [c|]; [|discriminate Nh]. cbn [puts flat_map app] in Nh. destruct d as [|y d]; cbn [app] in E'; [discriminate E'|]. injection E' as <- E'.
        cbn [calls flat_map app length] in L, Lh. apply (IH Nh (N - 1) d E'); unfold calls; lia. }
    destruct (write_order R opens p H HM (head_items arc D text starts ws0) KBarrier (tail_items arc (part 0)) (proj1 (S 0 HR)) eq_refl Hlate n s Hrun k1 q path x k2 Ek Hq) as (m & Em).
    rewrite <- Ew, proj_wlog, map_length, Em, app_length. unfold head_items. rewrite !puts_app, puts_puts, !app_length, map_length. lia. }
  exists (map snd (skipn (length ws0) T)). split.
  - rewrite <- (firstn_skipn (length ws0) T) at 1. rewrite map_app, A1, P0, firstn_app, firstn_all, Nat.sub_diag. cbn [firstn]. rewrite app_nil_r. reflexivity.
  - replace (map part (seq 0 R)) with (map (fun q => proj q (skipn (length ws0) T)) (seq 0 R)).
    + apply proj_interleave. intros q x I. apply (TR q x). rewrite <- (firstn_skipn (length ws0) T). apply in_or_app. right. exact I.
    + apply map_ext_in. intros q Hq. apply in_seq in Hq. rewrite A2. destruct (Nat.eqb_spec q 0) as [->|N].
      * rewrite P0, skipn_app, skipn_all, Nat.sub_diag. reflexivity.
      * rewrite (Pr q) by lia. destruct (Nat.eqb_spec q 0); [contradiction|reflexivity].
Qed.

(** *** the archive *)
Context (Hsort : forall l, Permutation l (sort l) /\ StronglySorted (fun x y => (compare_entries x y <= 0)%Z) (sort l)).
Lemma works_archive n s r ws0 D text starts part dk : lrun R opens p n s -> r < R -> l_prog s r = LReturn 0 -> works ws0 D text starts part ->
  exists l ar, create_run fuel fs clock ev top R (before dk arc) l ar /\ disk_after dk (l_log s) arc = Some ar.
Proof.
  intros Hrun Hr Ep Hw. destruct (returned_final n s r Hrun Hr Ep) as (i & Hi & Hf).
  destruct (works_done n s r i ws0 D text starts part Hrun Hw Hr Hi Hf) as (ws & W1 & W2).
  destruct Hw as (es & es' & E1 & E2 & E3 & E4 & E5 & E6 & E7).
  assert (Lk : Forall (fun re => event_ok opens arc (snd re)) (l_log s)).
  { apply Forall_forall. intros [q e] I. exact (log_ok R fuel fs sort clock ev opens _ HR Hrest n s rest arc top more eq_refl Hrun q e I). }
  destruct (disk_log opens arc (l_log s) Lk dk) as [D1 D2].
  exists (sort es'), (fold_left write_at (ws0 ++ ws) (before dk arc)). split.
  - apply (Create_run fuel fs clock ev top R (before dk arc) es es' (sort es')); auto; [apply Hsort..|].
    apply (Legacy_run L_BLOCK L_BUCKET L_PAD clock ev (sort es') R (before dk arc) ws0 D text starts (map part (seq 0 R)) ws); auto.
    assert (Sq : forall m a, a + m <= R -> Forall2 (fun r ws => rank_part L_BLOCK L_BUCKET D clock ev text starts (Z.of_nat R) (Z.of_nat r) = Ok (Some ws)) (seq a m) (map part (seq a m))).
    { induction m as [|m IH]; intros a Ha; cbn [seq map]; constructor; [apply E4; lia|apply IH; lia]. }
    apply Sq. lia.
  - rewrite D2; [rewrite D1, W1; reflexivity|]. left.
    assert (X : ws0 <> []).
    { unfold prologue in E3. destruct (list_to_buffer (sort es') (wrap32 L_BUCKET) true) as [[cat|]|e]; cbn [bind] in E3; try discriminate E3.
      destruct (compute_hdr_size _ _ _) as [h|e]; cbn [bind] in E3; try discriminate E3. destruct (L_BUCKET =? 0)%Z; [discriminate E3|].
      destruct (set_offsets_and_split _ _ _ _) as [[[[? ?] ?]|]|e]; cbn [bind] in E3; try discriminate E3. destruct (list_to_buffer _ _ false) as [[?|]|e]; cbn [bind] in E3; try discriminate E3.
      destruct (rank_call_list _) as [[?|]|e]; cbn [bind] in E3; try discriminate E3. destruct (check_calls _ _ _) as [[|]|e]; cbn [bind] in E3; try discriminate E3. injection E3 as <- _ _ _. discriminate. }
    destruct (wlog (l_log s)) as [|[q w] t]; [|exists q, w; left; reflexivity]. exfalso. destruct ws0; [contradiction|discriminate W1].
Qed.
Lemma returned_lemma n s r dk : lrun R opens p n s -> r < R -> l_prog s r = LReturn 0 ->
  (exists l ar, create_run fuel fs clock ev top R (before dk arc) l ar /\ disk_after dk (l_log s) arc = Some ar) /\
  forall n' s', lrun R opens p n' s' -> exists s'', lleads R opens s' s'' /\ all_zero R s''.
Proof.
  intros Hrun Hr Ep. destruct (returned_final n s r Hrun Hr Ep) as (i & Hi & Hf).
  destruct (final_works i r s (good_run R opens p H HM n s Hrun) Hr Hi Hf) as (ws0 & D & text & starts & part & Hw).
  split; [eapply works_archive; eauto|]. intros n' s' Hrun'. exact (leads_done R opens p H HM n' s' Hrun' (works_even _ _ _ _ _ Hw)).
Qed.
End Create.
