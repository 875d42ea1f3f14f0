(** Ranks that make the same collective calls (LegacyMpi.v). *)
From Coq Require Import Lia Wf_nat.
From Verif Require Import Bytes Outcome TarModel Layout Mover Worker Boss Spider Program Legacy LegacyLayout LegacyScan LegacyCodec LegacyWrite LegacyCreate Mpi LegacyMpi.
Local Open Scope nat_scope.

(** *** what a program does when rank 0 calls [H] *)
Inductive item := ICall (c : lcall) | IPut (path : bytes) (w : wr).
Fixpoint items (opens : bytes -> bool) (H : list lcall) (p : lprog) : list item :=
  match p with
  | LBcast x k => ICall (KBcast x) :: items opens (tl H) k
  | LFetch w k => match H with KBcast x :: H' => ICall (KBcast x) :: items opens H' (k x) | _ => [] end
  | LBarrier k => ICall KBarrier :: items opens (tl H) k
  | LOpen path k => ICall (KOpen path) :: items opens (tl H) (k (opens path))
  | LWrite path w k => IPut path w :: items opens H k
  | LFinal k => ICall KFinal :: items opens (tl H) k
  | _ => []
  end.
Fixpoint endp (opens : bytes -> bool) (H : list lcall) (p : lprog) : lprog :=
  match p with
  | LBcast x k => endp opens (tl H) k
  | LFetch w k => match H with KBcast x :: H' => endp opens H' (k x) | _ => p end
  | LBarrier k => endp opens (tl H) k
  | LOpen path k => endp opens (tl H) (k (opens path))
  | LWrite path w k => endp opens H k
  | LFinal k => endp opens (tl H) k
  | _ => p
  end.
Definition calls (l : list item) : list lcall := flat_map (fun i => match i with ICall c => [c] | _ => [] end) l.
Definition puts (l : list item) : list (bytes * wr) := flat_map (fun i => match i with IPut p w => [(p, w)] | _ => [] end) l.
Lemma calls_app a b : calls (a ++ b) = calls a ++ calls b. Proof. apply flat_map_app. Qed.
Lemma puts_app a b : puts (a ++ b) = puts a ++ puts b. Proof. apply flat_map_app. Qed.

(** its calls fit those of rank 0, as far as there are any *)
Fixpoint okay (opens : bytes -> bool) (H : list lcall) (p : lprog) : Prop :=
  match p with
  | LBcast x k => match H with [] => True | c :: H' => c = KBcast x /\ okay opens H' k end
  | LFetch w k => match H with [] => True | KBcast x :: H' => fits w x = true /\ okay opens H' (k x) | _ => False end
  | LBarrier k => match H with [] => True | c :: H' => c = KBarrier /\ okay opens H' k end
  | LOpen path k => match H with [] => True | c :: H' => c = KOpen path /\ okay opens H' (k (opens path)) end
  | LWrite path w k => okay opens H k
  | LFinal k => match H with [] => True | c :: H' => c = KFinal /\ okay opens H' k end
  | LBad => False
  | _ => True
  end.
Fixpoint nofetch (p : lprog) : Prop :=
  match p with LBcast _ k | LBarrier k | LWrite _ _ k | LFinal k => nofetch k | LOpen _ k => forall o, nofetch (k o) | LFetch _ _ | LBad => False | _ => True end.
Fixpoint nocast (p : lprog) : Prop :=
  match p with LBarrier k | LWrite _ _ k | LFinal k => nocast k | LOpen _ k => forall o, nocast (k o) | LFetch _ k => forall x, nocast (k x) | LBcast _ _ => False | _ => True end.

Lemma items_call opens H p c : first_call p = Some c -> items opens H p = ICall c :: items opens (tl H) (then_do opens p).
Proof. destruct p; cbn; intros E; inversion E; reflexivity. Qed.
Lemma endp_call opens H p c : first_call p = Some c -> endp opens H p = endp opens (tl H) (then_do opens p).
Proof. destruct p; cbn; intros E; inversion E; reflexivity. Qed.
Lemma okay_call opens H p c : first_call p = Some c -> okay opens H p -> match H with [] => True | c' :: H' => c' = c /\ okay opens H' (then_do opens p) end.
Proof. destruct p; cbn; intros E; inversion E; subst; auto. Qed.
Lemma joint_first p c : joint p = Some c -> first_call p = Some c.
Proof. destruct p; cbn; auto; discriminate. Qed.
Lemma items_own opens p : nofetch p -> forall H H', items opens H p = items opens H' p.
Proof.
  induction p as [x k IH|w k IH|k IH|path k IH|path w k IH|k IH|c|e|]; cbn; intros N A B; auto; try contradiction; f_equal; auto. 
Qed.
Lemma okay_own opens p : nofetch p -> forall H0, okay opens (calls (items opens H0 p)) p.
Proof.
  induction p as [x k IH|w k IH|k IH|path k IH|path w k IH|k IH|c|e|]; cbn; intros N H0; auto; try contradiction; split; auto.
Qed.
Lemma nofetch_then opens p c : first_call p = Some c -> nofetch p -> nofetch (then_do opens p).
Proof. destruct p; cbn; try discriminate; auto. Qed.
Lemma nocast_then opens p c : joint p = Some c -> nocast p -> nocast (then_do opens p).
Proof. destruct p; cbn; try discriminate; auto. Qed.

(** *** the invariant *)
Definition mine (r : nat) (log : list (nat * event)) : list (bytes * wr) :=
  flat_map (fun x => if Nat.eqb (fst x) r then match snd x with EvWrite p w => [(p, w)] | _ => [] end else []) log.
Lemma mine_app r a b : mine r (a ++ b) = mine r a ++ mine r b. Proof. apply flat_map_app. Qed.
Lemma mine_other r r' l : r <> r' -> mine r (map (pair r') l) = [].
Proof. intros N. induction l as [|x l IH]; cbn; auto. destruct (Nat.eqb_spec r' r); [lia|]. exact IH. Qed.
Definition waits (c : lcall) : bool := match c with KBcast _ => false | _ => true end.
Lemma joint_waits p c : joint p = Some c -> waits c = true.
Proof. destruct p; cbn; intros E; inversion E; reflexivity. Qed.

Record matched (R : nat) (opens : bytes -> bool) (p : nat -> lprog) (H : list lcall) : Prop := {
  mt_R : 1 <= R;
  mt_own : nofetch (p 0);
  mt_H : H = calls (items opens [] (p 0));
  mt_ok : forall r, r < R -> okay opens H (p r);
  mt_cast : forall r, 1 <= r < R -> nocast (p r) }.

Record good (R : nat) (opens : bytes -> bool) (p : nat -> lprog) (H : list lcall) (s : lsys) : Prop := {
  g_split : forall r, r < R -> exists d, items opens H (p r) = d ++ items opens (skipn (l_seen s r) H) (l_prog s r) /\
    length (calls d) = l_seen s r /\ puts d = mine r (l_log s);
  g_end : forall r, r < R -> endp opens (skipn (l_seen s r) H) (l_prog s r) = endp opens H (p r);
  g_ok : forall r, r < R -> okay opens (skipn (l_seen s r) H) (l_prog s r);
  g_own : nofetch (l_prog s 0);
  g_cast : forall r, 1 <= r < R -> nocast (l_prog s r);
  g_hist : l_hist s = firstn (entered s 0) H;
  g_most : entered s 0 <= length H;
  g_seen : forall r, r < R -> l_seen s r <= entered s 0;
  g_in : forall r, r < R -> l_in s r = true -> exists c, first_call (l_prog s r) = Some c /\ (1 <= r -> joint (l_prog s r) = Some c);
  g_sync : forall r i c q, r < R -> i < l_seen s r -> nth_error H i = Some c -> waits c = true -> q < R -> i < entered s q;
  g_log : forall r e, In (r, e) (l_log s) -> r < R }.

Lemma skipn_S {A} n (l : list A) x t : skipn n l = x :: t -> skipn (S n) l = t /\ nth_error l n = Some x.
Proof. revert l. induction n as [|n IH]; intros [|y l]; cbn; try discriminate; [intros [= -> ->]; auto|apply IH]. Qed.
Lemma skipn_nth {A} n (l : list A) x : nth_error l n = Some x -> skipn n l = x :: skipn (S n) l.
Proof. revert l. induction n as [|n IH]; intros [|y l]; cbn; try discriminate; [intros [= ->]; auto|apply IH]. Qed.
Lemma nth_firstn {A} n m (l : list A) x : nth_error (firstn m l) n = Some x -> nth_error l n = Some x /\ n < m.
Proof.
  revert m l. induction n as [|n IH]; intros [|m] [|y l]; cbn; try discriminate; [intros E; split; [auto|lia]|].
  intros E. apply IH in E as [E1 E2]. split; [auto|lia].
Qed.
Lemma firstn_more {A} n (l : list A) x : nth_error l n = Some x -> firstn (S n) l = firstn n l ++ [x].
Proof. revert l. induction n as [|n IH]; intros [|y l]; try discriminate; [intros [= ->]; auto|]. intros E. cbn [nth_error] in E. change (firstn (S (S n)) (y :: l)) with (y :: firstn (S n) l). rewrite (IH l E). reflexivity. Qed.

Lemma upd_same {A} (f : nat -> A) r v : upd f r v r = v. Proof. unfold upd. now rewrite Nat.eqb_refl. Qed.
Lemma upd_other {A} (f : nat -> A) r v q : q <> r -> upd f r v q = f q. Proof. intros N. unfold upd. destruct (Nat.eqb_spec q r); [contradiction|auto]. Qed.

Section Run.
Context (R : nat) (opens : bytes -> bool) (p : nat -> lprog) (H : list lcall) (HM : matched R opens p H).

Lemma good_start : good R opens p H (lstart p).
Proof.
  destruct HM as [M1 M2 M3 M4 M5]. constructor; cbn [lstart l_prog l_in l_seen l_hist l_log].
  - intros r Hr. exists []. repeat split.
  - reflexivity.
  - intros r Hr. apply M4, Hr.
  - exact M2.
  - exact M5.
  - reflexivity.
  - unfold entered. cbn. lia.
  - intros r Hr. lia.
  - discriminate.
  - intros r i c q Hr Hi. lia.
  - intros r e [].
Qed.

(** rank 0's remaining calls *)
Lemma own_calls s H0 : good R opens p H s -> calls (items opens H0 (l_prog s 0)) = skipn (l_seen s 0) H.
Proof.
  intros G. destruct (g_split _ _ _ _ _ G 0 (mt_R _ _ _ _ HM)) as (d & E & L & _).
  rewrite (items_own opens (l_prog s 0) (g_own _ _ _ _ _ G) H0 (skipn (l_seen s 0) H)).
  rewrite (items_own opens (p 0) (mt_own _ _ _ _ HM) H []) in E. pose proof (mt_H _ _ _ _ HM) as EH. rewrite E, calls_app in EH.
  set (T := calls (items opens (skipn (l_seen s 0) H) (l_prog s 0))) in *. clearbody T. rewrite <- L, EH.
  rewrite skipn_app, skipn_all, Nat.sub_diag. reflexivity.
Qed.
Lemma next_call s c : good R opens p H s -> first_call (l_prog s 0) = Some c -> nth_error H (l_seen s 0) = Some c.
Proof.
  intros G E. pose proof (own_calls s [] G) as O. rewrite (items_call opens _ _ _ E) in O. cbn [calls flat_map app] in O. symmetry in O. apply skipn_S in O as [_ O]. exact O.
Qed.

Lemma enter_good s r h : good R opens p H s -> r < R -> l_in s r = false ->
  (exists c, first_call (l_prog s r) = Some c /\ (1 <= r -> joint (l_prog s r) = Some c) /\ h = (if Nat.eqb r 0 then [c] else [])) -> good R opens p H (enter s r h).
Proof.
  intros G Hr Hin (c & Hf & Hj & ->). destruct G as [A1 A2 A3 A4 A5 A6 A7 A8 A9 A10 A11] eqn:EG. clear EG.
  assert (Hmono : forall q, entered s q <= entered (enter s r (if Nat.eqb r 0 then [c] else [])) q).
  { intros q. unfold entered, enter. cbn [l_seen l_in]. destruct (Nat.eq_dec q r) as [->|N]; [rewrite upd_same, Hin; lia|rewrite upd_other by auto; lia]. }
  assert (H0 : r = 0 -> nth_error H (l_seen s 0) = Some c) by (intros ->; apply (next_call s c G Hf)).
  assert (E0 : entered (enter s r (if Nat.eqb r 0 then [c] else [])) 0 = if Nat.eqb r 0 then S (l_seen s 0) else entered s 0).
  { unfold entered, enter. cbn [l_seen l_in]. destruct (Nat.eqb_spec r 0) as [->|N]; [rewrite upd_same; lia|rewrite upd_other by auto; lia]. }
  constructor; cbn [enter l_prog l_in l_seen l_hist l_log]; auto.
  - rewrite E0, A6. destruct (Nat.eqb_spec r 0) as [->|N].
    + rewrite (firstn_more _ _ _ (H0 eq_refl)). unfold entered. rewrite Hin, Nat.add_0_r. reflexivity.
    + apply app_nil_r.
  - rewrite E0. destruct (Nat.eqb_spec r 0) as [->|N]; auto. apply nth_error_Some. rewrite (H0 eq_refl). discriminate.
  - intros q Hq. specialize (A8 q Hq). specialize (Hmono 0). lia.
  - intros q Hq. destruct (Nat.eq_dec q r) as [->|N]; [intros _; eauto|rewrite upd_other by auto; apply A9, Hq].
  - intros r' i c' q Hr' Hi Hn Hw Hq. specialize (A10 r' i c' q Hr' Hi Hn Hw Hq). specialize (Hmono q). lia.
Qed.

Lemma leave_good s r c k l : good R opens p H s -> r < R -> (l_in s r = true \/ 1 <= r) ->
  nth_error (l_hist s) (l_seen s r) = Some c ->
  items opens (skipn (l_seen s r) H) (l_prog s r) = ICall c :: items opens (skipn (S (l_seen s r)) H) k ->
  endp opens (skipn (l_seen s r) H) (l_prog s r) = endp opens (skipn (S (l_seen s r)) H) k ->
  okay opens (skipn (S (l_seen s r)) H) k -> (r = 0 -> nofetch k) -> (1 <= r -> nocast k) ->
  (waits c = true -> forall q, q < R -> l_seen s r < entered s q) ->
  (forall path w, ~ In (EvWrite path w) l) ->
  good R opens p H (leave s r k l).
Proof.
  intros G Hr Hin Hn Hi He Ho Hf Hc Hw Hl. destruct G as [A1 A2 A3 A4 A5 A6 A7 A8 A9 A10 A11].
  assert (Hmono : forall q, entered s q <= entered (leave s r k l) q).
  { intros q. unfold entered, leave. cbn [l_seen l_in]. destruct (Nat.eq_dec q r) as [->|N]; [rewrite !upd_same; destruct (l_in s r); lia|rewrite !upd_other by auto; lia]. }
  rewrite A6 in Hn. apply nth_firstn in Hn as [HnH Hlt].
  assert (E0 : entered (leave s r k l) 0 = entered s 0).
  { unfold entered, leave. cbn [l_seen l_in]. destruct (Nat.eq_dec 0 r) as [<-|N]; [rewrite !upd_same|rewrite !upd_other by auto; reflexivity].
    destruct Hin as [->|?]; [lia|lia]. }
  assert (Hm : forall q, mine q (map (pair r) l) = []).
  { intros q. destruct (Nat.eq_dec q r) as [->|N]; [|apply mine_other; auto]. clear -Hl. induction l as [|x l IH]; [reflexivity|]. cbn. rewrite Nat.eqb_refl.
    destruct x; try (exfalso; eapply Hl; left; reflexivity); cbn; apply IH; intros ? ? ?; eapply Hl; right; eassumption. }
  constructor; cbn [leave l_prog l_in l_seen l_hist l_log]; auto.
  - intros q Hq. rewrite mine_app, Hm, app_nil_r. destruct (Nat.eq_dec q r) as [->|N]; [|rewrite !upd_other by auto; auto]. rewrite !upd_same.
    destruct (A1 r Hr) as (d & D1 & D2 & D3). exists (d ++ [ICall c]). rewrite <- app_assoc. cbn [app]. rewrite <- Hi. split; [exact D1|].
    rewrite calls_app, puts_app, app_length, D2, D3. cbn. rewrite app_nil_r. split; [lia|reflexivity].
  - intros q Hq. destruct (Nat.eq_dec q r) as [->|N]; [rewrite !upd_same, <- He; auto|rewrite !upd_other by auto; auto].
  - intros q Hq. destruct (Nat.eq_dec q r) as [->|N]; [rewrite !upd_same; auto|rewrite !upd_other by auto; auto].
  - destruct (Nat.eq_dec 0 r) as [<-|N]; [rewrite upd_same; auto|rewrite upd_other by auto; auto].
  - intros q Hq. destruct (Nat.eq_dec q r) as [->|N]; [rewrite upd_same; apply Hc; lia|rewrite upd_other by auto; auto].
  - rewrite E0; auto.
  - rewrite E0; auto.
  - intros q Hq. rewrite E0. destruct (Nat.eq_dec q r) as [->|N]; [rewrite upd_same; lia|rewrite upd_other by auto; auto].
  - intros q Hq. destruct (Nat.eq_dec q r) as [->|N]; [rewrite upd_same; discriminate|rewrite !upd_other by auto; auto].
  - intros r' i c' q Hr' Hi' Hn' Hw' Hq. apply Nat.lt_le_trans with (entered s q); [|apply Hmono].
    destruct (Nat.eq_dec r' r) as [->|N]; [rewrite upd_same in Hi'|rewrite upd_other in Hi' by auto; eauto].
    destruct (Nat.eq_dec i (l_seen s r)) as [->|N]; [|apply (A10 r i c' q); auto; lia].
    rewrite HnH in Hn'. injection Hn' as <-. apply Hw; auto.
  - intros q e Hqe. apply in_app_or in Hqe as [Hqe|Hqe]; eauto. apply in_map_iff in Hqe as (x & E & _). injection E as <- _. exact Hr.
Qed.

Lemma write_good s r path w k : good R opens p H s -> r < R -> l_prog s r = LWrite path w k -> good R opens p H (local s r k [EvWrite path w]).
Proof.
  intros G Hr Hp. destruct G as [A1 A2 A3 A4 A5 A6 A7 A8 A9 A10 A11].
  assert (Hin : l_in s r = false). { destruct (l_in s r) eqn:E; auto. destruct (A9 r Hr E) as (c & F & _). rewrite Hp in F. discriminate F. }
  assert (Hen : forall q, entered (local s r k [EvWrite path w]) q = entered s q).
  { intros q. unfold entered, local. cbn [l_seen l_in]. destruct (Nat.eq_dec q r) as [->|N]; [rewrite upd_same, Hin; lia|rewrite upd_other by auto; lia]. }
  constructor; cbn [local l_prog l_in l_seen l_hist l_log]; auto.
  - intros q Hq. rewrite mine_app. destruct (Nat.eq_dec q r) as [->|N].
    + rewrite !upd_same. destruct (A1 r Hr) as (d & D1 & D2 & D3). rewrite Hp in D1. cbn [items] in D1. exists (d ++ [IPut path w]). rewrite <- app_assoc. split; [exact D1|].
      rewrite calls_app, puts_app, D3. cbn. rewrite Nat.eqb_refl, app_nil_r. split; [exact D2|reflexivity].
    + rewrite !upd_other by auto. rewrite mine_other by auto. rewrite app_nil_r. auto.
  - intros q Hq. destruct (Nat.eq_dec q r) as [->|N]; [rewrite !upd_same; rewrite <- (A2 r Hr), Hp; reflexivity|rewrite !upd_other by auto; auto].
  - intros q Hq. destruct (Nat.eq_dec q r) as [->|N]; [rewrite !upd_same; specialize (A3 r Hr); rewrite Hp in A3; exact A3|rewrite !upd_other by auto; auto].
  - destruct (Nat.eq_dec 0 r) as [<-|N]; [rewrite upd_same; rewrite Hp in A4; exact A4|rewrite upd_other by auto; auto].
  - intros q Hq. destruct (Nat.eq_dec q r) as [->|N]; [rewrite upd_same; specialize (A5 r Hq); rewrite Hp in A5; exact A5|rewrite upd_other by auto; auto].
  - rewrite Hen; auto.
  - rewrite Hen; auto.
  - intros q Hq. rewrite Hen. auto.
  - intros q Hq. destruct (Nat.eq_dec q r) as [->|N]; [rewrite upd_same; discriminate|rewrite !upd_other by auto; auto].
  - intros r' i c' q Hr' Hi' Hn' Hw' Hq. rewrite Hen. eauto.
  - intros q e Hqe. apply in_app_or in Hqe as [Hqe|[Hqe|[]]]; eauto. injection Hqe as <- _. exact Hr.
Qed.

Lemma good_step s s' m : good R opens p H s -> lstep R opens m s s' -> good R opens p H s'.
Proof.
  intros G St. pose proof (mt_R _ _ _ _ HM) as HR.
  assert (Cast : forall x k, l_prog s 0 = LBcast x k -> l_in s 0 = true -> good R opens p H (leave s 0 k [])).
  { intros x k Hp Hin. assert (F : first_call (l_prog s 0) = Some (KBcast x)) by (rewrite Hp; reflexivity). pose proof (next_call s _ G F) as Hn.
    pose proof (skipn_nth _ _ _ Hn) as Hs.
    apply leave_good with (c := KBcast x); auto.
    - rewrite (g_hist _ _ _ _ _ G). unfold entered. rewrite Hin, Nat.add_1_r. rewrite (firstn_more _ _ _ Hn), nth_error_app2; rewrite firstn_length_le by (apply Nat.lt_le_incl, nth_error_Some; rewrite Hn; discriminate); [|lia]. now rewrite Nat.sub_diag.
    - rewrite Hp, Hs. reflexivity.
    - rewrite Hp, Hs. reflexivity.
    - pose proof (g_ok _ _ _ _ _ G 0 HR) as O. rewrite Hp, Hs in O. apply O.
    - intros _. pose proof (g_own _ _ _ _ _ G) as O. rewrite Hp in O. exact O.
    - lia.
    - discriminate. }
  destruct St as [s c Hf Hin|s r c Hr Hj Hin|s x k Hp Hin _|s x k Hp Hin|s r w k x Hr Hp Hn Hx|s r w k c Hr Hp Hn Hx|s r c Hr Hj Hin Hn Hall|s r c c' Hr Hj Hin Hn Hne|s r path w k Hr Hp].
  - apply enter_good; auto. exists c. split; auto. split; [lia|reflexivity].
  - apply enter_good; auto; [lia|]. exists c. split; [apply joint_first, Hj|]. split; auto. destruct (Nat.eqb_spec r 0); [lia|reflexivity].
  - eauto.
  - eauto.
  - assert (HnH : nth_error H (l_seen s r) = Some (KBcast x)) by (rewrite (g_hist _ _ _ _ _ G) in Hn; apply nth_firstn in Hn; tauto).
    pose proof (skipn_nth _ _ _ HnH) as Hs. pose proof (g_ok _ _ _ _ _ G r ltac:(lia)) as O. rewrite Hp, Hs in O. destruct O as [_ O].
    apply leave_good with (c := KBcast x); auto; try lia.
    + rewrite Hp, Hs. reflexivity.
    + rewrite Hp, Hs. reflexivity.
    + intros _. pose proof (g_cast _ _ _ _ _ G r Hr) as C. rewrite Hp in C. apply C.
    + discriminate.
  - exfalso. assert (HnH : nth_error H (l_seen s r) = Some c) by (rewrite (g_hist _ _ _ _ _ G) in Hn; apply nth_firstn in Hn; tauto).
    pose proof (skipn_nth _ _ _ HnH) as Hs. pose proof (g_ok _ _ _ _ _ G r ltac:(lia)) as O. rewrite Hp, Hs in O. destruct c as [x| | |]; try exact O. destruct O as [O _]. rewrite (Hx x eq_refl) in O. discriminate O.
  - assert (HnH : nth_error H (l_seen s r) = Some c) by (rewrite (g_hist _ _ _ _ _ G) in Hn; apply nth_firstn in Hn; tauto).
    pose proof (skipn_nth _ _ _ HnH) as Hs. pose proof (joint_first _ _ Hj) as Hf. pose proof (okay_call opens _ _ _ Hf (g_ok _ _ _ _ _ G r Hr)) as O. rewrite Hs in O. destruct O as [_ O].
    apply leave_good with (c := c); auto.
    + rewrite (items_call opens _ _ _ Hf), Hs. reflexivity.
    + rewrite (endp_call opens _ _ _ Hf), Hs. reflexivity.
    + intros ->. eapply nofetch_then; eauto. apply (g_own _ _ _ _ _ G).
    + intros Hr1. eapply nocast_then; eauto. apply (g_cast _ _ _ _ _ G); lia.
    + intros path w I. destruct (l_prog s r); cbn in I; try contradiction. destruct I as [I|[]]. discriminate I.
  - exfalso. assert (HnH : nth_error H (l_seen s r) = Some c') by (rewrite (g_hist _ _ _ _ _ G) in Hn; apply nth_firstn in Hn; tauto).
    pose proof (okay_call opens _ _ _ (joint_first _ _ Hj) (g_ok _ _ _ _ _ G r Hr)) as O. rewrite (skipn_nth _ _ _ HnH) in O. destruct O as [O _]. contradiction.
  - apply write_good; auto.
Qed.
Lemma good_run n s : lrun R opens p n s -> good R opens p H s.
Proof. induction 1 as [|n s s' m _ IH St]; [apply good_start|eapply good_step; eauto]. Qed.
End Run.
