(** Invariants of runs that hold for any program of rank 0 (C81, C82). *)
From Coq Require Import Permutation Lia.
From Verif Require Import Bytes Outcome TarSpec TarModel TarProofs Layout OrderCodec Mover Worker Assemble Boss BossProofs Spider Args Program ProgramProofs Mpi MpiProofs MpiSpec MpiEnd.
Local Open Scope nat_scope.

Lemma upd_get {A} (f : nat -> A) r v x : upd f r v x = if x =? r then v else f x.
Proof. apply upd_at. Qed.

(** *** what a worker can do to a file it cannot open *)
Definition harmless (q : bytes) (e : event) : Prop := e <> EvOpen q true /\ forall w, e <> EvWrite q w.
Definition tame (q : bytes) (w : wstate) (pc : wpc) : Prop := ws_handle w <> HOpen q /\ pc <> WOpen q true.
Lemma react_harmless opens ev w t l w' pc q : opens q = false -> ws_handle w <> HOpen q -> react opens ev w t = (l, (w', pc)) -> tame q w' pc /\ Forall (harmless q) l.
Proof.
  intros Ho Hw. unfold react, on_message.
  destruct (ws_mode w).
  - unfold on_broadcast. destruct (bytes_eqb _ _).
    { cbn zeta. intros E. injection E as <- <- <-. split; [|constructor]. split; cbn [ws_handle].
      - destruct (opens (rest_of (cstr t))) eqn:Eo; [|discriminate]. intros X. injection X as X. congruence.
      - intros X. injection X as X Y. congruence. }
    destruct (bytes_eqb _ _).
    { destruct (get_stoi _); cbn [bind]; intros E; injection E as <- <- <-; (split; [split; [auto|]|repeat constructor; try discriminate]); try discriminate. unfold listen; destruct (ws_mode _); discriminate. }
    destruct (bytes_eqb _ _). { intros E; injection E as <- <- <-. split; [split; [auto|discriminate]|constructor]. }
    destruct (bytes_eqb _ _).
    { destruct (ws_handle w) eqn:Eh; intros E; injection E as <- <- <-; (split; [split; [congruence|discriminate]|constructor]). }
    intros E; injection E as <- <- <-. split; [split; [auto|unfold listen; destruct (ws_mode w); discriminate]|repeat constructor; discriminate].
  - unfold on_individual. destruct (bytes_eqb _ _).
    { destruct (_ =? _)%Z; [intros E; injection E as <- <- <-; split; [split; [auto|discriminate]|constructor]|].
      destruct (parse_bundle _) as [os|]; cbn [bind]; [|intros E; injection E as <- <- <-; split; [split; [auto|discriminate]|constructor]].
      destruct (total_size _); cbn [bind]; [|intros E; injection E as <- <- <-; split; [split; [auto|discriminate]|constructor]].
      destruct (order_n_filename _ _); cbn [bind]; [|intros E; injection E as <- <- <-; split; [split; [auto|discriminate]|constructor]].
      destruct (move_data_Create _ _ _ _) as [x|]; cbn [bind]; [|intros E; injection E as <- <- <-; split; [split; [auto|discriminate]|constructor]].
      destruct (ws_handle w) eqn:Eh; intros E; injection E as <- <- <-.
      - split; [split; [congruence|discriminate]|constructor].
      - split; [split; [congruence|discriminate]|]. constructor; [|constructor]. split; [discriminate|]. intros w0 X. injection X as X _. congruence.
      - split; [split; [congruence|discriminate]|repeat constructor; discriminate]. }
    destruct (bytes_eqb _ _). { intros E; injection E as <- <- <-. split; [split; [auto|unfold listen; destruct (ws_mode _); discriminate]|repeat constructor; discriminate]. }
    destruct (bytes_eqb _ _). { intros E; injection E as <- <- <-. split; [split; [auto|discriminate]|constructor]. }
    destruct (bytes_eqb _ _); intros E; injection E as <- <- <-.
    + split; [split; [auto|discriminate]|constructor].
    + split; [split; [auto|unfold listen; destruct (ws_mode w); discriminate]|repeat constructor; discriminate].
Qed.
Definition unable (q : bytes) (s : msys) : Prop := (forall r, tame q (m_ws s r) (m_pc s r)) /\ Forall (fun re => harmless q (snd re)) (m_log s).
Lemma unable_step R opens ev m s s' q : opens q = false -> unable q s -> mstep R opens ev m s s' -> unable q s'.
Proof.
  intros Ho [H1 H2] St.
  assert (Pc : forall r pc, (forall ok, pc <> WOpen q ok) -> forall x, tame q (m_ws s x) (upd (m_pc s) r pc x)).
  { intros r pc Hpc x. rewrite upd_get. destruct (x =? r); auto. split; [apply H1|apply Hpc]. }
  assert (Li : forall w ok, listen w <> WOpen q ok) by (intros w ok; unfold listen; destruct (ws_mode w); discriminate).
  inversion St; subst; try (split; [exact H1|exact H2]);
    try (split; cbn [on_seen on_pc on_take on_reply m_ws m_pc m_log]; [apply Pc; auto; discriminate|rewrite ?app_nil_r; exact H2]).
  - split; [exact H1|]. cbn [on_log m_log]. apply Forall_app. split; auto. constructor; [|constructor]. cbn [snd]. split; [intros X; injection X; congruence|discriminate].
  - split; [exact H1|]. cbn [on_log m_log]. rewrite app_nil_r. exact H2.
  - destruct (react_harmless opens ev _ _ _ _ _ q Ho (proj1 (H1 r)) H3) as [A B]. split; cbn [on_exec m_ws m_pc m_log].
    + intros x. rewrite !upd_get. destruct (x =? r); auto.
    + apply Forall_app. split; auto. rewrite Forall_map. cbn [snd]. exact B.
  - split; cbn [on_seen m_ws m_pc m_log]; [apply Pc; auto|]. apply Forall_app. split; auto. constructor; [|constructor]. cbn [snd]. split; [|discriminate].
    intros X. injection X as -> ->. destruct (H1 r) as [_ X]. congruence.
Qed.
Lemma unable_run R opens ev p n s q : opens q = false -> mrun R opens ev p n s -> unable q s.
Proof.
  intros Ho. induction 1 as [|n s s' m H IH St]; [|eapply unable_step; eauto]. split; [|constructor]. intros r. split; cbn; discriminate.
Qed.
Lemma harmless_disk dk l q : Forall (fun re : nat * event => harmless q (snd re)) l -> disk_after dk l q = dk q.
Proof.
  intros H. unfold disk_after. revert dk. induction H as [|re l [A B] Hl IH]; intros dk; [reflexivity|]. cbn [fold_left]. rewrite IH.
  assert (S : forall p a, p <> q -> set_file dk p a q = dk q).
  { intros p a Hp. unfold set_file. rewrite bytes_eqb_neq; auto. }
  destruct (snd re) as [p [|]| | |p w| | |]; try reflexivity; cbn [on_disk]; apply S; congruence.
Qed.
Lemma untouched_lemma R opens ev p n s q dk : opens q = false -> mrun R opens ev p n s -> disk_after dk (m_log s) q = dk q.
Proof. intros Ho H. apply harmless_disk. exact (proj2 (unable_run R opens ev p n s q Ho H)). Qed.

(** *** rank 0 never calls MPI_Finalize *)
Inductive nofinal : prog -> Prop :=
| nf_cast p k : nofinal k -> nofinal (PCast p k)
| nf_open p k : nofinal k -> nofinal (POpen p k)
| nf_send r p k : nofinal k -> nofinal (PSend r p k)
| nf_recv k : (forall t, nofinal (k t)) -> nofinal (PRecv k)
| nf_stop e : nofinal (PStop e).
Lemma nofinal_send r l t k : nofinal k -> nofinal (send_order r l t k).
Proof. intros H. unfold send_order. destruct (frame l t) as [[? ?]|]; repeat constructor; auto. Qed.
Lemma nofinal_cast l t k : nofinal k -> nofinal (cast_order l t k).
Proof. intros H. unfold cast_order. destruct (frame l t) as [[? ?]|]; repeat constructor; auto. Qed.
Lemma nofinal_drain n k : nofinal k -> nofinal (drain n k).
Proof. intros H. induction n; cbn [drain]; auto. constructor. auto. Qed.
Lemma nofinal_feed R ts k : nofinal k -> nofinal (feed R ts k).
Proof.
  intros H. induction ts as [|t ts IH]; cbn [feed]; auto. constructor. intros x. destruct (stoi (cstr x)); [|constructor]. destruct (_ && _); [|constructor]. apply nofinal_send, IH.
Qed.
Lemma nofinal_first R N ts : forall r k, nofinal k -> nofinal (first R N r ts k).
Proof.
  induction ts as [|t ts IH]; intros r k H; cbn [first]; [apply nofinal_drain; auto|]. destruct (Nat.ltb r R); [apply nofinal_send, IH, H|apply nofinal_feed, nofinal_drain, H].
Qed.
Lemma nofinal_program R acts e : ~ In AFinalize acts -> nofinal (program R acts e).
Proof.
  induction acts as [|a acts IH]; intros H; cbn [program]; [constructor|]. assert (K : nofinal (program R acts e)) by (apply IH; intros X; apply H; right; exact X).
  destruct a; [apply nofinal_cast, K|constructor; exact K|apply nofinal_send, K|apply nofinal_first, K|exfalso; apply H; left; reflexivity].
Qed.
Lemma nofinal_run R opens ev p n s : nofinal p -> mrun R opens ev p n s -> nofinal (m_prog s) /\ ~ In CFinal (m_colls s) /\ forall r, m_pc s r <> WDone.
Proof.
  intros Hp. induction 1 as [|n s s' m H (A & B & C) St]; [repeat split; auto; cbn; discriminate|].
  assert (Pc : forall r pc, pc <> WDone -> forall x, upd (m_pc s) r pc x <> WDone) by (intros r pc Hpc x; rewrite upd_get; destruct (x =? r); auto).
  assert (Li : forall w, listen w <> WDone) by (intros w; unfold listen; destruct (ws_mode w); discriminate).
  assert (Cl : forall c, c <> CFinal -> ~ In CFinal (m_colls s ++ [c])).
  { intros c Hc X. apply in_app_or in X as [X|[X|[]]]; auto. }
  inversion St; subst; try rewrite H0 in A;
    cbn [on_coll on_boss on_send on_recv on_log on_seen on_pc on_take on_exec on_reply m_prog m_colls m_pc];
    try (split; [first [exact A|inversion A; auto; fail|constructor]|split; [first [exact B|apply Cl; discriminate]|first [exact C|apply Pc; auto; discriminate]]]; fail).
  - inversion A.
  - split; [exact A|split; [exact B|]]. apply Pc. unfold react in H2. intros X. destruct (on_message _ _ _ _) as [[l0 [w0|c]]|]; [| |congruence].
    + destruct l0 as [|[] [|[] [|]]]; try congruence; apply (Li w0); congruence.
    + destruct l0 as [|[] [|[] [|]]]; congruence.
  - exfalso. apply B. eapply nth_error_In; eauto.
Qed.

(** *** files no order to open names *)
Definition free (q t : bytes) : Prop := letter_of (cstr t) = b "A" -> rest_of (cstr t) <> q.
Definition pfree (q : bytes) (x : packet) : Prop := match x with PText t => free q t | PLen _ => True end.
Inductive spares (q : bytes) : prog -> Prop :=
| sp_cast x k : pfree q x -> spares q k -> spares q (PCast x k)
| sp_open p k : p <> q -> spares q k -> spares q (POpen p k)
| sp_send r x k : pfree q x -> spares q k -> spares q (PSend r x k)
| sp_recv k : (forall t, spares q (k t)) -> spares q (PRecv k)
| sp_final k : spares q k -> spares q (PFinal k)
| sp_stop e : spares q (PStop e).
Definition lfree (q l t : bytes) : Prop := length l = 1 /\ (l = b "A" -> t <> q /\ no_byte NUL t).
Lemma lfree_free q l t : lfree q l t -> free q (l ++ t ++ [NUL]).
Proof.
  intros [H1 H2]. destruct l as [|c [|? ?]]; try discriminate H1. unfold free. cbn [app cstr]. destruct (beq c NUL); [intros X; vm_compute in X; discriminate X|].
  cbn [letter_of rest_of firstn skipn]. intros E. destruct (H2 E) as [A B]. rewrite cstr_app_nul by exact B. exact A.
Qed.
Lemma spares_send q r l t k : lfree q l t -> spares q k -> spares q (send_order r l t k).
Proof. intros H K. unfold send_order, frame. cbv zeta. destruct (_ <=? _)%Z; [|constructor]. repeat constructor; auto. apply lfree_free, H. Qed.
Lemma spares_cast q l t k : lfree q l t -> spares q k -> spares q (cast_order l t k).
Proof. intros H K. unfold cast_order, frame. cbv zeta. destruct (_ <=? _)%Z; [|constructor]. repeat constructor; auto. apply lfree_free, H. Qed.
Lemma spares_drain q n k : spares q k -> spares q (drain n k).
Proof. intros H. induction n; cbn [drain]; auto. constructor. auto. Qed.
Lemma lfree_C q t : lfree q (b "C") t.
Proof. split; [reflexivity|discriminate]. Qed.
Lemma spares_feed q R ts k : spares q k -> spares q (feed R ts k).
Proof.
  intros H. induction ts as [|t ts IH]; cbn [feed]; auto. constructor. intros x. destruct (stoi (cstr x)); [|constructor]. destruct (_ && _); [|constructor]. apply spares_send, IH. apply lfree_C.
Qed.
Lemma spares_first q R N ts : forall r k, spares q k -> spares q (first R N r ts k).
Proof.
  induction ts as [|t ts IH]; intros r k H; cbn [first]; [apply spares_drain; auto|]. destruct (Nat.ltb r R); [apply spares_send, IH, H; apply lfree_C|apply spares_feed, spares_drain, H].
Qed.
Definition afree (q : bytes) (a : act) : Prop :=
  match a with ABcast l t => lfree q l t | AOpen p _ => p <> q | ASend _ l t => lfree q l t | _ => True end.
Lemma spares_program q R acts e : Forall (afree q) acts -> spares q (program R acts e).
Proof.
  induction 1 as [|a acts H Hl IH]; cbn [program]; [constructor|].
  destruct a; [apply spares_cast; auto|constructor; auto|apply spares_send; auto|apply spares_first; auto|constructor; auto].
Qed.
Definition wfree (q : bytes) (w : wstate) (pc : wpc) : Prop :=
  ws_handle w <> HOpen q /\ match pc with WGot t => free q t | WOpen p _ => p <> q | _ => True end.
Lemma react_free opens ev w t l w' pc q : wfree q w (WGot t) -> react opens ev w t = (l, (w', pc)) -> wfree q w' pc /\ Forall (harmless q) l.
Proof.
  intros [Hw Hf]. unfold react, on_message. cbn beta iota in Hf.
  assert (Li : forall x, match listen x with WGot t => free q t | WOpen p _ => p <> q | _ => True end) by (intros x; unfold listen; destruct (ws_mode x); exact I).
  destruct (ws_mode w).
  - unfold on_broadcast. destruct (bytes_eqb (letter_of (cstr t)) (b "A")) eqn:EA.
    { apply bytes_eqb_spec in EA. specialize (Hf EA). cbn zeta. intros E. injection E as <- <- <-. split; [|constructor]. split; cbn [ws_handle]; auto.
      destruct (opens _); [|discriminate]. intros X. injection X as X. congruence. }
    clear EA. destruct (bytes_eqb (letter_of (cstr t)) (b "U")).
    { destruct (get_stoi _); cbn [bind]; intros E; injection E as <- <- <-.
      - split; [split; [auto|apply Li]|]. repeat constructor; discriminate.
      - split; [split; [auto|exact I]|constructor]. }
    destruct (bytes_eqb _ _). { intros E; injection E as <- <- <-. split; [split; [auto|exact I]|constructor]. }
    destruct (bytes_eqb _ _).
    { destruct (ws_handle w) eqn:Eh; intros E; injection E as <- <- <-; (split; [split; [congruence|exact I]|constructor]). }
    intros E; injection E as <- <- <-. split; [split; [auto|apply Li]|repeat constructor; discriminate].
  - unfold on_individual. destruct (bytes_eqb _ _).
    { destruct (_ =? _)%Z; [intros E; injection E as <- <- <-; split; [split; [auto|exact I]|constructor]|].
      destruct (parse_bundle _) as [os|]; cbn [bind]; [|intros E; injection E as <- <- <-; split; [split; [auto|exact I]|constructor]].
      destruct (total_size _); cbn [bind]; [|intros E; injection E as <- <- <-; split; [split; [auto|exact I]|constructor]].
      destruct (order_n_filename _ _); cbn [bind]; [|intros E; injection E as <- <- <-; split; [split; [auto|exact I]|constructor]].
      destruct (move_data_Create _ _ _ _) as [x|]; cbn [bind]; [|intros E; injection E as <- <- <-; split; [split; [auto|exact I]|constructor]].
      destruct (ws_handle w) eqn:Eh; intros E; injection E as <- <- <-.
      - split; [split; [congruence|exact I]|constructor].
      - split; [split; [congruence|exact I]|]. constructor; [|constructor]. split; [discriminate|]. intros w0 X. injection X as X _. congruence.
      - split; [split; [congruence|exact I]|repeat constructor; discriminate]. }
    destruct (bytes_eqb _ _). { intros E; injection E as <- <- <-. split; [split; [auto|apply Li]|repeat constructor; discriminate]. }
    destruct (bytes_eqb _ _). { intros E; injection E as <- <- <-. split; [split; [auto|exact I]|constructor]. }
    destruct (bytes_eqb _ _); intros E; injection E as <- <- <-.
    + split; [split; [auto|exact I]|constructor].
    + split; [split; [auto|apply Li]|repeat constructor; discriminate].
Qed.
Definition cfree (q : bytes) (c : coll) : Prop := match c with CCast x => pfree q x | COpen p => p <> q | CFinal => True end.
Definition sfree (q : bytes) (s : msys) : Prop :=
  spares q (m_prog s) /\ Forall (cfree q) (m_colls s) /\ (forall p, m_stat s = BOpen p -> p <> q) /\ (forall r, Forall (pfree q) (m_queue s r)) /\
  (forall r, wfree q (m_ws s r) (m_pc s r)) /\ Forall (fun re => harmless q (snd re)) (m_log s).
Lemma sfree_step R opens ev m s s' q : sfree q s -> mstep R opens ev m s s' -> sfree q s'.
Proof.
  intros (A & B & S & Qu & W & L) St.
  assert (Pc : forall r pc, match pc with WGot t => free q t | WOpen p _ => p <> q | _ => True end -> forall x, wfree q (m_ws s x) (upd (m_pc s) r pc x)).
  { intros r pc Hpc x. rewrite upd_get. destruct (x =? r); auto. split; [apply W|exact Hpc]. }
  assert (Li : forall x, match listen x with WGot t => free q t | WOpen p _ => p <> q | _ => True end) by (intros x; unfold listen; destruct (ws_mode x); exact I).
  assert (Cl : forall c, cfree q c -> Forall (cfree q) (m_colls s ++ [c])) by (intros c Hc; apply Forall_app; auto).
  assert (Cn : forall n c, nth_error (m_colls s) n = Some c -> cfree q c) by (intros n c E; rewrite Forall_forall in B; eapply B, nth_error_In, E).
  assert (Qt : forall r x l, m_queue s r = x :: l -> pfree q x /\ forall y, Forall (pfree q) (upd (m_queue s) r l y)).
  { intros r x l E. pose proof (Qu r) as X. rewrite E in X. inversion X; subst. split; auto. intros y. rewrite upd_get. destruct (y =? r); auto. }
  unfold sfree. inversion St; subst; try rewrite H in A;
    cbn [on_coll on_boss on_send on_recv on_log on_seen on_pc on_take on_exec on_reply m_prog m_colls m_stat m_queue m_ws m_pc m_log]; rewrite ?app_nil_r.
  - inversion A; subst. repeat split; auto; try (apply W); discriminate.
  - inversion A; subst. repeat split; auto; try (apply W). intros p0 E. injection E as <-. auto.
  - inversion A; subst. repeat split; auto; try (apply W). apply Cl; exact I. discriminate.
  - inversion A; subst. repeat split; auto; try (apply W). discriminate. intros x. rewrite upd_get. destruct (x =? r); auto. apply Forall_app; auto.
  - inversion A; subst. repeat split; auto; try (apply W). discriminate.
  - inversion A; subst. repeat split; auto; try (apply W). constructor. discriminate.
  - repeat split; auto; try (apply W). discriminate.
  - repeat split; auto; try (apply W). discriminate.
  - repeat split; auto; try (apply W). discriminate.
  - repeat split; auto; try (apply W). discriminate.
  - repeat split; auto; try (apply W). discriminate. apply Forall_app. split; auto. constructor; [|constructor]. cbn [snd]. split; [|discriminate]. specialize (S _ H). congruence.
  - repeat split; auto; try (apply W). discriminate.
  - split; [exact A|]. split; [exact B|]. split; [exact S|]. split; [exact Qu|]. split; [apply Pc; exact I|exact L].
  - split; [exact A|]. split; [exact B|]. split; [exact S|]. split; [exact Qu|]. split; [apply Pc; exact (Cn _ _ H1)|exact L].
  - split; [exact A|]. split; [exact B|]. split; [exact S|]. split; [exact Qu|]. split; [apply Pc; exact I|exact L].
  - split; [exact A|]. split; [exact B|]. split; [exact S|]. split; [exact Qu|]. split; [apply Pc; exact I|exact L].
  - destruct (Qt _ _ _ H1) as [Q1 Q2]. split; [exact A|]. split; [exact B|]. split; [exact S|]. split; [exact Q2|]. split; [apply Pc; exact I|exact L].
  - destruct (Qt _ _ _ H1) as [Q1 Q2]. split; [exact A|]. split; [exact B|]. split; [exact S|]. split; [exact Q2|]. split; [apply Pc; exact Q1|exact L].
  - destruct (Qt _ _ _ H1) as [Q1 Q2]. split; [exact A|]. split; [exact B|]. split; [exact S|]. split; [exact Q2|]. split; [apply Pc; exact I|exact L].
  - destruct (Qt _ _ _ H1) as [Q1 Q2]. split; [exact A|]. split; [exact B|]. split; [exact S|]. split; [exact Q2|]. split; [apply Pc; exact I|exact L].
  - assert (X : wfree q (m_ws s r) (WGot t)) by (rewrite <- H0; apply W). destruct (react_free opens ev _ _ _ _ _ q X H1) as [Y Z].
    split; [exact A|]. split; [exact B|]. split; [exact S|]. split; [exact Qu|]. split.
    + intros x. rewrite !upd_get. destruct (x =? r); auto.
    + apply Forall_app. split; auto. rewrite Forall_map. exact Z.
  - split; [exact A|]. split; [exact B|]. split; [exact S|]. split; [exact Qu|]. split; [apply Pc, Li|].
    apply Forall_app. split; auto. constructor; [|constructor]. cbn [snd]. specialize (Cn _ _ H1). cbn in Cn. split; [congruence|discriminate].
  - split; [exact A|]. split; [exact B|]. split; [exact S|]. split; [exact Qu|]. split; [apply Pc; exact I|exact L].
  - split; [exact A|]. split; [exact B|]. split; [exact S|]. split; [exact Qu|]. split; [apply Pc; exact I|exact L].
  - split; [exact A|]. split; [exact B|]. split; [exact S|]. split; [exact Qu|]. split; [apply Pc, Li|exact L].
  - split; [exact A|]. split; [exact B|]. split; [exact S|]. split; [exact Qu|]. split; [apply Pc, Li|exact L].
  - split; [exact A|]. split; [exact B|]. split; [exact S|]. split; [exact Qu|]. split; [apply Pc; exact I|exact L].
  - split; [exact A|]. split; [exact B|]. split; [exact S|]. split; [exact Qu|]. split; [apply Pc; exact I|exact L].
Qed.
Lemma sfree_run R opens ev p n s q : spares q p -> mrun R opens ev p n s -> sfree q s.
Proof.
  intros Hp. induction 1 as [|n s s' m H IH St]; [|eapply sfree_step; eauto]. unfold sfree. cbn.
  split; [exact Hp|]. split; [constructor|]. split; [discriminate|]. split; [constructor|]. split; [|constructor]. intros r. split; [discriminate|exact I].
Qed.

Lemma lfree_other q l t : length l = 1 -> l <> b "A" -> lfree q l t.
Proof. intros H1 H2. split; auto. congruence. Qed.
Lemma boss_free R junk fuel fs sort opens args acts e q : boss_main R junk fuel fs sort opens args = (acts, e) -> Forall usable args ->
  (forall ok, ~ In (AOpen q ok) acts) -> Forall (afree q) acts.
Proof.
  intros H Hu Hq. unfold boss_main in H. destruct args as [|a args]; [injection H as <- <-; constructor|].
  destruct (parse_args _ (a :: args)) as [[[o ts]|]|x] eqn:E.
  2:{ injection H as <- <-. constructor; [apply lfree_other; [reflexivity|discriminate]|constructor]. } 2:{ injection H as <- <-. constructor. }
  destruct (op_archive o) as [|c p] eqn:Eo; [injection H as <- <-; constructor|]. destruct ts as [|base [|? ?]]; try (injection H as <- <-; constructor).
  destruct (plan fuel fs sort base (op_bucket o) (op_maxo o)) as [[bs|]|x] eqn:Ep; try (injection H as <- <-; constructor). rewrite <- Eo in *.
  destruct (parse_good _ _ _ _ E) as ((U1 & _) & _); auto; [apply usable_nil|vm_compute; split; [discriminate|reflexivity]|].
  assert (Pre : op_archive o <> q -> forall ok, Forall (afree q) [ABcast (b "U") (print_int (op_bucket o)); ABcast (b "A") (op_archive o); AOpen (op_archive o) ok]).
  { intros Hne ok. constructor; [apply lfree_other; [reflexivity|discriminate]|]. constructor; [split; [reflexivity|auto]|]. repeat constructor. exact Hne. }
  destruct (opens (op_archive o)) eqn:Eop; injection H as <- <-.
  - assert (Hne : op_archive o <> q) by (intros X; apply (Hq true); rewrite <- X; right; right; left; reflexivity).
    enough (G : Forall (afree q) ([ABcast (b "U") (print_int (op_bucket o)); ABcast (b "A") (op_archive o); AOpen (op_archive o) true] ++ [ABcast (b "N") (b "individual")] ++
      map (fun r => ASend r (b "P") base) (seq 1 (R - 1)) ++ [APush bs] ++ map (fun r => ASend r (b "X") (b "shutdown")) (seq 1 (R - 1)) ++ [AFinalize])) by exact G.
    apply Forall_app; split; [apply Pre, Hne|]. apply Forall_app; split; [constructor; [apply lfree_other; [reflexivity|discriminate]|constructor]|]. apply Forall_app; split.
    { rewrite Forall_map. apply Forall_forall. intros r _. apply lfree_other; [reflexivity|discriminate]. }
    apply Forall_app; split; [repeat constructor|]. apply Forall_app; split; [|repeat constructor].
    rewrite Forall_map. apply Forall_forall. intros r _. apply lfree_other; [reflexivity|discriminate].
  - assert (Hne : op_archive o <> q) by (intros X; apply (Hq false); rewrite <- X; right; right; left; reflexivity).
    enough (G : Forall (afree q) ([ABcast (b "U") (print_int (op_bucket o)); ABcast (b "A") (op_archive o); AOpen (op_archive o) false] ++ [ABcast (b "X") (b "bye"); AFinalize])) by exact G.
    apply Forall_app; split; [apply Pre, Hne|]. constructor; [apply lfree_other; [reflexivity|discriminate]|]. constructor; [exact I|constructor].
Qed.
Lemma boss_open_eq R junk fuel fs sort opens args acts e q ok : boss_main R junk fuel fs sort opens args = (acts, e) -> In (AOpen q ok) acts -> ok = opens q.
Proof.
  intros H Hin. unfold boss_main in H. destruct args as [|a args]; [injection H as <- <-; destruct Hin|].
  destruct (parse_args _ (a :: args)) as [[[o ts]|]|x] eqn:E.
  2:{ injection H as <- <-. destruct Hin as [X|[]]; discriminate X. } 2:{ injection H as <- <-. destruct Hin. }
  destruct (op_archive o) as [|c p] eqn:Eo; [injection H as <- <-; destruct Hin|]. destruct ts as [|base [|? ?]]; try (injection H as <- <-; destruct Hin).
  destruct (plan fuel fs sort base (op_bucket o) (op_maxo o)) as [[bs|]|x] eqn:Ep; try (injection H as <- <-; destruct Hin). rewrite <- Eo in *.
  destruct (opens (op_archive o)) eqn:Eop; injection H as <- <-.
  - destruct Hin as [X|[X|[X|[X|Hin]]]]; try discriminate X; [injection X as <- <-; congruence|].
    apply in_app_iff in Hin as [Hin|[X|Hin]]; [apply in_map_iff in Hin as (r & X & _); discriminate X|discriminate X|].
    apply in_app_iff in Hin as [Hin|[X|[]]]; [apply in_map_iff in Hin as (r & X & _); discriminate X|discriminate X].
  - destruct Hin as [X|[X|[X|[X|[X|[]]]]]]; try discriminate X. injection X as <- <-. congruence.
Qed.
(** whatever rank 0 is told to do, the one file that can change is one it opened anew *)
Lemma files_lemma R junk fuel fs sort opens args acts e ev n s dk q : boss_main R junk fuel fs sort opens args = (acts, e) -> Forall usable args ->
  mrun R opens ev (program R acts e) n s -> ~ In (AOpen q true) acts -> disk_after dk (m_log s) q = dk q.
Proof.
  intros H Hu Hrun Hq. destruct (opens q) eqn:Eo; [|exact (untouched_lemma R opens ev _ n s q dk Eo Hrun)].
  apply harmless_disk. assert (Hf : Forall (afree q) acts).
  { apply (boss_free R junk fuel fs sort opens args acts e q H Hu). intros ok Hin. pose proof (boss_open_eq _ _ _ _ _ _ _ _ _ _ _ H Hin) as X. rewrite Eo in X. subst ok. exact (Hq Hin). }
  apply (sfree_run R opens ev _ n s q (spares_program q R acts e Hf) Hrun).
Qed.
(** main stops before the collective open: no other rank gets out *)
Lemma stranded_lemma R junk fuel fs sort opens args acts e ev n s : boss_main R junk fuel fs sort opens args = (acts, e) ->
  (forall p ok, ~ In (AOpen p ok) acts) -> mrun R opens ev (program R acts e) n s -> forall r, m_pc s r <> WDone.
Proof.
  intros H Hn Hrun. apply (nofinal_run R opens ev (program R acts e) n s); auto. apply nofinal_program. intros Hin.
  unfold boss_main in H. destruct args as [|a args]; [injection H as <- <-; destruct Hin|].
  destruct (parse_args _ (a :: args)) as [[[o ts]|]|x] eqn:E.
  2:{ injection H as <- <-. destruct Hin as [X|[]]; discriminate X. } 2:{ injection H as <- <-. destruct Hin. }
  destruct (op_archive o) as [|c p] eqn:Eo; [injection H as <- <-; destruct Hin|]. destruct ts as [|base [|? ?]]; try (injection H as <- <-; destruct Hin).
  destruct (plan fuel fs sort base (op_bucket o) (op_maxo o)) as [[bs|]|x] eqn:Ep; try (injection H as <- <-; destruct Hin).
  destruct (opens (c :: p)) eqn:Eop; injection H as <- <-; eapply Hn; right; right; left; reflexivity.
Qed.
