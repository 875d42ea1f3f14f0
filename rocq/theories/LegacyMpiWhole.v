(** The 0.5.1 program on R ranks, from the command line to the archive (LegacyMpi.v). *)
From Coq Require Import Lia Permutation Sorted.
From Verif Require Import Bytes Outcome TarModel Layout Mover Worker Boss Spider Program Legacy LegacyLayout LegacyScan LegacyCodec LegacyWrite LegacyCreate Mpi LegacyMpi LegacyMpiProofs LegacyMpiMore LegacyMpiEnd.
Local Open Scope nat_scope.

(** *** what the ranks start with *)
Lemma main_cases R fuel fs sort clock ev args :
  (forall r, lmain R fuel fs sort clock ev args r = LReturn (-1)) \/
  (lmain R fuel fs sort clock ev args 0 = LReturn (-2) /\ forall r, 1 <= r -> lmain R fuel fs sort clock ev args r = LFinal (LReturn 0)) \/
  (forall r, lmain R fuel fs sort clock ev args r = LFinal (LReturn 0)) \/
  (exists rest arc top more, args = ("C"%char :: rest) :: arc :: top :: more).
Proof.
  unfold lmain, legacy_main. set (mode := match args with (c :: _) :: _ => c | _ => NUL end).
  destruct ((length args <? 2) || (length args =? 2) && negb (beq mode "T"%char))%bool eqn:E1; [left; reflexivity|]. right.
  destruct (beq mode "C"%char) eqn:EC.
  - right. right. apply Ascii.eqb_eq in EC. assert (NT : beq mode "T"%char = false) by (rewrite EC; reflexivity). rewrite NT in E1. cbn [negb] in E1. rewrite Bool.andb_true_r in E1.
    apply Bool.orb_false_iff in E1 as [E1 E2]. apply Nat.ltb_ge in E1. apply Nat.eqb_neq in E2. unfold mode in EC.
    destruct args as [|[|c rest] [|arc [|top more]]]; cbn [length] in E1, E2; try lia; try discriminate EC. subst c. eauto.
  - cbn [orb]. destruct (beq mode "X"%char || beq mode "T"%char)%bool eqn:EX; cbn [negb].
    + right. left. intros r. rewrite Bool.andb_false_r. reflexivity.
    + left. split; [reflexivity|]. intros [|r] Hr; [lia|]. reflexivity.
Qed.
Lemma main_create R fuel fs sort clock ev rest arc top more r : 
  lmain R fuel fs sort clock ev (("C"%char :: rest) :: arc :: top :: more) r =
    if (r =? 0)%nat then match list_directory fuel fs top with Err e => LDie e | Ok None => LReturn 333
      | Ok (Some es) => value_of (fill_rels top es) (fun es' => create0 L_BUCKET L_PAD clock ev R arc (sort es')) end
    else create_other L_BUCKET clock ev R r.
Proof. unfold lmain, legacy_main. cbn [length nth]. destruct r; reflexivity. Qed.

Section Main.
Context (R fuel : nat) (fs : fsys) (sort : list lent -> list lent) (clock : Z -> Z) (ev : env) (opens : bytes -> bool) (args : list bytes)
  (HR : 1 <= R) (HA : Forall (no_byte NUL) args).
Let p := lmain R fuel fs sort clock ev args.
Let H := bc opens (p 0).

Lemma main_fine : matched R opens p H /\
  forall rest arc top more, args = ("C"%char :: rest) :: arc :: top :: more -> forall r, r < R -> Forall (at_path_ok arc) (items opens H (p r)).
Proof.
  assert (D : (forall rest arc top more, args <> ("C"%char :: rest) :: arc :: top :: more) \/ exists rest arc top more, args = ("C"%char :: rest) :: arc :: top :: more).
  { destruct args as [|[|c rest] [|arc [|top more]]]; try (left; discriminate). destruct (Ascii.eqb_spec c "C"%char) as [->|N]; [right; eauto|left; congruence]. }
  destruct D as [N|(rest & arc & top & more & E)].
  - split; [|intros rest arc top more E; destruct (N _ _ _ _ E)]. unfold H, p.
    destruct (main_cases R fuel fs sort clock ev args) as [C|[[C0 C]|[C|(? & ? & ? & ? & E)]]]; [| | |destruct (N _ _ _ _ E)].
    + constructor; auto; intros; rewrite !C; exact I.
    + constructor; auto; [rewrite C0; exact I|..]; intros r Hr; rewrite ?C0; (destruct r as [|r]; [rewrite C0; exact I|rewrite C by lia; exact I]).
    + constructor; auto; intros; rewrite !C; cbn; auto.
  - assert (Hn : no_byte NUL arc). { rewrite E in HA. inversion HA as [|? ? _ HA']; subst. inversion HA'; auto. }
    assert (Ep : forall r, p r = lmain R fuel fs sort clock ev (("C"%char :: rest) :: arc :: top :: more) r) by (intros r; unfold p; rewrite E; reflexivity).
    assert (F : nofetch (p 0) /\ (forall r, r < R -> fine opens arc H (p r)) /\ (forall r, 1 <= r < R -> nocast (p r))).
    { assert (Lone : forall q, bc opens q = [] -> (forall r, 1 <= r < R -> fine opens arc (bc opens q) (p r)) ).
      { intros q Eq r Hr. rewrite Eq, Ep, main_create. destruct (Nat.eqb_spec r 0); [lia|]. unfold create_other. apply fine_wait. }
      assert (Cast : forall r, 1 <= r < R -> nocast (p r)) by (intros r Hr; rewrite Ep, main_create; destruct (Nat.eqb_spec r 0); [lia|apply worker_nocast]).
      unfold H. rewrite Ep, main_create. cbn [Nat.eqb].
      destruct (list_directory fuel fs top) as [[es|]|e] eqn:El.
      2:{ split; [exact I|]. split; [|exact Cast]. intros [|r] Hr; [rewrite Ep, main_create; cbn [Nat.eqb]; rewrite El; apply fine_stop; [exact I|reflexivity]|apply Lone; [reflexivity|lia]]. }
      2:{ split; [exact I|]. split; [|exact Cast]. intros [|r] Hr; [rewrite Ep, main_create; cbn [Nat.eqb]; rewrite El; apply fine_stop; [exact I|reflexivity]|apply Lone; [reflexivity|lia]]. }
      destruct (fill_rels top es) as [es'|e] eqn:Ef; cbn [value_of].
      2:{ split; [exact I|]. split; [|exact Cast]. intros [|r] Hr; [rewrite Ep, main_create; cbn [Nat.eqb]; rewrite El, Ef; apply fine_stop; [exact I|reflexivity]|apply Lone; [reflexivity|lia]]. }
      assert (Nf : nofetch (create0 L_BUCKET L_PAD clock ev R arc (sort es'))) by exact (writer0_nofetch _ _ _ _ _ _ _).
      split; [exact Nf|]. split; [|exact Cast]. intros [|r] Hr.
      - rewrite Ep, main_create. cbn [Nat.eqb]. rewrite El, Ef. cbn [value_of]. split; [apply okay_own; exact Nf|apply boss_paths].
      - rewrite Ep, main_create. cbn [Nat.eqb]. apply create_okay. exact Hn. }
    destruct F as (F1 & F2 & F3). split.
    + constructor; auto; try reflexivity. intros r Hr. apply F2, Hr.
    + intros rest' arc' top' more' E'. rewrite E in E'. injection E' as _ <- _ _. intros r Hr. apply F2, Hr.
Qed.
Lemma main_matched : matched R opens p H. Proof. exact (proj1 main_fine). Qed.

(** nothing goes wrong in MPI, and no file but the archive is touched *)
Lemma no_bad n s r : lrun R opens p n s -> r < R -> l_prog s r <> LBad.
Proof. intros Hrun Hr E. pose proof (g_ok _ _ _ _ _ (good_run R opens p H main_matched n s Hrun) r Hr) as O. rewrite E in O. exact O. Qed.
Lemma puts_ok arc l path w : Forall (at_path_ok arc) l -> In (path, w) (puts l) -> path = arc.
Proof.
  intros F I. unfold puts in I. apply in_flat_map in I as (i & I1 & I2). rewrite Forall_forall in F. specialize (F i I1). destruct i as [c|q x]; cbn in I2; [destruct I2|].
  destruct I2 as [I2|[]]. injection I2 as -> ->. exact F.
Qed.
Lemma calls_ok arc l path : Forall (at_path_ok arc) l -> In (KOpen path) (calls l) -> path = arc.
Proof.
  intros F I. unfold calls in I. apply in_flat_map in I as (i & I1 & I2). rewrite Forall_forall in F. specialize (F i I1). destruct i as [c|q x]; cbn in I2; [|destruct I2].
  destruct I2 as [I2|[]]. subst c. exact F.
Qed.
(** the events there can be *)
Definition event_ok (arc : bytes) (e : event) : Prop := match e with EvOpen q o => q = arc /\ o = opens arc | EvWrite q _ => q = arc | _ => False end.
Lemma log_ok n s rest arc top more : args = ("C"%char :: rest) :: arc :: top :: more -> lrun R opens p n s -> forall r e, In (r, e) (l_log s) -> event_ok arc e.
Proof.
  intros E Hrun r e He. pose proof (proj2 main_fine _ _ _ _ E) as F. pose proof (good_run R opens p H main_matched n s Hrun) as G.
  destruct (log_kinds R opens p H main_matched n s Hrun r e He) as [(path & -> & I)|(path & w & -> & I)].
  - assert (path = arc). { apply (calls_ok arc (items opens H (p 0))); [apply F; exact HR|]. rewrite (items_own opens (p 0) (mt_own _ _ _ _ main_matched) H []). exact I. }
    subst. split; reflexivity.
  - cbn. eapply puts_ok; [apply (F r)|exact I]. exact (g_log _ _ _ _ _ G r _ He).
Qed.
Lemma log_none n s : (forall rest arc top more, args <> ("C"%char :: rest) :: arc :: top :: more) -> lrun R opens p n s -> l_log s = [].
Proof.
  intros N Hrun. assert (P0 : forall r, items opens H (p r) = [] \/ items opens H (p r) = [ICall KFinal]).
  { intros r. unfold p. destruct (main_cases R fuel fs sort clock ev args) as [C|[[C0 C]|[C|(? & ? & ? & ? & E)]]]; [| | |destruct (N _ _ _ _ E)].
    - left. rewrite C. reflexivity.
    - destruct r as [|r]; [left; rewrite C0; reflexivity|right; rewrite C by lia; reflexivity].
    - right. rewrite C. reflexivity. }
  destruct (l_log s) as [|[r e] l] eqn:El; [reflexivity|]. exfalso.
  assert (I : In (r, e) (l_log s)) by (rewrite El; left; reflexivity).
  destruct (log_kinds R opens p H main_matched n s Hrun r e I) as [(path & -> & J)|(path & w & -> & J)].
  - pose proof (mt_H _ _ _ _ main_matched) as EH. rewrite EH in J. rewrite (items_own opens (p 0) (mt_own _ _ _ _ main_matched) [] H) in J. destruct (P0 0) as [X|X]; rewrite X in J; cbn in J; [destruct J|destruct J as [J|[]]; discriminate J].
  - destruct (P0 r) as [X|X]; rewrite X in J; destruct J.
Qed.
End Main.

(** *** returning 0 *)
Fixpoint late0 (p : lprog) : Prop :=
  match p with
  | LBcast _ k | LBarrier k | LWrite _ _ k => late0 k
  | LFetch _ k => forall x, late0 (k x)
  | LOpen _ k => forall o, late0 (k o)
  | LReturn c => c <> 0%Z
  | _ => True
  end.
Lemma late0_final opens p : late0 p -> forall H, endp opens H p = LReturn 0 -> In KFinal (calls (items opens H p)).
Proof.
  induction p as [x k IH|w k IH|k IH|path k IH|path w k IH|k IH|c|e|]; cbn; intros L H E; try (right; apply IH; auto; fail); try discriminate E.
  - destruct H as [|[x| | |] H]; try discriminate E. cbn. right. apply (IH x); auto.
  - apply IH; auto.
  - left. reflexivity.
  - injection E as ->. contradiction.
Qed.
Lemma late0_writes path ws k : late0 k -> late0 (writes path ws k).
Proof. intros L. induction ws as [|w ws IH]; cbn; auto. Qed.
Lemma late0_move P D clock ev l starts path k is : late0 k -> forall m, late0 (move P D clock ev l starts path m is k).
Proof.
  intros L. induction is as [|i is IH]; intros m; cbn [move]; auto. destruct (one_bucket L_BLOCK P D (clock i) ev l starts m i) as [[[m1 ws]|]|e]; cbn [step_of fst snd late0]; try discriminate; auto.
  apply late0_writes, IH.
Qed.
Lemma late0_part P D clock ev R r arc l starts : late0 (move_part P D clock ev R r arc l starts).
Proof. unfold move_part. destruct (check_calls l 0 starts) as [[|]|e]; cbn [check_of late0]; try discriminate; auto. apply late0_move. exact I. Qed.
Lemma late0_writer P pad clock ev R arc l : late0 (writer0 P pad clock ev R arc l).
Proof.
  unfold writer0. destruct (list_to_buffer l (wrap32 P) true) as [[cat|]|e]; cbn [step_of late0]; try discriminate; auto.
  destruct (zlen arc <? 1)%Z; cbn [late0]; [discriminate|]. intros [|]; cbn [negb late0]; [|discriminate].
  destruct (compute_hdr_size (b ".parfu_catalog") [] (zlen cat)) as [h|e]; cbn [value_of]; [|exact I].
  apply late0_writes. destruct (P =? 0)%Z; [exact I|]. apply late0_writes. cbn [late0].
  destruct (set_offsets_and_split L_BLOCK P pad l) as [[x|]|e]; cbn [step_of late0]; try discriminate; auto.
  destruct (list_to_buffer (snd (fst x)) (wrap32 P) false) as [[text|]|e]; cbn [step_of late0]; try discriminate; auto.
  destruct (rank_call_list (snd (fst x))) as [[starts|]|e]; cbn [step_of late0]; try discriminate; auto.
  destruct (check_calls (snd (fst x)) 0 starts) as [[|]|e]; cbn [check_of late0]; try discriminate; auto.
  unfold count_of. destruct (INT_MAX <? zlen text)%Z; [exact I|]. cbn [late0].
  destruct (buffer_to_list text false) as [[y|]|e]; cbn [step_of late0]; try discriminate; auto. apply late0_part.
Qed.
Lemma late0_other P clock ev R r : late0 (create_other P clock ev R r).
Proof.
  unfold create_other. cbn [late0]. intros _ _ n t [|]; cbn [negb late0]; [|discriminate]. intros D n'. unfold count_of. destruct (INT_MAX <? int_of n')%Z; [exact I|]. cbn [late0].
  intros t'. destruct (buffer_to_list (text_of t') false) as [[y|]|e]; cbn [step_of late0]; try discriminate; auto. intros. apply late0_part.
Qed.
Lemma late0_main R fuel fs sort clock ev args r : late0 (lmain R fuel fs sort clock ev args r).
Proof.
  destruct (main_cases R fuel fs sort clock ev args) as [C|[[C0 C]|[C|(rest & arc & top & more & ->)]]].
  - rewrite C. cbn. discriminate.
  - destruct r as [|r]; [rewrite C0; cbn; discriminate|rewrite C by lia; exact I].
  - rewrite C. exact I.
  - rewrite main_create. destruct (r =? 0); [|apply late0_other]. destruct (list_directory fuel fs top) as [[es|]|e]; cbn [late0]; try discriminate; auto.
    destruct (fill_rels top es) as [es'|e]; cbn [value_of late0]; auto. unfold create0. cbn [late0]. apply late0_writer.
Qed.
Lemma okay_prefix opens p : forall H, okay opens H p -> forall i c, nth_error (calls (items opens H p)) i = Some c -> i < length H -> nth_error H i = Some c.
Proof.
  induction p as [x k IH|w k IH|k IH|path k IH|path w k IH|k IH|c0|e|]; cbn; intros H O i c E L;
    try (destruct H as [|c' H]; [cbn in L; lia|]; destruct O as [-> O]; cbn in E; destruct i as [|i]; [injection E as <-; reflexivity|cbn [nth_error] in *; cbn [length] in L; eapply IH; eauto; lia]);
    try (destruct i; discriminate E).
  - destruct H as [|c' H]; [cbn in L; lia|]. destruct c' as [x| | |]; try contradiction. destruct O as [_ O]. cbn in E. destruct i as [|i]; [injection E as <-; reflexivity|].
    cbn [nth_error] in *. cbn [length] in L. eapply IH; eauto. lia.
  - eapply IH; eauto.
Qed.
