(** Property theorems C65, C66 (command lines the program cannot act on). *)
From Verif Require Import Bytes Outcome TarModel Layout LayoutMore OrderCodec Mover Worker Spider Args ArgsSpec ArgsProofs Program ProgramProofs
  Samples PropertiesScan PropertiesProgram.

(** [usable]: every argument is a target, an archive name or a number that can be
    read, there is one target, and the last archive name is not empty *)
Definition usable (args : list bytes) : Prop :=
  Forall acceptable args /\ (exists t, targets args [t]) /\ exists v, last_value (b "archivefile") args v /\ v <> [].
(** the shell sees status 0 *)
Definition reports_success (e : ending) : Prop := match e with Finished => True | Exited c => c mod 256 = 0 | BDied _ => False end.
Definition is_bcast (a : act) : bool := match a with ABcast _ _ => true | _ => false end.
(** what the other ranks are told by broadcast *)
Definition told (acts : list act) : list bytes := flat_map (fun a => match a with ABcast l t => [l ++ t] | _ => [] end) acts.

Lemma given_or_not flag args : no_byte EQ flag -> never_given flag args \/ exists v, last_value flag args v.
Proof.
  intros Hf. induction args as [|a args IH]; [left; intros w []|]. destruct IH as [N|(v & pre & post & -> & N)].
  - destruct (list_eq_dec Ascii.ascii_dec (firstn (length (flag ++ [EQ])) a) (flag ++ [EQ])) as [E|E].
    + right. exists (skipn (length (flag ++ [EQ])) a), [], args. split; [|exact N]. cbn [app]. f_equal. rewrite <- (firstn_skipn (length (flag ++ [EQ])) a) at 1. rewrite E, <- app_assoc. reflexivity.
    + left. intros w [X|X]; [|exact (N w X)]. apply E. rewrite X. change ([EQ] ++ w) with ([EQ] ++ w). rewrite app_assoc, firstn_app, Nat.sub_diag, firstn_all. cbn [firstn]. apply app_nil_r.
  - right. exists v, (a :: pre), post. auto.
Qed.

Lemma none_unknown args : forall o, Forall short args -> parse_args o args = Ok None ->
  exists good bad rest, args = good ++ bad :: rest /\ Forall acceptable good /\ unknown_flag bad.
Proof.
  induction args as [|a args IH]; intros o Hs E; cbn [parse_args] in E; [discriminate|]. inversion Hs as [|? ? Ha Hr]; subst.
  destruct (parse_arg_cases o a Ha) as [(o1 & t1 & S1 & Ep)|[(U & Ep)|(_ & Ep)]]; rewrite Ep in E; cbn [bind] in E; [|exists [], a, args; auto|discriminate].
  pose proof (step_acceptable _ _ _ _ S1) as Hacc. assert (X : exists o2, parse_args o2 args = Ok None).
  { destruct t1; [eauto|]. destruct (parse_args o args) as [[[o2 ts2]|]|] eqn:P; cbn [bind] in E; try discriminate. eauto. }
  destruct X as (o2 & X). destruct (IH o2 Hr X) as (good & bad & rest & -> & Hg & Hb). exists (a :: good), bad, rest. auto.
Qed.

(** the ways a command line that is not usable is refused *)
Lemma refused_cases R junk fuel fs sort opens args acts e : Forall short args -> ~ usable args -> boss_main R junk fuel fs sort opens args = (acts, e) ->
  (args = [] /\ acts = [] /\ e = Exited (-42)) \/
  (acts = [] /\ exists er, e = BDied er /\ parse_args {| op_bucket := DEFAULT_BUCKET_SIZE; op_maxo := junk; op_archive := [] |} args = Err er) \/
  (acts = [ABcast (b "X") (b "abort")] /\ e = Exited 1 /\ parse_args {| op_bucket := DEFAULT_BUCKET_SIZE; op_maxo := junk; op_archive := [] |} args = Ok None) \/
  (acts = [] /\ args <> [] /\ Forall acceptable args /\ (e = Exited 5 \/ e = Exited 3 \/ e = Exited 4)).
Proof.
  intros Hs Hu E. unfold boss_main in E. destruct args as [|a args]; [left; repeat split; congruence|]. right.
  destruct (parse_args _ (a :: args)) as [[[o ts]|]|er] eqn:Ep.
  - destruct (C30_lemma {| op_bucket := DEFAULT_BUCKET_SIZE; op_maxo := junk; op_archive := [] |} (a :: args) Hs) as (A & L & _).
    assert (Hacc : Forall acceptable (a :: args)) by (apply A; eauto).
    destruct (L o ts Ep) as (Ht & L1 & L2 & _). right. right.
    destruct (op_archive o) as [|c q] eqn:Eo; [split; [congruence|]; split; [congruence|]; split; [exact Hacc|]; left; congruence|].
    assert (Hv : exists v, last_value (b "archivefile") (a :: args) v /\ v <> []).
    { destruct (given_or_not (b "archivefile") (a :: args)) as [N|(v & V)].
      - exact nf_arch.
      - specialize (L2 N). cbn [op_archive] in L2. congruence.
      - exists v. split; [exact V|]. specialize (L1 v V). congruence. }
    destruct ts as [|t [|t2 ts]].
    + split; [congruence|]. split; [congruence|]. split; [exact Hacc|]. right. left. congruence.
    + destruct Hu. split; [exact Hacc|]. split; [exists t; exact Ht|exact Hv].
    + split; [congruence|]. split; [congruence|]. split; [exact Hacc|]. right. right. congruence.
  - right. left. repeat split; congruence.
  - left. split; [congruence|]. exists er. split; [congruence|reflexivity].
Qed.

(** *** C65: a command line the program cannot act on is refused without any
    effect: rank 0 does not report success, does not touch any file, sends no
    orders; and what it tells the other ranks makes none of them create or write
    anything, whatever the file systems and disks are. *)
Theorem C65_refused_no_effect : forall R junk fuel fs sort opens args acts e, Forall short args -> ~ usable args ->
  boss_main R junk fuel fs sort opens args = (acts, e) ->
  ~ reports_success e /\ forallb is_bcast acts = true /\
  forall wopens ev rank l r, worker_node wopens ev rank (told acts) = (l, r) -> forall dk : disk, fold_left on_disk l dk = dk.
Proof.
  intros R junk fuel fs sort opens args acts e Hs Hu E.
  assert (Hw : forall m, m = [] \/ m = [b "X" ++ b "abort"] -> forall wopens ev rank l r, worker_node wopens ev rank m = (l, r) -> forall dk : disk, fold_left on_disk l dk = dk).
  { intros m [->| ->] wopens ev rank l r W dk; unfold worker_node in W; destruct (rank =? 0); cbn in W; assert (l = []) as -> by congruence; reflexivity. }
  destruct (refused_cases R junk fuel fs sort opens args acts e Hs Hu E) as [(_ & -> & ->)|[(-> & er & -> & _)|[(-> & -> & _)|(-> & _ & _ & He)]]];
    (split; [|split; [reflexivity|apply Hw; cbn; auto]]); try (cbn; discriminate); [cbn; tauto|].
  destruct He as [->|[->| ->]]; cbn; discriminate.
Qed.
Print Assumptions C65_refused_no_effect.
(** every way of being refused happens, and a usable line is not refused *)
Example C65_witness :
  (forall args, In args [[]; [b "t"]; [b "archivefile=x"]; [b "archivefile=x"; b "t"; b "u"]; [b "archivefile=x"; b "bucket=3"; b "t"]] -> Forall short args) /\
  map (fun args => snd (boss_main 3 100 9 s_fs isort (fun _ => true) args)) [[]; [b "t"]; [b "archivefile=x"]; [b "archivefile=x"; b "t"; b "u"]; [b "archivefile=x"; b "bucket=3"; b "t"]]
    = [Exited (-42); Exited 5; Exited 3; Exited 4; Exited 1] /\
  usable [b "archivefile=x"; b "t"] /\ ~ usable [b "t"].
Proof.
  split; [|split; [vm_compute; reflexivity|split]].
  - intros args H. repeat (destruct H as [<-|H]; [repeat constructor; vm_compute; reflexivity|]). destruct H.
  - assert (F : is_flag (b "archivefile=x") (b "archivefile") (b "x")).
    { split; [intros C; vm_compute in C; repeat (destruct C as [C|C]; [discriminate C|]); destruct C|reflexivity]. }
    assert (T : is_target (b "t")) by (intros C; vm_compute in C; destruct C as [C|[]]; discriminate C).
    split; [|split].
    + constructor; [right; left; eauto|]. constructor; [left; exact T|constructor].
    + exists (b "t"). eapply T_flag; [exact F|]. apply T_target; [exact T|constructor].
    + exists (b "x"). split; [|discriminate]. exists [], [b "t"]. split; [reflexivity|]. intros w [C|[]]. vm_compute in C. discriminate C.
  - intros (_ & _ & v & (pre & post & E & _) & _). destruct pre as [|x pre]; [vm_compute in E; discriminate E|]. destruct pre; discriminate E.
Qed.

(** *** C66: after a refusal every rank ends.  FALSE of the code: with no archive
    name, no target or several, and with a number that cannot be read, rank 0 leaves
    without a word and the others wait for its first broadcast; for every such
    command line and every worker. *)
Theorem C66_refuted : forall R junk fuel fs sort opens args acts e, Forall short args -> ~ usable args -> args <> [] ->
  (forall good bad rest, args = good ++ bad :: rest -> Forall acceptable good -> ~ unknown_flag bad) ->
  boss_main R junk fuel fs sort opens args = (acts, e) ->
  e <> Finished /\ forall wopens ev rank, rank <> 0 -> worker_node wopens ev rank (told acts) = ([], Looping wstart).
Proof.
  intros R junk fuel fs sort opens args acts e Hs Hu Hne Hk E.
  assert (Hw : forall wopens ev rank, rank <> 0 -> worker_node wopens ev rank [] = ([], Looping wstart)) by (intros wopens ev rank Hr; unfold worker_node; destruct (Z.eqb_spec rank 0); [congruence|reflexivity]).
  destruct (refused_cases R junk fuel fs sort opens args acts e Hs Hu E) as [(-> & _)|[(-> & er & -> & _)|[(-> & -> & Ep)|(-> & _ & _ & He)]]].
  - congruence.
  - split; [discriminate|exact Hw].
  - exfalso. revert Hk Ep. clear -Hs. generalize {| op_bucket := DEFAULT_BUCKET_SIZE; op_maxo := junk; op_archive := [] |}. intros o Hk Ep.
    destruct (none_unknown args o Hs Ep) as (good & bad & rest & Ea & Hg & Hb). exact (Hk good bad rest Ea Hg Hb).
  - split; [destruct He as [->|[->| ->]]; discriminate|exact Hw].
Qed.
Print Assumptions C66_refuted.
Example C66_refuted_witness : let args := [b "archivefile=x"; b "t"; b "u"] in
  Forall short args /\ args <> [] /\ (forall good bad rest, args = good ++ bad :: rest -> Forall acceptable good -> ~ unknown_flag bad) /\
  boss_main 3 100 9 s_fs isort (fun _ => true) args = ([], Exited 4).
Proof.
  cbv zeta. split; [repeat constructor; vm_compute; reflexivity|]. split; [discriminate|]. split; [|vm_compute; reflexivity].
  intros good bad rest E _ (f & v & [Hf1 Hf2] & _ & _ & N).
  assert (Hin : In bad [b "archivefile=x"; b "t"; b "u"]) by (rewrite E; apply in_or_app; right; left; reflexivity).
  destruct Hin as [<-|[<-|[<-|[]]]].
  - apply N. destruct (flag_unique (b "archivefile=x") f v (b "archivefile") (b "x")); [split; auto|split; [exact nf_arch|reflexivity]|auto].
  - destruct f as [|c f]; [discriminate Hf2|]. destruct f; discriminate Hf2.
  - destruct f as [|c f]; [discriminate Hf2|]. destruct f; discriminate Hf2.
Qed.
(** Partial: no argument at all ends every rank before MPI starts (each rank runs
    the same test); an unknown flag is announced, and every other rank returns. *)
Theorem C66_announced_partial : forall R junk fuel fs sort opens args acts e good bad rest, Forall short args ->
  args = good ++ bad :: rest -> Forall acceptable good -> unknown_flag bad ->
  boss_main R junk fuel fs sort opens args = (acts, e) ->
  e = Exited 1 /\ forall wopens ev rank, rank <> 0 -> worker_node wopens ev rank (told acts) = ([], Returned 0 []).
Proof.
  intros R junk fuel fs sort opens args acts e good bad rest Hs Ea Hg Hb E.
  destruct (C30_lemma {| op_bucket := DEFAULT_BUCKET_SIZE; op_maxo := junk; op_archive := [] |} args Hs) as (_ & _ & S).
  destruct (S good bad rest Ea Hg) as [S1 _]. specialize (S1 Hb). unfold boss_main in E. destruct args as [|a args]; [destruct good; discriminate Ea|].
  rewrite S1 in E. assert (acts = [ABcast (b "X") (b "abort")] /\ e = Exited 1) as [-> ->] by (split; congruence). split; [reflexivity|].
  intros wopens ev rank Hr. unfold worker_node. destruct (Z.eqb_spec rank 0); [congruence|]. reflexivity.
Qed.
Print Assumptions C66_announced_partial.
Example C66_witness : boss_main 3 100 9 s_fs isort (fun _ => true) [b "archivefile=x"; b "bucket=3"; b "t"] = ([ABcast (b "X") (b "abort")], Exited 1).
Proof. vm_compute. reflexivity. Qed.
