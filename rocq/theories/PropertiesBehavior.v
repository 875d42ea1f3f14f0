(** C91, C92: the options of the benchmark program (parfu_behavior_control.c,
    parfu_bench_test_002.c). *)
From Verif Require Import Bytes Outcome LegacyCodec Behavior BehaviorSpec BehaviorProofs.
From Coq Require Import Lia.

(** C91, up to ten values of a kind and without -d and -L: the command line is
    taken and every value given is recorded, in the order given *)
Theorem C91_options_partial lim os : allowed lim os -> few os ->
  exists x, parse_arguments lim (concat (map written os)) = Ok (Some x) /\ asked os x.
Proof.
  intros A F. destruct (parse_after lim os [] A F) as (x & [I _] & E). rewrite app_nil_r in E.
  exists x. split; [exact E|exact I].
Qed.
Print Assumptions C91_options_partial.

(** a wrong piece after it, whatever follows, is refused *)
Theorem C91_rejects lim os w rest : allowed lim os -> few os -> wrong lim os w ->
  parse_arguments lim (concat (map written os) ++ w ++ rest) = Ok None.
Proof. apply refuses. Qed.
Print Assumptions C91_rejects.

(** refuted: the option for the target directory and the one for the data file
    write behind the memory allocated for their argument, and so does an
    eleventh archive, exponent or number of blocks *)
Theorem C91_refuted lim os c a rest : allowed lim os -> few os ->
  In c (b "dL") \/
  In c (b "fF") /\ length (args_of (b "fF") os) = 10%nat \/
  c = "e"%char /\ exp_lo lim <= atoi a <= exp_hi lim /\ length (args_of (b "e") os) = 10%nat \/
  c = "B"%char /\ bpf_lo lim <= atoi a <= bpf_hi lim /\ length (args_of (b "B") os) = 10%nat ->
  parse_arguments lim (concat (map written os) ++ [MINUS; c] :: a :: rest) = Err EUB.
Proof. intros A F [C|C]; [apply strings_ub|apply full_ub]; assumption. Qed.
Print Assumptions C91_refuted.

(** C92 refuted: whatever the arguments, the program never comes to its end
    with status 0: a name of an archive is stored without its NUL and printed *)
Theorem C92_refuted lim opens args l : bench_main lim opens args <> Ok (0, l).
Proof. apply never. Qed.
Print Assumptions C92_refuted.

(** what a correct command line gets: status 2 without C or X, 3 without an
    archive, 4 for X with several archives, and the undefined read otherwise *)
Theorem C92_status lim opens os : allowed lim os -> few os ->
  bench_main lim opens (concat (map written os)) =
    if (length (given (b "CX") os) =? 0)%nat then Ok (2, []) else
    if (length (args_of (b "fF") os) =? 0)%nat then Ok (3, []) else
    if (1 <? length (args_of (b "fF") os))%nat && existsb (fun o => beq (fst o) "X"%char) os then Ok (4, [])
    else Err EUB.
Proof.
  intros A F. destruct (parse_after lim os [] A F) as (x & [I _] & E). rewrite app_nil_r in E. cbn [getopt on_options] in E.
  pose proof (parse_bare _ _ _ E) as (_ & B0 & B1 & B2).
  destruct I as (Hm & _ & _ & _ & _ & _ & Hn & _).
  unfold bench_main. destruct (concat (map written os)) as [|w ws] eqn:W.
  - destruct os as [|[c a] os]; [reflexivity|]. exfalso. cbn [map concat] in W. unfold written in W. destruct (existsb _ _); discriminate W.
  - rewrite E. cbn [bind]. rewrite Hm, Hn. unfold zlen.
    assert (X : forall c a g, given (b "CX") os = (c, a) :: g -> g = [] /\ (c = "C"%char \/ c = "X"%char) /\ existsb (fun o => beq (fst o) "X"%char) os = beq c "X"%char).
    { intros c a g G. destruct A as (_ & _ & A2 & _). rewrite G in A2. destruct g; [|cbn in A2; lia]. split; [reflexivity|].
      assert (J : In (c, a) (given (b "CX") os)) by (rewrite G; left; reflexivity).
      apply filter_In in J. destruct J as [J0 J]. apply existsb_exists in J. destruct J as (y & Y & J). apply beq_spec in J. cbn in J. subst y.
      split; [cbn in Y; intuition|].
      destruct (beq c "X"%char) eqn:BX.
      - apply existsb_exists. exists (c, a). split; [exact J0|exact BX].
      - destruct (existsb _ os) eqn:EX; [|reflexivity]. apply existsb_exists in EX. destruct EX as ([d a'] & D & D').
        apply beq_spec in D'. cbn in D'. subst d.
        assert (K : In ("X"%char, a') (given (b "CX") os)) by (apply filter_In; split; [exact D|reflexivity]).
        rewrite G in K. destruct K as [K|[]]. injection K as K _. subst c. discriminate BX. }
    destruct (given (b "CX") os) as [|[c a] g] eqn:G; [reflexivity|].
    destruct (X c a g eq_refl) as (-> & C & ->). cbn [length Nat.eqb].
    assert (C' : negb (beq c "X"%char || beq c "C"%char) = false) by (clear - C; destruct C as [->| ->]; reflexivity). rewrite C'.
    destruct (length (args_of (b "fF") os)) as [|n] eqn:L; [reflexivity|]. cbn [Nat.eqb].
    rewrite (proj2 (Z.ltb_ge _ _)) by lia.
    replace (1 <? Z.of_nat (S n)) with (1 <? S n)%nat by (destruct (Nat.ltb_spec 1 (S n)), (Z.ltb_spec 1 (Z.of_nat (S n))); reflexivity || lia).
    rewrite andb_comm. destruct (_ && _); [reflexivity|].
    rewrite B1. cbn [bind negb]. rewrite Nat2Z.id. cbn [print_names].
    destruct B2 as [s Hs]; [rewrite Hn; unfold zlen; rewrite L; lia|]. rewrite Hs. reflexivity.
Qed.
Print Assumptions C92_status.

(** and without arguments, or with a wrong piece, the program ends with status 2 *)
Theorem C92_usage lim opens : bench_main lim opens [] = Ok (2, []) /\
  (forall os w rest, allowed lim os -> few os -> wrong lim os w ->
     bench_main lim opens (concat (map written os) ++ w ++ rest) = Ok (2, [])).
Proof.
  split; [reflexivity|]. intros os w rest A F W. pose proof (refuses lim os w rest A F W) as R.
  unfold bench_main. destruct (concat (map written os) ++ w ++ rest) eqn:E; [reflexivity|]. rewrite R. reflexivity.
Qed.
Print Assumptions C92_usage.

(** a command line: -C -f a.pfu -F b.pfu -e 12 -e 20 -N 3 -T *)
Definition lim0 : limits := {| exp_lo := 9; exp_hi := 26; bpf_lo := 1; bpf_hi := 1000000 |}.
Definition cmd : list (byte * bytes) :=
  [("C"%char, []); ("f"%char, b "a.pfu"); ("F"%char, b "b.pfu"); ("e"%char, b "12"); ("e"%char, b "20"); ("N"%char, b "3"); ("T"%char, [])].
Ltac all_of := apply Forall_forall; intros ? Ho; cbn in Ho; repeat (destruct Ho as [<-|Ho]); try contradiction.
Lemma cmd_ok : allowed lim0 cmd /\ few cmd.
Proof.
  split.
  - unfold allowed. split; [all_of; cbn; tauto|]. split.
    { all_of; cbn; intros H; try reflexivity; exfalso; revert H; clear; intros H; repeat (destruct H as [H|H]); try contradiction; discriminate H. }
    split; [cbn; lia|]. split; [cbn; lia|]. split; [|split]; all_of; vm_compute; split; discriminate.
  - unfold few. cbn. lia.
Qed.
Example C91_witness : exists x, parse_arguments lim0 (concat (map written cmd)) = Ok (Some x) /\
  b_mode x = "C"%char /\ b_narcs x = 2 /\ b_overwrite x = true /\ b_iters x = 3 /\ b_trial x = true /\
  firstn 3 (b_exps x) = [Some 12; Some 20; None].
Proof. eexists. split; [vm_compute; reflexivity|]. repeat split. Qed.
Example C91_rejects_witness : wrong lim0 cmd [b "-X"] /\ wrong lim0 cmd [b "-N"; b "4"] /\ wrong lim0 cmd [b "-e"; b "8"] /\ wrong lim0 cmd [b "-Z"].
Proof.
  split; [apply (wrong_mode lim0 cmd "X"%char); [cbn; tauto|discriminate]|].
  split; [apply (wrong_again lim0 cmd); discriminate|].
  split; [apply (wrong_exponent lim0 cmd); vm_compute; intuition congruence|].
  apply (wrong_letter lim0 cmd "Z"%char); [|discriminate]. cbn. intuition discriminate.
Qed.
(** ten archives, then one more *)
Definition ten : list (byte * bytes) := repeat ("f"%char, b "a.pfu") 10.
Example C91_refuted_witness : allowed lim0 ten /\ few ten /\ length (args_of (b "fF") ten) = 10%nat /\
  parse_arguments lim0 (concat (map written ten)) <> Err EUB /\
  parse_arguments lim0 (concat (map written ten) ++ [b "-f"; b "b.pfu"]) = Err EUB.
Proof.
  split. { unfold allowed. split; [all_of; cbn; tauto|]. split.
    { all_of; cbn; intros H; try reflexivity; exfalso; revert H; clear; intros H; repeat (destruct H as [H|H]); try contradiction; discriminate H. }
    cbn. repeat split; try lia; constructor. }
  split; [unfold few; cbn; lia|]. split; [reflexivity|]. split; [vm_compute; discriminate|vm_compute; reflexivity].
Qed.
Example C92_witness : bench_main lim0 (fun _ => true) (concat (map written cmd)) = Err EUB /\
  bench_main lim0 (fun _ => true) (concat (map written [("T"%char, [])])) = Ok (2, []) /\
  bench_main lim0 (fun _ => true) [b "-X"; b "-f"; b "a"; b "-f"; b "b"] = Ok (4, []).
Proof. repeat split; vm_compute; reflexivity. Qed.
