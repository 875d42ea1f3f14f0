(** Concrete runs of the protocol, used as witnesses. *)
From Coq Require Import List Arith Lia Permutation Bool.
Import ListNotations.
From Verif Require Import Boss BossProofs BossMore.

Ltac adv H tac :=
  lazymatch type of H with
  | run ?N ?R ?o ?n ?s =>
      let X := fresh "X" in
      eassert (X : step N R o _ s _) by (tac; first [reflexivity | assumption | lia | cbn; lia]);
      apply (run_step _ _ _ _ _ _ _ H) in X; clear H; rename X into H;
      cbv [send_boss set_boss send recv unblock boss blocked inbox work rep log given init Nat.eqb Nat.add app] in H
  end.

(** three orders, three workers, executed in the given order *)
Lemma run_ascending okb : okb 0 = true -> okb 1 = true -> okb 2 = true ->
  exists n s, run 3 4 okb n s /\ boss s = BEnd /\ map snd (log s) = [0; 1; 2].
Proof.
  intros K0 K1 K2. pose proof (run_init 3 4 okb) as H.
  adv H ltac:(eapply (S_first 3 4 okb _ 0)).
  adv H ltac:(eapply (W_recv 3 4 okb _ 1 0 [])).
  adv H ltac:(eapply (S_first 3 4 okb _ 1)).
  adv H ltac:(eapply (W_recv 3 4 okb _ 2 1 [])).
  adv H ltac:(eapply (S_first 3 4 okb _ 2)).
  adv H ltac:(eapply (W_recv 3 4 okb _ 3 2 [])).
  adv H ltac:(eapply (S_first_all 3 4 okb _ 3)).
  adv H ltac:(eapply (W_exec 3 4 okb _ 1 0)).
  adv H ltac:(eapply (W_exec 3 4 okb _ 2 1)).
  adv H ltac:(eapply (W_exec 3 4 okb _ 3 2)).
  adv H ltac:(eapply (W_reply 3 4 okb _ 1)).
  adv H ltac:(eapply (W_reply 3 4 okb _ 2)).
  adv H ltac:(eapply (W_reply 3 4 okb _ 3)).
  adv H ltac:(eapply (S_collect 3 4 okb _ 0 1)).
  adv H ltac:(eapply (S_collect 3 4 okb _ 1 2)).
  adv H ltac:(eapply (S_collect 3 4 okb _ 2 3)).
  adv H ltac:(eapply (S_collect_end 3 4 okb _ 3)).
  eexists _, _. split; [exact H|]. split; reflexivity.
Qed.
Lemma run_descending okb : okb 0 = true -> okb 1 = true -> okb 2 = true ->
  exists n s, run 3 4 okb n s /\ boss s = BEnd /\ map snd (log s) = [2; 1; 0].
Proof.
  intros K0 K1 K2. pose proof (run_init 3 4 okb) as H.
  adv H ltac:(eapply (S_first 3 4 okb _ 0)).
  adv H ltac:(eapply (S_buffer 3 4 okb _ 1)).
  adv H ltac:(eapply (S_first 3 4 okb _ 1)).
  adv H ltac:(eapply (S_buffer 3 4 okb _ 2)).
  adv H ltac:(eapply (S_first 3 4 okb _ 2)).
  adv H ltac:(eapply (S_buffer 3 4 okb _ 3)).
  adv H ltac:(eapply (W_recv 3 4 okb _ 3 2 [])).
  adv H ltac:(eapply (W_exec 3 4 okb _ 3 2)).
  adv H ltac:(eapply (W_recv 3 4 okb _ 2 1 [])).
  adv H ltac:(eapply (W_exec 3 4 okb _ 2 1)).
  adv H ltac:(eapply (W_recv 3 4 okb _ 1 0 [])).
  adv H ltac:(eapply (W_exec 3 4 okb _ 1 0)).
  adv H ltac:(eapply (S_first_all 3 4 okb _ 3)).
  adv H ltac:(eapply (W_reply 3 4 okb _ 1)).
  adv H ltac:(eapply (W_reply 3 4 okb _ 2)).
  adv H ltac:(eapply (W_reply 3 4 okb _ 3)).
  adv H ltac:(eapply (S_collect 3 4 okb _ 0 3)).
  adv H ltac:(eapply (S_collect 3 4 okb _ 1 1)).
  adv H ltac:(eapply (S_collect 3 4 okb _ 2 2)).
  adv H ltac:(eapply (S_collect_end 3 4 okb _ 3)).
  eexists _, _. split; [exact H|]. split; reflexivity.
Qed.
(** three orders, one worker: the boss feeds it *)
Lemma run_single okb : okb 0 = true -> okb 1 = true ->
  exists n s, run 2 2 okb n s /\ boss s = BEnd /\ log s = [(1, 0); (1, 1)].
Proof.
  intros K0 K1. pose proof (run_init 2 2 okb) as H.
  adv H ltac:(eapply (S_first 2 2 okb _ 0)).
  adv H ltac:(eapply (W_recv 2 2 okb _ 1 0 [])).
  adv H ltac:(eapply (S_first_more 2 2 okb _ 1)).
  adv H ltac:(eapply (W_exec 2 2 okb _ 1 0)).
  adv H ltac:(eapply (W_reply 2 2 okb _ 1)).
  adv H ltac:(eapply (S_feed 2 2 okb _ 1 1)).
  adv H ltac:(eapply (W_taken 2 2 okb _ 1)).
  adv H ltac:(eapply (S_give 2 2 okb _ 1 1)).
  adv H ltac:(eapply (W_recv 2 2 okb _ 1 1 [])).
  adv H ltac:(eapply (W_exec 2 2 okb _ 1 1)).
  adv H ltac:(eapply (S_feed_end 2 2 okb _ 2)).
  adv H ltac:(eapply (W_reply 2 2 okb _ 1)).
  adv H ltac:(eapply (S_drain 2 2 okb _ 1 1)).
  adv H ltac:(eapply (S_drain_end 2 2 okb _ 2)).
  eexists _, _. split; [exact H|]. split; reflexivity.
Qed.
