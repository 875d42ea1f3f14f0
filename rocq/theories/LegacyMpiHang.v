(** Ranks of the 0.5.1 program that never return (LegacyMpi.v). *)
From Coq Require Import Lia Permutation Sorted.
From Verif Require Import Bytes Outcome TarModel Layout Mover Worker Boss Spider Program Legacy LegacyLayout LegacyScan LegacyCodec LegacyWrite LegacyCreate Mpi LegacyMpi LegacyMpiSpec LegacyMpiProofs LegacyMpiMore LegacyMpiEnd LegacyMpiWhole LegacyMpiRun.
Local Open Scope nat_scope.

Lemma gone_endp opens H p : gone p -> endp opens H p = p /\ items opens H p = [].
Proof. destruct p; cbn; try contradiction; auto. Qed.

Section Hang.
Context (R fuel : nat) (fs : fsys) (sort : list lent -> list lent) (clock : Z -> Z) (ev : env) (opens : bytes -> bool) (args : list bytes)
  (HR : 1 <= R) (HA : Forall (no_byte NUL) args).
Let p := lmain R fuel fs sort clock ev args.
Let H := bc opens (p 0).
Let HM : matched R opens p H := main_matched R fuel fs sort clock ev opens args HR HA.

(** rank 0 makes no call at all: no other rank gets past its first one *)
Lemma alone n s r : H = [] -> lrun R opens p n s -> r < R -> (exists c, joint (p r) = Some c) \/ (exists w k, p r = LFetch w k) -> ~ gone (l_prog s r).
Proof.
  intros E Hrun Hr Hp Hg. pose proof (good_run R opens p H HM n s Hrun) as G. pose proof (g_seen _ _ _ _ _ G r Hr) as S. pose proof (g_most _ _ _ _ _ G) as M. rewrite E in M. cbn [length] in M.
  assert (S0 : l_seen s r = 0) by lia. destruct (g_split _ _ _ _ _ G r Hr) as (d & D1 & D2 & _). pose proof (g_end _ _ _ _ _ G r Hr) as E2.
  destruct (gone_endp opens (skipn (l_seen s r) H) _ Hg) as [X1 X2]. rewrite X1 in E2. rewrite X2, app_nil_r in D1. rewrite S0 in D2.
  destruct Hp as [(c & J)|(w & k & Ek)].
  - rewrite (items_call opens H _ _ (joint_first _ _ J)) in D1. subst d. discriminate D2.
  - rewrite Ek, E in E2. cbn [endp] in E2. rewrite E2 in Hg. destruct Hg.
Qed.
End Hang.

Lemma unknown_hang R fuel fs sort clock ev opens c rest a1 a2 more n s r : Forall (no_byte NUL) ((c :: rest) :: a1 :: a2 :: more) -> ~ In c ["C"; "X"; "T"]%char ->
  lrun R opens (lmain R fuel fs sort clock ev ((c :: rest) :: a1 :: a2 :: more)) n s -> 1 <= r < R -> ~ gone (l_prog s r).
Proof.
  intros HA Hc Hrun Hr. assert (N : forall x, In x ["C"; "X"; "T"]%char -> beq c x = false) by (intros x Hx; apply beq_neq; congruence).
  assert (E : forall q, lmain R fuel fs sort clock ev ((c :: rest) :: a1 :: a2 :: more) q = if q =? 0 then LReturn (-2) else LFinal (LReturn 0)).
  { intros q. unfold lmain, legacy_main. cbn [length Nat.ltb Nat.leb Nat.eqb orb andb]. rewrite (N "C"%char), (N "X"%char), (N "T"%char) by (cbn; auto). destruct q; reflexivity. }
  apply (alone R fuel fs sort clock ev opens _ ltac:(lia) HA n s r); auto; [rewrite E; reflexivity|lia|].
  left. exists KFinal. rewrite E. destruct (Nat.eqb_spec r 0); [lia|reflexivity].
Qed.
Lemma listing_hang R fuel fs sort clock ev opens rest arc top more n s r : Forall (no_byte NUL) (("C"%char :: rest) :: arc :: top :: more) ->
  (forall es, list_directory fuel fs top <> Ok (Some es)) ->
  lrun R opens (lmain R fuel fs sort clock ev (("C"%char :: rest) :: arc :: top :: more)) n s -> 1 <= r < R -> ~ gone (l_prog s r).
Proof.
  intros HA Hl Hrun Hr. apply (alone R fuel fs sort clock ev opens _ ltac:(lia) HA n s r); auto; [|lia|].
  - rewrite main_create. cbn [Nat.eqb]. destruct (list_directory fuel fs top) as [[es|]|e]; [destruct (Hl es eq_refl)|reflexivity..].
  - right. rewrite main_create. destruct (Nat.eqb_spec r 0); [lia|]. unfold create_other. eauto.
Qed.

(** one rank's part fails: a rank whose part works never returns *)
Section Part.
Context (R fuel : nat) (fs : fsys) (sort : list lent -> list lent) (clock : Z -> Z) (ev : env) (opens : bytes -> bool) (rest arc top : bytes) (more : list bytes)
  (HR : 1 <= R) (Hn : no_byte NUL arc) (Hrest : Forall (no_byte NUL) (("C"%char :: rest) :: arc :: top :: more)).
Let p := lmain R fuel fs sort clock ev (("C"%char :: rest) :: arc :: top :: more).
Let H := bc opens (p 0).
Let HM : matched R opens p H := main_matched R fuel fs sort clock ev opens (("C"%char :: rest) :: arc :: top :: more) HR Hrest.
Definition eleven (D : Z) (text : bytes) (starts : list Z) : list lcall :=
  [KBcast (KInt (zlen arc + 1)); KBcast (KText (arc ++ [NUL])); KBarrier; KBcast (KInt (zlen arc)); KBcast (KText (arc ++ [NUL])); KOpen arc;
   KBcast (KLong D); KBcast (KLong (zlen text)); KBcast (KText text); KBcast (KInt (zlen starts)); KBcast (KInts starts)].
Lemma other_end D text starts r ws H' : opens arc = true -> (zlen text <= INT_MAX)%Z -> rank_part L_BLOCK L_BUCKET D clock ev text starts (Z.of_nat R) (Z.of_nat r) = Ok (Some ws) ->
  endp opens (eleven D text starts ++ H') (create_other L_BUCKET clock ev R r) = LReturn 0.
Proof.
  intros Ho Ht Hr. unfold create_other, eleven. cbn [app endp tl text_of int_of ints_of]. rewrite cstr_app_nul by auto. rewrite Ho. cbn [negb endp int_of].
  assert (Hc : forall k, count_of (zlen text) k = k) by (intros k; unfold count_of; destruct (Z.ltb_spec INT_MAX (zlen text)); [lia|reflexivity]). rewrite Hc. cbn [endp text_of].
  assert (Hb : exists y, buffer_to_list text false = Ok (Some y)).
  { unfold rank_part in Hr. destruct (buffer_to_list text false) as [[y|]|e]; cbn [bind] in Hr; try discriminate Hr. eauto. }
  destruct Hb as (y & Hb). rewrite Hb. cbn [step_of endp int_of ints_of].
  pose proof (part_shape opens L_BUCKET D clock ev R r arc text starts y H' Hb) as S. rewrite Hr in S. apply S.
Qed.
Lemma root_calls es' ws0 D text starts r ws : prologue L_BLOCK L_BUCKET L_PAD clock (sort es') = Ok (Some (ws0, D, text, starts)) -> (zlen text <= INT_MAX)%Z -> opens arc = true -> arc <> [] ->
  rank_part L_BLOCK L_BUCKET D clock ev text starts (Z.of_nat R) (Z.of_nat r) = Ok (Some ws) ->
  exists H', bc opens (create0 L_BUCKET L_PAD clock ev R arc (sort es')) = eleven D text starts ++ H'.
Proof.
  intros Hp Ht Ho Ha Hr. unfold prologue in Hp. unfold create0, writer0.
  destruct (list_to_buffer (sort es') (wrap32 L_BUCKET) true) as [[cat|]|e]; cbn [bind step_of] in *; try discriminate Hp.
  destruct (compute_hdr_size (b ".parfu_catalog") [] (zlen cat)) as [h|e]; cbn [bind value_of] in *; try discriminate Hp.
  destruct (L_BUCKET =? 0)%Z; [discriminate Hp|].
  destruct (set_offsets_and_split L_BLOCK L_BUCKET L_PAD (sort es')) as [[[[es2 fs2] nb]|]|e]; cbn [bind step_of fst snd] in *; try discriminate Hp.
  destruct (list_to_buffer fs2 (wrap32 L_BUCKET) false) as [[text'|]|e]; cbn [bind step_of] in *; try discriminate Hp.
  destruct (rank_call_list fs2) as [[starts'|]|e]; cbn [bind step_of] in *; try discriminate Hp.
  destruct (check_calls fs2 0 starts') as [[|]|e]; cbn [bind check_of] in *; try discriminate Hp. injection Hp as _ <- <- <-.
  assert (Hl : (zlen arc <? 1)%Z = false) by (clear -Ha; destruct arc as [|x arc0]; [contradiction|]; apply Z.ltb_ge; rewrite zlen_cons; pose proof (zlen_nonneg arc0); lia).
  assert (Hc : forall k, count_of (zlen text') k = k) by (intros k; unfold count_of; destruct (Z.ltb_spec INT_MAX (zlen text')); [lia|reflexivity]).
  rewrite Hl, Hc. assert (Hb : exists y, buffer_to_list text' false = Ok (Some y)).
  { unfold rank_part in Hr. destruct (buffer_to_list text' false) as [[y|]|e]; cbn [bind] in Hr; try discriminate Hr. eauto. }
  destruct Hb as (y & Hb). rewrite Hb. cbn [step_of]. rewrite !bc_cast, bc_bar, !bc_cast, bc_open, Ho. cbn [negb]. rewrite !bc_writes, !bc_cast. eexists. reflexivity.
Qed.
Lemma part_hang es es' ws0 D text starts r q ws n s : list_directory fuel fs top = Ok (Some es) -> fill_rels top es = Ok es' ->
  prologue L_BLOCK L_BUCKET L_PAD clock (sort es') = Ok (Some (ws0, D, text, starts)) -> (zlen text <= INT_MAX)%Z -> opens arc = true -> arc <> [] ->
  r < R -> q < R -> (forall ws, rank_part L_BLOCK L_BUCKET D clock ev text starts (Z.of_nat R) (Z.of_nat r) <> Ok (Some ws)) ->
  rank_part L_BLOCK L_BUCKET D clock ev text starts (Z.of_nat R) (Z.of_nat q) = Ok (Some ws) -> lrun R opens p n s -> ~ gone (l_prog s q).
Proof.
  intros E1 E2 E3 Ht Ho Ha Hr Hq Hbad Hok Hrun Hg. pose proof (good_run R opens p H HM n s Hrun) as G.
  assert (Ep : p 0 = create0 L_BUCKET L_PAD clock ev R arc (sort es')) by (unfold p; rewrite main_create; cbn [Nat.eqb]; rewrite E1, E2; reflexivity).
  assert (E : endp opens H (p q) = LReturn 0).
  { destruct q as [|q].
    - rewrite Ep. exact (proj2 (boss_shape opens L_BUCKET L_PAD clock ev R arc (sort es') ws0 D text starts ws H E3 Hok Ht Ho Ha)).
    - unfold H. rewrite Ep. destruct (root_calls es' ws0 D text starts (S q) ws E3 Ht Ho Ha Hok) as (H' & ->).
      unfold p. rewrite main_create. cbn [Nat.eqb]. eapply other_end; eauto. }
  pose proof (g_end _ _ _ _ _ G q Hq) as E4. destruct (gone_endp opens (skipn (l_seen s q) H) _ Hg) as [X1 _]. rewrite X1, E in E4.
  destruct (returned_final R fuel fs sort clock ev opens rest arc top more HR Hrest n s q Hrun Hq E4) as (i & Hi & Hf).
  destruct (final_works R fuel fs sort clock ev opens rest arc top more HR Hn i q s G Hq Hi Hf) as (ws0' & D' & text' & starts' & part & es0 & es0' & F1 & F2 & F3 & F4 & _).
  rewrite E1 in F1. injection F1 as <-. rewrite E2 in F2. injection F2 as <-. rewrite E3 in F3. injection F3 as <- <- <- <-. exact (Hbad _ (F4 r Hr)).
Qed.
End Part.
