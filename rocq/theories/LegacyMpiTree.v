(** From a tree to the archive on disk, over every run of the 0.5.1 ranks (LegacyMpi.v). *)
From Coq Require Import Lia Permutation Sorted.
From Verif Require Import Bytes Outcome TarSpec TarModel Layout Mover MoverSpec Worker Boss Spider SpiderSpec Program EndSpec Legacy LegacyProofs LegacyLayout LegacyScan LegacyCodec LegacyWrite LegacyEndSpec LegacyCreate
  PropertiesLegacyScan LegacyTreeSpec LegacyCreateProofs LegacyTotal Mpi LegacyMpi LegacyMpiSpec LegacyMpiProofs LegacyMpiMore LegacyMpiEnd LegacyMpiWhole LegacyMpiRun.

Lemma legacy_whole M R fs sort clock ev opens rest arc top more t nodes dk :
  (1 <= R)%nat -> Forall (no_byte NUL) (("C"%char :: rest) :: arc :: top :: more) -> arc <> [] -> opens arc = true ->
  (forall l, Permutation l (sort l) /\ StronglySorted (fun x y => compare_entries x y <= 0) (sort l)) ->
  top <> [] -> ends_with_slash top = false -> no_byte TAB top -> wf_node t -> is_dir_node t -> shows fs top t -> tab_free t ->
  (forall p n, reached t p n -> still ev top p n) -> manageable top t -> names_to M top t -> (forall p, Forall plain p -> ~ at_path t p NLocked) ->
  NoDup (map fst nodes) -> (forall p n, In (p, n) nodes <-> reached t p n) -> few_enough M nodes ->
  exists f0, forall fuel, (f0 <= fuel)%nat -> let p := lmain R fuel fs sort clock ev (("C"%char :: rest) :: arc :: top :: more) in
  (forall n s, lrun R opens p n s -> exists s', lleads R opens s s' /\ all_zero R s') /\
  (forall n s r, lrun R opens p n s -> (r < R)%nat -> l_prog s r = LReturn 0 -> exists ar cat, disk_after dk (l_log s) arc = Some ar /\
     zlen cat <= (M + 167) * zlen nodes + 55 /\ ((1024 + zlen cat) mod L_BUCKET <> 0 -> forall a, concretises a ar ->
     exists mc ms nodes', tar_list a = Some (mc :: ms) /\ is_catalog cat mc /\ NoDup (map fst nodes') /\ (forall q m, In (q, m) nodes' <-> reached t q m) /\
       interspersed (fun pn m => describes ev top (fst pn) (snd pn) m) is_spacer nodes' ms)).
Proof.
  intros HR HA Harc Hop Hsort H1 H2 H4 Hw Hd Hsh Htf Hst Hman Hshort Hlock Hnd Hin Hlen.
  assert (Hn : no_byte NUL arc) by (inversion HA as [|? ? _ HA1]; inversion HA1; auto).
  assert (H3 : no_byte NUL top) by (inversion HA as [|? ? _ HA1]; inversion HA1 as [|? ? _ HA2]; inversion HA2; auto).
  destruct (create_any M fs clock ev top t nodes) as (f0 & A); auto.
  exists f0. intros fuel Hf p. destruct (A fuel Hf) as (es & E1 & B).
  assert (E2 : fill_rels top es = Ok (map (fill_rel top) es)) by (unfold fill_rels; destruct top; [congruence|reflexivity]).
  destruct (Hsort (map (fill_rel top) es)) as [S1 S2].
  destruct (B _ S1 S2) as (_ & _ & _ & C). destruct (C R) as (ws0 & D & text & starts & C1 & C2 & C3).
  destruct (pick (fun r ws => rank_part L_BLOCK L_BUCKET D clock ev text starts (Z.of_nat R) (Z.of_nat r) = Ok (Some ws)) [] R) as (part & Hpart).
  { intros r Hr. apply C3. lia. }
  assert (Hwk : works R fuel fs sort clock ev opens arc top ws0 D text starts part).
  { exists es, (map (fill_rel top) es). split; [exact E1|]. split; [exact E2|]. split; [exact C1|]. split; [exact Hpart|]. split; [exact C2|]. split; [exact Hop|exact Harc]. }
  split.
  - intros n s Hrun. apply (leads_done R opens p _ (main_matched R fuel fs sort clock ev opens _ HR HA) n s Hrun). eapply works_even; eauto.
  - intros n s r Hrun Hr Er.
    destruct (works_archive R fuel fs sort clock ev opens rest arc top more HR Hn HA Hsort n s r ws0 D text starts part dk Hrun Hr Er Hwk) as (l & ar & Hcr & Hdk).
    pose proof Hcr as Hcr'. inversion Hcr' as [es0 es0' l0 ar0 X1 X2 X3 X4 X5]; subst. rewrite E1 in X1. injection X1 as <-. rewrite E2 in X2. injection X2 as <-.
    destruct (B l X3 X4) as (Zl & Tl & (cat & Ec & Lc) & _). exists ar, cat. split; [exact Hdk|]. split; [exact Lc|]. intros Hmod a Ha.
    apply (create_lemma fuel fs clock ev top t R (before dk arc) l ar a cat); auto; destruct Hlen as (L1 & L2 & _); lia.
Qed.
