(** C79, exactly: the trees whose run ends are those whose bundles can be moved. *)
From Coq Require Import Permutation Lia.
From Verif Require Import Bytes Outcome TarSpec TarModel TarProofs TarMore Layout LayoutSpec LayoutProofs LayoutMore OrderCodec OrderCodecProofs OrderMore
  Mover MoverSpec MoverProofs MoverMore Worker WorkerProofs Assemble AssembleProofs Boss BossProofs BossMore
  Spider SpiderSpec SpiderProofs SpiderMore Args ArgsSpec ArgsProofs Program ProgramProofs EndSpec EndProofs EndMore WholeSpec Whole Mpi MpiProofs MpiBound MpiSpec MpiEnd MpiMore.
Local Open Scope nat_scope.

(** *** programs that never finish *)
Inductive endless : prog -> Prop :=
| el_cast p k : endless k -> endless (PCast p k)
| el_open p k : endless k -> endless (POpen p k)
| el_send r p k : endless k -> endless (PSend r p k)
| el_recv k : (forall t, endless (k t)) -> endless (PRecv k)
| el_final k : endless k -> endless (PFinal k)
| el_stop e : e <> Finished -> endless (PStop e).
Lemma endless_run R opens ev p n s : endless p -> mrun R opens ev p n s -> endless (m_prog s).
Proof.
  intros Hp. induction 1 as [|n s s' m H IH St]; [exact Hp|].
  inversion St; subst; try exact IH; try (rewrite H0 in IH; inversion IH; subst; auto; fail).
  all: cbn [on_recv m_prog]; match goal with |- endless (PStop _) => constructor; discriminate | _ => idtac end.
  all: match goal with X : m_prog _ = PRecv _ |- _ => rewrite X in IH; inversion IH as [| | |k' Hk'| |]; auto end.
Qed.
Lemma endless_send r l t k : endless k -> endless (send_order r l t k).
Proof. intros H. unfold send_order. destruct (frame l t) as [[? ?]|]; repeat constructor; auto; discriminate. Qed.
Lemma endless_long r t k : (INT_MAX < zlen t + 2)%Z -> endless (send_order r (b "C") t k).
Proof. intros H. unfold send_order. destruct (frame_long t H) as (e & ->). constructor. discriminate. Qed.
Lemma endless_cast l t k : endless k -> endless (cast_order l t k).
Proof. intros H. unfold cast_order. destruct (frame l t) as [[? ?]|]; repeat constructor; auto; discriminate. Qed.
Lemma endless_feed R k t ts : In t ts -> (INT_MAX < zlen t + 2)%Z -> endless (feed R ts k).
Proof.
  intros Hin Ht. induction ts as [|t' ts IH]; [destruct Hin|]. cbn [feed]. constructor. intros x. destruct (stoi (cstr x)); [|constructor; discriminate].
  destruct (_ && _); [|constructor; discriminate]. destruct Hin as [->|Hin]; [apply endless_long, Ht|apply endless_send, IH, Hin].
Qed.
Lemma endless_first R N t ts : In t ts -> (INT_MAX < zlen t + 2)%Z -> forall r k, endless (first R N r ts k).
Proof.
  intros Hin Ht. induction ts as [|t' ts IH]; [destruct Hin|]. intros r k. cbn [first]. destruct (Nat.ltb r R); [|apply (endless_feed R _ t); auto].
  destruct Hin as [->|Hin]; [apply endless_long, Ht|apply endless_send, IH, Hin].
Qed.
Lemma endless_sends R (g : nat -> act) l acts e : (forall r, exists x y z, g r = ASend x y z) -> endless (program R acts e) -> endless (program R (map g l ++ acts) e).
Proof.
  intros Hg H. induction l as [|r l IH]; [exact H|]. cbn [map app]. destruct (Hg r) as (x & y & z & ->). cbn [program]. apply endless_send, IH.
Qed.
Lemma long_endless R o base bs : ~ texts_fit bs -> endless (program R (created R o base bs) Finished).
Proof.
  intros H. assert (E : exists t, In t (map print_bundle bs) /\ (INT_MAX < zlen t + 2)%Z).
  { destruct (Exists_dec (fun B => (INT_MAX < zlen (print_bundle B) + 2)%Z) bs) as [X|X].
    - intros B. apply Z_lt_dec.
    - apply Exists_exists in X as (B & HB & X). exists (print_bundle B). split; auto. apply in_map, HB.
    - exfalso. apply H. intros B HB. rewrite <- Forall_Exists_neg, Forall_forall in X. specialize (X B HB). lia. }
  destruct E as (t & Hin & Ht). unfold created. cbn [app program]. apply endless_cast, endless_cast. constructor. apply endless_cast.
  apply endless_sends; [intros r; eauto|]. cbn [program]. unfold push_out. apply (endless_first R _ t); auto.
Qed.

Lemma exact_lemma R junk fs sort args o base t ev dk cc : 2 <= R -> (Z.of_nat R <= INT_MAX)%Z -> Forall usable args ->
  parse_args {| op_bucket := DEFAULT_BUCKET_SIZE; op_maxo := junk; op_archive := [] |} args = Ok (Some (o, [base])) ->
  op_archive o <> [] -> dk (op_archive o) = None -> cc (op_archive o) = true -> (100000 <= op_bucket o <= INT_MAX)%Z ->
  (forall l, order_files l (sort l)) -> quiet_heap fs -> base <> [] -> is_dir_node t -> wf_node t -> shows fs base t -> short_paths base t -> tab_free t ->
  (forall p n, at_path t p n -> archivable n -> still ev base p n) ->
  (forall p n, at_path t p n -> is_dir_node n -> p <> [] -> slash_safe (node_path base p)) ->
  exists f0, forall fuel, f0 <= fuel -> exists acts bs, boss_main R junk fuel fs sort (excl_ok dk cc) args = (acts, Finished) /\
  plan fuel fs sort base (op_bucket o) (op_maxo o) = Ok (Some bs) /\
  let p := program R acts Finished in let opens := excl_ok dk cc in
  (Forall (movable (op_bucket o)) bs ->
    (forall n s, mrun R opens ev p n s -> n <= (4 * length bs + 5 * R + 6) * (4 * R + 2) + R /\ ~ mpi_error R s /\ ~ crashed R s /\
       (forall q, q <> op_archive o -> disk_after dk (m_log s) q = dk q) /\
       (ended R s \/ exists s', mstep R opens ev True s s') /\ (exists s', mleads R opens ev s s' /\ ended R s')) /\
    (forall n s, mrun R opens ev p n s -> ended R s -> exists x, disk_after dk (m_log s) (op_archive o) = Some x /\
       forall a, concretises a x -> exists ms nodes, tar_list a = Some ms /\
         NoDup (map fst nodes) /\ (forall q m, In (q, m) nodes <-> at_path t q m /\ archivable m) /\
         Forall2 (fun pn m => describes ev base (fst pn) (snd pn) m) nodes ms)) /\
  (~ Forall (movable (op_bucket o)) bs -> forall n s, mrun R opens ev p n s -> m_prog s <> PStop Finished).
Proof.
  intros HR HRm Hu Hpa Hne Hdk Hcc Hbk Hs Hq Hb Hd Hw Hsh Hsm Htab Hst Hsl.
  assert (Hane : args <> []) by (intros ->; discriminate Hpa).
  pose proof (bucket_aligned junk args o base Hu Hpa) as Hbm.
  destruct (parse_good _ _ _ _ Hpa) as (U1 & U2 & _); auto; [apply usable_nil|vm_compute; split; [discriminate|reflexivity]|]. inversion U2 as [|? ? U3 _]; subst. clear U2.
  assert (Hbn : no_byte NUL base) by apply U3.
  destruct (scan_lemma fs base t Hq Hb Hd Hw Hsh) as (dirs & files & (f0 & Hf) & _).
  exists f0. intros fuel Hfuel.
  destruct (plan_ok fuel fs sort base t (op_bucket o) (op_maxo o) Hs Hq Hb Hd Hw Hsh Hsm (proj1 Hbk) Hbm dirs files (Hf fuel Hfuel)) as (d & f & bs & _ & Hpl & _).
  assert (Hop : excl_ok dk cc (op_archive o) = true) by (unfold excl_ok; rewrite Hdk; exact Hcc).
  assert (Hbm_eq : boss_main R junk fuel fs sort (excl_ok dk cc) args = (created R o base bs, Finished)).
  { rewrite (boss_main_eq R junk fuel fs sort (excl_ok dk cc) args o base Hane Hpa Hne), Hpl, Hop. reflexivity. }
  exists (created R o base bs), bs. split; [exact Hbm_eq|]. split; [exact Hpl|].
  destruct (tree_ready fuel fs sort base t ev (op_bucket o) (op_maxo o) bs Hpl Hs Hb Hbn Hd Hw Hsh Hsm Htab (proj1 Hbk) Hbm Hst Hsl)
    as (dirs' & files' & d' & f' & Hsc & Hso & Hc & Hp & Hplain & Hun & _ & _ & _).
  assert (X : forall k B, nth_error bs k = Some B -> (succeeds (jobs ev (op_bucket o) (op_archive o) base bs k) = true <-> movable (op_bucket o) B)).
  { intros k B HB. eapply jobs_exact; eauto. vm_compute. split; discriminate. }
  cbv zeta. split.
  - intros Hm. assert (Hok : forall k, (k < length bs)%nat -> succeeds (jobs ev (op_bucket o) (op_archive o) base bs k) = true).
    { intros k Hk. destruct (nth_error bs k) as [B|] eqn:En; [|apply nth_error_None in En; lia]. apply (X k B En). apply (proj2 (forall_nth _ _) Hm k B En). }
    destruct (run_lemma R (excl_ok dk cc) ev o base bs dk HR HRm U1 U3 Hbk Hop Hdk Hok) as [A B]. split; [exact A|].
    intros n s H E. destruct (B n s H E) as (c & k & Hrun & Hend & Hdisk). eexists. split; [exact Hdisk|]. intros a Ha.
    assert (HR1 : 1 <= R) by lia.
    exact (C19_lemma fuel fs sort base t ev (op_bucket o) (op_maxo o) bs (op_archive o) R k c a Hpl Hs Hb Hbn Hd Hw Hsh Hsm Htab (proj1 Hbk) Hbm Hst Hsl HR1 Hrun Hend Ha).
  - intros Hm n s Hrun E. destruct (Forall_dec (fun B => (zlen (print_bundle B) + 2 <= INT_MAX)%Z) (fun B => Z_le_dec _ _) bs) as [Hfit|Hlong].
    + assert (Hf' : texts_fit bs) by (intros B HB; rewrite Forall_forall in Hfit; apply Hfit, HB).
      apply Hm, forall_nth. intros k B En. apply (X k B En).
      assert (Hk : k < length bs) by (apply nth_error_Some; rewrite En; discriminate).
      destruct (succeeds (jobs ev (op_bucket o) (op_archive o) base bs k)) eqn:Ek; auto. exfalso.
      assert (HR1 : 1 <= R) by lia. assert (Hb0 : (0 < op_bucket o)%Z) by lia. assert (Hb1 : (100000 <= op_bucket o < 2 ^ 64)%Z) by (unfold INT_MAX in *; lia).
      pose proof (fit_texts bs Hf') as F1. pose proof (fit_U _ Hb1) as F2. pose proof (fit_letter (b "A") _ eq_refl U1) as F3. pose proof (fit_letter (b "P") _ eq_refl U3) as F4.
      exact (failed_hangs R (excl_ok dk cc) ev (op_bucket o) (op_archive o) base bs HR1 HRm Hb0 F1 F2 F3 F4 (proj1 U1) Hbn Hop n s k Hrun Hk Ek E).
    + assert (Hl : ~ texts_fit bs) by (intros Y; apply Hlong, Forall_forall; exact Y).
      pose proof (endless_run R (excl_ok dk cc) ev _ n s (long_endless R o base bs Hl) Hrun) as Y. rewrite E in Y. inversion Y. congruence.
Qed.
