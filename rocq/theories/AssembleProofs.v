(** Lemmas behind C20: disjoint writes commute. *)
From Coq Require Import Permutation.
From Verif Require Import Bytes Outcome TarModel Layout LayoutSpec LayoutProofs LayoutMore OrderCodec OrderCodecProofs OrderMore
  Mover MoverSpec MoverProofs Worker WorkerProofs Assemble.

Definition covers (w : wr) (p : Z) : Prop := w_pos w <= p < w_pos w + w_len w.
Lemma covers_dec w p : {covers w p} + {~ covers w p}.
Proof. unfold covers. destruct (Z_le_dec (w_pos w) p), (Z_lt_dec p (w_pos w + w_len w)); [left|right..]; lia. Defined.

Lemma write_in a w p : covers w p -> ar_cell (write_at a w) p = w_mem w (p - w_pos w).
Proof. unfold covers. intros H. cbn. destruct (Z.leb_spec (w_pos w) p), (Z.ltb_spec p (w_pos w + w_len w)); cbn [andb]; auto; lia. Qed.
Lemma write_out a w p : ~ covers w p -> ar_cell (write_at a w) p = ar_cell a p.
Proof. unfold covers. intros H. cbn. destruct (Z.leb_spec (w_pos w) p), (Z.ltb_spec p (w_pos w + w_len w)); cbn [andb]; auto; lia. Qed.

Section Commute.
Context (w : nat -> option wr).
Definition apply_one (a : archive) (o : nat) : archive := match w o with Some x => write_at a x | None => a end.

Lemma fold_cell_out os : forall a p, (forall o x, In o os -> w o = Some x -> ~ covers x p) ->
  ar_cell (fold_left apply_one os a) p = ar_cell a p.
Proof.
  induction os as [|o os IH]; intros a p H; cbn [fold_left]; auto. rewrite IH by (intros; eapply H; eauto; right; auto).
  unfold apply_one. destruct (w o) eqn:E; auto. apply write_out. eapply H; eauto. left; auto.
Qed.
Lemma fold_cell_in os : forall a p o x, NoDup os -> In o os -> w o = Some x -> covers x p ->
  (forall o' x', In o' os -> o' <> o -> w o' = Some x' -> ~ covers x' p) ->
  ar_cell (fold_left apply_one os a) p = w_mem x (p - w_pos x).
Proof.
  induction os as [|o0 os IH]; intros a p o x Hn Hi Hw Hc Ho; [destruct Hi|]. inversion Hn; subst. cbn [fold_left]. destruct Hi as [->|Hi].
  - rewrite fold_cell_out. { unfold apply_one. rewrite Hw. apply write_in. auto. }
    intros o' x' I' W'. apply (Ho o' x'); auto; [right; auto|]. intros ->. contradiction.
  - eapply IH; eauto. intros. eapply Ho; eauto. right; auto.
Qed.
Definition reach (o : nat) : Z := match w o with Some x => if w_len x =? 0 then 0 else w_pos x + w_len x | None => 0 end.
Lemma fold_size os : forall a X, 0 <= ar_size a -> (ar_size (fold_left apply_one os a) <= X <-> ar_size a <= X /\ forall o, In o os -> reach o <= X \/ reach o <= 0).
Proof.
  induction os as [|o os IH]; intros a X Ha; cbn [fold_left].
  - split; [intros; split; auto; intros ? []|tauto].
  - assert (S0 : 0 <= ar_size (apply_one a o)) by (unfold apply_one; destruct (w o); auto; cbn; destruct (_ =? 0); lia).
    rewrite IH by auto.
    assert (E : ar_size (apply_one a o) <= X <-> ar_size a <= X /\ (reach o <= X \/ reach o <= 0)).
    { unfold apply_one, reach. destruct (w o) as [x|]; cbn [write_at ar_size]; [destruct (w_len x =? 0)|]; lia. }
    rewrite E. split.
    + intros ((A & B) & C). split; auto. intros o' [<-|I']; auto.
    + intros (A & B). split; [split; auto; apply B; left; auto|]. intros; apply B; right; auto.
Qed.
End Commute.

Lemma assemble_perm w os os' : NoDup os -> Permutation os os' ->
  (forall i j x y p, In i os -> In j os -> i <> j -> w i = Some x -> w j = Some y -> covers x p -> covers y p -> False) ->
  ar_size (assemble w os) = ar_size (assemble w os') /\ forall p, ar_cell (assemble w os) p = ar_cell (assemble w os') p.
Proof.
  intros Hn P D. assert (Hn' : NoDup os') by (eapply Permutation_NoDup; eauto).
  assert (Hin : forall o, In o os <-> In o os') by (intros; split; eapply Permutation_in; eauto; apply Permutation_sym; auto).
  unfold assemble. fold (apply_one w). split.
  - pose proof (fold_size w os empty_archive) as F. pose proof (fold_size w os' empty_archive) as F'.
    apply Z.le_antisymm.
    + apply F; [cbn; lia|]. specialize (F' (ar_size (fold_left (apply_one w) os' empty_archive)) ltac:(cbn; lia)). destruct F' as [F' _].
      destruct (F' ltac:(lia)) as (A & B). split; auto. intros o Ho. apply B, Hin, Ho.
    + apply F'; [cbn; lia|]. specialize (F (ar_size (fold_left (apply_one w) os empty_archive)) ltac:(cbn; lia)). destruct F as [F _].
      destruct (F ltac:(lia)) as (A & B). split; auto. intros o Ho. apply B, Hin, Ho.
  - intros p.
    assert (G : (exists o x, In o os /\ w o = Some x /\ covers x p) \/ (forall o x, In o os -> w o = Some x -> ~ covers x p)).
    { clear -os. induction os as [|o l IH]; [right; intros ? ? []|]. destruct IH as [(o' & x & I & W & C)|IH]; [left; exists o', x; split; [right; auto|auto]|].
      destruct (w o) as [x|] eqn:E.
      - destruct (covers_dec x p); [left; exists o, x; split; [left; auto|auto]|]. right. intros o' x' [<-|I] W; [congruence|eauto].
      - right. intros o' x' [<-|I] W; [congruence|eauto]. }
    destruct G as [(o & x & I & W & C)|G].
    + rewrite (fold_cell_in w os empty_archive p o x), (fold_cell_in w os' empty_archive p o x); auto.
      * apply Hin; auto.
      * intros o' x' I' Ne W' C'. apply Hin in I'. eapply (D o o'); eauto.
      * intros o' x' I' Ne W' C'. eapply (D o o'); eauto.
    + rewrite (fold_cell_out w os), (fold_cell_out w os'); auto. intros o x I. apply G, Hin, I.
Qed.

(** ** the jobs of planned bundles *)
Lemma move_data_place ev base bucket B w : move_data_Create ev base bucket B = Ok w ->
  w_pos w = bundle_start B /\ w_len w = up512 (bundle_end B - bundle_start B).
Proof.
  unfold move_data_Create. destruct B as [|o B]; [discriminate|].
  destruct (move_orders _ _ _ _ _ _) as [[m k]|]; cbn [bind]; [|discriminate].
  rewrite (bundle_end_last o B). unfold bundle_start, o_end. set (t := _ - o_pos o). rewrite nbb_spec.
  destruct (if _ =? 0 then _ else _); cbn [bind]; [|discriminate]. destruct (_ <=? bucket); [|discriminate].
  intros H. assert (X : w = {| w_pos := o_pos o; w_len := up512 t; w_mem := a; w_opens := k |}) by congruence. subst w. auto.
Qed.

Lemma print_int_nonul z : no_byte NUL (print_int z).
Proof. apply print_int_no. left. vm_compute. reflexivity. Qed.
Lemma print_order_nonul o : no_byte NUL (o_rel o) -> o_type o <> NUL -> no_byte NUL (o_target o) -> no_byte NUL (print_order o).
Proof.
  intros H1 H2 H3. unfold print_order.
  assert (T : no_byte NUL [TAB]) by (intros [E|[]]; discriminate E). assert (L : no_byte NUL [LF]) by (intros [E|[]]; discriminate E).
  assert (Y : no_byte NUL [o_type o]) by (intros [E|[]]; auto).
  repeat (apply no_byte_app; split; auto using print_int_nonul).
Qed.
Lemma print_bundle_nonul B : Forall (fun o => no_byte NUL (o_rel o) /\ o_type o <> NUL /\ no_byte NUL (o_target o)) B -> no_byte NUL (print_bundle B).
Proof.
  induction 1 as [|o B (H1 & H2 & H3) _ IH]; cbn; [intros []|]. apply no_byte_app. split; auto. apply print_order_nonul; auto.
Qed.

(** names as a POSIX file system gives them, without tabs *)
Definition plain (e : entry) : Prop :=
  no_byte TAB (en_rel e) /\ no_byte TAB (en_target e) /\ no_byte NUL (en_rel e) /\ no_byte NUL (en_target e).
Lemma plain_clean l : Forall plain l -> Forall clean l.
Proof. intros H. eapply Forall_impl; [|exact H]. intros e (A & B & _). split; auto. Qed.

Lemma all_or_bad B : Forall (fun o => sendable o \/ too_big o) B -> Forall sendable B \/ Exists too_big B.
Proof.
  induction 1 as [|o B [H|H] _ IH]; auto.
  destruct IH; auto.
Qed.

Lemma job_C ev bucket path base t w : job ev (ready bucket path base) (b "C" ++ t) = Some w ->
  exists os, parse_bundle t = Ok os /\ move_data_Create ev base bucket os = Ok w.
Proof.
  unfold job. rewrite on_C_eq. destruct (bucket =? 0); [discriminate|]. destruct (parse_bundle t) as [os|]; [|discriminate].
  cbn [bind]. destruct (total_size os); cbn [bind]; [|discriminate]. destruct (order_n_filename os 0); cbn [bind]; [|discriminate].
  destruct (move_data_Create ev base bucket os) as [w'|] eqn:Em; cbn [bind]; [|discriminate].
  intros H. exists os. split; congruence.
Qed.

Lemma small_text (t : bytes) : zlen (b "C") + zlen t < INT_MAX -> zlen t < 2 ^ 32 - 2.
Proof. change (zlen (b "C")) with 1. unfold INT_MAX. change (2 ^ 32) with 4294967296. lia. Qed.

Lemma planned_nonul idx bucket maxo dirs files d f bs B :
  plannable bucket dirs files -> set_offsets dirs files = (d, f) ->
  create_transfer_orders idx bucket maxo d f = Ok (Some bs) ->
  Forall plain (dirs ++ files) -> In B bs -> no_byte NUL (print_bundle B).
Proof.
  intros Hp Hso Hc Hpl HB. apply print_bundle_nonul.
  destruct (plannable_ok idx bucket maxo _ _ _ _ Hp Hso) as (bs' & z' & E & _ & _ & _ & _ & _ & _ & Hsl).
  rewrite Hc in E. injection E as <-. rewrite Forall_forall in Hsl |- *. intros x Hx.
  destruct (Hsl x) as (e & off & I1 & (Hid & _)); [apply in_concat; exists B; auto|].
  destruct (set_offsets_laid _ _ _ _ Hso) as (z0 & L0 & Md & Mf).
  assert (Hin : In e (dirs ++ files)) by (rewrite <- Md, <- Mf, <- map_app; apply in_map with (f := fst) in I1; exact I1).
  rewrite Forall_forall in Hpl. destruct (Hpl e Hin) as (_ & _ & N1 & N2). unfold order_id, entry_id in Hid. injection Hid as -> -> ->.
  split; auto. split; auto. destruct (en_type e); vm_compute; discriminate.
Qed.

Lemma planned_parse idx bucket maxo dirs files d f bs B :
  plannable bucket dirs files -> set_offsets dirs files = (d, f) ->
  create_transfer_orders idx bucket maxo d f = Ok (Some bs) ->
  Forall plain (dirs ++ files) -> INT_MIN <= idx <= INT_MAX -> In B bs ->
  zlen (print_bundle B) < 2 ^ 32 - 2 ->
  parse_bundle (print_bundle B) = Ok B \/ parse_bundle (print_bundle B) = Err EThrow.
Proof.
  intros Hp Hso Hc Hpl Hi HB Hlen.
  destruct (planned_facts idx bucket maxo dirs files d f bs Hp Hso Hc (plain_clean _ Hpl) Hi) as (z & _ & P).
  assert (Hall : Forall (fun o => sendable o \/ too_big o) B).
  { rewrite Forall_forall in P |- *. intros x Hx. destruct (P x) as (A1 & A2 & A3 & A4 & A5 & A6 & A7 & A8 & A9); [apply in_concat; exists B; auto|].
    unfold sendable, too_big, int31.
    destruct (Z.le_gt_cases (o_size x) INT_MAX); [|right; repeat split; auto; lia].
    destruct (Z.le_gt_cases (o_hdr x) INT_MAX); [|right; repeat split; auto; lia].
    destruct (Z.le_gt_cases (o_pos x) INT_MAX); [|right; repeat split; auto; lia].
    destruct (Z.le_gt_cases (o_fpos x) INT_MAX); [|right; repeat split; auto; lia].
    left; repeat split; auto; lia. }
  destruct (all_or_bad B Hall) as [Hs|He]; [left; apply C16_lemma; auto|right].
  destruct (first_bad B Hall He) as (pre & x & post & -> & S1 & S2). apply C16_over_lemma; auto.
Qed.

Lemma jobs_eq ev bucket path base bs o : jobs ev bucket path base bs o =
  match deliver (b "C") (print_bundle (nth o bs [])) with Ok m => job ev (ready bucket path base) m | Err _ => None end.
Proof. reflexivity. Qed.
Lemma nonul_C : no_byte NUL (b "C").
Proof. intros [E|[]]; discriminate E. Qed.

Lemma jobs_inv ev bucket path base idx maxo dirs files d f bs o w :
  plannable bucket dirs files -> set_offsets dirs files = (d, f) ->
  create_transfer_orders idx bucket maxo d f = Ok (Some bs) ->
  Forall plain (dirs ++ files) -> INT_MIN <= idx <= INT_MAX ->
  jobs ev bucket path base bs o = Some w -> (o < length bs)%nat ->
  exists B, nth_error bs o = Some B /\ move_data_Create ev base bucket B = Ok w.
Proof.
  intros Hp Hso Hc Hpl Hi Hj Ho. destruct (nth_error bs o) as [B|] eqn:En; [|apply nth_error_None in En; lia].
  exists B. split; auto. pose proof (nth_error_nth bs o [] En) as Enth. rewrite jobs_eq, Enth in Hj.
  assert (HB : In B bs) by (eapply nth_error_In; eauto).
  pose proof (planned_nonul idx bucket maxo dirs files d f bs B Hp Hso Hc Hpl HB) as Hnul.
  destruct (Z.lt_ge_cases (zlen (b "C") + zlen (print_bundle B)) INT_MAX) as [Hl|Hl].
  2: { rewrite (deliver_long _ _ Hl) in Hj. discriminate. }
  rewrite (deliver_ok (b "C") (print_bundle B) nonul_C Hnul Hl) in Hj.
  destruct (job_C ev bucket path base (print_bundle B) w Hj) as (os & P1 & P2).
  destruct (planned_parse idx bucket maxo dirs files d f bs B Hp Hso Hc Hpl Hi HB (small_text _ Hl)) as [Hq|Hq]; rewrite Hq in P1.
  - assert (B = os) by congruence. subst. exact P2.
  - discriminate P1.
Qed.

Lemma jobs_disjoint ev bucket path base idx maxo dirs files d f bs i j x y p :
  plannable bucket dirs files -> set_offsets dirs files = (d, f) ->
  create_transfer_orders idx bucket maxo d f = Ok (Some bs) ->
  Forall plain (dirs ++ files) -> INT_MIN <= idx <= INT_MAX ->
  (i < length bs)%nat -> (j < length bs)%nat -> i <> j ->
  jobs ev bucket path base bs i = Some x -> jobs ev bucket path base bs j = Some y -> covers x p -> covers y p -> False.
Proof.
  intros Hp Hso Hc Hpl Hi Li Lj Hij Ji Jj Cx Cy.
  destruct (jobs_inv ev bucket path base idx maxo dirs files d f bs i x) as (A & EA & MA); auto.
  destruct (jobs_inv ev bucket path base idx maxo dirs files d f bs j y) as (B & EB & MB); auto.
  destruct (move_data_place _ _ _ _ _ MA) as [P1 P2]. destruct (move_data_place _ _ _ _ _ MB) as [Q1 Q2].
  destruct (C12_lemma idx bucket maxo dirs files d f Hp Hso) as (bs' & z & E & T & _). rewrite Hc in E. injection E as <-.
  unfold covers in *. rewrite P1, P2 in Cx. rewrite Q1, Q2 in Cy.
  destruct (Nat.lt_total i j) as [H|[H|H]]; [|contradiction|].
  - pose proof (tiles_disjoint _ _ _ _ _ _ _ T H EA EB). lia.
  - pose proof (tiles_disjoint _ _ _ _ _ _ _ T H EB EA). lia.
Qed.
