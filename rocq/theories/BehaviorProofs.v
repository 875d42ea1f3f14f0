(** Proofs for C91, C92: the option parser of the benchmark. *)
From Verif Require Import Bytes Outcome LegacyCodec Behavior BehaviorSpec.
From Coq Require Import Lia.

Definition shape (x : behav) : Prop :=
  b_len x = 10 /\ length (b_arcs x) = 10%nat /\ length (b_exps x) = 10%nat /\ length (b_bpfs x) = 10%nat.

Lemma put_at_ok {A} k (v : A) l : (k < length l)%nat ->
  exists l', put_at (Z.of_nat k) v l = Ok l' /\ length l' = length l /\ firstn (S k) l' = firstn k l ++ [Some v].
Proof.
  intros H. unfold put_at, zlen. rewrite (proj2 (Z.leb_le _ _)) by lia. rewrite (proj2 (Z.ltb_lt _ _)) by lia. cbn [andb].
  rewrite Nat2Z.id. eexists. split; [reflexivity|]. split.
  - rewrite app_length, firstn_length_le by lia. cbn [length]. rewrite skipn_length. lia.
  - assert (L : length (firstn k l) = k) by (apply firstn_length_le; lia).
    change (Some v :: skipn (S k) l) with ([Some v] ++ skipn (S k) l). rewrite app_assoc.
    replace (S k) with (length (firstn k l ++ [Some v]) + 0)%nat at 1 by (rewrite app_length, L; cbn; lia).
    rewrite firstn_app_2. cbn [firstn]. apply app_nil_r.
Qed.

Lemma args_of_app cs os o : args_of cs (os ++ [o]) = args_of cs os ++ (if existsb (beq (fst o)) cs then [snd o] else []).
Proof. unfold args_of. rewrite filter_app, map_app. cbn. destruct (existsb _ _); reflexivity. Qed.
Lemma given_app cs os o : given cs (os ++ [o]) = given cs os ++ (if existsb (beq (fst o)) cs then [o] else []).
Proof. unfold given. rewrite filter_app. cbn. destruct (existsb _ _); reflexivity. Qed.
Lemma args_given cs os : args_of cs os = map snd (given cs os).
Proof. reflexivity. Qed.

Lemma on_options_app lim os os' : forall x,
  on_options lim x (os ++ os') =
  (y <- on_options lim x os ;; match y with None => Ok None | Some x' => on_options lim x' os' end).
Proof.
  induction os as [|o os IH]; intros x; [reflexivity|]. cbn [app on_options bind].
  destruct (on_option lim x o) as [[x'|]|e]; cbn [bind]; auto.
Qed.

Lemma allowed_prefix lim os o : allowed lim (os ++ [o]) -> allowed lim os.
Proof.
  unfold allowed. rewrite !given_app, !args_of_app, !app_length, !Forall_app. intuition lia.
Qed.
Lemma few_prefix os o : few (os ++ [o]) -> few os.
Proof. unfold few. rewrite !args_of_app, !app_length. intuition lia. Qed.

Lemma null_from_ub n k l : zlen l <= k -> null_from (S n) k l = Err EUB.
Proof. intros H. cbn [null_from]. unfold put_at. rewrite (proj2 (Z.ltb_ge _ _)) by lia. rewrite andb_false_r. reflexivity. Qed.
(** extending the arrays is undefined whatever (even) length they have *)
Lemma extend_any x : 1 <= b_len x -> 2 * b_len x <= INT_MAX -> zlen (b_arcs x) = b_len x -> extend x = Err EUB.
Proof.
  intros H H' Ha. unfold extend. rewrite (proj2 (Z.ltb_ge _ _)) by lia. rewrite (proj2 (Z.ltb_ge _ _)) by lia.
  rewrite (proj2 (Z.leb_gt _ _)) by lia. cbn [orb]. replace (b_len x * 2 - b_len x) with (b_len x) by lia.
  destruct (Z.to_nat (b_len x)) eqn:E; [lia|]. rewrite null_from_ub; [reflexivity|].
  unfold zlen, resize in *. rewrite app_length, firstn_length, repeat_length.
  assert (b_len x * 2 / 8 <= b_len x) by (apply Z.div_le_upper_bound; lia). lia.
Qed.
Lemma extend_ub x : shape x -> extend x = Err EUB.
Proof. intros (H & Ha & _). apply extend_any; rewrite ?H; unfold zlen, INT_MAX; rewrite ?Ha; lia. Qed.

Definition inv os x := asked os x /\ shape x.

Lemma inv_nil : exists x, init = Some x /\ inv [] x.
Proof.
  eexists. split; [reflexivity|]. unfold inv, asked, shape. cbn. repeat split; auto; try discriminate; intros H; exfalso; apply H; reflexivity.
Qed.

Lemma given_snoc_ne cs os o : existsb (beq (fst o)) cs = true -> given cs (os ++ [o]) <> [].
Proof. rewrite given_app. intros ->. destruct (given cs os); discriminate. Qed.

Ltac ev := repeat match goal with
  | H : context [existsb ?f ?l] |- _ => let v := eval vm_compute in (existsb f l) in change (existsb f l) with v in H
  | |- context [existsb ?f ?l] => let v := eval vm_compute in (existsb f l) in change (existsb f l) with v
  end.

Lemma step lim os o x : inv os x -> allowed lim (os ++ [o]) -> few (os ++ [o]) ->
  exists x', on_option lim x o = Ok (Some x') /\ inv (os ++ [o]) x'.
Proof.
  intros [(Hm & Ht & Hs & Ho & Hg & Hi & Hna & Ha & Hne & He & Hnb & Hb & Htg & Hd) (Hl & La & Le & Lb)] (A1 & A1' & A2 & A3 & A4 & A5 & A6) (F1 & F2 & F3).
  apply Forall_app in A1. destruct A1 as [_ A1]. inversion A1 as [|? ? A0 _]. subst. clear A1 A1'.
  destruct o as [c arg]. cbn [fst] in A0. unfold inv, asked, shape.
  rewrite !args_given in *. rewrite !given_app in *.
  change (In c ["C"; "X"; "f"; "F"; "N"; "e"; "B"; "T"; "S"]%char) in A0.
  destruct A0 as [E|[E|[E|[E|[E|[E|[E|[E|[E|[]]]]]]]]]]; subst c; ev; cbn iota in *;
    rewrite ?app_nil_r in *; rewrite ?map_app in *; cbn [map snd] in *;
    generalize dependent (given (b "CX") os); intros gc; intros;
    generalize dependent (given (b "T") os); intros gt; intros;
    generalize dependent (given (b "S") os); intros gs; intros;
    generalize dependent (given (b "F") os); intros gF; intros;
    generalize dependent (given (b "N") os); intros gn; intros;
    generalize dependent (given (b "fF") os); intros ga; intros;
    generalize dependent (given (b "e") os); intros ge; intros;
    generalize dependent (given (b "B") os); intros gb; intros;
    unfold zlen in *; rewrite ?app_length in *; cbn [length] in *; rewrite ?map_length in *.
  - (* C *) destruct gc; [|cbn in A2; lia].
    cbn. rewrite Hm. cbn. eexists. split; [reflexivity|]. cbn. rewrite ?app_nil_r. repeat split; auto; tauto.
  - destruct gc; [|cbn in A2; lia].
    cbn. rewrite Hm. cbn. eexists. split; [reflexivity|]. cbn. rewrite ?app_nil_r. repeat split; auto; tauto.
  - (* f *) cbn. unfold make_place. rewrite Hna, Hl. unfold zlen. rewrite (proj2 (Z.eqb_neq _ _)) by lia. cbn [bind negb Z.eqb].
    destruct (put_at_ok (length ga) (Some {| t_bytes := arg; t_ends := false |}) (b_arcs x)) as (l' & E1 & E2 & E3); [lia|].
    rewrite Hna. unfold zlen. rewrite E1. cbn. eexists. split; [reflexivity|]. cbn. rewrite ?app_nil_r.
    repeat split; auto; try tauto; try lia.
    + rewrite ?app_length; cbn [length]; rewrite ?map_length, Nat.add_1_r; rewrite E3, ?map_app, Ha, ?map_app; reflexivity.
  - (* F *) cbn. unfold make_place. cbn [b_narcs b_len set_flags]. rewrite Hna, Hl. unfold zlen. rewrite (proj2 (Z.eqb_neq _ _)) by lia. cbn [bind negb Z.eqb].
    destruct (put_at_ok (length ga) (Some {| t_bytes := arg; t_ends := false |}) (b_arcs x)) as (l' & E1 & E2 & E3); [lia|].
    cbn. rewrite Hna. unfold zlen. rewrite E1. cbn. eexists. split; [reflexivity|]. cbn. rewrite ?app_nil_r.
    repeat split; auto; try tauto; try lia.
    + intros _ H. destruct gF; discriminate H.
    + rewrite ?app_length; cbn [length]; rewrite ?map_length, Nat.add_1_r; rewrite E3, ?map_app, Ha, ?map_app; reflexivity.
  - (* N *) destruct gn; [|cbn in A3; lia]. cbn in A4. inversion A4 as [|? ? A0 _]. subst.
    cbn. destruct (b_iter_given x); [exfalso; apply Hg; reflexivity|]. unfold MAX_ITERATIONS.
    rewrite (proj2 (Z.ltb_ge _ _)) by lia. rewrite (proj2 (Z.ltb_ge _ _)) by lia. cbn.
    eexists. split; [reflexivity|]. cbn. rewrite ?app_nil_r. repeat split; auto; try tauto; discriminate.
  - (* e *) apply Forall_app in A5. destruct A5 as [_ A5]. inversion A5 as [|? ? A0 _]. subst.
    cbn. unfold add_exp. rewrite (proj2 (Z.ltb_ge _ _)) by lia. rewrite (proj2 (Z.ltb_ge _ _)) by lia. cbn.
    unfold make_place. rewrite Hne, Hl. unfold zlen. rewrite (proj2 (Z.eqb_neq _ _)) by lia. cbn [bind negb Z.eqb].
    destruct (put_at_ok (length ge) (atoi arg) (b_exps x)) as (l' & E1 & E2 & E3); [lia|].
    rewrite Hne. unfold zlen. rewrite E1. cbn. eexists. split; [reflexivity|]. cbn. rewrite ?app_nil_r.
    repeat split; auto; try tauto; try lia.
    + rewrite ?app_length; cbn [length]; rewrite ?map_length, Nat.add_1_r; rewrite E3, He, ?map_app; reflexivity.
  - (* B *) apply Forall_app in A6. destruct A6 as [_ A6]. inversion A6 as [|? ? A0 _]. subst.
    cbn. unfold add_bpf. rewrite (proj2 (Z.ltb_ge _ _)) by lia. rewrite (proj2 (Z.ltb_ge _ _)) by lia. cbn.
    unfold make_place. rewrite Hnb, Hl. unfold zlen. rewrite (proj2 (Z.eqb_neq _ _)) by lia. cbn [bind negb Z.eqb].
    destruct (put_at_ok (length gb) (atoi arg) (b_bpfs x)) as (l' & E1 & E2 & E3); [lia|].
    rewrite Hnb. unfold zlen. rewrite E1. cbn. eexists. split; [reflexivity|]. cbn. rewrite ?app_nil_r.
    repeat split; auto; try tauto; try lia.
    + rewrite ?app_length; cbn [length]; rewrite ?map_length, Nat.add_1_r; rewrite E3, Hb, ?map_app; reflexivity.
  - (* T *) cbn. eexists. split; [reflexivity|]. cbn. rewrite ?app_nil_r. repeat split; auto; try tauto.
    intros _ H. destruct gt; discriminate H.
  - cbn. eexists. split; [reflexivity|]. cbn. rewrite ?app_nil_r. repeat split; auto; try tauto.
    intros _ H. destruct gs; discriminate H.
Qed.

Lemma runs lim x0 os : init = Some x0 -> allowed lim os -> few os -> exists x, on_options lim x0 os = Ok (Some x) /\ inv os x.
Proof.
  intros H0. induction os as [|o os IH] using rev_ind; intros A F.
  - exists x0. split; [reflexivity|]. destruct inv_nil as (x & E & I). congruence.
  - destruct (IH (allowed_prefix _ _ _ A) (few_prefix _ _ F)) as (x & E & I).
    destruct (step lim os o x I A F) as (x' & E' & I').
    exists x'. split; [|exact I']. rewrite on_options_app, E. cbn [bind on_options]. rewrite E'. reflexivity.
Qed.

(** the command line *)
Lemma getopt_written lim os l : allowed lim os -> getopt (concat (map written os) ++ l) = os ++ getopt l.
Proof.
  intros (A & A' & _). clear lim. induction os as [|[c a] os IH]; [reflexivity|].
  inversion A as [|? ? A0 A1]. inversion A' as [|? ? B0 B1]. subst. specialize (IH A1 B1).
  cbn in A0. cbn [fst snd] in B0.
  destruct A0 as [E|[E|[E|[E|[E|[E|[E|[E|[E|[]]]]]]]]]]; subst c; try (rewrite B0 by (cbn; tauto));
    cbn; rewrite <- IH; reflexivity.
Qed.

Lemma parse_after lim os l : allowed lim os -> few os ->
  exists x, inv os x /\ parse_arguments lim (concat (map written os) ++ l) = on_options lim x (getopt l).
Proof.
  intros A F. destruct inv_nil as (x0 & E0 & _). destruct (runs lim x0 os E0 A F) as (x & E & I).
  exists x. split; [exact I|]. unfold parse_arguments. rewrite E0, (getopt_written lim) by exact A.
  rewrite on_options_app, E. reflexivity.
Qed.

Lemma unknown c : ~ In c (b "CXdfFNeBTSL") -> Behavior.known c = None.
Proof.
  intros H. unfold Behavior.known.
  destruct (existsb (beq c) (b "CXTS")) eqn:E.
  { apply existsb_exists in E. destruct E as (y & Y & E). apply beq_spec in E. subst y. exfalso. apply H. revert Y. cbn. tauto. }
  destruct (existsb (beq c) (b "dfFNeBL")) eqn:E'; auto.
  apply existsb_exists in E'. destruct E' as (y & Y & E'). apply beq_spec in E'. subst y. exfalso. apply H. revert Y. cbn. tauto.
Qed.

Lemma refuses lim os w rest : allowed lim os -> few os -> wrong lim os w ->
  parse_arguments lim (concat (map written os) ++ w ++ rest) = Ok None.
Proof.
  intros A F W. destruct (parse_after lim os (w ++ rest) A F) as (x & I & ->).
  destruct I as [(Hm & Ht & Hs & Ho & Hg & Hi & Hna & Ha & Hne & He & Hnb & Hb & Htg & Hd) _].
  destruct A as (A1 & _).
  destruct W as [c N M|c C G|a G|a R|a R|a R].
  - cbn [app getopt]. rewrite beq_refl, (beq_neq c MINUS) by exact M. cbn [andb cluster]. rewrite (unknown c N). cbn. reflexivity.
  - assert (Hm' : beq (b_mode x) NUL = false).
    { rewrite Hm. destruct (given (b "CX") os) as [|[d a] g] eqn:E; [congruence|].
      assert (J : In (d, a) (given (b "CX") os)) by (rewrite E; left; reflexivity).
      apply filter_In in J. destruct J as [_ J]. apply existsb_exists in J. destruct J as (y & Y & J). apply beq_spec in J. cbn in J. subst y.
      cbn in Y. destruct Y as [<-|[<-|[]]]; reflexivity. }
    cbn in C; destruct C as [<-|[<-|[]]]; cbn in Hm' |- *; rewrite Hm'; reflexivity.
  - cbn. rewrite (proj2 Hg G). reflexivity.
  - cbn. destruct (b_iter_given x); [reflexivity|]. unfold MAX_ITERATIONS.
    destruct (Z.ltb_spec (atoi a) 1); [reflexivity|]. destruct (Z.ltb_spec 1000 (atoi a)); [reflexivity|]. exfalso. lia.
  - cbn. destruct (Z.ltb_spec (atoi a) (exp_lo lim)); [reflexivity|]. destruct (Z.ltb_spec (exp_hi lim) (atoi a)); [reflexivity|]. exfalso. lia.
  - cbn. destruct (Z.ltb_spec (atoi a) (bpf_lo lim)); [reflexivity|]. destruct (Z.ltb_spec (bpf_hi lim) (atoi a)); [reflexivity|]. exfalso. lia.
Qed.

Lemma strings_ub lim os c a rest : allowed lim os -> few os -> In c (b "dL") ->
  parse_arguments lim (concat (map written os) ++ [MINUS; c] :: a :: rest) = Err EUB.
Proof.
  intros A F C. destruct (parse_after lim os ([MINUS; c] :: a :: rest) A F) as (x & I & ->).
  destruct I as [(Hm & Ht & Hs & Ho & Hg & Hi & Hna & Ha & Hne & He & Hnb & Hb & Htg & Hd) _].
  assert (K : copy_string a (zlen a + 1) (zlen a) = Err EUB) by (unfold copy_string; rewrite (proj2 (Z.ltb_lt _ _)) by lia; reflexivity).
  cbn in C. destruct C as [<-|[<-|[]]]; cbn -[copy_string]; rewrite ?Htg, ?Hd, K; reflexivity.
Qed.

Lemma full_ub lim os c a rest : allowed lim os -> few os ->
  (In c (b "fF") /\ length (args_of (b "fF") os) = 10%nat \/
   c = "e"%char /\ exp_lo lim <= atoi a <= exp_hi lim /\ length (args_of (b "e") os) = 10%nat \/
   c = "B"%char /\ bpf_lo lim <= atoi a <= bpf_hi lim /\ length (args_of (b "B") os) = 10%nat) ->
  parse_arguments lim (concat (map written os) ++ [MINUS; c] :: a :: rest) = Err EUB.
Proof.
  intros A F C. destruct (parse_after lim os ([MINUS; c] :: a :: rest) A F) as (x & I & ->).
  destruct I as [(Hm & Ht & Hs & Ho & Hg & Hi & Hna & Ha & Hne & He & Hnb & Hb & Htg & Hd) S].
  pose proof S as (Hl & La & Le & Lb).
  destruct C as [[C L]|[(-> & R & L)|(-> & R & L)]].
  - unfold zlen in Hna. rewrite L in Hna. cbn in C. destruct C as [<-|[<-|[]]].
    + cbn -[extend]. unfold make_place. rewrite Hna, Hl. cbn -[extend]. rewrite (extend_ub x S). reflexivity.
    + cbn -[extend]. unfold make_place. cbn [b_narcs b_len set_flags]. rewrite Hna, Hl. cbn -[extend].
      rewrite extend_ub; [reflexivity|]. exact S.
  - unfold zlen in Hne. rewrite L in Hne. cbn -[extend]. unfold add_exp.
    rewrite (proj2 (Z.ltb_ge _ _)) by lia. rewrite (proj2 (Z.ltb_ge _ _)) by lia. cbn -[extend].
    unfold make_place. rewrite Hne, Hl. cbn -[extend]. rewrite (extend_ub x S). reflexivity.
  - unfold zlen in Hnb. rewrite L in Hnb. cbn -[extend]. unfold add_bpf.
    rewrite (proj2 (Z.ltb_ge _ _)) by lia. rewrite (proj2 (Z.ltb_ge _ _)) by lia. cbn -[extend].
    unfold make_place. rewrite Hnb, Hl. cbn -[extend]. rewrite (extend_ub x S). reflexivity.
Qed.

(** whatever the command line, a first archive name is stored without a NUL *)
Definition bare (x : behav) : Prop :=
  shape x /\ 0 <= b_narcs x /\ b_data x = None /\
  (1 <= b_narcs x -> exists s, nth_error (b_arcs x) 0 = Some (Some (Some {| t_bytes := s; t_ends := false |}))).

Lemma put_at_inv {A} k (v : A) l l' : put_at k v l = Ok l' ->
  length l' = length l /\ (k = 0 -> nth_error l' 0 = Some (Some v)) /\ (k <> 0 -> nth_error l' 0 = nth_error l 0).
Proof.
  unfold put_at. destruct (Z.leb_spec 0 k); cbn [andb]; [|discriminate]. destruct (Z.ltb_spec k (zlen l)); [|discriminate].
  intros E. injection E as <-. unfold zlen in *. split; [|split].
  - assert (N : (Z.to_nat k < length l)%nat) by lia. clear - N. rewrite app_length, firstn_length_le by lia. cbn [length].
    pose proof (skipn_length (S (Z.to_nat k)) l) as Q. change (S (Z.to_nat k)) with (S (Z.to_nat k)) in Q. cbn [skipn] in Q |- *. lia.
  - intros ->. reflexivity.
  - intros N. rewrite nth_error_app1 by (rewrite firstn_length_le; lia).
    destruct l as [|y l]; [cbn in *; lia|]. destruct (Z.to_nat k) eqn:E; [lia|]. reflexivity.
Qed.

Lemma make_place_bare x k y : bare x -> make_place x k = Ok y -> y = (0, x).
Proof.
  intros (S & _) H. unfold make_place in H. destruct (k =? b_len x); [|congruence]. rewrite extend_ub in H by exact S. discriminate.
Qed.

Lemma add_arc_bare x s r x' : bare x -> add_arc x (Some s) = Ok (r, x') -> bare x'.
Proof.
  intros B H. cbn in H. destruct (make_place x (b_narcs x)) as [y|] eqn:E; [|discriminate]. rewrite (make_place_bare _ _ _ B E) in H. cbn in H.
  destruct (put_at _ _ _) as [l|] eqn:P; [|discriminate]. cbn in H. injection H as _ <-.
  destruct (put_at_inv _ _ _ _ P) as (P1 & P2 & P3). destruct B as ((B1 & B2 & B3 & B4) & B5 & B6 & B7).
  unfold bare, shape. cbn -[nth_error]. repeat split; auto; try lia.
  intros _. destruct (Z.eq_dec (b_narcs x) 0) as [Z|Z]; [rewrite (P2 Z); eauto|rewrite (P3 Z); apply B7; lia].
Qed.
Lemma add_exp_bare lim x v r x' : bare x -> add_exp lim x v = Ok (r, x') -> bare x'.
Proof.
  intros B H. unfold add_exp in H. destruct (_ || _); [injection H as _ <-; exact B|].
  destruct (make_place x (b_nexps x)) as [y|] eqn:E; [|discriminate]. rewrite (make_place_bare _ _ _ B E) in H. cbn in H.
  destruct (put_at _ _ _) as [l|] eqn:P; [|discriminate]. cbn in H. injection H as _ <-.
  destruct (put_at_inv _ _ _ _ P) as (P1 & _). destruct B as ((B1 & B2 & B3 & B4) & B5 & B6 & B7).
  unfold bare, shape. cbn. repeat split; auto; lia.
Qed.
Lemma add_bpf_bare lim x v r x' : bare x -> add_bpf lim x v = Ok (r, x') -> bare x'.
Proof.
  intros B H. unfold add_bpf in H. destruct (_ || _); [injection H as _ <-; exact B|].
  destruct (make_place x (b_nbpfs x)) as [y|] eqn:E; [|discriminate]. rewrite (make_place_bare _ _ _ B E) in H. cbn in H.
  destruct (put_at _ _ _) as [l|] eqn:P; [|discriminate]. cbn in H. injection H as _ <-.
  destruct (put_at_inv _ _ _ _ P) as (P1 & _). destruct B as ((B1 & B2 & B3 & B4) & B5 & B6 & B7).
  unfold bare, shape. cbn. repeat split; auto; lia.
Qed.
Lemma taken_inv y x' : taken y = Ok (Some x') -> exists r, y = Ok (r, x').
Proof.
  unfold taken. destruct y as [[r z]|e]; cbn; [|discriminate]. destruct (r =? 0); [|discriminate]. intros E. injection E as <-. eauto.
Qed.

Lemma copy_ub a : copy_string a (zlen a + 1) (zlen a) = Err EUB.
Proof. unfold copy_string. rewrite (proj2 (Z.ltb_lt _ _)) by lia. reflexivity. Qed.

Lemma on_option_bare lim x o x' : bare x -> on_option lim x o = Ok (Some x') -> bare x'.
Proof.
  intros B H. destruct o as [c a]. unfold on_option in H. rewrite copy_ub in H.
  destruct (_ || _); [destruct (negb _); [discriminate|injection H as <-; exact B]|].
  destruct (beq c _); [injection H as <-; exact B|].
  destruct (beq c _); [injection H as <-; exact B|].
  destruct (beq c _); [destruct (b_data x); discriminate|].
  destruct (beq c _); [destruct (b_target x); discriminate|].
  destruct (beq c _). { apply taken_inv in H. destruct H as [r H]. eapply add_arc_bare; [|exact H]. exact B. }
  destruct (beq c _). { apply taken_inv in H. destruct H as [r H]. eapply add_arc_bare; [|exact H]. exact B. }
  destruct (beq c _). { destruct (_ || _); [discriminate|]. apply taken_inv in H. destruct H as [r H]. eapply add_exp_bare; [|exact H]. exact B. }
  destruct (beq c _). { destruct (_ || _); [discriminate|]. apply taken_inv in H. destruct H as [r H]. eapply add_bpf_bare; [|exact H]. exact B. }
  destruct (beq c _). { destruct (b_iter_given x); [discriminate|]. destruct (_ || _); [discriminate|]. injection H as <-. exact B. }
  destruct (beq c _); [discriminate|]. injection H as <-. exact B.
Qed.
Lemma on_options_bare lim os : forall x x', bare x -> on_options lim x os = Ok (Some x') -> bare x'.
Proof.
  induction os as [|o os IH]; intros x x' B H; cbn in H.
  - injection H as <-. exact B.
  - destruct (on_option lim x o) as [[y|]|e] eqn:E; cbn in H; try discriminate. eapply IH; [|exact H]. eapply on_option_bare; [|exact E]. exact B.
Qed.
Lemma parse_bare lim args x : parse_arguments lim args = Ok (Some x) -> bare x.
Proof.
  unfold parse_arguments. destruct inv_nil as (x0 & E0 & I0). rewrite E0. apply on_options_bare.
  destruct I0 as [A S]. unfold bare. destruct A as (_ & _ & _ & _ & _ & _ & Hn & _ & _ & _ & _ & _ & _ & Hd).
  repeat split; try apply S; rewrite ?Hn; auto; cbn; lia.
Qed.

Lemma never lim opens args l : bench_main lim opens args <> Ok (0, l).
Proof.
  intros H. unfold bench_main in H. destruct args as [|a args]; [discriminate|].
  destruct (parse_arguments lim (a :: args)) as [[x|]|e] eqn:E; cbn [bind] in H; try discriminate.
  pose proof (parse_bare _ _ _ E) as (_ & B0 & B1 & B2).
  destruct (negb _); [discriminate|]. destruct (Z.ltb_spec (b_narcs x) 1); [discriminate|]. destruct (_ && _); [discriminate|].
  rewrite B1 in H. cbn in H. destruct (B2 ltac:(lia)) as [s Hs]. destruct (Z.to_nat (b_narcs x)) eqn:Z; [lia|].
  cbn [print_names] in H. rewrite Hs in H. discriminate.
Qed.
