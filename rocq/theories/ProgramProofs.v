(** Lemmas for C30-C32, C35. *)
From Coq Require Import Permutation.
From Verif Require Import Bytes Outcome TarModel Layout LayoutSpec LayoutProofs LayoutMore OrderCodec Mover MoverSpec Worker WorkerProofs
  Spider SpiderSpec SpiderProofs SpiderMore Args ArgsSpec ArgsProofs Program.

Lemma C30_lemma o args : Forall short args ->
  ((exists o' ts, parse_args o args = Ok (Some (o', ts))) <-> Forall acceptable args) /\
  (forall o' ts, parse_args o args = Ok (Some (o', ts)) ->
    targets args ts /\
    (forall v, last_value (b "archivefile") args v -> op_archive o' = v) /\
    (never_given (b "archivefile") args -> op_archive o' = op_archive o) /\
    (forall v, last_value (b "maxorders") args v -> exists n, stoi v = Some n /\ op_maxo o' = n mod 2 ^ 32) /\
    (never_given (b "maxorders") args -> op_maxo o' = op_maxo o) /\
    (forall v, last_value (b "bucketsize") args v -> exists n, stoi v = Some n /\
       n <= op_bucket o' /\ op_bucket o' mod 512 = 0 /\ (0 <= n -> op_bucket o' < n + 512)) /\
    (never_given (b "bucketsize") args -> op_bucket o' = op_bucket o)) /\
  (forall good bad rest, args = good ++ bad :: rest -> Forall acceptable good ->
    (unknown_flag bad -> parse_args o args = Ok None) /\ (bad_number bad -> parse_args o args = Err EThrow)).
Proof.
  intros Hs. split; [|split].
  - split.
    + intros (o' & ts & H). eapply steps_acceptable, parse_args_inv; eauto.
    + intros H. apply steps_fwd; auto.
  - intros o' ts H. apply parse_args_inv in H; auto.
    destruct (steps_archive _ _ _ _ H) as [A1 A2]. destruct (steps_maxo _ _ _ _ H) as [M1 M2]. destruct (steps_bucket _ _ _ _ H) as [B1 B2].
    split; [eapply steps_targets; eauto|]. split; auto. split; auto. split; auto. split; auto. split; auto.
    intros v Hv. destruct (B1 v Hv) as (n & En & E). exists n. split; auto. rewrite E.
    destruct (Z.le_gt_cases 0 n) as [Hn|Hn].
    + pose proof (round_bucket v n En Hn). lia.
    + assert (M : (up512 (n mod 2 ^ 64) mod 2 ^ 64) mod 512 = 0).
      { pose proof (up512_bounds (n mod 2 ^ 64)) as [_ M]. change (2 ^ 64) with (512 * 36028797018963968) in *.
        rewrite Z.rem_mul_r by lia. rewrite M. rewrite Z.add_0_l, Z.mul_comm, Z.mod_mul; lia. }
      split; [|split]; auto; [|lia]. pose proof (Z.mod_pos_bound (up512 (n mod 2 ^ 64)) (2 ^ 64) ltac:(lia)). lia.
  - intros good bad rest -> Hg. apply parse_stops; auto.
    apply Forall_app in Hs as [S1 S2]. inversion S2; subst. apply Forall_app; auto.
Qed.

(** scan results are what the entry constructor makes *)
Lemma scan_made fuel fs base dirs files : scan fuel fs base = Ok (dirs, files) ->
  forall e, In e (dirs ++ files) -> mk_entry (en_type e) (en_base e) (en_rel e) (en_target e) (en_size e) = Ok e.
Proof.
  unfold scan. destruct (spider _ _ _ _) as [x|]; cbn [bind]; [|discriminate]. unfold collection.
  destruct (grow _ _ _) as [ds|]; cbn [bind]; [|discriminate].
  destruct (for_each (dir_entry base) ds) as [dirs0|] eqn:D; cbn [bind]; [|discriminate].
  destruct (for_each (file_entry base) (flat_map d_files ds)) as [files0|] eqn:F; cbn [bind]; [|discriminate].
  intros H. assert (dirs0 = dirs /\ files0 = files) as [-> ->] by (split; congruence).
  intros e He. apply in_app_or in He as [He|He].
  - destruct (for_each_inv _ _ _ D e He) as (r & _ & E). unfold dir_entry in E. pose proof E as E'. apply mk_entry_fields in E' as (-> & -> & -> & -> & ->). exact E.
  - destruct (for_each_inv _ _ _ F e He) as (r & _ & E). unfold file_entry in E. pose proof E as E'. apply mk_entry_fields in E' as (-> & -> & -> & -> & ->). exact E.
Qed.

(** paths and link targets of at most 40000 bytes (PATH_MAX is 4096) *)
Definition short_paths (base : bytes) (t : node) : Prop :=
  forall p n, at_path t p n -> zlen base + 1 + zlen (join p) <= 40000 /\ match n with NLink l => zlen l <= 40000 | _ => True end.

Lemma scan_plannable fuel fs base t dirs files files' bucket :
  scan fuel fs base = Ok (dirs, files) -> base <> [] -> is_dir_node t -> wf_node t -> shows fs base t -> short_paths base t ->
  order_files files files' -> 100000 <= bucket -> bucket mod 512 = 0 ->
  plannable bucket dirs files'.
Proof.
  intros H H2 H3 H4 H5 Hsh Ho Hb Hm. pose proof (scan_made _ _ _ _ _ H) as Hmk.
  destruct (scan_any _ _ _ _ _ _ H H2 H3 H4 H5) as (_ & _ & W & _ & Td & _ & _ & _ & (r & Hr & _)).
  destruct (Ho sort_by_size_swo) as [Hp _].
  assert (Hin : forall e, In e (dirs ++ files') -> In e (dirs ++ files)).
  { intros e He. apply in_app_or in He as [He|He]; apply in_or_app; auto. right. eapply Permutation_in; [apply Permutation_sym|]; eauto. }
  split; auto. split; auto. split; [destruct dirs; discriminate|]. split.
  - apply Forall_forall. intros e He. apply Hin in He. destruct (W e He) as (We & Eb & p & m & Ha & Er & Rm). split; auto.
    pose proof (Hmk e He) as Mk. destruct We as (W1 & W2 & W3).
    destruct (Hsh p m Ha) as [S1 S2].
    assert (Hsz : 0 <= en_size e < 2 ^ 63).
    { split; auto. destruct (at_path_wf _ _ _ Ha H4) as [Wm _]. destruct m; cbn [records] in Rm; try contradiction; destruct Rm as (_ & -> & _); try lia.
      inversion Wm; subst; lia. }
    apply mk_entry_wf in Mk as (_ & Hle & _); auto. rewrite Eb, Er in Hle.
    enough (en_hdr e <= 100000) by lia. apply Hle; auto.
    destruct m; cbn [records] in Rm; try contradiction; destruct Rm as (_ & _ & ->); cbn; try lia; auto.
  - apply Forall_forall. intros e He. rewrite Forall_forall in Td. specialize (Td e He).
    destruct (W e (in_or_app _ _ _ (or_introl He))) as (_ & _ & p & m & _ & _ & Rm). destruct m; cbn [records] in Rm; try contradiction; destruct Rm as (Ty & Es & _); auto. congruence.
Qed.

Lemma plan_ok fuel fs sort base t bucket maxo :
  (forall l, order_files l (sort l)) -> quiet_heap fs -> base <> [] -> is_dir_node t -> wf_node t -> shows fs base t -> short_paths base t ->
  100000 <= bucket -> bucket mod 512 = 0 ->
  forall dirs files, scan fuel fs base = Ok (dirs, files) ->
  exists d f bs, set_offsets dirs (sort files) = (d, f) /\ plan fuel fs sort base bucket maxo = Ok (Some bs) /\
    forall p, orders_at (concat bs) p = layout_at (d ++ f) p.
Proof.
  intros Hs Hq H2 H3 H4 H5 Hsh Hb Hm dirs files H.
  pose proof (scan_plannable _ _ _ _ _ _ _ _ H H2 H3 H4 H5 Hsh (Hs files) Hb Hm) as Hp.
  destruct (set_offsets dirs (sort files)) as [d f] eqn:E.
  destruct (plannable_ok 0 bucket maxo _ _ _ _ Hp E) as (bs & w & C & _ & _ & _ & O & _).
  exists d, f, bs. split; auto. split; auto. unfold plan. rewrite H. cbn [bind]. rewrite E. exact C.
Qed.

Lemma plan_small fuel fs sort base bucket maxo r : bucket < 100000 -> plan fuel fs sort base bucket maxo = Ok r -> r = None.
Proof.
  intros Hb. unfold plan. destruct (scan fuel fs base) as [[dirs files]|]; cbn [bind]; [|discriminate].
  destruct (set_offsets dirs (sort files)) as [d f]. unfold create_transfer_orders.
  destruct (Z.ltb_spec bucket 100000); [congruence|lia].
Qed.

(** the boss once the command line is accepted *)
Lemma boss_main_eq R junk fuel fs sort opens args o base : args <> [] ->
  parse_args {| op_bucket := DEFAULT_BUCKET_SIZE; op_maxo := junk; op_archive := [] |} args = Ok (Some (o, [base])) -> op_archive o <> [] ->
  boss_main R junk fuel fs sort opens args =
    match plan fuel fs sort base (op_bucket o) (op_maxo o) with
    | Err e => ([], BDied e)
    | Ok None => ([], BDied EUB)
    | Ok (Some bs) =>
        let pre := [ABcast (b "U") (print_int (op_bucket o)); ABcast (b "A") (op_archive o); AOpen (op_archive o) (opens (op_archive o))] in
        if opens (op_archive o) then
          (pre ++ [ABcast (b "N") (b "individual")] ++ map (fun r => ASend r (b "P") base) (seq 1 (R - 1)) ++ [APush bs] ++
           map (fun r => ASend r (b "X") (b "shutdown")) (seq 1 (R - 1)) ++ [AFinalize], Finished)
        else (pre ++ [ABcast (b "X") (b "bye"); AFinalize], Exited 1)
    end.
Proof.
  intros Ha H Hn. unfold boss_main. destruct args as [|a args]; [congruence|]. rewrite H. destruct (op_archive o); [congruence|]. reflexivity.
Qed.

Lemma boss_no_open R junk fuel fs sort opens args acts e p :
  boss_main R junk fuel fs sort opens args = (acts, e) -> opens p = false ->
  forall p0, In (AOpen p0 true) acts -> p0 <> p.
Proof.
  unfold boss_main. destruct args as [|a args]; [intros E; assert (acts = []) as -> by congruence; intros _ p0 []|].
  destruct (parse_args _ (a :: args)) as [[[o ts]|]|]; cycle 1.
  { intros E; assert (acts = [ABcast (b "X") (b "abort")]) as -> by congruence. intros _ p0 [X|[]]; discriminate X. }
  { intros E; assert (acts = []) as -> by congruence; intros _ p0 []. }
  destruct (op_archive o) as [|c q] eqn:Eq; [intros E; assert (acts = []) as -> by congruence; intros _ p0 []|].
  destruct ts as [|base [|? ?]]; try (intros E; assert (acts = []) as -> by congruence; intros _ p0 []).
  destruct (plan fuel fs sort base (op_bucket o) (op_maxo o)) as [[bs|]|]; try (intros E; assert (acts = []) as -> by congruence; intros _ p0 []).
  destruct (opens (c :: q)) eqn:Op.
  - intros E Hp p0 Hin. assert (Ea : acts = fst (acts, e)) by reflexivity. rewrite <- E in Ea. cbn [fst] in Ea. subst acts.
    repeat (apply in_app_or in Hin as [Hin|Hin]); try (destruct Hin as [X|Hin]; [congruence|]);
      repeat (destruct Hin as [X|Hin]; [try discriminate X|]); try contradiction; try (apply in_map_iff in Hin as (? & X & _); discriminate X).
    intros ->. injection X as <-. congruence.
  - intros E Hp p0 Hin. assert (Ea : acts = fst (acts, e)) by reflexivity. rewrite <- E in Ea. cbn [fst] in Ea. subst acts.
    cbn in Hin. repeat (destruct Hin as [X|Hin]; [discriminate X|]). contradiction.
Qed.

(** *** workers: an open that succeeded is one the file system allowed *)
Lemma on_message_opens opens ev s m l r : on_message opens ev s m = Ok (l, r) -> forall p, In (EvOpen p true) l -> opens p = true.
Proof.
  unfold on_message. destruct (ws_mode s).
  - unfold on_broadcast.
    destruct (bytes_eqb (letter_of m) (b "A")).
    { intros E p Hin. assert (l = [EvOpen (rest_of m) (opens (rest_of m))]) as -> by congruence. destruct Hin as [X|[]]. injection X as <- X. exact X. }
    destruct (bytes_eqb (letter_of m) (b "U")).
    { destruct (get_stoi (rest_of m)) as [n|]; cbn [bind]; [|discriminate]. intros E p Hin. assert (l = [EvBucket (to_ulong n)]) as -> by congruence. destruct Hin as [X|[]]; discriminate X. }
    destruct (bytes_eqb (letter_of m) (b "N")); [intros E p Hin; assert (l = []) as -> by congruence; destruct Hin|].
    destruct (bytes_eqb (letter_of m) (b "X")).
    { destruct (ws_handle s); intros E p Hin; try discriminate E. assert (l = []) as -> by congruence; destruct Hin. }
    intros E p Hin. assert (l = [EvWarn]) as -> by congruence. destruct Hin as [X|[]]; discriminate X.
  - unfold on_individual.
    destruct (bytes_eqb (letter_of m) (b "C")).
    { destruct (ws_bucket s =? 0); [intros E p Hin; assert (l = []) as -> by congruence; destruct Hin|].
      destruct (parse_bundle (rest_of m)) as [os|]; cbn [bind]; [|discriminate].
      destruct (total_size os); cbn [bind]; [|discriminate]. destruct (order_n_filename os 0); cbn [bind]; [|discriminate].
      destruct (move_data_Create ev (ws_base s) (ws_bucket s) os) as [w|]; cbn [bind]; [|discriminate].
      destruct (ws_handle s) as [|q|q]; [discriminate| |].
      - intros E p Hin. assert (l = [EvWrite q w; EvDone]) as -> by congruence. destruct Hin as [X|[X|[]]]; discriminate X.
      - intros E p Hin. assert (l = [EvNoWrite q; EvDone]) as -> by congruence. destruct Hin as [X|[X|[]]]; discriminate X. }
    destruct (bytes_eqb (letter_of m) (b "P")).
    { intros E p Hin. assert (l = [EvBase (rest_of m)]) as -> by congruence. destruct Hin as [X|[]]; discriminate X. }
    destruct (bytes_eqb (letter_of m) (b "B")); [intros E p Hin; assert (l = []) as -> by congruence; destruct Hin|].
    destruct (bytes_eqb (letter_of m) (b "X")); [intros E p Hin; assert (l = []) as -> by congruence; destruct Hin|].
    intros E p Hin. assert (l = [EvWarn]) as -> by congruence. destruct Hin as [X|[]]; discriminate X.
Qed.
Lemma worker_opens opens ev ms : forall k s l r, worker_from opens ev k s ms = (l, r) ->
  forall p, In (EvOpen p true) l -> exists j, opens j p = true.
Proof.
  induction ms as [|m ms IH]; intros k s l r H p Hin; cbn [worker_from] in H.
  - assert (l = []) as -> by congruence. destruct Hin.
  - destruct (on_message (opens k) (ev k) s m) as [[l1 [s1|c]]|] eqn:E.
    + destruct (worker_from opens ev (S k) s1 ms) as [l' r'] eqn:E'. assert (l = l1 ++ l') as -> by congruence.
      apply in_app_or in Hin as [Hin|Hin]; [exists k; eapply on_message_opens; eauto|eapply IH; eauto].
    + assert (l = l1) as -> by congruence. exists k. eapply on_message_opens; eauto.
    + assert (l = []) as -> by congruence. destruct Hin.
Qed.

Lemma set_file_other dk p q a : q <> p -> set_file dk p a q = dk q.
Proof. intros H. unfold set_file. destruct (bytes_eqb q p) eqn:E; auto. apply bytes_eqb_spec in E. congruence. Qed.

Lemma on_disk_keeps l p : (forall w, ~ In (EvWrite p w) l) -> ~ In (EvOpen p true) l -> forall dk, fold_left on_disk l dk p = dk p.
Proof.
  induction l as [|e l IH]; intros Hw Ho dk; auto. cbn [fold_left]. rewrite IH.
  - destruct e as [q [|]| | |q w| | |]; cbn [on_disk]; auto.
    + apply set_file_other. intros <-. apply Ho. left. auto.
    + apply set_file_other. intros <-. apply (Hw w). left. auto.
  - intros w Hin. apply (Hw w). right. auto.
  - intros Hin. apply Ho. right. auto.
Qed.

Lemma C32_worker opens ev rank ms l r p : worker_node opens ev rank ms = (l, r) -> (forall k, opens k p = false) ->
  forall dk, fold_left on_disk l dk p = dk p.
Proof.
  unfold worker_node. destruct (rank =? 0); [intros E _ dk; assert (l = []) as -> by congruence; reflexivity|].
  intros H Hp. assert (No : ~ In (EvOpen p true) l).
  { intros Hin. destruct (worker_opens _ _ _ _ _ _ _ H p Hin) as (j & X). rewrite Hp in X. discriminate. }
  apply on_disk_keeps; auto. intros w Hin. apply in_split in Hin as (l1 & l2 & E).
  destruct (worker_from_ok opens ev ms 0 [] wstart l r agrees_start H) as (A & _). destruct (A l1 p w l2 E) as (j & _ & W & _).
  cbn [app] in W. apply No. rewrite E. apply in_or_app. auto.
Qed.
