(** Lemmas about which rank processes which entries (0.5.1). *)
From Verif Require Import Bytes Outcome TarModel Legacy LegacyLayout LegacySpec LegacyLayoutProofs.
From Coq Require Import ZifyBool ZifyNat ZifyN.
Ltac Zify.zify_post_hook ::= Z.div_mod_to_equations.

(** *** the round-robin loop *)
Lemma my_buckets_in fuel R len i : 0 < R -> forall iter, In i (my_buckets fuel R iter len) -> iter <= i < len /\ (i - iter) mod R = 0.
Proof.
  intros HR. induction fuel as [|f IH]; intros iter; cbn [my_buckets]; [intros []|].
  destruct (Z.ltb_spec iter len); [|intros []]. intros [<-|H1].
  - split; [lia|]. rewrite Z.sub_diag. apply Z.mod_0_l; lia.
  - apply IH in H1 as (A & B). split; [lia|]. replace (i - iter) with (i - (iter + R) + 1 * R) by lia. rewrite Z.mod_add by lia. exact B.
Qed.
Lemma my_buckets_all R len i : 0 < R -> forall fuel iter, 0 <= iter -> len - iter <= Z.of_nat fuel ->
  iter <= i < len -> (i - iter) mod R = 0 -> In i (my_buckets fuel R iter len).
Proof.
  intros HR. induction fuel as [|f IH]; intros iter H0 Hf Hi Hm; [lia|]. cbn [my_buckets]. destruct (Z.ltb_spec iter len); [|lia].
  destruct (Z.eq_dec i iter) as [->|N]; [left; auto|right].
  assert (R <= i - iter). { apply Z.mod_divide in Hm; [|lia]. destruct Hm as (q & E). assert (0 < q) by nia. nia. }
  apply IH; try lia. replace (i - (iter + R)) with (i - iter + -1 * R) by lia. rewrite Z.mod_add by lia. exact Hm.
Qed.
Lemma my_buckets_nodup R len : 0 < R -> forall fuel iter, NoDup (my_buckets fuel R iter len).
Proof.
  intros HR. induction fuel as [|f IH]; intros iter; cbn [my_buckets]; [constructor|]. destruct (Z.ltb_spec iter len); [|constructor].
  constructor; [|apply IH]. intros H1. apply my_buckets_in in H1; auto. lia.
Qed.
Lemma rank_loop_spec R r len : 0 <= r < R ->
  NoDup (rank_loop R r len) /\ forall i, In i (rank_loop R r len) <-> 0 <= i < len /\ i mod R = r.
Proof.
  intros Hr. split; [apply my_buckets_nodup; lia|]. intros i. unfold rank_loop. split.
  - intros H. apply my_buckets_in in H as (A & B); [|lia]. split; [lia|].
    apply Z.mod_divide in B; [|lia]. destruct B as (q & E). replace i with (r + q * R) by lia. rewrite Z.mod_add, Z.mod_small; lia.
  - intros (A & B). assert (E : i - r = i / R * R) by (pose proof (Z.div_mod i R ltac:(lia)); lia).
    assert (0 <= i / R) by (apply Z.div_pos; lia).
    apply my_buckets_all; try lia; try nia. rewrite E. apply Z.mod_mul. lia.
Qed.

(** *** runs of buckets: each entry is in the bucket of the one before or in the next *)
Fixpoint steps (last : Z) (l : list lent) : Prop :=
  match l with
  | [] => True
  | e :: l' => (l_bucket e = last \/ l_bucket e = last + 1) /\ steps (l_bucket e) l'
  end.
Fixpoint last_bucket (last : Z) (l : list lent) : Z :=
  match l with [] => last | e :: l' => last_bucket (l_bucket e) l' end.
Lemma steps_app l1 l2 : forall last, steps last (l1 ++ l2) <-> steps last l1 /\ steps (last_bucket last l1) l2.
Proof. induction l1 as [|e l1 IH]; intros last; cbn [app steps last_bucket]; [tauto|]. rewrite IH. tauto. Qed.
Lemma last_bucket_app l1 l2 : forall last, last_bucket last (l1 ++ l2) = last_bucket (last_bucket last l1) l2.
Proof. induction l1 as [|e l1 IH]; intros last; cbn [app last_bucket]; auto. Qed.

Lemma check_steps l : forall pre last, check_calls (pre ++ l) (last + 1) (run_starts last (zlen pre) l) = Ok true -> steps last l.
Proof.
  induction l as [|e l IH]; intros pre last; cbn [run_starts steps]; auto.
  assert (Ha : pre ++ e :: l = (pre ++ [e]) ++ l) by (rewrite <- app_assoc; reflexivity).
  assert (Hz : zlen pre + 1 = zlen (pre ++ [e])) by (unfold zlen; rewrite app_length; cbn [length]; lia).
  destruct (Z.eqb_spec (l_bucket e) last) as [E|N].
  - rewrite E. rewrite Ha, Hz. intros H. split; [auto|]. eapply IH. exact H.
  - cbn [check_calls]. replace (Z.to_nat (zlen pre)) with (length pre) by (unfold zlen; lia).
    rewrite nth_error_app2, Nat.sub_diag by lia. cbn [nth_error]. destruct (Z.eqb_spec (l_bucket e) (last + 1)) as [E|N2]; [|discriminate].
    rewrite Ha, Hz, E. intros H. split; [auto|]. eapply IH. exact H.
Qed.
Lemma steps_check l : forall pre last, steps last l -> check_calls (pre ++ l) (last + 1) (run_starts last (zlen pre) l) = Ok true.
Proof.
  induction l as [|e l IH]; intros pre last; cbn [run_starts steps]; auto. intros (S1 & S2).
  assert (Ha : pre ++ e :: l = (pre ++ [e]) ++ l) by (rewrite <- app_assoc; reflexivity).
  assert (Hz : zlen pre + 1 = zlen (pre ++ [e])) by (unfold zlen; rewrite app_length; cbn [length]; lia).
  destruct (Z.eqb_spec (l_bucket e) last) as [E|N].
  - rewrite Ha, Hz. rewrite E in S2. apply IH. exact S2.
  - cbn [check_calls]. replace (Z.to_nat (zlen pre)) with (length pre) by (unfold zlen; lia).
    rewrite nth_error_app2, Nat.sub_diag by lia. cbn [nth_error]. destruct (Z.eqb_spec (l_bucket e) (last + 1)) as [E|N2]; [|lia].
    rewrite Ha, Hz. rewrite E in S2 |- *. apply IH. exact S2.
Qed.

Lemma steps_ge l : forall last, steps last l -> Forall (fun e => last <= l_bucket e) l.
Proof.
  induction l as [|e l IH]; intros last; cbn [steps]; [constructor|]. intros (S1 & S2). constructor; [lia|].
  eapply Forall_impl; [|apply IH; exact S2]. cbn. intros; lia.
Qed.
Lemma run_starts_nth l : forall last k j m, steps last l -> nth_error (run_starts last k l) j = Some m ->
  exists l1 e l2, l = l1 ++ e :: l2 /\ m = k + zlen l1 /\ l_bucket e = last + 1 + Z.of_nat j /\
    Forall (fun x => l_bucket x < l_bucket e) l1 /\ steps (l_bucket e) l2.
Proof.
  induction l as [|e l IH]; intros last k j m; cbn [run_starts steps]; [destruct j; discriminate|]. intros (S1 & S2).
  destruct (Z.eqb_spec (l_bucket e) last) as [E|N].
  - intros H. rewrite E in S2. destruct (IH _ _ _ _ S2 H) as (l1 & x & l2 & -> & -> & B & F & G). exists (e :: l1), x, l2.
    split; auto. split; [unfold zlen; cbn [length]; lia|]. split; auto. split; auto. constructor; auto. lia.
  - destruct j as [|j]; cbn [nth_error].
    + intros H. injection H as <-. exists [], e, l. split; auto. split; [unfold zlen; cbn [length]; lia|]. split; [lia|]. split; [constructor|auto].
    + intros H. destruct (IH _ _ _ _ S2 H) as (l1 & x & l2 & -> & -> & B & F & G). exists (e :: l1), x, l2.
      split; auto. split; [unfold zlen; cbn [length]; lia|]. split; [lia|]. split; auto. constructor; auto. lia.
Qed.
Lemma run_starts_len l : forall last k, steps last l -> last_bucket last l = last + zlen (run_starts last k l) /\
  Forall (fun e => l_bucket e <= last + zlen (run_starts last k l)) l.
Proof.
  induction l as [|e l IH]; intros last k; cbn [run_starts steps last_bucket]; [intros _; unfold zlen; cbn [length]; split; [lia|constructor]|].
  intros (S1 & S2). destruct (Z.eqb_spec (l_bucket e) last) as [E|N].
  - rewrite E in *. destruct (IH last (k + 1) S2) as (A & B). split; auto. constructor; auto. unfold zlen. lia.
  - destruct (IH (l_bucket e) (k + 1) S2) as (A & B). unfold zlen in *. cbn [length] in *. split; [lia|].
    constructor; [lia|]. eapply Forall_impl; [|exact B]. cbn. intros; lia.
Qed.
Lemma take_filter l : forall b, steps b l -> take_bucket b l = filter (fun e => l_bucket e =? b) l.
Proof.
  induction l as [|e l IH]; intros b; cbn [steps take_bucket filter]; auto. intros (S1 & S2).
  destruct (Z.eqb_spec (l_bucket e) b) as [E|N]; [rewrite E in S2; rewrite IH; auto|].
  symmetry. apply steps_ge in S2. assert (F : Forall (fun x => b < l_bucket x) l) by (eapply Forall_impl; [|exact S2]; cbn; intros; lia).
  clear - F. induction l as [|x l IH]; auto. inversion F; subst. cbn [filter]. destruct (Z.eqb_spec (l_bucket x) b); [lia|]. auto.
Qed.
Lemma filter_none (p : lent -> bool) l : Forall (fun x => p x = false) l -> filter p l = [].
Proof. induction 1 as [|x l H _ IH]; cbn [filter]; auto. rewrite H. exact IH. Qed.

Lemma visited_lemma l rcl : rank_call_list l = Ok (Some rcl) -> check_calls l 0 rcl = Ok true ->
  Forall (fun e => 0 <= l_bucket e < zlen rcl) l /\
  forall i, 0 <= i < zlen rcl -> visited l rcl i = Ok (filter (fun e => l_bucket e =? i) l).
Proof.
  unfold rank_call_list. destruct l as [|e l]; [discriminate|]. destruct (Z.eqb_spec (l_bucket e) 0) as [E0|]; [|discriminate].
  intros E. set (full := e :: l) in *. assert (rcl = run_starts (-1) 0 full) by congruence. clear E. subst rcl. intros H.
  assert (S : steps (-1) full) by (apply (check_steps full [] (-1)); exact H).
  split.
  - destruct (run_starts_len full (-1) 0 S) as (_ & B). assert (S0 : steps 0 full) by (unfold full in S |- *; cbn [steps] in S |- *; destruct S as (_ & S); split; [left; exact E0|exact S]).
    apply steps_ge in S0. rewrite Forall_forall in *. intros x Hx. specialize (B x Hx). specialize (S0 x Hx). cbv beta in *. lia.
  - intros i Hi. unfold visited. destruct (nth_error (run_starts (-1) 0 full) (Z.to_nat i)) as [k|] eqn:En.
    2:{ apply nth_error_None in En. unfold zlen in Hi. lia. }
    destruct (run_starts_nth _ _ _ _ _ S En) as (l1 & x & l2 & El & -> & B & F & G).
    rewrite El. replace (Z.to_nat (0 + zlen l1)) with (length l1) by (unfold zlen; lia).
    rewrite nth_error_app2, Nat.sub_diag by lia. cbn [nth_error]. f_equal.
    rewrite skipn_app, skipn_all, Nat.sub_diag. cbn [skipn app].
    rewrite filter_app, (filter_none _ l1) by (eapply Forall_impl; [|exact F]; cbn; intros; lia). cbn [app].
    replace i with (l_bucket x) by lia. apply take_filter. cbn [steps]. auto.
Qed.

(** *** the layout is accepted *)
(** the space left behind the last fragment of a file that does not fit is at
    least the size of its header (the writer counts the header twice) *)
Definition room_left (blk P : Z) (e : lent) : Prop :=
  let r := blocked_up blk (sum_size e) mod P in r = 0 \/ r + l_hdr e <= P.

Section one.
Variables (blk P : Z) (pad : bytes).
Hypothesis Hblk : 0 < blk.
Hypothesis HP : 0 < P.
Hypothesis HPb : P mod blk = 0.

Definition near (last : Z) (p : lpos) : Prop := last * P < w_all p <= (last + 1) * P.

Lemma place_small_steps last p e e1 fs p1 : tight P p -> near last p -> fits blk P e -> place_one blk P pad p e = Ok (Some (e1, fs, p1)) ->
  steps last fs /\ near (last_bucket last fs) p1.
Proof.
  intros (T1 & T2) Hn Hf. unfold fits in Hf. unfold place_one. destruct (Z.leb_spec (l_hdr e) 0) as [|Hh]; [discriminate|].
  destruct (blocked_bounds blk (sum_size e) Hblk) as (B1 & B2).
  assert (Hs : l_hdr e <= sum_size e) by (unfold sum_size; destruct (Z.leb_spec 0 (l_size e)); lia).
  set (bs := blocked_up blk (sum_size e)) in *. unfold near in *.
  destruct (Z.leb_spec bs P) as [_|]; [|lia].
  destruct (Z.leb_spec (w_rank p + bs) P) as [HA|HA].
  - intros E. injection E as <- <- <-. cbn [w_all w_rank w_bucket steps last_bucket frag stored mod_request q_bucket l_bucket].
    assert (w_bucket p = last \/ w_bucket p = last + 1) by nia. split; [split; auto|]. nia.
  - destruct (set_pad blk pad ((w_bucket p + 1) * P - w_all p) (w_all p) (set_loc e ((w_bucket p + 1) * P))) as [[e0|]|]; cbn [bind]; try discriminate.
    intros E. injection E as <- <- <-. cbn [w_all w_rank w_bucket steps last_bucket frag stored mod_request q_bucket l_bucket].
    assert (w_bucket p = last) by nia. split; [split; auto; lia|]. nia.
Qed.
Lemma whole_frags_steps e nt n : forall j b, steps (b - 1) (whole_frags P e nt n j b) /\ last_bucket (b - 1) (whole_frags P e nt n j b) = b + Z.of_nat n - 1.
Proof.
  induction n as [|n IH]; intros j b; cbn [whole_frags steps last_bucket]; [split; [auto|lia]|].
  replace (l_bucket (if j =? 0 then frag e (P - l_hdr e) (b * P + l_hdr e) 0 nt b else frag e P (b * P) (P * j - l_hdr e) nt b)) with b by (destruct (j =? 0); reflexivity).
  destruct (IH (j + 1) (b + 1)) as (A & B). replace (b + 1 - 1) with b in A, B by lia. split; [split; [lia|exact A]|]. rewrite B. lia.
Qed.
Lemma place_big_steps last p e e1 fs p1 : near last p -> ~ fits blk P e -> 0 < l_hdr e -> room_left blk P e ->
  place_one blk P pad p e = Ok (Some (e1, fs, p1)) -> steps last fs /\ near (last_bucket last fs) p1.
Proof.
  intros Hn Hf Hh Hr. unfold fits in Hf. unfold place_one. destruct (Z.leb_spec (l_hdr e) 0) as [|_]; [lia|].
  unfold room_left in Hr. set (bs := blocked_up blk (sum_size e)) in *. destruct (Z.leb_spec bs P) as [|Hbig]; [lia|].
  set (bkt := if w_all p mod P =? 0 then w_all p / P else w_all p / P + 1).
  assert (Hb : bkt = last + 1).
  { unfold bkt, near in *. pose proof (Z.mod_pos_bound (w_all p) P HP) as G1. pose proof (Z.div_mod (w_all p) P ltac:(lia)) as G2.
    clear - G1 G2 Hn HP. set (q := w_all p / P) in *; set (r := w_all p mod P) in *; clearbody q r. destruct (Z.eqb_spec r 0); nia. }
  clearbody bkt. subst bkt. destruct (set_pad blk pad ((last + 1) * P - w_all p) (w_all p) (set_loc e ((last + 1) * P))) as [[e0|]|]; cbn [bind]; try discriminate.
  assert (Hnw : 1 <= bs / P) by (apply Z.div_le_lower_bound; lia).
  pose proof (Z.mod_pos_bound bs P HP) as Hmp. pose proof (Z.div_mod bs P ltac:(lia)) as Hdm.
  set (nw := bs / P) in *. set (r := bs mod P) in *. clearbody nw r.
  destruct (whole_frags_steps e0 (if negb (r =? 0) then nw + 1 else nw) (Z.to_nat nw) 0 (last + 1)) as (A & B).
  replace (last + 1 - 1) with last in A, B by lia. rewrite Z2Nat.id in B by lia.
  set (wf := whole_frags P e0 (if negb (r =? 0) then nw + 1 else nw) (Z.to_nat nw) 0 (last + 1)) in *. clearbody wf.
  unfold near in *. destruct (Z.eqb_spec r 0) as [Er|Er]; cbn [negb] in *; intros E; injection E as <- <- <-; cbn [w_all].
  - split; auto. rewrite B. nia.
  - rewrite steps_app, last_bucket_app, B. cbn [steps last_bucket frag stored mod_request q_bucket l_bucket]. split; [split; [auto|split; [lia|auto]]|]. nia.
Qed.

Lemma place_smalls_steps l : forall last p es fs p1, tight P p -> near last p -> Forall (fits blk P) l -> place_all blk P pad p l = Ok (Some (es, fs, p1)) ->
  tight P p1 /\ steps last fs /\ near (last_bucket last fs) p1.
Proof.
  induction l as [|e l IH]; intros last p es fs p1 T Hn F; cbn [place_all].
  - intros E. injection E as <- <- <-. cbn. auto.
  - inversion F as [|? ? Fe Fl]; subst. destruct (place_one blk P pad p e) as [[[[e1 fs1] p2]|]|] eqn:E1; cbn [bind]; try discriminate.
    destruct (place_all blk P pad p2 l) as [[[[es2 fs2] p3]|]|] eqn:E2; cbn [bind]; try discriminate.
    intros E. injection E as <- <- <-. destruct (place_small_steps last _ _ _ _ _ T Hn Fe E1) as (S2 & N2).
    assert (T2 : tight P p2) by (edestruct place_small as (T2 & _); [exact Hblk|exact HP|exact T|exact Fe|exact E1|exact T2]).
    destruct (IH _ _ _ _ _ T2 N2 Fl E2) as (T3 & S3 & N3). split; auto. rewrite steps_app, last_bucket_app. auto.
Qed.
Lemma place_bigs_steps l : forall last p es fs p1, near last p -> Forall (fun e => ~ fits blk P e) l -> Forall (room_left blk P) l ->
  place_all blk P pad p l = Ok (Some (es, fs, p1)) -> steps last fs /\ near (last_bucket last fs) p1.
Proof.
  induction l as [|e l IH]; intros last p es fs p1 Hn F Fr; cbn [place_all].
  - intros E. injection E as <- <- <-. cbn. auto.
  - inversion F as [|? ? Fe Fl]; subst. inversion Fr as [|? ? Re Rl]; subst.
    destruct (place_one blk P pad p e) as [[[[e1 fs1] p2]|]|] eqn:E1; cbn [bind]; try discriminate.
    destruct (place_all blk P pad p2 l) as [[[[es2 fs2] p3]|]|] eqn:E2; cbn [bind]; try discriminate.
    assert (0 < l_hdr e) by (unfold place_one in E1; destruct (Z.leb_spec (l_hdr e) 0); [discriminate|lia]).
    intros E. injection E as <- <- <-. destruct (place_big_steps last p e e1 fs1 p2) as (S2 & N2); auto.
    destruct (IH _ _ _ _ _ N2 Fl Rl E2) as (S3 & N3). rewrite steps_app, last_bucket_app. auto.
Qed.
End one.

Lemma place_one_some blk P pad p e e1 fs p1 : 0 < blk -> 0 < P -> place_one blk P pad p e = Ok (Some (e1, fs, p1)) -> fs <> [].
Proof.
  intros Hb HP. unfold place_one. destruct (l_hdr e <=? 0); [discriminate|]. destruct (Z.leb_spec (blocked_up blk (sum_size e)) P) as [|Hbig].
  - destruct (_ <=? P); [intros E; injection E as <- <- <-; discriminate|].
    destruct (set_pad _ _ _ _ _) as [[e0|]|]; cbn [bind]; try discriminate. intros E; injection E as <- <- <-; discriminate.
  - destruct (set_pad _ _ _ _ _) as [[e0|]|]; cbn [bind]; try discriminate.
    assert (Hnw : 1 <= blocked_up blk (sum_size e) / P) by (apply Z.div_le_lower_bound; lia).
    destruct (Z.to_nat (blocked_up blk (sum_size e) / P)) as [|n] eqn:En; [lia|].
    cbn [whole_frags]. destruct (negb _); intros E; injection E as <- <- <-; discriminate.
Qed.

Lemma accepted_lemma blk P pad l es fs nb :
  0 < blk -> 0 < P -> P mod blk = 0 -> small_first blk P l -> Forall (fun e => fits blk P e \/ room_left blk P e) l ->
  set_offsets_and_split blk P pad l = Ok (Some (es, fs, nb)) ->
  exists rcl, rank_call_list fs = Ok (Some rcl) /\ check_calls fs 0 rcl = Ok true.
Proof.
  intros Hb HP HPb (l1 & l2 & -> & F1 & F2) Fr H. apply split_inv in H as (Hl & _ & _ & p & H & ->).
  assert (Hne : fs <> []).
  { destruct (l1 ++ l2) as [|e l]; [unfold zlen in Hl; cbn [length] in Hl; lia|]. cbn [place_all] in H.
    destruct (place_one blk P pad _ e) as [[[[e1 fs1] p2]|]|] eqn:E1; cbn [bind] in H; try discriminate.
    destruct (place_all blk P pad p2 l) as [[[[es2 fs2] p3]|]|] eqn:E2; cbn [bind] in H; try discriminate.
    injection H as <- <- <-. apply place_one_some in E1; auto. destruct fs1; [congruence|discriminate]. }
  apply place_all_app in H as (es1 & fs1 & p1 & es2 & fs2 & E1 & E2 & -> & ->).
  apply Forall_app in Fr as (_ & Fr).
  destruct (place_smalls_steps blk P pad Hb HP HPb l1 (-1) {| w_all := 0; w_rank := 0; w_bucket := 0 |} es1 fs1 p1) as (T & S & N); auto;
    try (unfold tight, near; cbn [w_all w_rank w_bucket]; lia).
  destruct (place_bigs_steps blk P pad Hb HP HPb l2 (last_bucket (-1) fs1) p1 es2 fs2 p) as (S2 & _); auto.
  { rewrite Forall_forall in *. intros x Hx. destruct (Fr x Hx) as [A|A]; auto. destruct (F2 x Hx A). }
  assert (SS : steps (-1) (fs1 ++ fs2)) by (apply steps_app; auto).
  destruct (fs1 ++ fs2) as [|f fs] eqn:Ef; [congruence|].
  exists (run_starts (-1) 0 (f :: fs)). split; [|exact (steps_check (f :: fs) [] (-1) SS)].
  unfold rank_call_list.
  assert (B0 : l_bucket f = 0); [|rewrite B0; reflexivity].
  cbn [steps] in SS. destruct SS as ([B|B] & _); [|lia]. exfalso.
  (* the first fragment is never in bucket -1 *)
  assert (HH : exists p', place_all blk P pad {| w_all := 0; w_rank := 0; w_bucket := 0 |} (l1 ++ l2) = Ok (Some (es1 ++ es2, f :: fs, p'))).
  { exists p. rewrite <- Ef. clear - E1 E2. revert E1 E2. generalize {| w_all := 0; w_rank := 0; w_bucket := 0 |}. revert es1 fs1.
    induction l1 as [|e l1 IH]; intros es1 fs1 q; cbn [place_all app].
    - intros E. injection E as <- <- <-. auto.
    - destruct (place_one blk P pad q e) as [[[[e1 g1] q1]|]|]; cbn [bind]; try discriminate.
      destruct (place_all blk P pad q1 l1) as [[[[es3 fs3] q3]|]|] eqn:E3; cbn [bind]; try discriminate.
      intros E. injection E as <- <- <-. intros E2. rewrite (IH es3 fs3 q1) by auto. cbn [bind app]. rewrite app_assoc. reflexivity. }
  destruct HH as (p' & HH). destruct (l1 ++ l2) as [|e l]; [discriminate|]. cbn [place_all] in HH.
  destruct (place_one blk P pad _ e) as [[[[e1 g1] q1]|]|] eqn:E3; cbn [bind] in HH; try discriminate.
  destruct (place_all blk P pad q1 l) as [[[[es3 fs3] q3]|]|]; cbn [bind] in HH; try discriminate.
  injection HH as _ Hg _. pose proof (place_one_some _ _ _ _ _ _ _ _ Hb HP E3) as Hg1. destruct g1 as [|g g1]; [congruence|]. injection Hg as -> _.
  unfold place_one in E3. destruct (l_hdr e <=? 0); [discriminate|]. cbn [w_all w_rank w_bucket] in E3.
  destruct (Z.leb_spec (blocked_up blk (sum_size e)) P) as [|Hbig].
  - destruct (_ <=? P); [injection E3 as _ <- _ _; discriminate|].
    destruct (set_pad _ _ _ _ _) as [[e0|]|]; cbn [bind] in E3; try discriminate. injection E3 as _ <- _ _; discriminate.
  - rewrite Z.mod_0_l, Z.div_0_l in E3 by lia. change (0 =? 0) with true in E3. cbv iota in E3.
    destruct (set_pad _ _ _ _ _) as [[e0|]|]; cbn [bind] in E3; try discriminate.
    assert (Hnw : 1 <= blocked_up blk (sum_size e) / P) by (apply Z.div_le_lower_bound; lia).
    destruct (Z.to_nat (blocked_up blk (sum_size e) / P)) as [|n] eqn:En; [lia|].
    cbn [whole_frags app] in E3. change (0 =? 0) with true in E3. cbv iota in E3.
    destruct (negb _); injection E3 as _ <- _ _; discriminate.
Qed.
Lemma room_lemma blk P e : 0 < blk -> 0 < P -> P mod blk = 0 -> l_hdr e <= blk -> room_left blk P e.
Proof.
  intros Hb HP Hm Hh. unfold room_left. cbv zeta. right.
  destruct (blocked_bounds blk (sum_size e) Hb) as (_ & B). set (bs := blocked_up blk (sum_size e)) in *. clearbody bs.
  pose proof (Z.mod_pos_bound bs P HP) as M. pose proof (Z.div_mod bs P ltac:(lia)) as D.
  apply Z.mod_divide in B; [|lia]. apply Z.mod_divide in Hm; [|lia]. destruct B as (x & ->). destruct Hm as (y & ->).
  set (r := (x * blk) mod (y * blk)) in *. set (q := (x * blk) / (y * blk)) in *. clearbody r q.
  assert (E : r = (x - y * q) * blk) by lia. assert (x - y * q < y) by nia. nia.
Qed.
