(** Byte strings, number printing and number scanning.
    These are the C library pieces the code uses: %d, %o, %0*o, to_string,
    strtol, stoi, strlen/strchr. *)
From Coq Require Export List ZArith Lia Ascii String Bool.
From Coq Require Import ZifyBool ZifyNat ZifyN.
Export ListNotations.
Open Scope Z_scope.
Open Scope list_scope.
Notation length := List.length.
Notation concat := List.concat.
Ltac Zify.zify_post_hook ::= Z.div_mod_to_equations.

Notation byte := ascii.
Notation bytes := (list ascii).

(** C string / std::string literal as bytes. *)
Definition b (s : string) : bytes := list_ascii_of_string s.

Definition zlen {A} (l : list A) : Z := Z.of_nat (length l).

Definition NUL : byte := ascii_of_N 0.
Definition TAB : byte := ascii_of_N 9.
Definition LF : byte := ascii_of_N 10.
Definition SP : byte := ascii_of_N 32.
Definition SLASH : byte := "/"%char.
Definition EQ : byte := "="%char.
Definition MINUS : byte := "-"%char.

Definition beq (x y : byte) : bool := Ascii.eqb x y.
Definition byte_val (c : byte) : Z := Z.of_N (N_of_ascii c).

Fixpoint bytes_eqb (x y : bytes) : bool :=
  match x, y with
  | [], [] => true
  | c :: x', d :: y' => beq c d && bytes_eqb x' y'
  | _, _ => false
  end.

(** Digits: the character of digit [d], 0 <= d <= 9. *)
Definition digit (d : Z) : byte := ascii_of_N (Z.to_N (48 + d)).
Definition digit_val (bs : Z) (c : byte) : option Z :=
  let v := byte_val c - 48 in
  if (0 <=? v) && (v <? bs) then Some v else None.

Fixpoint dig (fuel : nat) (bs n : Z) (acc : bytes) : bytes :=
  match fuel with
  | O => acc
  | S f =>
      let acc' := digit (n mod bs) :: acc in
      if n / bs =? 0 then acc' else dig f bs (n / bs) acc'
  end.

(** printf of a non-negative number in base [bs] (8 or 10), no padding. *)
Definition print_base (bs n : Z) : bytes := dig (S (Z.to_nat (Z.log2 n))) bs n [].
Definition print_dec := print_base 10.
Definition print_oct := print_base 8.

(** %d / %ld / std::to_string of a signed number. *)
Definition print_int (z : Z) : bytes :=
  if z <? 0 then MINUS :: print_dec (- z) else print_dec z.

(** %0*o : left-pad with zeros to width [w]. *)
Definition zpad (w : nat) (l : bytes) : bytes := repeat (digit 0) (w - length l) ++ l.

(** Value of a digit string (most significant first), starting from [a];
    stops at the first non-digit and returns the rest. *)
Fixpoint scan_digits (bs : Z) (l : bytes) (a : Z) : Z * bytes :=
  match l with
  | [] => (a, [])
  | c :: l' =>
      match digit_val bs c with
      | Some d => scan_digits bs l' (a * bs + d)
      | None => (a, l)
      end
  end.

Definition is_space (c : byte) : bool :=
  let v := byte_val c in ((9 <=? v) && (v <=? 13)) || (v =? 32).

Fixpoint skip_space (l : bytes) : bytes :=
  match l with
  | c :: l' => if is_space c then skip_space l' else l
  | [] => []
  end.

Definition is_digit (c : byte) : bool :=
  match digit_val 10 c with Some _ => true | None => false end.

(** strtol-style scan: skip blanks, optional sign, at least one digit.
    [None] when no conversion is possible; otherwise the exact value and the
    unread rest. (Range limits are applied by the callers.) *)
Definition scan_int (l : bytes) : option (Z * bytes) :=
  let l1 := skip_space l in
  let '(neg, l2) :=
    match l1 with
    | c :: r => if beq c MINUS then (true, r)
                else if beq c "+"%char then (false, r) else (false, l1)
    | [] => (false, [])
    end in
  match l2 with
  | c :: _ =>
      if is_digit c then
        let '(v, rest) := scan_digits 10 l2 0 in
        Some ((if neg then - v else v), rest)
      else None
  | [] => None
  end.

Definition INT_MAX : Z := 2147483647.
Definition INT_MIN : Z := -2147483648.

(** std::stoi : [None] stands for the thrown exception (invalid_argument or
    out_of_range). *)
Definition stoi (l : bytes) : option Z :=
  match scan_int l with
  | Some (v, _) => if (INT_MIN <=? v) && (v <=? INT_MAX) then Some v else None
  | None => None
  end.

(** position of the first [c] in [l]. *)
Fixpoint find_byte (c : byte) (l : bytes) : option nat :=
  match l with
  | [] => None
  | d :: l' => if beq d c then Some O else
                 match find_byte c l' with Some n => Some (S n) | None => None end
  end.

(** C string seen at the start of a buffer: bytes up to the first NUL. *)
Fixpoint cstr (l : bytes) : bytes :=
  match l with
  | [] => []
  | c :: l' => if beq c NUL then [] else c :: cstr l'
  end.

Definition no_byte (c : byte) (l : bytes) : Prop := ~ In c l.

(** ** Lemmas *)

Lemma beq_spec x y : beq x y = true <-> x = y.
Proof. apply Ascii.eqb_eq. Qed.
Lemma beq_refl x : beq x x = true.
Proof. apply Ascii.eqb_refl. Qed.
Lemma beq_neq x y : x <> y -> beq x y = false.
Proof. intros H. destruct (beq x y) eqn:E; auto. apply beq_spec in E. congruence. Qed.

Lemma bytes_eqb_spec x y : bytes_eqb x y = true <-> x = y.
Proof.
  revert y; induction x as [|c x IH]; intros [|d y]; simpl; try (split; congruence).
  rewrite andb_true_iff, beq_spec, IH. split; [intros [-> ->]; auto | intros H; injection H; auto].
Qed.
Lemma bytes_eqb_refl x : bytes_eqb x x = true.
Proof. apply bytes_eqb_spec; auto. Qed.

Lemma zlen_nil {A} : zlen (@nil A) = 0. Proof. reflexivity. Qed.
Lemma zlen_cons {A} (a : A) l : zlen (a :: l) = 1 + zlen l.
Proof. unfold zlen; cbn [length]. lia. Qed.


Lemma zlen_repeat {A} (a : A) n : zlen (repeat a n) = Z.of_nat n.
Proof. unfold zlen; rewrite repeat_length; auto. Qed.
Lemma zlen_app {A} (l m : list A) : zlen (l ++ m) = zlen l + zlen m.
Proof. unfold zlen. rewrite app_length. apply Nat2Z.inj_add. Qed.
Lemma zlen_nonneg {A} (l : list A) : 0 <= zlen l.
Proof. unfold zlen; lia. Qed.

Lemma byte_val_range c : 0 <= byte_val c < 256.
Proof. unfold byte_val. pose proof (N_ascii_bounded c). lia. Qed.

Lemma digit_byte_val d : 0 <= d < 10 -> byte_val (digit d) = 48 + d.
Proof.
  intros H. unfold byte_val, digit. rewrite N_ascii_embedding.
  - rewrite Z2N.id; lia.
  - apply N2Z.inj_lt. rewrite Z2N.id by lia. change (Z.of_N 256) with 256. lia.
Qed.

Lemma digit_val_digit bs d : 0 <= d < bs -> bs <= 10 -> digit_val bs (digit d) = Some d.
Proof.
  intros H H2. unfold digit_val. rewrite digit_byte_val by lia.
  replace (48 + d - 48) with d by lia.
  destruct (0 <=? d) eqn:E1, (d <? bs) eqn:E2; simpl; auto; lia.
Qed.

Lemma is_digit_digit d : 0 <= d < 10 -> is_digit (digit d) = true.
Proof. intros H. unfold is_digit. rewrite digit_val_digit; auto; lia. Qed.

(** all characters of [l] are digits of base [bs] *)
Definition all_digits (bs : Z) (l : bytes) : Prop :=
  Forall (fun c => exists d, 0 <= d < bs /\ c = digit d) l.

Lemma scan_digits_app bs l r a :
  2 <= bs <= 10 -> all_digits bs l ->
  (match r with [] => True | c :: _ => digit_val bs c = None end) ->
  scan_digits bs (l ++ r) a = (fst (scan_digits bs l a), r).
Proof.
  intros Hb H Hr. revert a. induction H as [|c l [d [Hd ->]] H IH]; intros a; simpl.
  - destruct r as [|c r]; simpl; auto. rewrite Hr; auto.
  - rewrite digit_val_digit by lia. apply IH.
Qed.

Lemma scan_digits_all bs l a :
  2 <= bs <= 10 -> all_digits bs l -> scan_digits bs l a = (fst (scan_digits bs l a), []).
Proof.
  intros Hb H. rewrite <- (app_nil_r l) at 1. rewrite scan_digits_app; auto.
Qed.

Lemma scan_digits_lin bs l a :
  2 <= bs <= 10 -> all_digits bs l ->
  fst (scan_digits bs l a) = a * bs ^ zlen l + fst (scan_digits bs l 0).
Proof.
  intros Hb H. revert a.
  induction H as [|c l [d [Hd ->]] H IH]; intros a.
  - cbn [scan_digits fst]. change (zlen (@nil ascii)) with 0. lia.
  - rewrite zlen_cons. cbn [scan_digits]. rewrite digit_val_digit by lia.
    rewrite (IH (a * bs + d)), (IH (0 * bs + d)).
    rewrite Z.pow_add_r by (pose proof (zlen_nonneg l); lia).
    rewrite Z.pow_1_r. ring.
Qed.

Lemma dig_acc fuel bs n acc : dig fuel bs n acc = dig fuel bs n [] ++ acc.
Proof.
  revert n acc; induction fuel as [|f IH]; intros n acc; cbn [dig]; auto.
  destruct (n / bs =? 0); auto.
  rewrite IH. rewrite (IH (n / bs) [digit (n mod bs)]). rewrite <- app_assoc. auto.
Qed.

Lemma dig_digits fuel bs n : 2 <= bs -> 0 <= n -> all_digits bs (dig fuel bs n []).
Proof.
  intros Hb. revert n; induction fuel as [|f IH]; intros n Hn; cbn [dig]; [constructor|].
  assert (Hd : 0 <= n mod bs < bs) by (apply Z.mod_pos_bound; lia).
  destruct (n / bs =? 0).
  - constructor; [|constructor]. eauto.
  - rewrite dig_acc. apply Forall_app. split.
    + apply IH. apply Z.div_pos; lia.
    + constructor; [|constructor]. eauto.
Qed.

(** enough fuel: n < 2^fuel *)
Lemma dig_value fuel bs n :
  2 <= bs <= 10 -> 0 <= n < 2 ^ Z.of_nat fuel -> (0 < fuel)%nat ->
  fst (scan_digits bs (dig fuel bs n []) 0) = n.
Proof.
  intros Hb. revert n; induction fuel as [|f IH]; intros n Hn Hf; [lia|].
  cbn [dig].
  assert (Hd : 0 <= n mod bs < bs) by (apply Z.mod_pos_bound; lia).
  destruct (Z.eqb_spec (n / bs) 0) as [E|E].
  - cbn [scan_digits]. rewrite digit_val_digit by lia. simpl.
    pose proof (Z.div_mod n bs). lia.
  - rewrite dig_acc.
    assert (H0 : 0 <= n / bs) by (apply Z.div_pos; lia).
    assert (Hlt : n / bs < 2 ^ Z.of_nat f).
    { apply Z.div_lt_upper_bound; [lia|].
      rewrite Nat2Z.inj_succ, Z.pow_succ_r in Hn by lia.
      assert (0 < 2 ^ Z.of_nat f) by (apply Z.pow_pos_nonneg; lia). nia. }
    assert (Hf' : (0 < f)%nat).
    { destruct f; [|lia]. simpl in Hlt. lia. }
    assert (G : forall l a, all_digits bs l ->
       fst (scan_digits bs (l ++ [digit (n mod bs)]) a) = fst (scan_digits bs l a) * bs + n mod bs).
    { intros l a H. revert a. induction H as [|c l [d [Hd' ->]] H IHl]; intros a.
      - simpl. rewrite digit_val_digit by lia. auto.
      - simpl. rewrite digit_val_digit by lia. auto. }
    rewrite G by (apply dig_digits; lia). rewrite IH by lia.
    pose proof (Z.div_mod n bs). lia.
Qed.

Lemma print_fuel n : 0 <= n -> n < 2 ^ Z.of_nat (S (Z.to_nat (Z.log2 n))).
Proof.
  intros H. rewrite Nat2Z.inj_succ, Z2Nat.id by apply Z.log2_nonneg.
  destruct (Z.eq_dec n 0) as [->|Hn]; [reflexivity|].
  apply Z.log2_spec. lia.
Qed.

Lemma print_base_digits bs n : 2 <= bs -> 0 <= n -> all_digits bs (print_base bs n).
Proof. intros. apply dig_digits; auto. Qed.

Lemma print_base_value bs n :
  2 <= bs <= 10 -> 0 <= n -> fst (scan_digits bs (print_base bs n) 0) = n.
Proof.
  intros Hb Hn. apply dig_value; auto; try lia. split; auto. apply print_fuel; auto.
Qed.

(** length of the digit string *)
Lemma dig_len fuel bs n :
  2 <= bs -> 0 <= n < 2 ^ Z.of_nat fuel -> (0 < fuel)%nat ->
  (0 < length (dig fuel bs n []))%nat /\
  n < bs ^ zlen (dig fuel bs n []) /\
  (0 < n -> bs ^ (zlen (dig fuel bs n []) - 1) <= n) /\
  (n = 0 -> length (dig fuel bs n []) = 1%nat).
Proof.
  intros Hb. revert n; induction fuel as [|f IH]; intros n Hn Hf; [lia|].
  cbn [dig].
  assert (Hd : 0 <= n mod bs < bs) by (apply Z.mod_pos_bound; lia).
  pose proof (Z.div_mod n bs ltac:(lia)) as Hdm.
  destruct (Z.eqb_spec (n / bs) 0) as [E|E].
  - change (zlen [digit (n mod bs)]) with 1. change (1 - 1) with 0.
    rewrite Z.pow_1_r, Z.pow_0_r. rewrite E in Hdm. simpl. lia.
  - rewrite dig_acc.
    assert (H0 : 0 <= n / bs) by (apply Z.div_pos; lia).
    assert (Hlt : n / bs < 2 ^ Z.of_nat f).
    { apply Z.div_lt_upper_bound; [lia|].
      rewrite Nat2Z.inj_succ, Z.pow_succ_r in Hn by lia.
      assert (0 < 2 ^ Z.of_nat f) by (apply Z.pow_pos_nonneg; lia). nia. }
    assert (Hf' : (0 < f)%nat).
    { destruct f; [|lia]. simpl in Hlt. lia. }
    specialize (IH (n / bs) ltac:(lia) Hf') as (I1 & I2 & I3 & _).
    rewrite app_length, zlen_app. cbn [length]. change (zlen [digit (n mod bs)]) with 1.
    assert (Hz : 1 <= zlen (dig f bs (n / bs) [])) by (unfold zlen; lia).
    specialize (I3 ltac:(lia)).
    split; [lia|]. split; [|split; [|lia]].
    + rewrite Z.pow_add_r by lia. rewrite Z.pow_1_r. nia.
    + intros _. replace (zlen (dig f bs (n / bs) []) + 1 - 1)
        with ((zlen (dig f bs (n / bs) []) - 1) + 1) by lia.
      rewrite Z.pow_add_r, Z.pow_1_r by lia. nia.
Qed.

Definition ndig (bs n : Z) : Z := zlen (print_base bs n).

Lemma ndig_spec bs n : 2 <= bs -> 0 <= n ->
  1 <= ndig bs n /\ n < bs ^ ndig bs n /\ (0 < n -> bs ^ (ndig bs n - 1) <= n)
  /\ (n = 0 -> ndig bs n = 1).
Proof.
  intros Hb Hn. unfold ndig, print_base.
  pose proof (print_fuel n Hn) as Hf.
  destruct (dig_len (S (Z.to_nat (Z.log2 n))) bs n Hb ltac:(lia) ltac:(lia)) as (H1 & H2 & H3 & H4).
  unfold zlen in *. repeat split; auto; try lia.
Qed.

(** the digit count is characterised by the power interval *)
Lemma ndig_unique bs n k : 2 <= bs -> 0 < n -> 1 <= k ->
  bs ^ (k - 1) <= n < bs ^ k -> ndig bs n = k.
Proof.
  intros Hb Hn Hk Hr. destruct (ndig_spec bs n Hb ltac:(lia)) as (H1 & H2 & H3 & _).
  specialize (H3 Hn).
  destruct (Z.lt_trichotomy (ndig bs n) k) as [H|[H|H]]; auto.
  - assert (bs ^ ndig bs n <= bs ^ (k - 1)) by (apply Z.pow_le_mono_r; lia). lia.
  - assert (bs ^ k <= bs ^ (ndig bs n - 1)) by (apply Z.pow_le_mono_r; lia). lia.
Qed.

Lemma ndig_le bs n k : 2 <= bs -> 0 <= n < bs ^ k -> 1 <= k -> ndig bs n <= k.
Proof.
  intros Hb Hn Hk. destruct (Z.eq_dec n 0) as [->|Hz].
  { destruct (ndig_spec bs 0 Hb ltac:(lia)) as (_ & _ & _ & H). rewrite H; auto; lia. }
  destruct (ndig_spec bs n Hb ltac:(lia)) as (H1 & H2 & H3 & _). specialize (H3 ltac:(lia)).
  destruct (Z_le_gt_dec (ndig bs n) k); auto.
  assert (bs ^ k <= bs ^ (ndig bs n - 1)) by (apply Z.pow_le_mono_r; lia). lia.
Qed.

Lemma ndig_mono bs n m : 2 <= bs -> 0 <= n <= m -> ndig bs n <= ndig bs m.
Proof.
  intros Hb H. destruct (ndig_spec bs m Hb ltac:(lia)) as (H1 & H2 & _).
  apply ndig_le; lia.
Qed.

(** zero padding *)
Lemma all_digits_repeat bs n : 2 <= bs -> all_digits bs (repeat (digit 0) n).
Proof.
  intros. apply Forall_forall. intros x Hx. apply repeat_spec in Hx. subst.
  exists 0. split; auto. lia.
Qed.

Lemma all_digits_app bs l m : all_digits bs l -> all_digits bs m -> all_digits bs (l ++ m).
Proof. intros. apply Forall_app; auto. Qed.

Lemma zpad_digits bs w n : 2 <= bs -> 0 <= n -> all_digits bs (zpad w (print_base bs n)).
Proof.
  intros. apply all_digits_app; [apply all_digits_repeat; auto | apply print_base_digits; auto].
Qed.

Lemma zpad_length bs w n : 2 <= bs -> 0 <= n < bs ^ Z.of_nat w -> (0 < w)%nat ->
  length (zpad w (print_base bs n)) = w.
Proof.
  intros Hb Hn Hw. unfold zpad. rewrite app_length, repeat_length.
  assert (ndig bs n <= Z.of_nat w) by (apply ndig_le; lia).
  unfold ndig, zlen in *. lia.
Qed.

Lemma scan_zeros bs n l : 2 <= bs <= 10 -> all_digits bs l ->
  fst (scan_digits bs (repeat (digit 0) n ++ l) 0) = fst (scan_digits bs l 0).
Proof.
  intros Hb Hl. induction n as [|n IH]; auto.
  cbn [repeat]. cbn [app]. cbn [scan_digits]. rewrite digit_val_digit by lia.
  change (0 * bs + 0) with 0. apply IH.
Qed.

Lemma zpad_value bs w n : 2 <= bs <= 10 -> 0 <= n ->
  fst (scan_digits bs (zpad w (print_base bs n)) 0) = n.
Proof.
  intros Hb Hn. unfold zpad. rewrite scan_zeros; auto.
  - apply print_base_value; auto.
  - apply print_base_digits; lia.
Qed.

Lemma print_base_cons bs n : 2 <= bs -> 0 <= n ->
  exists d l, 0 <= d < bs /\ print_base bs n = digit d :: l.
Proof.
  intros Hb Hn. pose proof (print_base_digits bs n Hb Hn) as H.
  destruct (ndig_spec bs n Hb Hn) as (H1 & _). unfold ndig, zlen in H1.
  destruct (print_base bs n) as [|c l]; simpl in H1; [lia|].
  inversion H as [|? ? [d [Hd ->]] ?]; subst. eauto.
Qed.

Lemma print_base_inj bs n m : 2 <= bs <= 10 -> 0 <= n -> 0 <= m ->
  print_base bs n = print_base bs m -> n = m.
Proof.
  intros Hb Hn Hm E. rewrite <- (print_base_value bs n), <- (print_base_value bs m); auto.
  rewrite E; auto.
Qed.

(** reading back a decimal number: scan_int after print_int *)
Lemma digit_not_space d : 0 <= d < 10 -> is_space (digit d) = false.
Proof.
  intros H. unfold is_space. rewrite digit_byte_val by lia.
  destruct (9 <=? 48 + d) eqn:E1, (48 + d <=? 13) eqn:E2, (48 + d =? 32) eqn:E3; simpl; auto; lia.
Qed.

Lemma digit_inj d e : 0 <= d < 10 -> 0 <= e < 10 -> digit d = digit e -> d = e.
Proof.
  intros Hd He E. pose proof (digit_byte_val d Hd). pose proof (digit_byte_val e He).
  rewrite E in H. lia.
Qed.

Lemma digit_neq d c : 0 <= d < 10 -> byte_val c < 48 \/ 57 < byte_val c -> digit d <> c.
Proof. intros Hd Hc E. subst. rewrite digit_byte_val in Hc; lia. Qed.

Lemma scan_print_dec n r : 0 <= n ->
  (match r with [] => True | c :: _ => digit_val 10 c = None end) ->
  scan_int (print_dec n ++ r) = Some (n, r).
Proof.
  intros Hn Hr. unfold print_dec.
  destruct (print_base_cons 10 n ltac:(lia) Hn) as (d & l & Hd & E).
  unfold scan_int. rewrite E. cbn [app skip_space]. rewrite digit_not_space by lia.
  rewrite beq_neq by (apply digit_neq; [lia|left; reflexivity]).
  rewrite beq_neq by (apply digit_neq; [lia|left; reflexivity]).
  rewrite is_digit_digit by lia.
  change (digit d :: l ++ r) with ((digit d :: l) ++ r). rewrite <- E.
  rewrite scan_digits_app; auto; try lia.
  - rewrite print_base_value; auto; lia.
  - apply print_base_digits; lia.
Qed.

Lemma scan_print_int z r :
  (match r with [] => True | c :: _ => digit_val 10 c = None end) ->
  scan_int (print_int z ++ r) = Some (z, r).
Proof.
  intros Hr. unfold print_int. destruct (Z.ltb_spec z 0) as [H|H].
  - unfold print_dec. destruct (print_base_cons 10 (- z) ltac:(lia) ltac:(lia)) as (d & l & Hd & E).
    unfold scan_int. cbn [app skip_space].
    change (is_space MINUS) with false. cbn iota. rewrite beq_refl.
    rewrite E. cbn [app]. rewrite is_digit_digit by lia.
    change (digit d :: l ++ r) with ((digit d :: l) ++ r). rewrite <- E.
    rewrite scan_digits_app; auto; try lia.
    + rewrite print_base_value by lia. f_equal. f_equal. lia.
    + apply print_base_digits; lia.
  - apply scan_print_dec; auto.
Qed.

Lemma stoi_print_int z : INT_MIN <= z <= INT_MAX -> stoi (print_int z) = Some z.
Proof.
  intros H. unfold stoi. rewrite <- (app_nil_r (print_int z)).
  rewrite scan_print_int by auto.
  destruct (INT_MIN <=? z) eqn:E1, (z <=? INT_MAX) eqn:E2; simpl; auto; lia.
Qed.

Lemma stoi_print_overflow z : INT_MAX < z -> stoi (print_int z) = None.
Proof.
  intros H. unfold stoi. rewrite <- (app_nil_r (print_int z)).
  rewrite scan_print_int by auto.
  destruct (INT_MIN <=? z) eqn:E1, (z <=? INT_MAX) eqn:E2; simpl; auto; lia.
Qed.

(** characters of a printed number *)
Lemma print_dec_no c n : 0 <= n -> byte_val c < 48 \/ 57 < byte_val c -> no_byte c (print_dec n).
Proof.
  intros Hn Hc Hin. pose proof (print_base_digits 10 n ltac:(lia) Hn) as H.
  unfold all_digits in H. rewrite Forall_forall in H. destruct (H c Hin) as (d & Hd & ->).
  rewrite digit_byte_val in Hc; lia.
Qed.

Lemma print_int_no c z : byte_val c < 45 \/ 57 < byte_val c -> no_byte c (print_int z).
Proof.
  intros Hc. unfold print_int. destruct (Z.ltb_spec z 0).
  - intros [E|Hin]; [subst c; destruct Hc as [Hc|Hc]; vm_compute in Hc; discriminate|].
    revert Hin. apply print_dec_no; lia.
  - apply print_dec_no; lia.
Qed.

Lemma print_int_nonempty z : print_int z <> [].
Proof.
  unfold print_int. destruct (Z.ltb_spec z 0); [discriminate|].
  destruct (print_base_cons 10 z ltac:(lia) ltac:(lia)) as (d & l & _ & E).
  unfold print_dec. rewrite E. discriminate.
Qed.

Lemma print_int_zlen z : 0 <= z -> zlen (print_int z) = ndig 10 z.
Proof. intros H. unfold print_int. destruct (Z.ltb_spec z 0); [lia|reflexivity]. Qed.

(** find_byte *)
Lemma find_byte_app c l r : no_byte c l -> find_byte c (l ++ c :: r) = Some (length l).
Proof.
  intros H. induction l as [|d l IH]; cbn [app find_byte length].
  - rewrite beq_refl. auto.
  - rewrite beq_neq by (intros ->; apply H; left; auto).
    rewrite IH; auto. intros Hin; apply H; right; auto.
Qed.

Lemma find_byte_none c l : no_byte c l -> find_byte c l = None.
Proof.
  intros H. induction l as [|d l IH]; cbn [find_byte]; auto.
  rewrite beq_neq by (intros ->; apply H; left; auto).
  rewrite IH; auto. intros Hin; apply H; right; auto.
Qed.

(** cstr *)
Lemma cstr_app_nul l r : no_byte NUL l -> cstr (l ++ NUL :: r) = l.
Proof.
  intros H. induction l as [|d l IH]; cbn [app cstr].
  - rewrite beq_refl. auto.
  - rewrite beq_neq by (intros ->; apply H; left; auto).
    rewrite IH; auto. intros Hin; apply H; right; auto.
Qed.

Lemma cstr_id l : no_byte NUL l -> cstr l = l.
Proof.
  intros H. induction l as [|d l IH]; cbn [cstr]; auto.
  rewrite beq_neq by (intros ->; apply H; left; auto).
  rewrite IH; auto. intros Hin; apply H; right; auto.
Qed.

Lemma cstr_no_nul l : no_byte NUL (cstr l).
Proof.
  induction l as [|d l IH]; cbn [cstr]; [intros []|].
  destruct (beq d NUL) eqn:E; [intros []|].
  intros [->|H]; [|apply IH; auto]. rewrite beq_refl in E. discriminate.
Qed.

Lemma no_byte_app c l m : no_byte c (l ++ m) <-> no_byte c l /\ no_byte c m.
Proof. unfold no_byte. rewrite in_app_iff. tauto. Qed.

Lemma no_byte_cons c d l : no_byte c (d :: l) <-> d <> c /\ no_byte c l.
Proof. unfold no_byte. simpl. intuition congruence. Qed.
