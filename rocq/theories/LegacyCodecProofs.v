(** Lemmas about the 0.5.1 catalog text. *)
From Verif Require Import Bytes Outcome TarModel Legacy LegacyCodec.
From Coq Require Import Lia.

Definition is_text (s : bytes) : Prop := no_byte TAB s /\ no_byte NUL s.
Definition is_long (z : Z) : Prop := - 2 ^ 63 <= z < 2 ^ 63.
Definition is_int (z : Z) : Prop := - 2 ^ 31 <= z < 2 ^ 31.

Lemma wrap32_id z : is_int z -> wrap32 z = z.
Proof. unfold is_int, wrap32. change (2 ^ 31) with 2147483648. intros H. rewrite Z.mod_small; lia. Qed.
Lemma clamp64_id z : is_long z -> clamp64 z = z.
Proof. unfold is_long, clamp64. lia. Qed.
Lemma int_long z : is_int z -> is_long z.
Proof. unfold is_int, is_long. change (2 ^ 31) with 2147483648. change (2 ^ 63) with 9223372036854775808. lia. Qed.

Lemma number_print z c r : is_long z -> digit_val 10 c = None -> number (print_int z ++ c :: r) = Ok (Some (z, r)).
Proof. intros Hz Hc. unfold number. rewrite (scan_print_int z (c :: r) Hc). rewrite clamp64_id; auto. Qed.

Lemma scan_zpad w n r : 0 <= n -> (match r with [] => True | c :: _ => digit_val 10 c = None end) ->
  (0 < w)%nat -> scan_int (zpad w (print_dec n) ++ r) = Some (n, r).
Proof.
  intros Hn Hr Hw. unfold print_dec.
  assert (D : all_digits 10 (zpad w (print_base 10 n))) by (apply zpad_digits; lia).
  assert (V := zpad_value 10 w n ltac:(lia) Hn).
  destruct (zpad w (print_base 10 n)) as [|c l] eqn:E.
  - exfalso. unfold zpad in E. destruct (print_base_cons 10 n ltac:(lia) Hn) as (d & l & _ & E2). rewrite E2 in E.
    destruct (repeat (digit 0) (w - length (digit d :: l))); discriminate.
  - assert (Hc := Forall_inv D). cbv beta in Hc. destruct Hc as (d & Hd & ->).
    unfold scan_int. cbn [app skip_space]. rewrite digit_not_space by lia.
    rewrite beq_neq by (apply digit_neq; [lia|left; reflexivity]).
    rewrite beq_neq by (apply digit_neq; [lia|left; reflexivity]).
    rewrite is_digit_digit by lia. change (digit d :: l ++ r) with ((digit d :: l) ++ r).
    rewrite scan_digits_app; auto; try lia. rewrite V. reflexivity.
Qed.
Lemma number_ten n c r : 0 <= n < 2 ^ 63 -> digit_val 10 c = None -> number (ten n ++ c :: r) = Ok (Some (n, r)).
Proof. intros Hn Hc. unfold number, ten. rewrite (scan_zpad 10 n (c :: r)); auto; try lia. rewrite clamp64_id; auto. unfold is_long. lia. Qed.

Lemma cstr_prefix s r : no_byte NUL s -> cstr (s ++ r) = s ++ cstr r.
Proof.
  induction s as [|c s IH]; cbn; auto. intros H. apply no_byte_cons in H. destruct H as (H1 & H2).
  rewrite beq_neq by congruence. f_equal. apply IH. exact H2.
Qed.
Lemma next_name_app s r : is_text s -> next_name (s ++ TAB :: r) = Ok (Some (s, r)).
Proof.
  intros (H1 & H2). unfold next_name. rewrite cstr_prefix by auto. cbn [cstr]. change (beq TAB NUL) with false. cbn iota.
  rewrite find_byte_app by auto. f_equal. f_equal. f_equal.
  - rewrite firstn_app, Nat.sub_diag, firstn_all. cbn. apply app_nil_r.
  - rewrite skipn_app. replace (length s + 1 - length s)%nat with 1%nat by lia. rewrite skipn_all2 by lia. reflexivity.
Qed.

(** what another rank gets *)
Definition received (e : lent) : lent :=
  {| l_rel := l_rel e; l_arc := l_arc e; l_type := l_type e; l_tgt := l_tgt e; l_size := l_size e; l_hdr := l_hdr e; l_loc := l_loc e;
     l_orig := l_orig e; l_ploc := l_ploc e; l_pname := Some (pad_text (l_pname e)); l_phdr := l_phdr e; l_psize := l_psize e;
     l_nfrag := l_nfrag e; l_fptr := l_fptr e; l_bucket := l_bucket e |}.
Definition sendable (e : lent) : Prop :=
  (is_text (l_rel e) /\ is_text (l_arc e) /\ is_text (l_tgt e) /\ is_text (pad_text (l_pname e)) /\ l_type e <> LInv) /\
  (is_long (l_size e) /\ is_long (l_hdr e) /\ is_long (l_loc e) /\ is_long (l_orig e) /\ is_long (l_ploc e) /\ is_long (l_phdr e) /\ is_long (l_psize e)) /\
  is_int (l_nfrag e) /\ is_int (l_fptr e) /\ is_int (l_bucket e).

Lemma andthen_ok {A B} (a : A) (f : A -> outcome (option B)) : andthen (Ok (Some a)) f = f a.
Proof. reflexivity. Qed.
Lemma type_of_char t : t <> LInv -> type_of (type_char t) = Some t.
Proof. destruct t; intros H; try reflexivity. destruct H; reflexivity. Qed.

Lemma parse_full_line e r : sendable e -> parse_full (full_line e ++ r) = Ok (Some (received e, r)).
Proof.
  intros ((T1 & T2 & T3 & T4 & T5) & (N1 & N2 & N3 & N4 & N5 & N6 & N7) & I1 & I2 & I3).
  unfold full_line, parse_full. repeat rewrite <- app_assoc. cbn [app].
  rewrite next_name_app by auto. rewrite andthen_ok. cbv beta iota.
  rewrite next_name_app by auto. rewrite andthen_ok. cbv beta iota.
  rewrite type_of_char by auto. cbn [skipn].
  rewrite next_name_app by auto. rewrite andthen_ok. cbv beta iota.
  do 5 (rewrite number_print by (auto; reflexivity); rewrite andthen_ok; cbv beta iota).
  rewrite next_name_app by auto. rewrite andthen_ok. cbv beta iota.
  do 5 (rewrite number_print by (auto using int_long; reflexivity); rewrite andthen_ok; cbv beta iota).
  rewrite !wrap32_id by auto. reflexivity.
Qed.
(** archive catalog *)
Definition stored_entry (e : lent) : lent :=
  {| l_rel := []; l_arc := l_arc e; l_type := l_type e; l_tgt := l_tgt e; l_size := l_size e; l_hdr := l_hdr e; l_loc := l_loc e; l_orig := -1;
     l_ploc := -1; l_pname := None; l_phdr := -1; l_psize := -1; l_nfrag := -1; l_fptr := -1; l_bucket := -1 |}.
Definition storable (e : lent) : Prop :=
  (is_text (l_arc e) /\ is_text (l_tgt e) /\ l_type e <> LInv) /\ is_long (l_size e) /\ is_long (l_hdr e) /\ is_long (l_loc e).
Lemma parse_archive_line e r : storable e -> parse_archive (archive_line e ++ r) = Ok (Some (stored_entry e, r)).
Proof.
  intros ((T1 & T2 & T5) & N1 & N2 & N3). unfold archive_line, parse_archive. repeat rewrite <- app_assoc. cbn [app].
  rewrite next_name_app by auto. rewrite andthen_ok. cbv beta iota.
  rewrite type_of_char by auto. cbn [skipn].
  rewrite next_name_app by auto. rewrite andthen_ok. cbv beta iota.
  do 3 (rewrite number_print by (auto; reflexivity); rewrite andthen_ok; cbv beta iota). reflexivity.
Qed.

Definition back (arch : bool) : lent -> lent := if arch then stored_entry else received.
Definition okay (arch : bool) : lent -> Prop := if arch then storable else sendable.
Lemma parse_line arch e r : okay arch e -> parse_entry arch (line arch e ++ r) = Ok (Some (back arch e, r)).
Proof. destruct arch; [apply parse_archive_line|apply parse_full_line]. Qed.

Lemma parse_all arch len total l : forall r, Forall (okay arch) l -> len = total ->
  parse_entries arch len total (length l) (concat (map (line arch) l) ++ r) = Ok (Some (map (back arch) l)).
Proof.
  induction l as [|e l IH]; intros r H E; [reflexivity|]. inversion H as [|? ? He Hl]; subst.
  cbn [length parse_entries map concat]. rewrite <- app_assoc.
  destruct (Z.ltb_spec total (total - zlen (line arch e ++ concat (map (line arch) l) ++ r))) as [F|F].
  - pose proof (zlen_nonneg (line arch e ++ concat (map (line arch) l) ++ r)). lia.
  - rewrite parse_line by auto. rewrite andthen_ok. cbv beta iota. rewrite IH by auto. reflexivity.
Qed.

Lemma add_lines_out ls : forall size out res, add_lines size out ls = Ok (Some res) -> res = out ++ concat ls.
Proof.
  induction ls as [|x ls IH]; intros size out res; cbn [add_lines concat].
  - intros E. injection E as <-. symmetry. apply app_nil_r.
  - destruct (room 40 size (zlen out) (zlen x)) as [s'|]; [|discriminate]. destruct (s' <? _); [discriminate|]. intros E. apply IH in E. rewrite E. rewrite <- app_assoc. reflexivity.
Qed.

Lemma ten_length n : 0 <= n < 10 ^ 10 -> length (ten n) = 10%nat.
Proof. intros H. unfold ten, print_dec. apply zpad_length; lia. Qed.
Lemma ten_zlen n : 0 <= n < 10 ^ 10 -> zlen (ten n) = 10.
Proof. intros H. unfold zlen. rewrite ten_length by auto. reflexivity. Qed.
Lemma ten_long n : 0 <= n -> zlen (ten n) = 10 -> n < 10 ^ 10.
Proof.
  intros H E. destruct (Z.lt_ge_cases n (10 ^ 10)) as [L|L]; auto. exfalso. unfold ten, zpad in E. rewrite zlen_app in E.
  pose proof (zlen_nonneg (repeat (digit 0) (10 - length (print_dec n)))).
  assert (zlen (print_dec n) <= 10) by lia. unfold print_dec in H1. fold (ndig 10 n) in H1.
  pose proof (ndig_spec 10 n ltac:(lia) H) as S.
  assert (n < 10 ^ ndig 10 n) by apply S.
  assert (10 ^ ndig 10 n <= 10 ^ 10) by (apply Z.pow_le_mono_r; lia). lia.
Qed.

(** the text: header and lines *)
Lemma list_to_buffer_text l bkt arch buf : list_to_buffer l bkt arch = Ok (Some buf) -> 0 <= bkt < 10 ^ 10 -> zlen l < 10 ^ 10 ->
  buf = cat_head (zlen buf) bkt (zlen l) arch ++ concat (map (line arch) l) /\ zlen buf < 10 ^ 10.
Proof.
  intros E Hb Hl. unfold list_to_buffer in E. destruct (INT_MAX <? _) in E; [discriminate|]. destruct (_ <? 56) in E; [discriminate|].
  destruct (add_lines _ _ _) as [[out|]|] eqn:A in E; cbn [bind] in E; try discriminate. apply add_lines_out in A.
  destruct (Z.eqb_spec (zlen (ten (zlen out))) 10) as [T|T]; [|discriminate].
  assert (B : buf = ten (zlen out) ++ skipn 10 out) by congruence. clear E.
  assert (Len : skipn 10 out = [LF] ++ b "parfu_v04 " ++ [LF] ++ (if arch then b "archive   " else b "full      ") ++ [LF]
      ++ ten bkt ++ [LF] ++ ten (zlen l) ++ [LF] ++ concat (map (line arch) l)).
  { rewrite A. unfold cat_head. rewrite <- !app_assoc. rewrite skipn_app.
    change (length (ten 0)) with 10%nat. change (skipn 10 (ten 0)) with (@nil byte). cbn [Nat.sub skipn app]. reflexivity. }
  assert (Z : zlen buf = zlen out).
  { rewrite B, zlen_app, T. unfold zlen. rewrite skipn_length.
    assert (10 <= length out)%nat; [|lia].
    rewrite A. rewrite app_length. unfold cat_head. rewrite app_length. change (length (ten 0)) with 10%nat. lia. }
  split.
  - rewrite Z. rewrite B at 1. rewrite Len. unfold cat_head. rewrite <- !app_assoc. reflexivity.
  - rewrite Z. apply ten_long; auto. apply zlen_nonneg.
Qed.

Lemma tag_first (s r : bytes) : length s = 10%nat -> firstn 10 (s ++ r) = s.
Proof. intros H. rewrite <- H. rewrite firstn_app, Nat.sub_diag, firstn_all. cbn. apply app_nil_r. Qed.
Lemma tag_skip (s : bytes) c r : length s = 10%nat -> skipn 11 (s ++ c :: r) = r.
Proof. intros H. rewrite skipn_app. rewrite H. rewrite skipn_all2 by lia. reflexivity. Qed.
Lemma buffer_to_list_text l bkt arch buf :
  buf = cat_head (zlen buf) bkt (zlen l) arch ++ concat (map (line arch) l) -> zlen buf < 10 ^ 10 ->
  100000 <= bkt <= 500000000 -> 2 <= zlen l < 2 ^ 31 -> Forall (okay arch) l ->
  buffer_to_list buf arch = Ok (Some (bkt, map (back arch) l)).
Proof.
  intros B Hz Hb Hl Hf. pose proof (zlen_nonneg buf) as Z0. change (10 ^ 10) with 10000000000 in *. change (2 ^ 31) with 2147483648 in *.
  remember (zlen buf) as total eqn:T. unfold buffer_to_list. rewrite <- T. rewrite B. unfold cat_head. rewrite <- !app_assoc. cbn [app].
  rewrite number_ten by (try reflexivity; change (2 ^ 63) with 9223372036854775808; lia). rewrite andthen_ok. cbv beta iota.
  rewrite (tag_first (b "parfu_v04 ")) by reflexivity. rewrite bytes_eqb_refl. cbn [negb]. rewrite (tag_skip (b "parfu_v04 ")) by reflexivity.
  assert (X : length (if arch then b "archive   " else b "full      ") = 10%nat) by (destruct arch; reflexivity).
  rewrite (tag_first _ _ X). rewrite bytes_eqb_refl. cbn [negb]. rewrite (tag_skip _ _ _ X).
  rewrite number_ten by (try reflexivity; change (2 ^ 63) with 9223372036854775808; lia). rewrite andthen_ok. cbv beta iota.
  rewrite (wrap32_id bkt) by (unfold is_int; change (2 ^ 31) with 2147483648; lia).
  destruct (Z.ltb_spec bkt 100000); [lia|]. destruct (Z.ltb_spec 500000000 bkt); [lia|]. cbn [orb].
  rewrite number_ten by (try reflexivity; change (2 ^ 63) with 9223372036854775808; lia). rewrite andthen_ok. cbv beta iota.
  rewrite (wrap32_id (zlen l)) by (unfold is_int; change (2 ^ 31) with 2147483648; lia).
  destruct (Z.ltb_spec (zlen l) 1); [lia|].
  unfold create_list. destruct (Z.ltb_spec (zlen l) 1); [lia|]. destruct (Z.ltb_spec (zlen l) 2); [lia|].
  rewrite andthen_ok. unfold zlen at 1. rewrite Nat2Z.id.
  rewrite <- (app_nil_r (concat (map (line arch) l))).
  rewrite (parse_all arch total total l []) by auto. reflexivity.
Qed.

(** the output buffer is large enough *)
Lemma room_ok need total : 0 <= total -> 0 <= need -> total + need + 1 <= 500000000 ->
  forall fuel size, 1 <= size <= 1000000000 -> (total + need + 1 <= size * 2 ^ Z.of_nat fuel) -> exists s, room fuel size total need = Some s /\ size <= s <= 1000000000 /\ total + need + 1 <= s.
Proof.
  intros H1 H2 H3. induction fuel as [|f IH]; intros size Hs Hf.
  - cbn [room]. rewrite wrap32_id by (unfold is_int; change (2 ^ 31) with 2147483648; lia).
    change (2 ^ Z.of_nat 0) with 1 in Hf. destruct (Z.ltb_spec (size - total) (need + 1)); [lia|]. exists size. split; auto; lia.
  - cbn [room]. rewrite wrap32_id by (unfold is_int; change (2 ^ 31) with 2147483648; lia).
    destruct (Z.ltb_spec (size - total) (need + 1)); [|exists size; split; auto; lia].
    unfold MAX_BUFFER. destruct (Z.ltb_spec 1000000000 (size * 2)); [lia|].
    destruct (IH (size * 2)) as (s & E & B); [lia| |exists s; split; auto; lia].
    rewrite Nat2Z.inj_succ, Z.pow_succ_r in Hf by lia. lia.
Qed.
Lemma add_lines_some ls : forall size out, 1 <= size <= 1000000000 -> zlen out + zlen (concat ls) + 1 <= 500000000 -> exists r, add_lines size out ls = Ok (Some r).
Proof.
  induction ls as [|x ls IH]; intros size out Hs Hz; cbn [add_lines]; [eauto|].
  cbn [concat] in Hz. rewrite zlen_app in Hz. pose proof (zlen_nonneg out). pose proof (zlen_nonneg x). pose proof (zlen_nonneg (concat ls)).
  destruct (room_ok (zlen x) (zlen out) ltac:(lia) ltac:(lia) ltac:(lia) 40 size Hs) as (s & E & B).
  { change (2 ^ Z.of_nat 40) with 1099511627776. nia. }
  rewrite E. destruct (Z.ltb_spec s (zlen out + zlen x + 1)); [lia|]. apply IH; [lia|]. rewrite zlen_app. lia.
Qed.
Lemma cat_head_zlen bkt n arch : 0 <= bkt < 10 ^ 10 -> 0 <= n < 10 ^ 10 -> zlen (cat_head 0 bkt n arch) = 55.
Proof.
  intros H1 H2. unfold cat_head. rewrite !zlen_app. rewrite !ten_zlen by lia. destruct arch; reflexivity.
Qed.
Lemma list_to_buffer_some l bkt arch : 100000 <= bkt <= 500000000 -> 1 <= zlen l <= 4000000 -> zlen (concat (map (line arch) l)) <= 499999000 ->
  exists buf, list_to_buffer l bkt arch = Ok (Some buf).
Proof.
  intros Hb Hl Hz. unfold list_to_buffer.
  assert (S : 1 <= (if arch then 512 else 0) + 200 * zlen l <= 1000000000 /\ 56 <= (if arch then 512 else 0) + 200 * zlen l) by (destruct arch; lia).
  destruct (Z.ltb_spec INT_MAX (200 * zlen l)); [unfold INT_MAX in *; change (2 ^ 31) with 2147483648 in *; lia|].
  destruct (Z.ltb_spec ((if arch then 512 else 0) + 200 * zlen l) 56); [lia|].
  assert (C : zlen (cat_head 0 bkt (zlen l) arch) = 55) by (apply cat_head_zlen; change (10 ^ 10) with 10000000000; lia).
  destruct (add_lines_some (map (line arch) l) _ (cat_head 0 bkt (zlen l) arch) (proj1 S)) as (r & E).
  { rewrite C. lia. }
  rewrite E. cbn [bind]. apply add_lines_out in E.
  assert (zlen r < 10 ^ 10). { rewrite E, zlen_app, C. change (10 ^ 10) with 10000000000. lia. }
  pose proof (zlen_nonneg r).
  rewrite ten_zlen by lia. rewrite Z.eqb_refl. eauto.
Qed.
