(** The order parser on text that is not a printed bundle (C57). *)
From Coq Require Import Lia.
From Verif Require Import Bytes Outcome TarModel Layout OrderCodec OrderCodecProofs.

(** ** a field that is not ended: the rest of the text, and back to the start *)
Lemma get_field_none c s p f : s = p ++ f -> zlen s < U32 - 2 -> no_byte c f -> get_field c s (zlen p) = Ok (f, 0).
Proof.
  intros -> Hz Hf. unfold get_field, find_from. rewrite skipn_zlen_app, find_byte_none by auto.
  rewrite zlen_app in Hz. pose proof (zlen_nonneg p). pose proof (zlen_nonneg f).
  unfold substr. rewrite zlen_app. destruct (Z.ltb_spec (zlen p + zlen f) (zlen p)); [lia|]. cbn [bind].
  rewrite skipn_zlen_app. unfold npos32 in *. rewrite Z.mod_small by (unfold U32 in *; lia).
  rewrite firstn_all2 by (unfold zlen, U32 in *; lia).
  replace (U32 - 1 + 1) with U32 by lia. rewrite Z.mod_same by (unfold U32; lia). reflexivity.
Qed.

Lemma get_stoi_print_more z r : INT_MIN <= z <= INT_MAX ->
  (match r with [] => True | c :: _ => digit_val 10 c = None end) -> get_stoi (print_int z ++ r) = Ok z.
Proof.
  intros H Hr. unfold get_stoi, stoi. rewrite scan_print_int by auto.
  destruct (INT_MIN <=? z) eqn:E1, (z <=? INT_MAX) eqn:E2; simpl; auto; lia.
Qed.

(** ** no newline left: rejected *)
Lemma parse_order_nolf s p l : s = p ++ l -> zlen s < U32 - 2 -> no_byte LF l -> parse_order s (zlen p) = Err EThrow.
Proof.
  intros -> Hz Hl. unfold parse_order, find_from. rewrite skipn_zlen_app, find_byte_none by auto.
  destruct (Z.ltb_spec (zlen (p ++ l)) npos32); [reflexivity|]. unfold npos32 in *. lia.
Qed.

Lemma print_order_body o : o_type o <> LF -> no_byte LF (o_rel o) -> no_byte LF (o_target o) ->
  exists l, print_order o = l ++ [LF] /\ no_byte LF l.
Proof.
  intros Ht Hr Hg. unfold print_order.
  exists (print_int (o_index o) ++ [TAB] ++ o_rel o ++ [TAB] ++ [o_type o] ++ [TAB] ++ o_target o ++ [TAB]
    ++ print_int (o_size o) ++ [TAB] ++ print_int (o_hdr o) ++ [TAB] ++ print_int (o_pos o) ++ [TAB] ++ print_int (o_fpos o)).
  split; [rewrite <- ?app_assoc; reflexivity|].
  assert (T : no_byte LF [TAB]) by (intros [X|[]]; discriminate X).
  assert (Y : no_byte LF [o_type o]) by (intros [X|[]]; congruence).
  unfold no_byte in *. rewrite !in_app_iff. pose proof (fun z => pi_nolf z) as P. unfold no_byte in P.
  intros H. repeat (destruct H as [H|H]; [revert H; auto; apply P|]). revert H. apply P.
Qed.

(** a prefix of a bundle: whole orders and a piece without newline *)
Lemma bundle_prefix os : Forall (fun o => o_type o <> LF /\ no_byte LF (o_rel o) /\ no_byte LF (o_target o)) os ->
  forall p q, p ++ q = print_bundle os -> exists k r, p = print_bundle (firstn k os) ++ r /\ no_byte LF r.
Proof.
  induction 1 as [|o os (Ht & Hr & Hg) _ IH]; intros p q E.
  - exists 0%nat, []. cbn in E. apply app_eq_nil in E as [-> _]. split; [reflexivity|intros []].
  - change (print_bundle (o :: os)) with (print_order o ++ print_bundle os) in E.
    destruct (print_order_body o Ht Hr Hg) as (l & El & Hl).
    destruct (Nat.le_gt_cases (length (print_order o)) (length p)) as [Hle|Hgt].
    + assert (Ep : firstn (length (print_order o)) p = print_order o).
      { assert (X : firstn (length (print_order o)) (p ++ q) = firstn (length (print_order o)) (print_order o ++ print_bundle os)) by (rewrite E; reflexivity).
        rewrite firstn_app in X. replace (length (print_order o) - length p)%nat with 0%nat in X by lia. cbn [firstn] in X. rewrite app_nil_r in X.
        rewrite X, firstn_app, firstn_all, Nat.sub_diag. cbn [firstn]. apply app_nil_r. }
      pose proof (firstn_skipn (length (print_order o)) p) as Ep2. rewrite Ep in Ep2.
      rewrite <- Ep2, <- app_assoc in E. apply app_inv_head in E. destruct (IH _ _ E) as (k & r & Ek & Hk).
      exists (S k), r. split; auto. cbn [firstn]. change (print_bundle (o :: ?x)) with (print_order o ++ print_bundle x).
      rewrite <- app_assoc, <- Ek. auto.
    + exists 0%nat, p. split; [reflexivity|]. intros Hin.
      assert (Ep : p = firstn (length p) (l ++ [LF])).
      { assert (X : firstn (length p) (p ++ q) = firstn (length p) (print_order o ++ print_bundle os)) by (rewrite E; reflexivity).
        rewrite !firstn_app, firstn_all, Nat.sub_diag in X. cbn [firstn] in X. rewrite app_nil_r in X.
        replace (length p - length (print_order o))%nat with 0%nat in X by lia. cbn [firstn] in X. rewrite app_nil_r, El in X. exact X. }
      rewrite El, app_length in Hgt. cbn [length] in Hgt. rewrite firstn_app in Ep. replace (length p - length l)%nat with 0%nat in Ep by lia.
      cbn [firstn] in Ep. rewrite app_nil_r in Ep. rewrite Ep in Hin. apply Hl. rewrite <- (firstn_skipn (length p) l). apply in_or_app. auto.
Qed.

Lemma truncated os p q :
  Forall (fun o => sendable o /\ o_type o <> LF /\ no_byte LF (o_rel o) /\ no_byte LF (o_target o)) os ->
  zlen (print_bundle os) < 2 ^ 32 - 2 -> p ++ q = print_bundle os ->
  (exists k, p = print_bundle (firstn k os) /\ parse_bundle p = Ok (firstn k os)) \/ parse_bundle p = Err EThrow.
Proof.
  intros Hf Hz E.
  assert (Hl : Forall (fun o => o_type o <> LF /\ no_byte LF (o_rel o) /\ no_byte LF (o_target o)) os) by (eapply Forall_impl; [|exact Hf]; cbv beta; tauto).
  assert (Hs : Forall sendable os) by (eapply Forall_impl; [|exact Hf]; cbv beta; tauto).
  destruct (bundle_prefix os Hl p q E) as (k & r & Ep & Hr).
  assert (Hk : Forall sendable (firstn k os)). { rewrite <- (firstn_skipn k os) in Hs. apply Forall_app in Hs. tauto. }
  assert (Hzp : zlen p < U32 - 2). { rewrite <- E, zlen_app in Hz. pose proof (zlen_nonneg q). unfold U32. lia. }
  destruct r as [|c r].
  - rewrite app_nil_r in Ep. left. exists k. split; auto. rewrite Ep. apply C16_lemma; auto. rewrite <- Ep. exact Hzp.
  - right. unfold parse_bundle. change 0 with (zlen (@nil byte)).
    assert (Hlen : (length (firstn k os) < length p)%nat).
    { rewrite Ep, app_length. pose proof (print_bundle_len (firstn k os)). cbn [length]. lia. }
    rewrite (parse_orders_app (firstn k os) _ p [] (c :: r)); [|exact Ep|exact Hzp|auto|lia].
    cbn [app]. destruct (S (length p) - length (firstn k os))%nat as [|n] eqn:En; [lia|]. cbn [parse_orders].
    destruct (Z.ltb_spec (zlen (print_bundle (firstn k os))) (zlen p)) as [_|X].
    2:{ exfalso. rewrite Ep, zlen_app in X. change (zlen (c :: r)) with (Z.of_nat (S (length r))) in X. lia. }
    rewrite (parse_order_nolf p (print_bundle (firstn k os)) (c :: r)); auto.
Qed.

(** ** one line with at least seven tabs is read by itself *)
Definition of_fields (f0 rel f2 tgt f4 f5 f6 f7 : bytes) : outcome order :=
  i <- get_stoi f0 ;;
  ty <- (match f2 with c :: _ => Ok c | [] => Err EThrow end) ;;
  sz <- get_stoi f4 ;; hd <- get_stoi f5 ;; ps <- get_stoi f6 ;; fp <- get_stoi f7 ;;
  Ok {| o_index := i; o_rel := rel; o_type := ty; o_target := tgt; o_size := to_ulong sz; o_hdr := to_uint hd;
        o_pos := to_ulong ps; o_fpos := to_ulong fp |}.
Definition line_of (f0 f1 f2 f3 f4 f5 f6 f7 : bytes) : bytes :=
  f0 ++ [TAB] ++ f1 ++ [TAB] ++ f2 ++ [TAB] ++ f3 ++ [TAB] ++ f4 ++ [TAB] ++ f5 ++ [TAB] ++ f6 ++ [TAB] ++ f7.

Lemma parse_order_line s p r f0 f1 f2 f3 f4 f5 f6 f7 :
  s = p ++ line_of f0 f1 f2 f3 f4 f5 f6 f7 ++ [LF] ++ r -> zlen s < U32 - 2 ->
  no_byte TAB f0 -> no_byte TAB f1 -> no_byte TAB f2 -> no_byte TAB f3 -> no_byte TAB f4 -> no_byte TAB f5 -> no_byte TAB f6 ->
  no_byte LF f7 ->
  parse_order s (zlen p) = (o <- of_fields f0 f1 f2 f3 f4 f5 f6 f7 ;; Ok (o, zlen (p ++ line_of f0 f1 f2 f3 f4 f5 f6 f7 ++ [LF]))).
Proof.
  intros Hs Hz H0 H1 H2 H3 H4 H5 H6 H7. unfold parse_order, of_fields.
  rewrite (line_check s p (line_of f0 f1 f2 f3 f4 f5 f6 f7 ++ [LF] ++ r) Hs Hz) by (apply in_or_app; right; left; reflexivity).
  unfold line_of in *.
  pose (q0 := p ++ f0 ++ [TAB]). pose (q1 := q0 ++ f1 ++ [TAB]). pose (q2 := q1 ++ f2 ++ [TAB]).
  pose (q3 := q2 ++ f3 ++ [TAB]). pose (q4 := q3 ++ f4 ++ [TAB]). pose (q5 := q4 ++ f5 ++ [TAB]).
  pose (q6 := q5 ++ f6 ++ [TAB]). pose (q7 := q6 ++ f7 ++ [LF]).
  erewrite (get_field_app TAB s p f0); [|rewrite Hs, <- !app_assoc; reflexivity|exact Hz|auto]. cbn [bind]. fold q0.
  destruct (get_stoi f0) as [i|]; [|reflexivity]. cbn [bind].
  erewrite (get_field_app TAB s q0 f1); [|rewrite Hs; unfold q0; rewrite <- !app_assoc; reflexivity|exact Hz|assumption]. cbn [bind]. fold q1.
  erewrite (get_field_app TAB s q1 f2); [|rewrite Hs; unfold q1, q0; rewrite <- !app_assoc; reflexivity|exact Hz|auto]. cbn [bind]. fold q2.
  destruct f2 as [|c f2']; [reflexivity|]. cbn [bind]. set (f2 := c :: f2') in *.
  erewrite (get_field_app TAB s q2 f3); [|rewrite Hs; unfold q2, q1, q0; rewrite <- !app_assoc; reflexivity|exact Hz|assumption]. cbn [bind]. fold q3.
  erewrite (get_field_app TAB s q3 f4); [|rewrite Hs; unfold q3, q2, q1, q0; rewrite <- !app_assoc; reflexivity|exact Hz|auto]. cbn [bind]. fold q4.
  destruct (get_stoi f4) as [sz|]; [|reflexivity]. cbn [bind].
  erewrite (get_field_app TAB s q4 f5); [|rewrite Hs; unfold q4, q3, q2, q1, q0; rewrite <- !app_assoc; reflexivity|exact Hz|auto]. cbn [bind]. fold q5.
  destruct (get_stoi f5) as [hd|]; [|reflexivity]. cbn [bind].
  erewrite (get_field_app TAB s q5 f6); [|rewrite Hs; unfold q5, q4, q3, q2, q1, q0; rewrite <- !app_assoc; reflexivity|exact Hz|auto]. cbn [bind]. fold q6.
  destruct (get_stoi f6) as [ps|]; [|reflexivity]. cbn [bind].
  erewrite (get_field_app LF s q6 f7); [|rewrite Hs; unfold q6, q5, q4, q3, q2, q1, q0; rewrite <- !app_assoc; reflexivity|exact Hz|auto]. cbn [bind]. fold q7.
  destruct (get_stoi f7) as [fp|]; [|reflexivity]. cbn [bind].
  do 2 f_equal. f_equal. unfold q7, q6, q5, q4, q3, q2, q1, q0. rewrite <- !app_assoc. reflexivity.
Qed.

Definition tabs (l : bytes) : nat := count_occ ascii_dec l TAB.
Lemma tabs_split n l : (S n <= tabs l)%nat -> exists f r, l = f ++ [TAB] ++ r /\ no_byte TAB f /\ (n <= tabs r)%nat.
Proof.
  unfold tabs. induction l as [|c l IH]; intros H; [cbn in H; lia|]. cbn [count_occ] in H. destruct (ascii_dec c TAB) as [->|N].
  - exists [], l. split; [reflexivity|]. split; [intros []|lia].
  - destruct (IH H) as (f & r & -> & Hf & Hr). exists (c :: f), r. split; [reflexivity|]. split; auto.
    intros [X|X]; auto.
Qed.
Lemma line_fields l : (7 <= tabs l)%nat -> no_byte LF l -> exists f0 f1 f2 f3 f4 f5 f6 f7, l = line_of f0 f1 f2 f3 f4 f5 f6 f7 /\
  no_byte TAB f0 /\ no_byte TAB f1 /\ no_byte TAB f2 /\ no_byte TAB f3 /\ no_byte TAB f4 /\ no_byte TAB f5 /\ no_byte TAB f6 /\ no_byte LF f7.
Proof.
  intros H Hl.
  destruct (tabs_split _ _ H) as (f0 & r0 & E0 & F0 & H0). destruct (tabs_split _ _ H0) as (f1 & r1 & E1 & F1 & H1).
  destruct (tabs_split _ _ H1) as (f2 & r2 & E2 & F2 & H2). destruct (tabs_split _ _ H2) as (f3 & r3 & E3 & F3 & H3).
  destruct (tabs_split _ _ H3) as (f4 & r4 & E4 & F4 & H4). destruct (tabs_split _ _ H4) as (f5 & r5 & E5 & F5 & H5).
  destruct (tabs_split _ _ H5) as (f6 & f7 & E6 & F6 & _).
  exists f0, f1, f2, f3, f4, f5, f6, f7. assert (E : l = line_of f0 f1 f2 f3 f4 f5 f6 f7) by (unfold line_of; congruence).
  repeat (split; [assumption|]). intros X. apply Hl. rewrite E. unfold line_of. repeat (apply in_or_app; right). exact X.
Qed.

(** what one line gives *)
Definition one_line (l : bytes) (x : outcome order) : Prop :=
  (x = Err EThrow \/ exists o, x = Ok o) /\
  forall s p r, s = p ++ l ++ [LF] ++ r -> zlen s < U32 - 2 -> parse_order s (zlen p) = (o <- x ;; Ok (o, zlen (p ++ l ++ [LF]))).
Lemma stoi_cases f : get_stoi f = Err EThrow \/ exists z, get_stoi f = Ok z.
Proof. unfold get_stoi. destruct (stoi f); eauto. Qed.
Lemma of_fields_cases f0 f1 f2 f3 f4 f5 f6 f7 : of_fields f0 f1 f2 f3 f4 f5 f6 f7 = Err EThrow \/ exists o, of_fields f0 f1 f2 f3 f4 f5 f6 f7 = Ok o.
Proof.
  unfold of_fields. destruct (stoi_cases f0) as [->|(z0 & ->)]; [auto|]. destruct f2; [auto|]. cbn [bind].
  destruct (stoi_cases f4) as [->|(z4 & ->)]; [auto|]. destruct (stoi_cases f5) as [->|(z5 & ->)]; [auto|]. cbn [bind].
  destruct (stoi_cases f6) as [->|(z6 & ->)]; [auto|]. destruct (stoi_cases f7) as [->|(z7 & ->)]; [auto|]. cbn [bind]. eauto.
Qed.
Lemma line_one l : (7 <= tabs l)%nat -> no_byte LF l -> exists x, one_line l x.
Proof.
  intros H Hl. destruct (line_fields l H Hl) as (f0 & f1 & f2 & f3 & f4 & f5 & f6 & f7 & E & F0 & F1 & F2 & F3 & F4 & F5 & F6 & F7).
  exists (of_fields f0 f1 f2 f3 f4 f5 f6 f7). split; [apply of_fields_cases|]. intros s p r Hs Hz. subst l. eapply parse_order_line; eauto.
Qed.

Definition text_of (ls : list bytes) : bytes := flat_map (fun l => l ++ [LF]) ls.
Lemma text_len ls : (length ls <= length (text_of ls))%nat.
Proof. induction ls as [|l ls IH]; cbn [text_of flat_map length]; [lia|]. fold (text_of ls). rewrite !app_length. cbn [length]. lia. Qed.

Fixpoint first_bad (xs : list (outcome order)) : outcome (list order) :=
  match xs with [] => Ok [] | x :: xs' => o <- x ;; r <- first_bad xs' ;; Ok (o :: r) end.

Lemma parse_lines ls xs : Forall2 one_line ls xs -> forall fuel s p, s = p ++ text_of ls -> zlen s < U32 - 2 -> (length ls <= fuel)%nat ->
  parse_orders fuel s (zlen p) = first_bad xs.
Proof.
  induction 1 as [|l x ls xs (Hx & Hl) _ IH]; intros fuel s p Hs Hz Hn.
  - cbn [text_of flat_map] in Hs. rewrite app_nil_r in Hs. subst s. destruct fuel; cbn [parse_orders]; rewrite Z.ltb_irrefl; reflexivity.
  - cbn [length] in Hn. destruct fuel as [|fuel]; [lia|]. cbn [parse_orders first_bad].
    cbn [text_of flat_map] in Hs. fold (text_of ls) in Hs. rewrite <- app_assoc in Hs.
    destruct (Z.ltb_spec (zlen p) (zlen s)) as [_|X].
    2:{ exfalso. rewrite Hs, !zlen_app in X. change (zlen [LF]) with 1 in X. pose proof (zlen_nonneg l). pose proof (zlen_nonneg (text_of ls)). lia. }
    rewrite (Hl s p (text_of ls) Hs Hz). destruct Hx as [->|(o & ->)]; [reflexivity|]. cbn [bind].
    rewrite (IH fuel s (p ++ l ++ [LF])); [|rewrite Hs, <- !app_assoc; reflexivity|auto|lia]. reflexivity.
Qed.

Lemma lines_lemma ls : Forall (fun l => (7 <= tabs l)%nat /\ no_byte LF l) ls -> zlen (text_of ls) < 2 ^ 32 - 2 ->
  exists xs, length xs = length ls /\ parse_bundle (text_of ls) = first_bad xs /\
    (forall k l, nth_error ls k = Some l -> exists x, nth_error xs k = Some x /\ parse_bundle (l ++ [LF]) = first_bad [x] /\
       (x = Err EThrow \/ exists o, x = Ok o)).
Proof.
  intros Hf Hz. assert (X : exists xs, Forall2 one_line ls xs).
  { clear Hz. induction Hf as [|l ls (H1 & H2) _ (xs & IH)]; [exists []; constructor|]. destruct (line_one l H1 H2) as (x & Hx). exists (x :: xs). constructor; auto. }
  destruct X as (xs & X). exists xs. split; [symmetry; clear - X; induction X; cbn; auto|]. split.
  - unfold parse_bundle. change 0 with (zlen (@nil byte)). apply (parse_lines ls xs X); auto. pose proof (text_len ls). lia.
  - assert (Hm : forall l, In l ls -> zlen (text_of [l]) < U32 - 2).
    { intros l Hl. assert (Hle : zlen (l ++ [LF]) <= zlen (text_of ls)).
      { clear - Hl. unfold text_of. induction ls as [|l' ls IH]; [destruct Hl|]. cbn [flat_map]. rewrite !zlen_app in *.
        pose proof (zlen_nonneg (flat_map (fun l => l ++ [LF]) ls)). pose proof (zlen_nonneg l'). change (zlen [LF]) with 1 in *.
        destruct Hl as [->|Hl]; [lia|]. specialize (IH Hl). lia. }
      unfold text_of. cbn [flat_map]. rewrite app_nil_r. unfold U32. lia. }
    clear Hz Hf. induction X as [|l x ls xs Hx X IH]; intros k l0 Hk; [destruct k; discriminate|]. destruct k as [|k]; cbn [nth_error] in Hk |- *.
    + assert (l0 = l) by congruence. subst l0. exists x. split; auto. split; [|apply Hx].
      unfold parse_bundle. change 0 with (zlen (@nil byte)).
      replace (l ++ [LF]) with (text_of [l]) by (unfold text_of; cbn [flat_map]; apply app_nil_r).
      apply (parse_lines [l] [x]); [constructor; [exact Hx|constructor]|reflexivity|apply Hm; left; reflexivity|cbn [length]; lia].
    + apply IH; auto. intros l1 Hl1. apply Hm. right. exact Hl1.
Qed.

(** ** a line that misses its last field, after a good line: the loop does not end *)
Definition cut_line (o : order) : bytes :=
  print_int (o_index o) ++ [TAB] ++ o_rel o ++ [TAB] ++ [o_type o] ++ [TAB] ++ o_target o ++ [TAB]
  ++ print_int (o_size o) ++ [TAB] ++ print_int (o_hdr o) ++ [TAB] ++ print_int (o_pos o) ++ [LF].
Lemma hangs o1 o2 : sendable o1 -> sendable o2 -> o_type o1 <> LF -> no_byte LF (o_rel o1) -> no_byte LF (o_target o1) ->
  zlen (print_order o1 ++ cut_line o2) < 2 ^ 32 - 2 ->
  forall fuel, parse_orders fuel (print_order o1 ++ cut_line o2) 0 = Err EHang.
Proof.
  intros S1 S2 Ht Hr Hg Hz. set (s := print_order o1 ++ cut_line o2) in *. set (p := print_order o1) in *.
  assert (Hp : 0 < zlen p) by (pose proof (print_order_len o1); unfold zlen; unfold p; lia).
  assert (Hc : 0 < zlen (cut_line o2)). { unfold cut_line. rewrite !zlen_app. change (zlen [TAB]) with 1. repeat match goal with |- context [zlen ?x] => lazymatch goal with H : 0 <= zlen x |- _ => fail | _ => pose proof (zlen_nonneg x) end end. lia. }
  assert (P1 : parse_order s 0 = Ok (o1, zlen p)).
  { change 0 with (zlen (@nil byte)). rewrite (parse_order_ok s [] o1 (cut_line o2)); auto. }
  assert (P2 : exists o, parse_order s (zlen p) = Ok (o, zlen p)).
  { destruct S2 as (Hi & Hrel & Hty & Htg & Hsz & Hhd & Hps & Hfp).
    unfold parse_order. rewrite (line_check s p (cut_line o2) eq_refl Hz) by (unfold cut_line; repeat (apply in_or_app; right); left; reflexivity).
    assert (Hs : s = p ++ cut_line o2) by reflexivity. unfold cut_line in Hs.
    set (F0 := print_int (o_index o2)) in *. set (F2 := [o_type o2]) in *. set (F4 := print_int (o_size o2)) in *.
    set (F5 := print_int (o_hdr o2)) in *. set (F6 := print_int (o_pos o2)) in *.
    pose (q0 := p ++ F0 ++ [TAB]). pose (q1 := q0 ++ o_rel o2 ++ [TAB]). pose (q2 := q1 ++ F2 ++ [TAB]).
    pose (q3 := q2 ++ o_target o2 ++ [TAB]). pose (q4 := q3 ++ F4 ++ [TAB]). pose (q5 := q4 ++ F5 ++ [TAB]).
    erewrite (get_field_app TAB s p F0); [|rewrite Hs, <- ?app_assoc; reflexivity|exact Hz|apply pi_notab]. cbn [bind]. fold q0.
    unfold F0 at 1. rewrite get_stoi_print by auto. cbn [bind].
    erewrite (get_field_app TAB s q0 (o_rel o2)); [|rewrite Hs; unfold q0; rewrite <- !app_assoc; reflexivity|exact Hz|assumption]. cbn [bind]. fold q1.
    erewrite (get_field_app TAB s q1 F2); [|rewrite Hs; unfold q1, q0; rewrite <- !app_assoc; reflexivity|auto|].
    2:{ unfold F2. intros [H|[]]. congruence. }
    cbn [bind]. fold q2. unfold F2 at 1. cbn [bind].
    erewrite (get_field_app TAB s q2 (o_target o2)); [|rewrite Hs; unfold q2, q1, q0; rewrite <- !app_assoc; reflexivity|exact Hz|assumption]. cbn [bind]. fold q3.
    erewrite (get_field_app TAB s q3 F4); [|rewrite Hs; unfold q3, q2, q1, q0; rewrite <- !app_assoc; reflexivity|exact Hz|apply pi_notab]. cbn [bind]. fold q4.
    unfold F4 at 1. rewrite get_stoi_print by (apply int31_range; auto). cbn [bind].
    erewrite (get_field_app TAB s q4 F5); [|rewrite Hs; unfold q4, q3, q2, q1, q0; rewrite <- !app_assoc; reflexivity|exact Hz|apply pi_notab]. cbn [bind]. fold q5.
    unfold F5 at 1. rewrite get_stoi_print by (apply int31_range; auto). cbn [bind].
    rewrite (get_field_none TAB s q5 (F6 ++ [LF])); [|rewrite Hs; unfold q5, q4, q3, q2, q1, q0; rewrite <- !app_assoc; reflexivity|exact Hz|].
    2:{ intros H. apply in_app_iff in H. destruct H as [H|[H|[]]]; [revert H; apply pi_notab|discriminate H]. }
    cbn [bind]. unfold F6 at 1. rewrite get_stoi_print_more by (try (apply int31_range; auto); reflexivity). cbn [bind].
    destruct (print_order_body o1 Ht Hr Hg) as (l & El & Hl).
    assert (E7 : get_field LF s 0 = Ok (l, zlen p)).
    { change 0 with (zlen (@nil byte)). rewrite (get_field_app LF s [] l (cut_line o2)); [|unfold s, p; rewrite El, <- app_assoc; reflexivity|exact Hz|auto].
      unfold p. rewrite El. reflexivity. }
    rewrite E7. cbn [bind].
    assert (E : exists r, l = print_int (o_index o1) ++ TAB :: r).
    { unfold print_order in El. destruct S1 as (Hi1 & _). 
      exists (o_rel o1 ++ [TAB] ++ [o_type o1] ++ [TAB] ++ o_target o1 ++ [TAB] ++ print_int (o_size o1) ++ [TAB] ++ print_int (o_hdr o1) ++ [TAB] ++ print_int (o_pos o1) ++ [TAB] ++ print_int (o_fpos o1)).
      apply (app_inv_tail [LF]). rewrite <- El. rewrite <- !app_assoc. cbn [app]. repeat (rewrite <- ?app_assoc; cbn [app]). reflexivity. }
    destruct E as (r & ->). destruct S1 as (Hi1 & _). rewrite get_stoi_print_more by (auto; reflexivity). cbn [bind]. eexists. reflexivity. }
  destruct P2 as (o & P2).
  assert (H : forall fuel, parse_orders fuel s (zlen p) = Err EHang).
  { induction fuel as [|fuel IH]; cbn [parse_orders]; (destruct (Z.ltb_spec (zlen p) (zlen s)) as [_|X]; [|unfold s in X; rewrite zlen_app in X; unfold p in X; lia]); [reflexivity|].
    rewrite P2. cbn [bind]. rewrite IH. reflexivity. }
  intros [|fuel]; cbn [parse_orders]; (destruct (Z.ltb_spec 0 (zlen s)) as [_|X]; [|unfold s in X; rewrite zlen_app in X; fold p in X; lia]); [reflexivity|].
  rewrite P1. cbn [bind]. rewrite H. reflexivity.
Qed.

(** ** the fuel of [parse_bundle] is enough for every call that ends *)
Lemma parse_order_pos s p o p' : parse_order s p = Ok (o, p') -> 0 <= p'.
Proof.
  unfold parse_order. intros H. destruct (zlen s <? find_from LF s p); [discriminate|].
  assert (G : forall c q f q', get_field c s q = Ok (f, q') -> 0 <= q').
  { intros c q f q' X. unfold get_field in X. destruct (substr s q (find_from c s q - q)); [|discriminate]. cbn [bind] in X.
    assert (q' = (find_from c s q + 1) mod U32) by congruence. subst q'. apply Z.mod_pos_bound. unfold U32. lia. }
  repeat match type of H with
  | bind (get_field ?c s ?q) _ = _ => let x := fresh "x" in let E := fresh "E" in destruct (get_field c s q) as [[? x]|] eqn:E; [|discriminate H]; cbn [bind] in H
  | bind (get_stoi ?f) _ = _ => destruct (get_stoi f); [|discriminate H]; cbn [bind] in H
  | bind (match ?f with [] => _ | _ :: _ => _ end) _ = _ => destruct f; [discriminate H|]; cbn [bind] in H
  end.
  match goal with E : get_field LF s _ = Ok (_, ?q) |- _ => assert (p' = q) by congruence; subst q; exact (G _ _ _ _ E) end.
Qed.

Lemma visits s : forall f b, 0 <= b -> parse_orders f s b <> Err EHang ->
  exists vs, NoDup vs /\ (forall v, In v vs -> 0 <= v < zlen s) /\ (forall m, (length vs <= m)%nat -> parse_orders m s b = parse_orders f s b) /\ (forall n, (n < length vs)%nat -> parse_orders n s b = Err EHang) /\ (forall v, In v vs -> exists n, (n <= length vs)%nat /\ parse_orders n s v <> Err EHang).
Proof.
  induction f as [|f IH]; intros b Hb H.
  - cbn [parse_orders] in H. destruct (Z.ltb_spec b (zlen s)) as [X|X]; [congruence|].
    exists []. split; [constructor|]. split; [intros v []|]. split; [|split; [intros n Hn; cbn in Hn; lia|intros v []]].
    intros m _. destruct m; cbn [parse_orders]; destruct (Z.ltb_spec b (zlen s)); try lia; reflexivity.
  - destruct (Z.ltb_spec b (zlen s)) as [X|X].
    2:{ exists []. split; [constructor|]. split; [intros v []|]. split; [|split; [intros n Hn; cbn in Hn; lia|intros v []]].
        intros m _. destruct m; cbn [parse_orders]; destruct (Z.ltb_spec b (zlen s)); try lia; reflexivity. }
    assert (Lt : (b <? zlen s) = true) by (apply Z.ltb_lt; lia).
    cbn [parse_orders] in H |- *. rewrite Lt in *. destruct (parse_order s b) as [[o p]|e] eqn:E; cbn [bind] in H |- *.
    + assert (Hp : 0 <= p) by (eapply parse_order_pos; eauto).
      assert (Hr : parse_orders f s p <> Err EHang) by (intros Y; rewrite Y in H; cbn [bind] in H; congruence).
      destruct (IH p Hp Hr) as (vs & N & R & A & M & V).
      assert (M' : forall n, (n < S (length vs))%nat -> parse_orders n s b = Err EHang).
      { intros [|n] Hn; cbn [parse_orders]; rewrite Lt; [reflexivity|]. rewrite E. cbn [bind]. rewrite M by lia. reflexivity. }
      exists (b :: vs). split; [constructor; auto; intros Hin; destruct (V b Hin) as (n & Hn & Hne); apply Hne, M'; lia|].
      split; [intros v [<-|Hv]; auto; lia|]. cbn [length]. split; [|split; [exact M'|]].
      * intros [|m] Hm; [lia|]. cbn [parse_orders]. rewrite Lt, E. cbn [bind]. rewrite A by lia. reflexivity.
      * intros v [<-|Hv].
        -- exists (S (length vs)). split; auto. cbn [parse_orders]. rewrite Lt, E. cbn [bind]. rewrite A by lia. exact H.
        -- destruct (V v Hv) as (n & Hn & Hne). exists n. split; auto.
    + exists [b]. split; [repeat constructor; intros []|]. split; [intros v [<-|[]]; lia|]. cbn [length]. split; [|split].
      * intros [|m] Hm; [lia|]. cbn [parse_orders]. rewrite Lt, E. reflexivity.
      * intros [|n] Hn; [|lia]. cbn [parse_orders]. rewrite Lt. reflexivity.
      * intros v [<-|[]]. exists 1%nat. split; [lia|]. cbn [parse_orders]. rewrite Lt, E. cbn [bind]. exact H.
Qed.

Lemma fuel_enough s f : parse_orders f s 0 <> Err EHang -> parse_orders f s 0 = parse_bundle s.
Proof.
  intros H. destruct (visits s f 0 ltac:(lia) H) as (vs & N & R & A & _ & _). unfold parse_bundle. symmetry. apply A.
  assert (Hl : (length (map Z.to_nat vs) <= length (seq 0 (length s)))%nat).
  { apply NoDup_incl_length.
    - clear A H. induction N as [|v vs Hv N IH]; cbn [map]; [constructor|]. constructor; [|apply IH; intros; apply R; right; auto].
      intros Hin. apply in_map_iff in Hin as (w & Ew & Hw). assert (Ev : 0 <= v < zlen s) by (apply R; left; auto).
      assert (Ew' : 0 <= w < zlen s) by (apply R; right; auto). apply Hv. replace v with w by lia. exact Hw.
    - intros n Hin. apply in_map_iff in Hin as (v & <- & Hv). apply in_seq. pose proof (R v Hv). unfold zlen in *. lia. }
  rewrite map_length, seq_length in Hl. lia.
Qed.

(** ** two numbers on a line: accepted as an order *)
Lemma garbage i j : 0 <= i <= INT_MAX -> 0 <= j <= INT_MAX ->
  exists c, parse_bundle (print_int i ++ [TAB] ++ print_int j ++ [LF]) =
    Ok [{| o_index := i; o_rel := print_int j ++ [LF]; o_type := c; o_target := print_int j ++ [LF]; o_size := i; o_hdr := j; o_pos := i; o_fpos := j |}].
Proof.
  intros Hi Hj. set (s := print_int i ++ [TAB] ++ print_int j ++ [LF]).
  assert (Hz : zlen s < U32 - 2).
  { unfold s. rewrite !zlen_app, !print_int_zlen by lia. change (zlen [TAB]) with 1. change (zlen [LF]) with 1.
    unfold INT_MAX in *. change U32 with 4294967296. pose proof (ndig_le 10 i 10 ltac:(lia) ltac:(change (10 ^ 10) with 10000000000; lia) ltac:(lia)). pose proof (ndig_le 10 j 10 ltac:(lia) ltac:(change (10 ^ 10) with 10000000000; lia) ltac:(lia)). lia. }
  pose (q := [] ++ print_int i ++ [TAB]).
  assert (A : get_field TAB s 0 = Ok (print_int i, zlen q)).
  { change 0 with (zlen (@nil byte)). apply (get_field_app TAB s [] (print_int i) (print_int j ++ [LF])); [reflexivity|auto|apply pi_notab]. }
  assert (B : get_field TAB s (zlen q) = Ok (print_int j ++ [LF], 0)).
  { apply get_field_none; auto; [unfold q, s; cbn [app]; rewrite <- app_assoc; reflexivity|].
    intros H. apply in_app_iff in H. destruct H as [H|[H|[]]]; [revert H; apply pi_notab|discriminate H]. }
  assert (C : get_field LF s (zlen q) = Ok (print_int j, zlen s)).
  { rewrite (get_field_app LF s q (print_int j) []); [|unfold q, s; cbn [app]; rewrite <- app_assoc; reflexivity|auto|apply pi_nolf].
    do 2 f_equal. unfold q, s. cbn [app]. rewrite <- app_assoc. reflexivity. }
  destruct (print_int i) as [|c r] eqn:Ei; [exfalso; apply (print_int_nonempty i); auto|].
  exists c. unfold parse_bundle. assert (Hs : 0 < zlen s) by (unfold s; rewrite zlen_app; change (zlen (c :: r)) with (Z.of_nat (S (length r))); pose proof (zlen_nonneg ([TAB] ++ print_int j ++ [LF])); lia).
  cbn [parse_orders]. destruct (Z.ltb_spec 0 (zlen s)); [|lia].
  assert (P : parse_order s 0 = Ok ({| o_index := i; o_rel := print_int j ++ [LF]; o_type := c; o_target := print_int j ++ [LF]; o_size := i; o_hdr := j; o_pos := i; o_fpos := j |}, zlen s)).
  { unfold parse_order. change (find_from LF s 0) with (find_from LF s (zlen (@nil byte))). rewrite (line_check s [] s eq_refl Hz) by (unfold s; apply in_or_app; right; apply in_or_app; right; apply in_or_app; right; left; reflexivity).
    rewrite A. cbn [bind]. rewrite <- Ei at 1. rewrite get_stoi_print by (unfold INT_MIN; lia). cbn [bind].
    rewrite B. cbn [bind]. rewrite A. cbn [bind]. rewrite B. cbn [bind]. rewrite A. cbn [bind].
    rewrite <- Ei at 1. rewrite get_stoi_print by (unfold INT_MIN; lia). cbn [bind].
    rewrite B. cbn [bind]. rewrite get_stoi_print_more by (first [reflexivity | unfold INT_MIN; lia]). cbn [bind]. rewrite A. cbn [bind].
    rewrite <- Ei at 1. rewrite get_stoi_print by (unfold INT_MIN; lia). cbn [bind].
    rewrite C. cbn [bind]. rewrite get_stoi_print by (unfold INT_MIN; lia). cbn [bind].
    rewrite int31_uint, !int31_ulong by (unfold int31; lia). reflexivity. }
  rewrite P. cbn [bind]. destruct (length s) as [|n] eqn:En; [unfold zlen in Hs; lia|]. cbn [parse_orders]. rewrite Z.ltb_irrefl. reflexivity.
Qed.
