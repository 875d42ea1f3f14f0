(** Proofs about the order text (C16, C46). *)
From Verif Require Import Bytes Outcome TarModel Layout OrderCodec.

Definition int31 (z : Z) : Prop := 0 <= z <= INT_MAX.
(** orders whose text the worker can read *)
Definition sendable (o : order) : Prop :=
  INT_MIN <= o_index o <= INT_MAX /\ no_byte TAB (o_rel o) /\ o_type o <> TAB /\ no_byte TAB (o_target o) /\
  int31 (o_size o) /\ int31 (o_hdr o) /\ int31 (o_pos o) /\ int31 (o_fpos o).

Lemma skipn_zlen_app {A} (p l : list A) : skipn (Z.to_nat (zlen p)) (p ++ l) = l.
Proof. unfold zlen. rewrite Nat2Z.id, skipn_app, skipn_all, Nat.sub_diag. reflexivity. Qed.

Lemma get_field_app c s p f r : s = p ++ f ++ [c] ++ r -> zlen s < U32 - 2 -> no_byte c f ->
  get_field c s (zlen p) = Ok (f, zlen (p ++ f ++ [c])).
Proof.
  intros -> Hz Hf. unfold get_field, find_from. rewrite skipn_zlen_app. cbn [app]. rewrite find_byte_app by auto.
  rewrite !zlen_app in Hz. change (zlen [c]) with 1 in Hz.
  pose proof (zlen_nonneg p). pose proof (zlen_nonneg f). pose proof (zlen_nonneg r).
  fold (zlen f). rewrite (Z.mod_small (zlen p + zlen f)) by (unfold U32 in *; lia).
  unfold substr. rewrite !zlen_app. change (zlen (c :: r)) with (zlen ([c] ++ r)). rewrite zlen_app. change (zlen [c]) with 1.
  destruct (Z.ltb_spec (zlen p + (zlen f + (1 + zlen r))) (zlen p)); [lia|].
  cbn [bind]. rewrite skipn_zlen_app.
  replace (zlen p + zlen f - zlen p) with (zlen f) by lia.
  rewrite Z.mod_small by (unfold U32 in *; lia). rewrite Z.mod_small by (unfold U32 in *; lia).
  unfold zlen at 1. rewrite Nat2Z.id, firstn_app, firstn_all, Nat.sub_diag. cbn [firstn]. rewrite app_nil_r.
  f_equal. f_equal. lia.
Qed.

Lemma get_stoi_print z : INT_MIN <= z <= INT_MAX -> get_stoi (print_int z) = Ok z.
Proof. intros H. unfold get_stoi. rewrite stoi_print_int; auto. Qed.
Lemma get_stoi_over z : INT_MAX < z -> get_stoi (print_int z) = Err EThrow.
Proof. intros H. unfold get_stoi. rewrite stoi_print_overflow; auto. Qed.

Lemma pi_notab z : no_byte TAB (print_int z).
Proof. apply print_int_no. left. vm_compute. reflexivity. Qed.
Lemma pi_nolf z : no_byte LF (print_int z).
Proof. apply print_int_no. left. vm_compute. reflexivity. Qed.

Lemma int31_range z : int31 z -> INT_MIN <= z <= INT_MAX.
Proof. unfold int31, INT_MIN, INT_MAX. lia. Qed.
Lemma int31_ulong z : int31 z -> to_ulong z = z.
Proof. unfold int31, to_ulong, INT_MAX. intros. apply Z.mod_small. lia. Qed.
Lemma int31_uint z : int31 z -> to_uint z = z.
Proof. unfold int31, to_uint, INT_MAX. intros. apply Z.mod_small. lia. Qed.

(** the line check: some newline follows *)
Lemma find_byte_lt c l : In c l -> exists i, find_byte c l = Some i /\ (i < length l)%nat.
Proof.
  induction l as [|d l IH]; intros H; [destruct H|]. cbn [find_byte]. destruct (beq d c) eqn:E.
  - exists O. cbn. split; auto. lia.
  - destruct H as [->|H]; [rewrite beq_refl in E; discriminate|]. destruct (IH H) as (i & -> & Hi).
    exists (S i). cbn. split; auto. lia.
Qed.
Lemma line_check s p l : s = p ++ l -> zlen s < U32 - 2 -> In LF l -> (zlen s <? find_from LF s (zlen p)) = false.
Proof.
  intros -> Hz Hi. unfold find_from. rewrite skipn_zlen_app. destruct (find_byte_lt LF l Hi) as (i & -> & Hl).
  rewrite zlen_app in *. unfold zlen in *. rewrite Z.mod_small by (unfold U32 in *; lia). apply Z.ltb_ge. lia.
Qed.

Lemma print_order_lf o : In LF (print_order o).
Proof. unfold print_order. repeat (apply in_or_app; right). left. reflexivity. Qed.

Ltac step_field Hz :=
  match goal with
  | |- context [get_field ?c ?s (zlen ?p)] =>
      let r := fresh "r" in let E := fresh "E" in
      match goal with
      | H : s = p ++ ?f ++ [c] ++ ?t |- _ => rewrite (get_field_app c s p f t H Hz); cbn [bind]
      end
  end.

Lemma parse_order_ok s p o r : s = p ++ print_order o ++ r -> zlen s < U32 - 2 -> sendable o ->
  parse_order s (zlen p) = Ok (o, zlen (p ++ print_order o)).
Proof.
  intros Hs Hz (Hi & Hrel & Hty & Htg & Hsz & Hhd & Hps & Hfp).
  unfold parse_order. rewrite (line_check s p (print_order o ++ r) Hs Hz) by (apply in_or_app; left; apply print_order_lf).
  unfold print_order in Hs.
  set (F0 := print_int (o_index o)) in *. set (F2 := [o_type o]) in *. set (F4 := print_int (o_size o)) in *.
  set (F5 := print_int (o_hdr o)) in *. set (F6 := print_int (o_pos o)) in *. set (F7 := print_int (o_fpos o)) in *.
  pose (q0 := p ++ F0 ++ [TAB]). pose (q1 := q0 ++ o_rel o ++ [TAB]). pose (q2 := q1 ++ F2 ++ [TAB]).
  pose (q3 := q2 ++ o_target o ++ [TAB]). pose (q4 := q3 ++ F4 ++ [TAB]). pose (q5 := q4 ++ F5 ++ [TAB]).
  pose (q6 := q5 ++ F6 ++ [TAB]). pose (q7 := q6 ++ F7 ++ [LF]).
  erewrite (get_field_app TAB s p F0); [|rewrite Hs, <- !app_assoc; reflexivity|exact Hz|apply pi_notab]. cbn [bind]. fold q0.
  unfold F0 at 1. rewrite get_stoi_print by auto. cbn [bind].
  erewrite (get_field_app TAB s q0 (o_rel o)); [|rewrite Hs; unfold q0; rewrite <- !app_assoc; reflexivity|exact Hz|assumption]. cbn [bind]. fold q1.
  erewrite (get_field_app TAB s q1 F2); [|rewrite Hs; unfold q1, q0; rewrite <- !app_assoc; reflexivity|auto|].
  2:{ unfold F2. intros [H|[]]. congruence. }
  cbn [bind]. fold q2. unfold F2 at 1. cbn [bind].
  erewrite (get_field_app TAB s q2 (o_target o)); [|rewrite Hs; unfold q2, q1, q0; rewrite <- !app_assoc; reflexivity|exact Hz|assumption]. cbn [bind]. fold q3.
  erewrite (get_field_app TAB s q3 F4); [|rewrite Hs; unfold q3, q2, q1, q0; rewrite <- !app_assoc; reflexivity|exact Hz|apply pi_notab]. cbn [bind]. fold q4.
  unfold F4 at 1. rewrite get_stoi_print by (apply int31_range; auto). cbn [bind].
  erewrite (get_field_app TAB s q4 F5); [|rewrite Hs; unfold q4, q3, q2, q1, q0; rewrite <- !app_assoc; reflexivity|exact Hz|apply pi_notab]. cbn [bind]. fold q5.
  unfold F5 at 1. rewrite get_stoi_print by (apply int31_range; auto). cbn [bind].
  erewrite (get_field_app TAB s q5 F6); [|rewrite Hs; unfold q5, q4, q3, q2, q1, q0; rewrite <- !app_assoc; reflexivity|exact Hz|apply pi_notab]. cbn [bind]. fold q6.
  unfold F6 at 1. rewrite get_stoi_print by (apply int31_range; auto). cbn [bind].
  erewrite (get_field_app LF s q6 F7); [|rewrite Hs; unfold q6, q5, q4, q3, q2, q1, q0; rewrite <- !app_assoc; reflexivity|exact Hz|apply pi_nolf]. cbn [bind]. fold q7.
  unfold F7 at 1. rewrite get_stoi_print by (apply int31_range; auto). cbn [bind].
  rewrite int31_uint, !int31_ulong by auto. do 2 f_equal.
  - destruct o; reflexivity.
  - f_equal. unfold q7, q6, q5, q4, q3, q2, q1, q0, print_order. rewrite <- !app_assoc. reflexivity.
Qed.

(** a clean order with a number of 2^31 or more makes the parser throw *)
Definition too_big (o : order) : Prop :=
  INT_MIN <= o_index o <= INT_MAX /\ no_byte TAB (o_rel o) /\ o_type o <> TAB /\ no_byte TAB (o_target o) /\
  0 <= o_size o /\ 0 <= o_hdr o /\ 0 <= o_pos o /\ 0 <= o_fpos o /\
  (INT_MAX < o_size o \/ INT_MAX < o_hdr o \/ INT_MAX < o_pos o \/ INT_MAX < o_fpos o).
Lemma parse_order_over s p o r : s = p ++ print_order o ++ r -> zlen s < U32 - 2 -> too_big o ->
  parse_order s (zlen p) = Err EThrow.
Proof.
  intros Hs Hz (Hi & Hrel & Hty & Htg & Hsz & Hhd & Hps & Hfp & Hbig).
  unfold parse_order. rewrite (line_check s p (print_order o ++ r) Hs Hz) by (apply in_or_app; left; apply print_order_lf).
  unfold print_order in Hs.
  set (F0 := print_int (o_index o)) in *. set (F2 := [o_type o]) in *. set (F4 := print_int (o_size o)) in *.
  set (F5 := print_int (o_hdr o)) in *. set (F6 := print_int (o_pos o)) in *. set (F7 := print_int (o_fpos o)) in *.
  pose (q0 := p ++ F0 ++ [TAB]). pose (q1 := q0 ++ o_rel o ++ [TAB]). pose (q2 := q1 ++ F2 ++ [TAB]).
  pose (q3 := q2 ++ o_target o ++ [TAB]). pose (q4 := q3 ++ F4 ++ [TAB]). pose (q5 := q4 ++ F5 ++ [TAB]).
  pose (q6 := q5 ++ F6 ++ [TAB]). pose (q7 := q6 ++ F7 ++ [LF]).
  erewrite (get_field_app TAB s p F0); [|rewrite Hs, <- !app_assoc; reflexivity|exact Hz|apply pi_notab]. cbn [bind]. fold q0.
  unfold F0 at 1. rewrite get_stoi_print by auto. cbn [bind].
  erewrite (get_field_app TAB s q0 (o_rel o)); [|rewrite Hs; unfold q0; rewrite <- !app_assoc; reflexivity|exact Hz|assumption]. cbn [bind]. fold q1.
  erewrite (get_field_app TAB s q1 F2); [|rewrite Hs; unfold q1, q0; rewrite <- !app_assoc; reflexivity|auto|].
  2:{ unfold F2. intros [H|[]]. congruence. }
  cbn [bind]. fold q2. unfold F2 at 1. cbn [bind].
  erewrite (get_field_app TAB s q2 (o_target o)); [|rewrite Hs; unfold q2, q1, q0; rewrite <- !app_assoc; reflexivity|exact Hz|assumption]. cbn [bind]. fold q3.
  erewrite (get_field_app TAB s q3 F4); [|rewrite Hs; unfold q3, q2, q1, q0; rewrite <- !app_assoc; reflexivity|exact Hz|apply pi_notab]. cbn [bind]. fold q4.
  unfold F4 at 1. destruct (Z.le_gt_cases (o_size o) INT_MAX); [|rewrite get_stoi_over by lia; reflexivity].
  rewrite get_stoi_print by (apply int31_range; unfold int31; lia). cbn [bind].
  erewrite (get_field_app TAB s q4 F5); [|rewrite Hs; unfold q4, q3, q2, q1, q0; rewrite <- !app_assoc; reflexivity|exact Hz|apply pi_notab]. cbn [bind]. fold q5.
  unfold F5 at 1. destruct (Z.le_gt_cases (o_hdr o) INT_MAX); [|rewrite get_stoi_over by lia; reflexivity].
  rewrite get_stoi_print by (apply int31_range; unfold int31; lia). cbn [bind].
  erewrite (get_field_app TAB s q5 F6); [|rewrite Hs; unfold q5, q4, q3, q2, q1, q0; rewrite <- !app_assoc; reflexivity|exact Hz|apply pi_notab]. cbn [bind]. fold q6.
  unfold F6 at 1. destruct (Z.le_gt_cases (o_pos o) INT_MAX); [|rewrite get_stoi_over by lia; reflexivity].
  rewrite get_stoi_print by (apply int31_range; unfold int31; lia). cbn [bind].
  erewrite (get_field_app LF s q6 F7); [|rewrite Hs; unfold q6, q5, q4, q3, q2, q1, q0; rewrite <- !app_assoc; reflexivity|exact Hz|apply pi_nolf]. cbn [bind]. fold q7.
  unfold F7 at 1. destruct (Z.le_gt_cases (o_fpos o) INT_MAX); [|rewrite get_stoi_over by lia; reflexivity].
  rewrite get_stoi_print by (apply int31_range; unfold int31; lia). cbn [bind].
  exfalso. lia.
Qed.

Lemma parse_orders_app os : forall fuel s p r, s = p ++ print_bundle os ++ r -> zlen s < U32 - 2 -> Forall sendable os ->
  (length os <= fuel)%nat ->
  parse_orders fuel s (zlen p) =
    (x <- parse_orders (fuel - length os) s (zlen (p ++ print_bundle os)) ;; Ok (os ++ x)).
Proof.
  induction os as [|o os IH]; intros fuel s p r Hs Hz Hf Hl.
  - cbn [length print_bundle flat_map]. rewrite app_nil_r, Nat.sub_0_r. destruct (parse_orders fuel s (zlen p)); reflexivity.
  - inversion Hf as [|? ? Ho Hf']; subst x l. cbn [length] in Hl. destruct fuel as [|fuel]; [lia|].
    cbn [parse_orders]. change (print_bundle (o :: os)) with (print_order o ++ print_bundle os) in *.
    rewrite <- app_assoc in Hs.
    assert (Hlt : zlen p < zlen s).
    { rewrite Hs, !zlen_app. pose proof (zlen_nonneg (print_bundle os)). pose proof (zlen_nonneg r).
      assert (0 < zlen (print_order o)); [|lia]. unfold print_order. rewrite !zlen_app. change (zlen [TAB]) with 1.
      repeat match goal with |- context [zlen ?x] => lazymatch goal with H : 0 <= zlen x |- _ => fail | _ => pose proof (zlen_nonneg x) end end. lia. }
    destruct (Z.ltb_spec (zlen p) (zlen s)); [|lia].
    rewrite (parse_order_ok s p o (print_bundle os ++ r) Hs Hz Ho). cbn [bind].
    rewrite (IH fuel s (p ++ print_order o) r); [|rewrite Hs, <- !app_assoc; reflexivity|auto|auto|lia].
    cbn [length]. rewrite <- app_assoc. change (S fuel - S (length os))%nat with (fuel - length os)%nat.
    destruct (parse_orders (fuel - length os) s _); reflexivity.
Qed.

Lemma print_order_len o : (1 <= length (print_order o))%nat.
Proof. unfold print_order. rewrite !app_length. cbn [length]. lia. Qed.
Lemma print_bundle_len os : (length os <= length (print_bundle os))%nat.
Proof.
  induction os as [|o os IH]; cbn [print_bundle flat_map length]; [lia|]. fold (print_bundle os).
  rewrite app_length. pose proof (print_order_len o). lia.
Qed.

Lemma C16_lemma os : Forall sendable os -> zlen (print_bundle os) < 2 ^ 32 - 2 ->
  parse_bundle (print_bundle os) = Ok os.
Proof.
  intros Hf Hz. unfold parse_bundle. change 0 with (zlen (@nil byte)) at 1.
  rewrite (parse_orders_app os _ _ [] []); [|cbn [app]; rewrite app_nil_r; reflexivity|exact Hz|auto|pose proof (print_bundle_len os); lia].
  cbn [app]. set (n := (S _ - _)%nat). assert (E : parse_orders n (print_bundle os) (zlen (print_bundle os)) = Ok []).
  { destruct n; cbn [parse_orders]; rewrite Z.ltb_irrefl; reflexivity. }
  rewrite E. cbn [bind]. rewrite app_nil_r. reflexivity.
Qed.

Lemma C16_over_lemma pre o post : Forall sendable pre -> too_big o ->
  zlen (print_bundle (pre ++ o :: post)) < 2 ^ 32 - 2 -> parse_bundle (print_bundle (pre ++ o :: post)) = Err EThrow.
Proof.
  intros Hf Ho Hz. unfold parse_bundle. set (s := print_bundle (pre ++ o :: post)) in *.
  assert (Hs : s = print_bundle pre ++ print_order o ++ print_bundle post).
  { unfold s, print_bundle. rewrite flat_map_app. reflexivity. }
  change 0 with (zlen (@nil byte)).
  assert (Hn : (length pre + 1 <= length s)%nat).
  { rewrite Hs, !app_length. pose proof (print_bundle_len pre). pose proof (print_order_len o). lia. }
  rewrite (parse_orders_app pre _ s [] (print_order o ++ print_bundle post)); [|exact Hs|exact Hz|auto|lia].
  cbn [app]. destruct (S (length s) - length pre)%nat as [|n] eqn:En; [lia|]. cbn [parse_orders].
  assert (Hlt : zlen (print_bundle pre) < zlen s).
  { rewrite Hs, !zlen_app. pose proof (print_order_len o). pose proof (zlen_nonneg (print_bundle post)). unfold zlen in *. lia. }
  destruct (Z.ltb_spec (zlen (print_bundle pre)) (zlen s)); [|lia].
  rewrite (parse_order_over s _ o (print_bundle post) Hs Hz Ho). reflexivity.
Qed.

(** a name with one tab: the fields shift and the size is read from the empty link target *)
Lemma C16_tab_lemma n1 n2 o r :
  o_rel o = n1 ++ [TAB] ++ n2 -> no_byte TAB n1 -> no_byte TAB n2 -> o_target o = [] ->
  o_type o <> TAB -> INT_MIN <= o_index o <= INT_MAX ->
  zlen (print_order o ++ r) < 2 ^ 32 - 2 -> parse_bundle (print_order o ++ r) = Err EThrow.
Proof.
  intros Hrel H1 H2 Ht Hty Hi Hz. unfold parse_bundle. set (s := print_order o ++ r) in *.
  cbn [parse_orders]. assert (Hlt : 0 < zlen s).
  { unfold s. rewrite zlen_app. pose proof (print_order_len o). pose proof (zlen_nonneg r). unfold zlen in *. lia. }
  destruct (Z.ltb_spec 0 (zlen s)); [|lia].
  assert (E : parse_order s 0 = Err EThrow); [|rewrite E; reflexivity].
  change 0 with (zlen (@nil byte)). unfold parse_order.
  rewrite (line_check s [] s eq_refl Hz) by (apply in_or_app; left; apply print_order_lf).
  assert (Hs : s = print_int (o_index o) ++ [TAB] ++ n1 ++ [TAB] ++ n2 ++ [TAB] ++ [o_type o] ++ [TAB] ++ [] ++ [TAB] ++
     (print_int (o_size o) ++ [TAB] ++ print_int (o_hdr o) ++ [TAB] ++ print_int (o_pos o) ++ [TAB] ++ print_int (o_fpos o) ++ [LF] ++ r)).
  { unfold s, print_order. rewrite Hrel, Ht. rewrite <- !app_assoc. cbn [app]. reflexivity. }
  set (F0 := print_int (o_index o)) in *.
  pose (q0 := [] ++ F0 ++ [TAB]). pose (q1 := q0 ++ n1 ++ [TAB]). pose (q2 := q1 ++ n2 ++ [TAB]).
  pose (q3 := q2 ++ [o_type o] ++ [TAB]).
  erewrite (get_field_app TAB s [] F0); [|rewrite Hs, <- ?app_assoc; reflexivity|exact Hz|apply pi_notab]. cbn [bind]. fold q0.
  unfold F0 at 1. rewrite get_stoi_print by auto. cbn [bind].
  erewrite (get_field_app TAB s q0 n1); [|rewrite Hs; unfold q0; rewrite <- ?app_assoc; reflexivity|exact Hz|auto]. cbn [bind]. fold q1.
  erewrite (get_field_app TAB s q1 n2); [|rewrite Hs; unfold q1, q0; rewrite <- ?app_assoc; reflexivity|exact Hz|auto]. cbn [bind]. fold q2.
  destruct n2 as [|c n2]; [reflexivity|]. cbn [bind].
  erewrite (get_field_app TAB s q2 [o_type o]); [|rewrite Hs; unfold q2, q1, q0; rewrite <- ?app_assoc; reflexivity|exact Hz|intros [X|[]]; congruence]. cbn [bind]. fold q3.
  erewrite (get_field_app TAB s q3 []); [|rewrite Hs; unfold q3, q2, q1, q0; rewrite <- ?app_assoc; reflexivity|exact Hz|intros []]. cbn [bind].
  reflexivity.
Qed.

(** ** C46 *)
Lemma field_inj c f1 f2 r1 r2 : no_byte c f1 -> no_byte c f2 -> f1 ++ [c] ++ r1 = f2 ++ [c] ++ r2 -> f1 = f2 /\ r1 = r2.
Proof.
  revert f2. induction f1 as [|x f1 IH]; intros [|y f2] H1 H2 H; cbn [app] in H.
  - injection H as ->. auto.
  - injection H as <- _. exfalso. apply H2. left. reflexivity.
  - injection H as -> _. exfalso. apply H1. left. reflexivity.
  - injection H as -> H. apply no_byte_cons in H1 as [_ H1], H2 as [_ H2].
    destruct (IH f2 H1 H2 H) as [-> ->]. auto.
Qed.
Lemma print_int_inj x y : 0 <= x -> 0 <= y -> print_int x = print_int y -> x = y.
Proof.
  intros Hx Hy. unfold print_int. destruct (Z.ltb_spec x 0); [lia|]. destruct (Z.ltb_spec y 0); [lia|].
  apply print_base_inj; lia.
Qed.
Lemma type_char_inj t u : type_char t = type_char u -> t = u.
Proof. destruct t, u; cbn; congruence. Qed.

Lemma C46_lemma e e' : no_byte TAB (en_rel e) -> no_byte TAB (en_rel e') -> no_byte TAB (en_target e) -> no_byte TAB (en_target e') ->
  0 <= en_size e -> 0 <= en_size e' -> 0 <= en_hdr e -> 0 <= en_hdr e' ->
  catalog_line e = catalog_line e' ->
  en_rel e = en_rel e' /\ en_type e = en_type e' /\ en_target e = en_target e' /\ en_size e = en_size e' /\ en_hdr e = en_hdr e'.
Proof.
  intros R R' T T' S S' D D' H. unfold catalog_line in H.
  apply field_inj in H as [Er H]; auto. split; auto.
  injection H as Ety H. change (TAB :: ?x = TAB :: ?y) with ([] ++ [TAB] ++ x = [] ++ [TAB] ++ y) in H || idtac.
  split; [apply type_char_inj; auto|].
  apply (field_inj TAB (en_target e) (en_target e')) in H as [Et H]; auto. split; auto.
  apply field_inj in H as [Es H]; [|apply pi_notab|apply pi_notab]. split; [apply print_int_inj; auto|].
  apply field_inj in H as [Eh H]; [|apply pi_notab|apply pi_notab]. apply print_int_inj; auto.
Qed.
