(** Proofs about the object API (C58-C63). *)
From Coq Require Import Lia.
From Verif Require Import Bytes Outcome TarModel TarProofs TarMore Layout OrderCodec Spider SpiderSpec SpiderProofs Objects ObjectsSpec.

Lemma replace_length {A} (l : list A) i x : (i < length l)%nat -> length (replace l i x) = length l.
Proof. intros H. unfold replace. rewrite app_length, firstn_length. cbn [length]. rewrite skipn_length. lia. Qed.
Lemma replace_same {A} (l : list A) i x : (i < length l)%nat -> nth_error (replace l i x) i = Some x.
Proof. intros H. unfold replace. rewrite nth_error_app2 by (rewrite firstn_length; lia). rewrite firstn_length, Nat.min_l, Nat.sub_diag by lia. reflexivity. Qed.
Lemma replace_other {A} (l : list A) i j x : (i < length l)%nat -> j <> i -> nth_error (replace l i x) j = nth_error l j.
Proof.
  intros H N. unfold replace. destruct (Nat.lt_ge_cases j i) as [L|L].
  - rewrite nth_error_app1 by (rewrite firstn_length; lia).
    rewrite <- (firstn_skipn i l) at 2. rewrite nth_error_app1 by (rewrite firstn_length; lia). reflexivity.
  - rewrite nth_error_app2 by (rewrite firstn_length; lia). rewrite firstn_length, Nat.min_l by lia.
    destruct (j - i)%nat as [|k] eqn:E; [lia|]. cbn [nth_error].
    rewrite <- (firstn_skipn (S i) l) at 2. rewrite nth_error_app2 by (rewrite firstn_length; lia).
    rewrite firstn_length, Nat.min_l by lia. f_equal. lia.
Qed.
Lemma replace_id {A} (l : list A) i x : nth_error l i = Some x -> replace l i x = l.
Proof.
  intros H. unfold replace. rewrite <- (firstn_skipn i l) at 3. f_equal. revert l H. induction i as [|i IH]; intros [|a l] H; try discriminate.
  - cbn in H. cbn [skipn]. congruence.
  - cbn [nth_error] in H. change (skipn (S (S i)) (a :: l)) with (skipn (S i) l). rewrite (IH l H). reflexivity.
Qed.


Lemma Forall2_app' {A B} (R : A -> B -> Prop) l1 l2 m1 m2 : Forall2 R l1 m1 -> Forall2 R l2 m2 -> Forall2 R (l1 ++ l2) (m1 ++ m2).
Proof. induction 1; cbn [app]; auto. Qed.
Lemma Forall2_nth {A B} (R : A -> B -> Prop) l m i a d : Forall2 R l m -> nth_error l i = Some a -> R a (nth i m d).
Proof. intros H. revert i. induction H; intros [|i] E; try discriminate; cbn in E |- *; [congruence|auto]. Qed.
Lemma Forall2_replace {A B} (R : A -> B -> Prop) l m i x y : Forall2 R l m -> R x y -> (i < length l)%nat -> Forall2 R (replace l i x) (replace m i y).
Proof.
  intros H Hx Hi. unfold replace. apply Forall2_app'.
  - clear Hi. revert i. induction H; intros [|i]; cbn [firstn]; constructor; auto.
  - constructor; auto. clear Hi. assert (X : forall j, Forall2 R (skipn j l) (skipn j m)).
    { induction H; intros [|j]; cbn [skipn]; auto. }
    apply X.
Qed.
Lemma nth_error_len {A} (l : list A) i x : nth_error l i = Some x -> (i < length l)%nat.
Proof. intros H. apply nth_error_Some. congruence. Qed.

(** ** headers *)
Lemma compute_total name link size : exists h, compute_hdr_size name link size = Ok h /\ 512 <= h.
Proof. unfold compute_hdr_size. destruct (hdr_size_ok {| te_offset := 0; te_stat := {| st_kind := KReg; st_perm := 0; st_uid := 0; st_gid := 0; st_size := size; st_mtime := 0 |}; te_file := name; te_link := link |}) as (n & E & H & _). eauto. Qed.

Definition hdr_for (o : obj) (t : bytes) : outcome Z :=
  compute_hdr_size (cstr (absolute_path (ob_base o) (ob_rel o))) (cstr t) (ob_size o).
Definition tracks (o : obj) (x : bytes * option bytes) : Prop :=
  ob_target o = fst x /\ ob_placed o = false /\ ob_home o = None /\
  match snd x with None => ob_hdr o = -1 | Some t => hdr_for o t = Ok (ob_hdr o) end.

Lemma header_size_spec o x : tracks o x ->
  exists h, header_size o = Ok (h, with_hdr o h) /\ hdr_for o (match snd x with Some t => t | None => ob_target o end) = Ok h /\ tracks (with_hdr o h) (asked x).
Proof.
  intros (Ht & Hp & Hh & Hx). unfold header_size. destruct x as [t [t0|]]; cbn [fst snd asked] in *.
  - destruct (compute_total (cstr (absolute_path (ob_base o) (ob_rel o))) (cstr t0) (ob_size o)) as (h & E & Hge).
    unfold hdr_for in Hx. assert (ob_hdr o = h) by congruence. destruct (Z.ltb_spec (ob_hdr o) 0); [lia|].
    exists h. split; [destruct o; cbn in *; subst; reflexivity|]. split; [exact E|].
    unfold tracks, hdr_for. destruct o; cbn in *. auto.
  - rewrite Hx. cbn [Z.ltb Z.compare]. destruct (compute_total (cstr (absolute_path (ob_base o) (ob_rel o))) (cstr (ob_target o)) (ob_size o)) as (h & E & Hge).
    rewrite E. cbn [bind]. exists h. split; [reflexivity|]. split; [exact E|]. unfold tracks, asked, hdr_for. cbn [fst snd]. rewrite <- Ht. destruct o; cbn in *. auto.
Qed.

Lemma call_tracks st l c st' a : Forall2 tracks st l -> do_call st c = Ok (st', a) -> Forall2 tracks st' (first_asked_step l c).
Proof.
  intros H E. destruct c as [base rel ty size tgt|line|i|i j|i t|i|i|i start]; cbn [do_call first_asked_step] in *.
  - assert (st' = st ++ [new_obj base rel ty size tgt]) by congruence. subst st'. apply Forall2_app'; auto. constructor; [|constructor]. repeat split.
  - assert (st' = st ++ [from_catalog_line line]) by congruence. subst st'. apply Forall2_app'; auto. constructor; [|constructor]. repeat split.
  - destruct (nth_error st i) as [o|] eqn:Ei; [|discriminate]. assert (st' = st ++ [copy_obj o]) by congruence. subst st'.
    apply Forall2_app'; auto. constructor; [|constructor]. pose proof (Forall2_nth _ _ _ _ _ ([], None) H Ei) as (A & B & C & D). repeat split; auto.
  - destruct (nth_error st i) as [me|] eqn:Ei; [|discriminate]. destruct (nth_error st j) as [o|] eqn:Ej; [|discriminate].
    assert (st' = replace st i (assign_obj me o)) by congruence. subst st'.
    apply Forall2_replace; auto; [|eapply nth_error_len; eauto].
    pose proof (Forall2_nth _ _ _ _ _ ([], None) H Ei) as (_ & B & _ & _). pose proof (Forall2_nth _ _ _ _ _ ([], None) H Ej) as (A & _ & C & D). repeat split; auto.
  - destruct (nth_error st i) as [o|] eqn:Ei; [|discriminate]. assert (st' = replace st i (set_target o t)) by congruence. subst st'.
    apply Forall2_replace; auto; [|eapply nth_error_len; eauto].
    pose proof (Forall2_nth _ _ _ _ _ ([], None) H Ei) as (A & B & C & D). repeat split; auto.
  - destruct (nth_error st i) as [o|] eqn:Ei; [|discriminate]. pose proof (Forall2_nth _ _ _ _ _ ([], None) H Ei) as T.
    destruct (header_size_spec _ _ T) as (h & E1 & _ & T'). rewrite E1 in E. cbn [bind fst snd] in E. assert (st' = replace st i (with_hdr o h)) by congruence. subst st'.
    apply Forall2_replace; auto. eapply nth_error_len; eauto.
  - destruct (nth_error st i) as [o|] eqn:Ei; [|discriminate]. pose proof (Forall2_nth _ _ _ _ _ ([], None) H Ei) as T.
    destruct (header_size_spec _ _ T) as (h & E1 & _ & T'). unfold obj_catalog_line in E. rewrite E1 in E. cbn [bind fst snd] in E. assert (st' = replace st i (with_hdr o h)) by congruence. subst st'.
    apply Forall2_replace; auto. eapply nth_error_len; eauto.
  - destruct (nth_error st i) as [o|] eqn:Ei; [|discriminate]. pose proof (Forall2_nth _ _ _ _ _ ([], None) H Ei) as T.
    destruct (header_size_spec _ _ T) as (h & E1 & _ & T'). unfold obj_next_available in E. rewrite E1 in E. cbn [bind fst snd] in E. assert (st' = replace st i (with_hdr o h)) by congruence. subst st'.
    apply Forall2_replace; auto. eapply nth_error_len; eauto.
Qed.
Lemma calls_tracks cs : forall st l st', Forall2 tracks st l -> do_calls st cs = Ok st' -> Forall2 tracks st' (fold_left first_asked_step cs l).
Proof.
  induction cs as [|c cs IH]; intros st l st' H E; cbn [do_calls fold_left] in *; [assert (st' = st) by congruence; subst; auto|].
  destruct (do_call st c) as [[st1 a]|] eqn:Ec; [|discriminate]. cbn [bind fst] in E. eapply IH; [|exact E]. eapply call_tracks; eauto.
Qed.
Lemma history_tracks cs st : do_calls [] cs = Ok st -> Forall2 tracks st (first_asked cs).
Proof. intros H. eapply calls_tracks; eauto. Qed.

(** C58 *)
Lemma header_exact_history cs st i o : do_calls [] cs = Ok st -> nth_error st i = Some o ->
  exists t k h, nth_error (first_asked cs) i = Some (t, k) /\ t = ob_target o /\
    do_call st (CHeaderSize i) = Ok (replace st i (with_hdr o h), ANum h) /\
    compute_hdr_size (cstr (absolute_path (ob_base o) (ob_rel o))) (cstr (match k with Some t0 => t0 | None => t end)) (ob_size o) = Ok h.
Proof.
  intros H E. pose proof (history_tracks _ _ H) as T. pose proof (Forall2_nth _ _ _ _ _ ([], None) T E) as X.
  destruct (nth i (first_asked cs) ([], None)) as [t k] eqn:En. exists t, k.
  destruct (header_size_spec _ _ X) as (h & A & B & _). exists h.
  split; [|split; [destruct X as (X & _); cbn in X; auto|]].
  - rewrite <- En. apply nth_error_nth'. pose proof (nth_error_len _ _ _ E). assert (L : length st = length (first_asked cs)) by (clear - T; induction T; cbn; auto). lia.
  - split.
    + cbn [do_call]. rewrite E, A. reflexivity.
    + destruct X as (X & _). cbn [fst snd] in *. unfold hdr_for in B. rewrite X in B. exact B.
Qed.

(** without set_symlink_target, the size is the one for the target the object has *)
Lemma step_current l c : (forall i t, c <> CSetTarget i t) ->
  Forall (fun x : bytes * option bytes => snd x = None \/ snd x = Some (fst x)) l ->
  Forall (fun x : bytes * option bytes => snd x = None \/ snd x = Some (fst x)) (first_asked_step l c).
Proof.
  intros Hc H. assert (N : forall i, (fun x : bytes * option bytes => snd x = None \/ snd x = Some (fst x)) (nth i l ([], None))).
  { intros i. destruct (nth_in_or_default i l ([], None)) as [Hin| ->]; [|left; reflexivity]. rewrite Forall_forall in H. exact (H _ Hin). }
  assert (R : forall i x, snd x = None \/ snd x = Some (fst x) -> Forall (fun x : bytes * option bytes => snd x = None \/ snd x = Some (fst x)) (replace l i x)).
  { intros i x Hx. unfold replace. rewrite <- (firstn_skipn i l) in H. apply Forall_app in H as [H1 _]. apply Forall_app. split; auto. constructor; auto.
    rewrite Forall_forall. intros y Hy. assert (Hin : In y l) by (rewrite <- (firstn_skipn (S i) l); apply in_or_app; right; exact Hy).
    clear - Hin N. destruct (In_nth _ _ ([], None) Hin) as (k & _ & <-). apply N. }
  destruct c as [base rel ty size tgt|line|i|i j|i t|i|i|i start]; cbn [first_asked_step].
  - apply Forall_app. split; auto.
  - apply Forall_app. split; auto.
  - apply Forall_app. split; auto.
  - apply R, N.
  - exfalso. eapply Hc; eauto.
  - apply R. unfold asked. cbn [fst snd]. destruct (N i) as [-> | ->]; auto.
  - apply R. unfold asked. cbn [fst snd]. destruct (N i) as [-> | ->]; auto.
  - apply R. unfold asked. cbn [fst snd]. destruct (N i) as [-> | ->]; auto.
Qed.
Lemma history_current cs : (forall i t, ~ In (CSetTarget i t) cs) ->
  Forall (fun x : bytes * option bytes => snd x = None \/ snd x = Some (fst x)) (first_asked cs).
Proof.
  intros H. unfold first_asked. assert (X : Forall (fun x : bytes * option bytes => snd x = None \/ snd x = Some (fst x)) []) by constructor.
  revert X. generalize (@nil (bytes * option bytes)). induction cs as [|c cs IH]; intros l X; cbn [fold_left]; auto.
  apply IH; [intros i t Hin; apply (H i t); right; auto|]. apply step_current; auto. intros i t ->. apply (H i t). left. reflexivity.
Qed.
Lemma header_current cs st i o : do_calls [] cs = Ok st -> (forall j t, ~ In (CSetTarget j t) cs) -> nth_error st i = Some o ->
  exists h, do_call st (CHeaderSize i) = Ok (replace st i (with_hdr o h), ANum h) /\
    compute_hdr_size (cstr (absolute_path (ob_base o) (ob_rel o))) (cstr (ob_target o)) (ob_size o) = Ok h.
Proof.
  intros H Hc E. destruct (header_exact_history cs st i o H E) as (t & k & h & A & B & C & D). exists h. split; auto.
  pose proof (history_current cs Hc) as F. rewrite Forall_forall in F. specialize (F _ (nth_error_In _ _ A)). cbn [fst snd] in F.
  subst t. destruct F as [-> | ->]; exact D.
Qed.
Lemma header_stale base rel ty size t1 t2 h1 h2 :
  compute_hdr_size (cstr (absolute_path base rel)) (cstr t1) size = Ok h1 ->
  compute_hdr_size (cstr (absolute_path base rel)) (cstr t2) size = Ok h2 ->
  exists st, do_calls [] [CNew base rel ty size t1; CHeaderSize 0; CSetTarget 0 t2] = Ok st /\
    exists o, nth_error st 0 = Some o /\ ob_target o = t2 /\ exists st', do_call st (CHeaderSize 0) = Ok (st', ANum h1).
Proof.
  intros E1 E2. cbn [do_calls do_call app bind fst snd nth_error]. unfold header_size. cbn [ob_hdr new_obj ob_base ob_rel ob_target ob_size Z.ltb Z.compare]. rewrite E1. cbn [bind fst snd].
  unfold replace. cbn [firstn skipn app nth_error bind fst snd]. eexists. split; [reflexivity|]. eexists. split; [reflexivity|]. split; [reflexivity|].
  cbn [do_call nth_error]. unfold header_size. cbn [ob_hdr set_target with_hdr].
  destruct (compute_total (cstr (absolute_path base rel)) (cstr t1) size) as (h & E & Hge). assert (h = h1) by congruence. subst h.
  destruct (Z.ltb_spec h1 0); [lia|]. cbn [bind fst snd]. eexists. reflexivity.
Qed.

(** C59 *)
Lemma copies_equal cs st i o : do_calls [] cs = Ok st -> nth_error st i = Some o ->
  do_call st (CCopy i) = Ok (st ++ [o], ANone) /\
  (forall j a, nth_error st j = Some a -> do_call st (CAssign j i) = Ok (replace st j o, ANone)).
Proof.
  intros H E. pose proof (history_tracks _ _ H) as T. pose proof (Forall2_nth _ _ _ _ _ ([], None) T E) as (_ & P & _).
  split.
  - cbn [do_call]. rewrite E. do 4 f_equal. destruct o; cbn in *; subst; reflexivity.
  - intros j a Ea. cbn [do_call]. rewrite Ea, E. do 3 f_equal. pose proof (Forall2_nth _ _ _ _ _ ([], None) T Ea) as (_ & P' & _).
    unfold assign_obj. rewrite P'. destruct o; cbn in *; subst; reflexivity.
Qed.
Lemma copy_into_nil {A} (src : list A) : copy_into src [] = match src with [] => Ok [] | _ => Err EUB end.
Proof. destruct src; reflexivity. Qed.
Lemma copy_into_spec {A} (src dst : list A) :
  ((length src <= length dst)%nat -> copy_into src dst = Ok (src ++ skipn (length src) dst)) /\ ((length dst < length src)%nat -> copy_into src dst = Err EUB).
Proof. unfold copy_into. destruct (Nat.ltb_spec (length dst) (length src)); split; intros; auto; lia. Qed.

(** C60 *)
Lemma spider_value fuel fs base rel z d : spider fuel fs base rel = Ok (z, d) -> (f_readdir fs (dir_path base rel) = None /\ z = -2) \/ (f_readdir fs (dir_path base rel) <> None /\ z = 0).
Proof.
  destruct fuel; [discriminate|]. cbn [spider]. destruct (f_readdir fs (dir_path base rel)) as [names|]; [|left; split; auto; congruence].
  intros H. right. split; [discriminate|]. destruct (read_entries fs base rel names) as [[sr fl]|]; [|discriminate]. cbn [bind] in H.
  destruct (for_each (spider fuel fs base) sr); [|discriminate]. cbn [bind] in H. congruence.
Qed.
Lemma spider_done fuel base fss rel d : spider_calls fuel base fss (Done rel d) = Ok (repeat (-1) (length fss), Done rel d).
Proof. induction fss as [|fs fss IH]; [reflexivity|]. cbn [spider_calls spider_call bind fst snd length repeat]. rewrite IH. reflexivity. Qed.
Lemma spider_history fuel base rel fss : (1 <= fuel)%nat ->
  (Forall (fun fs => f_readdir fs (dir_path base rel) = None) fss -> spider_calls fuel base fss (Fresh rel) = Ok (repeat (-2) (length fss), Fresh rel)) /\
  (forall pre fs post d z, fss = pre ++ fs :: post -> Forall (fun fs => f_readdir fs (dir_path base rel) = None) pre ->
     f_readdir fs (dir_path base rel) <> None -> spider fuel fs base rel = Ok (z, d) ->
     spider_calls fuel base fss (Fresh rel) = Ok (repeat (-2) (length pre) ++ 0 :: repeat (-1) (length post), Done rel d)).
Proof.
  intros Hf. assert (N : forall fs, f_readdir fs (dir_path base rel) = None -> spider_call fuel fs base (Fresh rel) = Ok (-2, Fresh rel)).
  { intros fs H. destruct fuel; [lia|]. cbn [spider_call spider]. rewrite H. reflexivity. }
  split.
  - induction 1 as [|fs fss H _ IH]; [reflexivity|]. cbn [spider_calls]. rewrite N by auto. cbn [bind fst snd length repeat]. rewrite IH. reflexivity.
  - intros pre fs post d z -> Hp Ho Hs. induction Hp as [|f pre H _ IH]; cbn [app length repeat spider_calls].
    + destruct (spider_value _ _ _ _ _ _ Hs) as [[X _]|[_ ->]]; [congruence|].
      cbn [spider_call]. rewrite Hs. cbn [bind fst snd Z.eqb]. rewrite spider_done. reflexivity.
    + rewrite N by auto. cbn [bind fst snd]. rewrite IH. reflexivity.
Qed.

(** C62 *)
Lemma no_handle cs : forall st st', Forall (fun c => cf_handle c = None) st -> do_ccalls st cs = Ok st' -> Forall (fun c => cf_handle c = None) st'.
Proof.
  induction cs as [|c cs IH]; intros st st' H E; cbn [do_ccalls] in E; [assert (st' = st) by congruence; subst; auto|].
  destruct (do_ccall st c) as [st1|] eqn:Ec; [|discriminate]. cbn [bind] in E. apply (IH st1); auto. clear E IH.
  assert (N : forall i f, nth_error st i = Some f -> cf_handle f = None) by (intros i f X; rewrite Forall_forall in H; apply H; eapply nth_error_In; eauto).
  destruct c as [p|i|i j]; cbn [do_ccall] in Ec.
  - assert (st1 = st ++ [new_cfile p]) by congruence. subst. apply Forall_app. auto.
  - destruct (nth_error st i) eqn:Ei; [|discriminate]. assert (st1 = st ++ [copy_cfile c]) by congruence. subst. apply Forall_app. split; auto. constructor; auto. cbn. eauto.
  - destruct (nth_error st i) eqn:Ei; [|discriminate]. destruct (nth_error st j) eqn:Ej; [|discriminate].
    assert (st1 = replace st i (copy_cfile c0)) by congruence. subst. unfold replace. rewrite <- (firstn_skipn i st) in H. apply Forall_app in H as [H1 _]. apply Forall_app. split; auto.
    constructor; [cbn; eauto|]. rewrite Forall_forall. intros f Hf. assert (Hin : In f st) by (rewrite <- (firstn_skipn (S i) st); apply in_or_app; right; exact Hf).
    apply In_nth_error in Hin as (k & Hk). eauto.
Qed.
