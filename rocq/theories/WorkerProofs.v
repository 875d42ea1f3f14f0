(** Lemmas behind C24 and C25. *)
From Verif Require Import Bytes Outcome TarModel Layout LayoutSpec LayoutProofs OrderCodec OrderCodecProofs Mover MoverSpec MoverProofs Worker.

Lemma deliver_ok l t : no_byte NUL l -> no_byte NUL t -> zlen l + zlen t < INT_MAX -> deliver l t = Ok (l ++ t).
Proof.
  intros Hl Ht Hn. unfold deliver, frame. rewrite zlen_app. destruct (Z.leb_spec (zlen l + zlen t + 1) INT_MAX); [|lia].
  cbn [bind unframe snd]. unfold unframe. cbn [snd]. rewrite app_assoc, cstr_app_nul; auto. apply no_byte_app. auto.
Qed.
Lemma deliver_nul l t u : no_byte NUL l -> no_byte NUL t -> zlen l + zlen (t ++ [NUL] ++ u) < INT_MAX ->
  deliver l (t ++ [NUL] ++ u) = Ok (l ++ t).
Proof.
  intros Hl Ht Hn. unfold deliver, frame. rewrite zlen_app. destruct (Z.leb_spec (zlen l + zlen (t ++ [NUL] ++ u) + 1) INT_MAX); [|lia].
  cbn [bind]. unfold unframe. cbn [snd]. replace (l ++ (t ++ [NUL] ++ u) ++ [NUL]) with ((l ++ t) ++ [NUL] ++ u ++ [NUL]) by (rewrite <- !app_assoc; reflexivity).
  assert (H' : no_byte NUL (l ++ t)) by (apply no_byte_app; auto).
  cbn [app]. rewrite cstr_app_nul; auto.
Qed.
Lemma deliver_long l t : INT_MAX <= zlen l + zlen t -> deliver l t = Err EUB.
Proof. intros H. unfold deliver, frame. rewrite zlen_app. destruct (Z.leb_spec (zlen l + zlen t + 1) INT_MAX); [lia|reflexivity]. Qed.

(** ** histories: what the event list says *)
Definition last_bucket (l : list event) : Z :=
  fold_left (fun a e => match e with EvBucket n => n | _ => a end) l 0.
Definition last_base (l : list event) : bytes :=
  fold_left (fun a e => match e with EvBase p => p | _ => a end) l [].

Definition agrees (l : list event) (s : wstate) : Prop :=
  ws_bucket s = last_bucket l /\ ws_base s = last_base l /\
  match ws_handle s with HOpen p => In (EvOpen p true) l | _ => True end.

Lemma fold_bucket_app l1 l2 : last_bucket (l1 ++ l2) = fold_left (fun a e => match e with EvBucket n => n | _ => a end) l2 (last_bucket l1).
Proof. unfold last_bucket. apply fold_left_app. Qed.
Lemma fold_base_app l1 l2 : last_base (l1 ++ l2) = fold_left (fun a e => match e with EvBase n => n | _ => a end) l2 (last_base l1).
Proof. unfold last_base. apply fold_left_app. Qed.

(** a write reported by one reaction *)
Definition write_ok (evk : env) (l0 : list event) (p : bytes) (w : wr) : Prop :=
  last_bucket l0 <> 0 /\ In (EvOpen p true) l0 /\
  exists os, move_data_Create evk (last_base l0) (last_bucket l0) os = Ok w.

Lemma on_message_agrees opens ev l0 s m l r : agrees l0 s -> on_message opens ev s m = Ok (l, r) ->
  (forall s', r = Go s' -> agrees (l0 ++ l) s') /\
  (forall l1 p w l2, l = l1 ++ EvWrite p w :: l2 -> l1 = [] /\ write_ok ev l0 p w) /\
  (forall c, r = Return c -> l = [] /\ ((c = 0 /\ firstn 1 m = b "X") \/ (c = 7 /\ firstn 1 m = b "C" /\ last_bucket l0 = 0))).
Proof.
  intros (A1 & A2 & A3) H. unfold on_message in H. destruct (ws_mode s) eqn:Em.
  - unfold on_broadcast, letter_of in H.
    destruct (bytes_eqb (firstn 1 m) (b "A")) eqn:Ea.
    { injection H as <- <-. split; [|split].
      - intros s' E. injection E as <-. split; [|split]; cbn [ws_bucket ws_base ws_handle].
        + rewrite fold_bucket_app. exact A1. + rewrite fold_base_app. exact A2.
        + destruct (opens (rest_of m)); auto. apply in_or_app. right. left. reflexivity.
      - intros l1 p w l2 E. destruct l1 as [|? [|? ?]]; cbn in E; congruence.
      - discriminate. }
    destruct (bytes_eqb (firstn 1 m) (b "U")).
    { destruct (get_stoi (rest_of m)) as [n|]; cbn [bind] in H; [|discriminate]. injection H as <- <-. split; [|split].
      - intros s' E. injection E as <-. split; [|split]; cbn [ws_bucket ws_base ws_handle].
        + rewrite fold_bucket_app. reflexivity. + rewrite fold_base_app. exact A2.
        + destruct (ws_handle s); auto. apply in_or_app. auto.
      - intros l1 p w l2 E. destruct l1 as [|? [|? ?]]; cbn in E; congruence.
      - discriminate. }
    destruct (bytes_eqb (firstn 1 m) (b "N")).
    { injection H as <- <-. split; [|split].
      - intros s' E. injection E as <-. rewrite app_nil_r. split; [|split]; auto.
      - intros l1 p w l2 E. destruct l1; discriminate.
      - discriminate. }
    destruct (bytes_eqb (firstn 1 m) (b "X")) eqn:Ex.
    { destruct (ws_handle s); try discriminate. injection H as <- <-. split; [discriminate|]. split.
      - intros l1 p w l2 E. destruct l1; discriminate.
      - intros c E. split; auto. left. split; [congruence|]. apply bytes_eqb_spec. auto. }
    injection H as <- <-. split; [|split].
    + intros s' E. injection E as <-. split; [|split]; auto.
      * rewrite fold_bucket_app. exact A1. * rewrite fold_base_app. exact A2.
      * destruct (ws_handle s); auto. apply in_or_app. auto.
    + intros l1 p w l2 E. destruct l1 as [|? [|? ?]]; cbn in E; congruence.
    + discriminate.
  - unfold on_individual, letter_of in H.
    destruct (bytes_eqb (firstn 1 m) (b "C")) eqn:Ec.
    { destruct (Z.eqb_spec (ws_bucket s) 0) as [E0|E0].
      { injection H as <- <-. split; [discriminate|]. split.
        - intros l1 p w l2 E. destruct l1; discriminate.
        - intros c E. split; auto. right. split; [congruence|]. split; [apply bytes_eqb_spec; auto|congruence]. }
      destruct (parse_bundle (rest_of m)) as [os|]; cbn [bind] in H; [|discriminate].
      destruct (total_size os) as [?|]; cbn [bind] in H; [|discriminate].
      destruct (order_n_filename os 0) as [?|]; cbn [bind] in H; [|discriminate].
      destruct (move_data_Create ev (ws_base s) (ws_bucket s) os) as [w0|] eqn:Ew; cbn [bind] in H; [|discriminate].
      destruct (ws_handle s) eqn:Eh; [discriminate|..]; injection H as <- <-.
      - split; [|split].
        + intros s' E. injection E as <-. split; [|split].
          * rewrite fold_bucket_app. exact A1. * rewrite fold_base_app. exact A2.
          * rewrite Eh. apply in_or_app. auto.
        + intros l1 p w l2 E. destruct l1 as [|? [|? [|? ?]]]; cbn in E; try congruence. injection E as <- <- <-. split; auto.
          unfold write_ok. rewrite <- A1, <- A2. split; auto. split; auto. eauto.
        + discriminate.
      - split; [|split].
        + intros s' E. injection E as <-. split; [|split].
          * rewrite fold_bucket_app. exact A1. * rewrite fold_base_app. exact A2.
          * rewrite Eh. exact I.
        + intros l1 p w l2 E. destruct l1 as [|? [|? [|? ?]]]; cbn in E; try congruence.
        + discriminate. }
    destruct (bytes_eqb (firstn 1 m) (b "P")).
    { injection H as <- <-. split; [|split].
      - intros s' E. injection E as <-. split; [|split]; cbn [ws_bucket ws_base ws_handle].
        + rewrite fold_bucket_app. exact A1. + rewrite fold_base_app. reflexivity.
        + destruct (ws_handle s); auto. apply in_or_app. auto.
      - intros l1 p w l2 E. destruct l1 as [|? [|? ?]]; cbn in E; congruence.
      - discriminate. }
    destruct (bytes_eqb (firstn 1 m) (b "B")).
    { injection H as <- <-. split; [|split].
      - intros s' E. injection E as <-. rewrite app_nil_r. split; [|split]; auto.
      - intros l1 p w l2 E. destruct l1; discriminate.
      - discriminate. }
    destruct (bytes_eqb (firstn 1 m) (b "X")) eqn:Ex.
    { injection H as <- <-. split; [discriminate|]. split.
      - intros l1 p w l2 E. destruct l1; discriminate.
      - intros c E. split; auto. left. split; [congruence|]. apply bytes_eqb_spec. auto. }
    injection H as <- <-. split; [|split].
    + intros s' E. injection E as <-. split; [|split]; auto.
      * rewrite fold_bucket_app. exact A1. * rewrite fold_base_app. exact A2.
      * destruct (ws_handle s); auto. apply in_or_app. auto.
    + intros l1 p w l2 E. destruct l1 as [|? [|? ?]]; cbn in E; congruence.
    + discriminate.
Qed.

Lemma app_split {A} (l l' l1 l2 : list A) (x : A) : l ++ l' = l1 ++ x :: l2 ->
  (exists t, l = l1 ++ x :: t /\ l2 = t ++ l') \/ (exists t, l1 = l ++ t /\ l' = t ++ x :: l2).
Proof.
  revert l1. induction l as [|a l IH]; intros l1 E; cbn in E.
  - right. exists l1. auto.
  - destruct l1 as [|c l1]; cbn in E.
    + injection E as -> E. left. exists l. auto.
    + injection E as -> E. destruct (IH l1 E) as [(t & -> & ->)|(t & -> & ->)]; [left|right]; exists t; auto.
Qed.

Lemma worker_from_ok opens ev ms : forall k l0 s l r, agrees l0 s -> worker_from opens ev k s ms = (l, r) ->
  (forall l1 p w l2, l = l1 ++ EvWrite p w :: l2 -> exists j, write_ok (ev j) (l0 ++ l1) p w) /\
  (forall c rest, r = Returned c rest -> exists pre m, ms = pre ++ m :: rest /\
      ((c = 0 /\ firstn 1 m = b "X") \/ (c = 7 /\ firstn 1 m = b "C" /\ last_bucket (l0 ++ l) = 0))) /\
  (forall s', r = Looping s' -> agrees (l0 ++ l) s').
Proof.
  induction ms as [|m ms IH]; intros k l0 s l r A H; cbn [worker_from] in H.
  - injection H as <- <-. split; [intros l1 ? ? ? E; destruct l1; discriminate|]. split; [discriminate|]. intros s' E. injection E as <-. rewrite app_nil_r. auto.
  - destruct (on_message (opens k) (ev k) s m) as [[l' [s'|c]]|e] eqn:Eo.
    + destruct (on_message_agrees _ _ l0 s m l' (Go s') A Eo) as (B1 & B2 & _).
      destruct (worker_from opens ev (S k) s' ms) as [l'' r''] eqn:Ew. injection H as <- <-.
      destruct (IH (S k) (l0 ++ l') s' l'' r'' (B1 s' eq_refl) Ew) as (C1 & C2 & C3). split; [|split].
      * intros l1 p w l2 E. apply app_split in E as [(t & -> & ->)|(t & -> & E)].
        -- destruct (B2 l1 p w t eq_refl) as (-> & W). rewrite app_nil_r. exists k. auto.
        -- destruct (C1 t p w l2 E) as (j & W). exists j. rewrite app_assoc. auto.
      * intros c rest E. destruct (C2 c rest E) as (pre & m' & -> & D). exists (m :: pre), m'. split; auto. rewrite app_assoc. auto.
      * intros s2 E. rewrite app_assoc. auto.
    + injection H as <- <-. destruct (on_message_agrees _ _ l0 s m l' (Return c) A Eo) as (_ & B2 & B3).
      destruct (B3 c eq_refl) as (-> & D). split; [intros l1 ? ? ? E; destruct l1; discriminate|]. split; [|discriminate].
      intros c' rest E. injection E as <- <-. exists [], m. rewrite app_nil_r. auto.
    + injection H as <- <-. split; [intros l1 ? ? ? E; destruct l1; discriminate|]. split; discriminate.
Qed.

Lemma agrees_start : agrees [] wstart.
Proof. unfold agrees, wstart. cbn. auto. Qed.

(** ** the history the boss produces *)
Lemma on_U opens ev n h base bk : int31 n -> on_message opens ev {| ws_mode := ModeB; ws_bucket := bk; ws_handle := h; ws_base := base |} (b "U" ++ print_int n)
  = Ok ([EvBucket n], Go {| ws_mode := ModeB; ws_bucket := n; ws_handle := h; ws_base := base |}).
Proof.
  intros H. unfold on_message. cbn [ws_mode]. unfold on_broadcast.
  change (letter_of (b "U" ++ print_int n)) with (b "U"). change (rest_of (b "U" ++ print_int n)) with (print_int n).
  change (bytes_eqb (b "U") (b "A")) with false. change (bytes_eqb (b "U") (b "U")) with true. cbn match.
  rewrite get_stoi_print by (apply int31_range; auto). cbn [bind]. rewrite int31_ulong by auto. reflexivity.
Qed.
Lemma on_A opens ev p h base bk : on_message opens ev {| ws_mode := ModeB; ws_bucket := bk; ws_handle := h; ws_base := base |} (b "A" ++ p)
  = Ok ([EvOpen p (opens p)], Go {| ws_mode := ModeB; ws_bucket := bk; ws_handle := if opens p then HOpen p else HFailed p; ws_base := base |}).
Proof. reflexivity. Qed.
Lemma on_N opens ev p h base bk : on_message opens ev {| ws_mode := ModeB; ws_bucket := bk; ws_handle := h; ws_base := base |} (b "N" ++ p)
  = Ok ([], Go {| ws_mode := ModeN; ws_bucket := bk; ws_handle := h; ws_base := base |}).
Proof. reflexivity. Qed.
Lemma on_P opens ev p h base bk : on_message opens ev {| ws_mode := ModeN; ws_bucket := bk; ws_handle := h; ws_base := base |} (b "P" ++ p)
  = Ok ([EvBase p], Go {| ws_mode := ModeN; ws_bucket := bk; ws_handle := h; ws_base := p |}).
Proof. reflexivity. Qed.
Lemma on_X opens ev p h base bk : on_message opens ev {| ws_mode := ModeN; ws_bucket := bk; ws_handle := h; ws_base := base |} (b "X" ++ p)
  = Ok ([], Return 0).
Proof. reflexivity. Qed.
Lemma worker_from_cons opens ev k s m ms l s' : on_message (opens k) (ev k) s m = Ok (l, Go s') ->
  worker_from opens ev k s (m :: ms) = let '(l', r) := worker_from opens ev (S k) s' ms in (l ++ l', r).
Proof. intros H. cbn [worker_from]. rewrite H. reflexivity. Qed.

Lemma opening opens ev bucket path base rest : 0 < bucket <= INT_MAX -> opens 1%nat path = true ->
  worker_from opens ev 0 wstart ((b "U" ++ print_int bucket) :: (b "A" ++ path) :: (b "N" ++ b "individual") :: (b "P" ++ base) :: rest) =
  let '(l, r) := worker_from opens ev 4 (ready bucket path base) rest in
  ([EvBucket bucket; EvOpen path true; EvBase base] ++ l, r).
Proof.
  intros Hb Ho. unfold wstart.
  erewrite worker_from_cons by (apply on_U; unfold int31; lia).
  erewrite worker_from_cons by apply on_A. rewrite Ho.
  erewrite worker_from_cons by apply on_N.
  erewrite worker_from_cons by apply on_P. fold (ready bucket path base).
  destruct (worker_from opens ev 4 (ready bucket path base) rest) as [l r]. reflexivity.
Qed.

Lemma letter_C t : letter_of (b "C" ++ t) = b "C".
Proof. reflexivity. Qed.
Lemma rest_C t : rest_of (b "C" ++ t) = t.
Proof. reflexivity. Qed.
Lemma on_C_eq opens ev bucket path base t : on_message opens ev (ready bucket path base) (b "C" ++ t) =
  if bucket =? 0 then Ok ([], Return 7)
  else os <- parse_bundle t ;; _ <- total_size os ;; _ <- order_n_filename os 0 ;;
       w <- move_data_Create ev base bucket os ;; Ok ([EvWrite path w; EvDone], Go (ready bucket path base)).
Proof.
  unfold on_message, ready. cbn [ws_mode]. unfold on_individual. rewrite letter_C, rest_C, bytes_eqb_refl. cbn [ws_bucket ws_base ws_handle]. reflexivity.
Qed.

Lemma on_create opens ev bucket path base B w : 0 < bucket -> parse_bundle (print_bundle B) = Ok B ->
  move_data_Create ev base bucket B = Ok w ->
  on_message opens ev (ready bucket path base) (b "C" ++ print_bundle B) = Ok ([EvWrite path w; EvDone], Go (ready bucket path base)).
Proof.
  intros Hb Hp Hm. rewrite on_C_eq. destruct (Z.eqb_spec bucket 0); [lia|]. rewrite Hp. cbn [bind].
  destruct B as [|o B]; [discriminate Hm|]. unfold total_size, order_n_filename. cbn [bind].
  change (0 mod 2 ^ 64) with 0. destruct (Z.ltb_spec (zlen (o :: B)) 0) as [X|_]; [rewrite zlen_cons in X; pose proof (zlen_nonneg B); lia|].
  cbn [Z.to_nat nth_error]. cbn [bind]. rewrite Hm. reflexivity.
Qed.

Lemma serve_all opens ev bucket path base Bs : forall ws k, 0 < bucket -> length ws = length Bs ->
  (forall i B w, nth_error Bs i = Some B -> nth_error ws i = Some w ->
     parse_bundle (print_bundle B) = Ok B /\ move_data_Create (ev (k + i)%nat) base bucket B = Ok w) ->
  worker_from opens ev k (ready bucket path base) (map (fun B => b "C" ++ print_bundle B) Bs ++ [b "X" ++ b "shutdown"]) =
  (flat_map (fun w => [EvWrite path w; EvDone]) ws, Returned 0 []).
Proof.
  induction Bs as [|B Bs IH]; intros ws k Hb Hl H; destruct ws as [|w ws]; cbn [length] in Hl; try lia.
  - reflexivity.
  - cbn [map]. rewrite <- app_comm_cons. destruct (H 0%nat B w eq_refl eq_refl) as (P & M). rewrite Nat.add_0_r in M.
    rewrite (worker_from_cons _ _ _ _ _ _ _ _ (on_create (opens k) (ev k) bucket path base B w Hb P M)).
    rewrite (IH ws (S k)).
    + reflexivity.
    + exact Hb.
    + lia.
    + intros i B' w' E1 E2. replace (S k + i)%nat with (k + S i)%nat by lia. apply H; auto.
Qed.
Lemma boss_history opens ev bucket path base Bs ws rank : rank <> 0 ->
  0 < bucket <= INT_MAX -> opens 1%nat path = true -> length ws = length Bs ->
  (forall k B w, nth_error Bs k = Some B -> nth_error ws k = Some w ->
     parse_bundle (print_bundle B) = Ok B /\ move_data_Create (ev (4 + k)%nat) base bucket B = Ok w) ->
  worker_node opens ev rank
    ((b "U" ++ print_int bucket) :: (b "A" ++ path) :: (b "N" ++ b "individual") :: (b "P" ++ base) ::
     map (fun B => b "C" ++ print_bundle B) Bs ++ [b "X" ++ b "shutdown"]) =
  ([EvBucket bucket; EvOpen path true; EvBase base] ++ flat_map (fun w => [EvWrite path w; EvDone]) ws, Returned 0 []).
Proof.
  intros Hr Hb Ho Hl H. unfold worker_node. destruct (Z.eqb_spec rank 0); [contradiction|].
  rewrite opening by auto. rewrite (serve_all opens ev bucket path base Bs ws 4); auto. lia.
Qed.
