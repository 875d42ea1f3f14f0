(** The ranks of the 0.5.1 program write different places (C95). *)
From Coq Require Import Lia Permutation Sorted.
From Verif Require Import Bytes Outcome TarModel TarProofs Layout Mover Worker Boss Spider Program Legacy LegacyLayout LegacyScan LegacyCodec LegacyCodecProofs LegacyWrite LegacyRanks LegacyMore LegacySeats LegacySend LegacyEnd LegacyCreate Mpi LegacyMpi LegacyMpiProofs LegacyMpiMore LegacyMpiEnd LegacyMpiWhole ApartSpec.
Local Open Scope Z_scope.

Lemma skip_nth {A} (l : list A) : forall n m, nth_error (skipn n l) m = nth_error l (n + m).
Proof. induction l as [|x l IH]; intros [|n] m; cbn; auto; destruct m; auto. Qed.
(** *** the text fits an ordinary header *)
Lemma room_most fuel : forall size total need s, room fuel size total need = Some s -> s <= Z.max size 1000000000.
Proof.
  induction fuel as [|f IH]; intros size total need s; cbn [room].
  - destruct (_ <? _); [discriminate|]. intros E. assert (s = size) by congruence. lia.
  - destruct (_ <? _); [|intros E; assert (s = size) by congruence; lia]. unfold MAX_BUFFER. destruct (Z.ltb_spec 1000000000 (size * 2)); [discriminate|].
    intros E. apply IH in E. lia.
Qed.
Lemma add_lines_most ls : forall size out r, add_lines size out ls = Ok (Some r) -> zlen r <= Z.max (zlen out) (Z.max size 1000000000).
Proof.
  induction ls as [|x ls IH]; intros size out r; cbn [add_lines].
  - intros E. assert (r = out) by congruence. subst. lia.
  - destruct (room 40 size (zlen out) (zlen x)) as [s'|] eqn:Er; [|discriminate]. destruct (Z.ltb_spec s' (zlen out + zlen x + 1)); [discriminate|]. intros E.
    apply IH in E. apply room_most in Er. rewrite zlen_app in E. lia.
Qed.
Lemma text_most l bkt arch buf : list_to_buffer l bkt arch = Ok (Some buf) -> 0 <= bkt < 10 ^ 10 -> zlen buf <= 3000000000.
Proof.
  intros H Hb. unfold list_to_buffer in H. destruct (Z.ltb_spec INT_MAX (200 * zlen l)) as [|Hl]; [discriminate|]. destruct (_ <? 56) in H; [discriminate|]. unfold INT_MAX in Hl.
  pose proof (zlen_nonneg l).
  assert (C : zlen (cat_head 0 bkt (zlen l) arch) = 55) by (apply cat_head_zlen; [auto|change (10 ^ 10) with 10000000000; lia]).
  destruct (add_lines _ _ _) as [[out|]|] eqn:A in H; cbn [bind] in H; try discriminate.
  pose proof (add_lines_most _ _ _ _ A) as B. rewrite C in B. apply add_lines_out in A.
  destruct (Z.eqb_spec (zlen (ten (zlen out))) 10) as [T|T]; [|discriminate].
  assert (X : buf = ten (zlen out) ++ skipn 10 out) by congruence. rewrite X, zlen_app, T. unfold zlen. rewrite skipn_length.
  assert (55 <= zlen out) by (rewrite A, zlen_app, C; pose proof (zlen_nonneg (concat (map (line arch) l))); lia). unfold zlen in *. destruct arch; lia.
Qed.

(** *** the first entries of the buckets *)
Lemma starts_up l : forall last k, StronglySorted Z.lt (run_starts last k l) /\ Forall (fun s => k <= s) (run_starts last k l).
Proof.
  induction l as [|e l IH]; intros last k; cbn [run_starts]; [split; constructor|].
  destruct (l_bucket e =? last).
  - destruct (IH last (k + 1)) as (A & B). split; auto. eapply Forall_impl; [|exact B]. cbn. intros; lia.
  - destruct (IH (l_bucket e) (k + 1)) as (A & B). split; constructor; auto; try lia; (eapply Forall_impl; [|exact B]); cbn; intros; lia.
Qed.
Lemma call_starts l starts : rank_call_list l = Ok (Some starts) -> StronglySorted Z.lt starts /\ Forall (fun s => 0 <= s) starts.
Proof. unfold rank_call_list. destruct l as [|e l]; [discriminate|]. destruct (_ =? 0); [|discriminate]. intros E. assert (X : starts = run_starts (-1) 0 (e :: l)) by congruence. rewrite X. apply starts_up. Qed.
Lemma check_nth l starts : forall i j k, check_calls l i starts = Ok true -> nth_error starts j = Some k -> exists e, nth_error l (Z.to_nat k) = Some e /\ l_bucket e = i + Z.of_nat j.
Proof.
  induction starts as [|s starts IH]; intros i j k; cbn [check_calls]; [destruct j; discriminate|].
  destruct (nth_error l (Z.to_nat s)) as [e|] eqn:En; [|discriminate]. destruct (Z.eqb_spec (l_bucket e) i) as [E|]; [|discriminate]. intros C.
  destruct j as [|j]; cbn [nth_error].
  - intros X. injection X as <-. exists e. split; auto. lia.
  - intros X. destruct (IH _ _ _ C X) as (e' & A & B). exists e'. split; auto. lia.
Qed.
Lemma sorted_nth l : StronglySorted Z.lt l -> forall j a b, nth_error l j = Some a -> nth_error l (S j) = Some b -> a < b.
Proof.
  induction 1 as [|x l S IH F]; intros j a c; [destruct j; discriminate|]. destruct j as [|j]; cbn [nth_error].
  - intros E1 E2. injection E1 as <-. rewrite Forall_forall in F. apply F. exact (nth_error_In l 0 E2).
  - intros E1 E2. eapply IH; eauto.
Qed.
Lemma take_all bkt l : zlen (take_bucket bkt l) = zlen l -> Forall (fun e => l_bucket e = bkt) l.
Proof.
  induction l as [|e l IH]; cbn [take_bucket]; [constructor|]. destruct (Z.eqb_spec (l_bucket e) bkt) as [E|]; unfold zlen in *; cbn [length]; intros H; [|lia].
  constructor; auto. apply IH. lia.
Qed.

Section zones.
Context (D n : Z) (R : nat).
Notation P := L_BUCKET.
(** proof device (the places of parfu_data_transfer.cc 877-928): a write into bucket i, or after it when it is the last one *)
Definition in_bucket (i : Z) (w : wr) : Prop := D + i * P <= w_pos w /\ (i < n - 1 -> w_pos w + w_len w <= D + (i + 1) * P).
(** proof device: the writes of rank r *)
Definition zone (r : nat) (w : wr) : Prop :=
  (r = 0%nat /\ w_pos w + w_len w <= D) \/ exists i, 0 <= i < n /\ i mod Z.of_nat R = Z.of_nat r /\ in_bucket i w.
Definition apart (x y : bytes * wr) : Prop := ~ overlap (snd x) (snd y).
Definition clean (r : nat) (l : list (bytes * wr)) : Prop := Forall (fun x => zone r (snd x)) l /\ ForallOrdPairs apart l.

Lemma buckets_apart i j w w' : 0 <= i < n -> 0 <= j < n -> i <> j -> in_bucket i w -> in_bucket j w' -> ~ overlap w w'.
Proof.
  unfold in_bucket, L_BUCKET. intros Hi Hj N (A & B) (C & E) (x & X & Y). destruct (Z_lt_ge_dec i j); [specialize (B ltac:(lia))|specialize (E ltac:(lia))]; lia.
Qed.
Lemma zones_apart r r' w w' : r <> r' -> zone r w -> zone r' w' -> ~ overlap w w'.
Proof.
  intros N [[E A]|(i & Hi & Mi & A)] [[E' A']|(j & Hj & Mj & A')].
  - lia.
  - intros (x & X & Y). destruct A' as (A' & _). unfold L_BUCKET in A'. lia.
  - intros (x & X & Y). destruct A as (A & _). unfold L_BUCKET in A. lia.
  - apply (buckets_apart i j); auto. intros ->. lia.
Qed.

(** *** one bucket *)
Lemma bucket_place now ev l starts m m' i ws : check_calls l 0 starts = Ok true -> StronglySorted Z.lt starts -> Forall (fun s => 0 <= s) starts -> n = zlen starts -> 0 <= i < n ->
  one_bucket L_BLOCK P D now ev l starts m i = Ok (Some (m', ws)) -> Forall (in_bucket i) ws /\ ForallOrdPairs (fun w w' => ~ overlap w w') ws.
Proof.
  intros Hc Hs H0 Hn Hi. unfold one_bucket. change (P <? 10000) with false. cbv iota.
  destruct (nth_error starts (Z.to_nat i)) as [k|] eqn:Ek; [|discriminate]. destruct (nth_error l (Z.to_nat k)) as [e0|] eqn:Ee; [|discriminate].
  destruct (Z.eqb_spec (l_bucket e0) i) as [Eb|]; cbn [negb]; [|discriminate]. cbv zeta.
  destruct (bucket_entries L_BLOCK P ev (P * i) (m, 0) (take_bucket (l_bucket e0) (skipn (Z.to_nat k) l))) as [[[m1 w]|]|]; cbn [bind]; try discriminate.
  match goal with |- context [bind ?x _] => destruct x as [[m2 w2]|] end; cbn [bind]; [|discriminate].
  destruct (Z.ltb_spec P w2) as [|Hw]; [discriminate|].
  assert (Hw' : forall m0, in_bucket i (put (D + i * P) w2 m0)) by (intros m0; split; cbn [put w_pos w_len]; lia).
  destruct (Z.eqb_spec (k + zlen (take_bucket (l_bucket e0) (skipn (Z.to_nat k) l))) (zlen l)) as [El|Nl]; intros X; injection X as _ <-.
  2:{ split; [repeat constructor; apply Hw'|repeat constructor]. }
  assert (Lk : (Z.to_nat k < length l)%nat) by (apply nth_error_Some; congruence).
  assert (Pk : 0 <= k) by (rewrite Forall_forall in H0; apply H0; eapply nth_error_In; eauto).
  assert (Last : ~ i < n - 1).
  { intros Hlt. assert (F : Forall (fun e => l_bucket e = l_bucket e0) (skipn (Z.to_nat k) l)) by (apply take_all; unfold zlen in *; rewrite skipn_length; lia).
    destruct (nth_error starts (S (Z.to_nat i))) as [k'|] eqn:Ek'; [|apply nth_error_None in Ek'; unfold zlen in Hn; lia].
    pose proof (sorted_nth _ Hs _ _ _ Ek Ek'). destruct (check_nth _ _ _ _ _ Hc Ek') as (e' & A & B).
    assert (I : In e' (skipn (Z.to_nat k) l)).
    { apply (nth_error_In _ (Z.to_nat k' - Z.to_nat k)). rewrite skip_nth. replace (Z.to_nat k + (Z.to_nat k' - Z.to_nat k))%nat with (Z.to_nat k') by lia. exact A. }
    rewrite Forall_forall in F. specialize (F e' I). lia. }
  split.
  - constructor; [apply Hw'|]. constructor; [|constructor]. split; cbn [put w_pos w_len]; [unfold L_BUCKET; lia|tauto].
  - constructor; [|repeat constructor]. constructor; [|constructor]. intros (x & (X & Y)). cbn [put w_pos w_len] in *. lia.
Qed.

(** *** all the buckets of a rank *)
Lemma ford_app {A} (Q : A -> A -> Prop) l1 : forall l2, ForallOrdPairs Q l1 -> ForallOrdPairs Q l2 -> (forall x y, In x l1 -> In y l2 -> Q x y) -> ForallOrdPairs Q (l1 ++ l2).
Proof.
  induction l1 as [|x l1 IH]; intros l2 F1 F2 H; cbn [app]; auto. inversion F1; subst. constructor.
  - apply Forall_app. split; auto. apply Forall_forall. intros y Hy. apply H; [left; reflexivity|exact Hy].
  - apply IH; auto. intros; apply H; [right|]; auto.
Qed.
Lemma ford_map {A B} (f : A -> B) (Q : B -> B -> Prop) l : ForallOrdPairs (fun x y => Q (f x) (f y)) l -> ForallOrdPairs Q (map f l).
Proof. induction 1 as [|x l F _ IH]; cbn [map]; constructor; auto. apply Forall_forall. intros y Hy. apply in_map_iff in Hy as (z & <- & Hz). rewrite Forall_forall in F. auto. Qed.

Lemma move_place opens clock ev l starts path : check_calls l 0 starts = Ok true -> StronglySorted Z.lt starts -> Forall (fun s => 0 <= s) starts -> n = zlen starts -> forall is, NoDup is -> (forall i, In i is -> 0 <= i < n) ->
  forall m H, Forall (fun x => exists i, In i is /\ in_bucket i (snd x)) (puts (items opens H (move P D clock ev l starts path m is closing))) /\
              ForallOrdPairs apart (puts (items opens H (move P D clock ev l starts path m is closing))).
Proof.
  intros Hc Hs H0 Hn. induction is as [|i is IH]; intros Nd Hi m H; cbn [move]; [cbn; split; constructor|].
  inversion Nd as [|? ? Ni Nd']; subst.
  destruct (one_bucket L_BLOCK P D (clock i) ev l starts m i) as [[[m1 ws]|]|e] eqn:E; cbn [step_of fst snd]; [|cbn; split; constructor..].
  destruct (bucket_place _ _ _ _ _ _ _ _ Hc Hs H0 Hn (Hi i (or_introl eq_refl)) E) as (A & B).
  destruct (IH Nd' (fun j Hj => Hi j (or_intror Hj)) m1 H) as (A' & B'). rewrite items_writes, puts_app, puts_puts.
  assert (A1 : Forall (fun x => in_bucket i (snd x)) (map (pair path) ws)).
  { apply Forall_forall. intros x Hx. apply in_map_iff in Hx as (w & <- & Hw). rewrite Forall_forall in A. exact (A w Hw). }
  split.
  - apply Forall_app. split; [eapply Forall_impl; [|exact A1]; cbn; intros x Hx; exists i; split; auto|]. eapply Forall_impl; [|exact A']. cbn. intros x (j & Hj & Hx). exists j. split; auto.
  - apply ford_app; auto; [apply (ford_map (pair path)); exact B|]. intros x y Hx Hy. rewrite Forall_forall in A1, A'. destruct (A' y Hy) as (j & Hj & Hx').
    apply (buckets_apart i j); auto; [apply Hi; left; reflexivity|apply Hi; right; exact Hj|]. intros ->. exact (Ni Hj).
Qed.
Lemma part_place opens clock ev r path l starts H : (r < R)%nat -> StronglySorted Z.lt starts -> Forall (fun s => 0 <= s) starts -> n = zlen starts ->
  Forall (fun x => exists i, 0 <= i < n /\ i mod Z.of_nat R = Z.of_nat r /\ in_bucket i (snd x)) (puts (items opens H (move_part P D clock ev R r path l starts))) /\
  ForallOrdPairs apart (puts (items opens H (move_part P D clock ev R r path l starts))).
Proof.
  intros Hr Hs H0 Hn. unfold move_part. destruct (check_calls l 0 starts) as [[|]|e] eqn:Hc; cbn [check_of]; [|cbn; split; constructor..].
  cbn [items puts flat_map app]. fold (puts (items opens (tl H) (move P D clock ev l starts path cleared (rank_loop (Z.of_nat R) (Z.of_nat r) (zlen starts)) closing))).
  destruct (rank_loop_spec (Z.of_nat R) (Z.of_nat r) (zlen starts) ltac:(lia)) as (Nd & In_).
  destruct (move_place opens clock ev l starts path Hc Hs H0 Hn _ Nd (fun i Hi => ltac:(apply In_ in Hi; lia)) cleared (tl H)) as (A & B). split; auto.
  eapply Forall_impl; [|exact A]. cbn. intros x (i & Hi & X). exists i. apply In_ in Hi. rewrite Hn. tauto.
Qed.
End zones.

(** *** from the list on rank 0 *)
(** proof device: parfu_data_transfer.cc 238-249, as a function of the list *)
Definition data_start (l : list lent) : Z := match list_to_buffer l (wrap32 L_BUCKET) true with Ok (Some cat) => data_offset L_BUCKET (512 + zlen cat) | _ => 0 end.
(** proof device: the number of bucket starts, parfu_data_transfer.cc 331-337 *)
Definition n_buckets (l : list lent) : Z :=
  match set_offsets_and_split L_BLOCK L_BUCKET L_PAD l with
  | Ok (Some x) => match rank_call_list (snd (fst x)) with Ok (Some starts) => zlen starts | _ => 0 end
  | _ => 0
  end.
Lemma hdr_512 cat l : list_to_buffer l (wrap32 L_BUCKET) true = Ok (Some cat) -> compute_hdr_size (b ".parfu_catalog") [] (zlen cat) = Ok 512.
Proof.
  intros E. apply text_most in E; [|split; [discriminate|reflexivity]]. pose proof (zlen_nonneg cat). apply pad_hdr; cbn; try lia; unfold MAX_FILE_SIZE; lia.
Qed.
Lemma clean_nil D n R r : clean D n R r []. Proof. split; constructor. Qed.
Lemma clean_part opens D n clock ev R r path l starts H : (r < R)%nat -> StronglySorted Z.lt starts -> Forall (fun s => 0 <= s) starts -> n = zlen starts ->
  clean D n R r (puts (items opens H (move_part L_BUCKET D clock ev R r path l starts))).
Proof.
  intros Hr Hs H0 Hn. destruct (part_place D n R opens clock ev r path l starts H Hr Hs H0 Hn) as (A & B). split; auto.
  eapply Forall_impl; [|exact A]. intros x Hx. right. exact Hx.
Qed.

Lemma other_clean opens clock ev R r arc l : (r < R)%nat -> no_byte NUL arc ->
  clean (data_start l) (n_buckets l) R r (puts (items opens (bc opens (create0 L_BUCKET L_PAD clock ev R arc l)) (create_other L_BUCKET clock ev R r))).
Proof.
  intros Hr Hn. unfold create0, create_other, data_start, n_buckets. rewrite !bc_cast, bc_bar. cbn [items tl puts flat_map app]. fold puts.
  unfold writer0. destruct (list_to_buffer l (wrap32 L_BUCKET) true) as [[cat|]|e] eqn:Ec; cbn [step_of]; try apply clean_nil.
  destruct (zlen arc <? 1); [apply clean_nil|]. rewrite !bc_cast, bc_open. cbn [items tl flat_map app text_of]. cbv zeta. rewrite cstr_app_nul by auto. cbn [items tl flat_map app].
  destruct (opens arc); cbn [negb]; [|apply clean_nil].
  rewrite (hdr_512 _ _ Ec). cbn [value_of]. rewrite bc_writes. change (L_BUCKET =? 0) with false. cbv iota. rewrite bc_writes, bc_cast. cbn [items tl flat_map app].
  destruct (set_offsets_and_split L_BLOCK L_BUCKET L_PAD l) as [[x|]|e]; cbn [step_of]; try apply clean_nil.
  destruct (list_to_buffer (snd (fst x)) (wrap32 L_BUCKET) false) as [[text|]|e]; cbn [step_of]; try apply clean_nil.
  destruct (rank_call_list (snd (fst x))) as [[starts|]|e] eqn:Er; cbn [step_of]; try apply clean_nil.
  destruct (check_calls (snd (fst x)) 0 starts) as [[|]|e]; cbn [check_of]; try apply clean_nil. rewrite bc_cast. cbn [items tl flat_map app int_of].
  unfold count_of. destruct (INT_MAX <? zlen text); [apply clean_nil|]. rewrite bc_cast. cbn [items tl flat_map app text_of].
  destruct (buffer_to_list text false) as [[y|]|e]; cbn [step_of]; try apply clean_nil. rewrite !bc_cast. cbn [items tl flat_map app int_of ints_of].
  destruct (call_starts _ _ Er) as (S1 & S2). apply clean_part; auto.
Qed.

Lemma offset_spec E : 0 <= E -> exists q, data_offset L_BUCKET E = q * L_BUCKET /\ E <= q * L_BUCKET.
Proof.
  intros HE. unfold data_offset, L_BUCKET. pose proof (Z.div_mod E 4194304 ltac:(lia)). pose proof (Z.mod_pos_bound E 4194304 ltac:(lia)).
  destruct (Z.eqb_spec (E mod 4194304) 0); eexists; split; try reflexivity; lia.
Qed.
(** the catalog and the spacer after it *)
Lemma head_clean n R (arc cat : bytes) clock m1 m2 : let E := 512 + zlen cat in let D := data_offset L_BUCKET E in
  Forall (fun x => fst x = arc /\ w_pos (snd x) + w_len (snd x) <= D) (map (pair arc) (put 0 512 m1 :: put 512 (zlen cat) m2 :: catalog_spacer L_BLOCK L_BUCKET 512 E (clock (-1)))) /\
  clean D n R 0 (map (pair arc) (put 0 512 m1 :: put 512 (zlen cat) m2 :: catalog_spacer L_BLOCK L_BUCKET 512 E (clock (-1)))).
Proof.
  intros E D. pose proof (zlen_nonneg cat). destruct (offset_spec E ltac:(unfold E; lia)) as (q & Eq & Hq). fold D in Eq.
  assert (S : catalog_spacer L_BLOCK L_BUCKET 512 E (clock (-1)) = [] \/ exists loc m, catalog_spacer L_BLOCK L_BUCKET 512 E (clock (-1)) = [put loc 512 m] /\ E <= loc /\ loc + 512 <= D).
  { unfold catalog_spacer. fold D. unfold L_BLOCK. destruct (Z.ltb_spec 512 (D - E)) as [Hd|]; [|left; reflexivity]. right. cbv zeta.
    pose proof (Z.div_mod E 512 ltac:(lia)). pose proof (Z.mod_pos_bound E 512 ltac:(lia)). unfold L_BUCKET in *.
    destruct (Z.eqb_spec (E mod 512) 0) as [Z0|Z0]; (eexists; eexists; split; [reflexivity|]); split; lia. }
  assert (HD : E <= D) by lia.
  assert (F : Forall (fun x => fst x = arc /\ w_pos (snd x) + w_len (snd x) <= D) (map (pair arc) (put 0 512 m1 :: put 512 (zlen cat) m2 :: catalog_spacer L_BLOCK L_BUCKET 512 E (clock (-1))))).
  { destruct S as [->|(loc & m & -> & S1 & S2)]; cbn [map]; repeat (constructor; [split; [reflexivity|cbn [snd put w_pos w_len]; unfold E in *; lia]|]); constructor. }
  split; [exact F|]. split; [eapply Forall_impl; [|exact F]; intros x (_ & Hx); left; split; auto|].
  assert (A : forall p1 l1 x1 p2 l2 x2, p1 + l1 <= p2 -> apart (arc, put p1 l1 x1) (arc, put p2 l2 x2)) by (intros p1 l1 x1 p2 l2 x2 Hp (x & X & Y); cbn [snd put w_pos w_len] in *; lia).
  destruct S as [->|(loc & m & -> & S1 & S2)]; cbn [map]; repeat (constructor; [repeat (constructor; [apply A; unfold E in *; lia|]); constructor|]); constructor.
Qed.
Lemma clean_app D n R r l1 l2 : clean D n R r l1 -> clean D n R r l2 -> (forall x y, In x l1 -> In y l2 -> apart x y) -> clean D n R r (l1 ++ l2).
Proof. intros (A & B) (C & E) H. split; [apply Forall_app; auto|apply ford_app; auto]. Qed.
Lemma boss_clean opens clock ev R arc l H : (1 <= R)%nat -> clean (data_start l) (n_buckets l) R 0 (puts (items opens H (create0 L_BUCKET L_PAD clock ev R arc l))).
Proof.
  intros HR. unfold create0. cbn [items tl puts flat_map app]. fold puts. unfold data_start, n_buckets.
  unfold writer0. destruct (list_to_buffer l (wrap32 L_BUCKET) true) as [[cat|]|e] eqn:Ec; cbn [step_of]; try apply clean_nil.
  destruct (zlen arc <? 1); [apply clean_nil|]. cbn [items tl flat_map app].
  destruct (opens arc); cbn [negb]; [|apply clean_nil].
  rewrite (hdr_512 _ _ Ec). cbn [value_of]. rewrite items_writes, flat_map_app. change (L_BUCKET =? 0) with false. cbv iota. rewrite items_writes, flat_map_app, app_assoc, <- flat_map_app, <- map_app. fold (puts (map (IPut arc) ([put 0 512 (poke fresh 0 (catalog_header (zlen cat) (clock (-2)))); put 512 (zlen cat) (poke fresh 0 cat)] ++ catalog_spacer L_BLOCK L_BUCKET 512 (512 + zlen cat) (clock (-1))))). rewrite puts_puts.
  set (nb := match set_offsets_and_split L_BLOCK L_BUCKET L_PAD l with Ok (Some x) => _ | _ => 0 end).
  destruct (head_clean nb R arc cat clock (poke fresh 0 (catalog_header (zlen cat) (clock (-2)))) (poke fresh 0 cat)) as (F & C). cbn [app].
  assert (T : forall L, Forall (fun x => exists i, 0 <= i < nb /\ i mod Z.of_nat R = Z.of_nat 0 /\ in_bucket (data_offset L_BUCKET (512 + zlen cat)) nb i (snd x)) L -> ForallOrdPairs apart L ->
    clean (data_offset L_BUCKET (512 + zlen cat)) nb R 0 (map (pair arc) (put 0 512 (poke fresh 0 (catalog_header (zlen cat) (clock (-2)))) :: put 512 (zlen cat) (poke fresh 0 cat) :: catalog_spacer L_BLOCK L_BUCKET 512 (512 + zlen cat) (clock (-1))) ++ L)).
  { intros L A B. apply clean_app; [exact C|split; [eapply Forall_impl; [|exact A]; intros x Hx; right; exact Hx|exact B]|].
    intros x y Hx Hy (z & X & Y). rewrite Forall_forall in F, A. destruct (F x Hx) as (_ & F1). destruct (A y Hy) as (i & Hi & _ & (Q & _)). unfold L_BUCKET in Q at 2. lia. }
  cbn [items tl flat_map app].
  assert (T0 : clean (data_offset L_BUCKET (512 + zlen cat)) nb R 0 (map (pair arc) (put 0 512 (poke fresh 0 (catalog_header (zlen cat) (clock (-2)))) :: put 512 (zlen cat) (poke fresh 0 cat) :: catalog_spacer L_BLOCK L_BUCKET 512 (512 + zlen cat) (clock (-1))) ++ [])) by (apply T; constructor).
  destruct (set_offsets_and_split L_BLOCK L_BUCKET L_PAD l) as [[x|]|e]; cbn [step_of]; try exact T0.
  destruct (list_to_buffer (snd (fst x)) (wrap32 L_BUCKET) false) as [[text|]|e]; cbn [step_of]; try exact T0.
  destruct (rank_call_list (snd (fst x))) as [[starts|]|e] eqn:Er; cbn [step_of]; try exact T0.
  destruct (check_calls (snd (fst x)) 0 starts) as [[|]|e]; cbn [check_of]; try exact T0. cbn [items tl flat_map app].
  unfold count_of. destruct (INT_MAX <? zlen text); [exact T0|]. cbn [items tl flat_map app].
  destruct (buffer_to_list text false) as [[y|]|e]; cbn [step_of]; try exact T0. cbn [items tl flat_map app].
  destruct (call_starts _ _ Er) as (S1 & S2).
  match goal with |- context [items opens ?H' (move_part _ ?D _ _ _ _ _ ?l' _)] => destruct (part_place D nb R opens clock ev 0 arc l' starts H' ltac:(lia) S1 S2 eq_refl) as (A & B) end.
  apply T; auto.
Qed.

(** *** the whole run *)
Lemma mine_split r l1 p w l2 p' w' l3 : mine r (l1 ++ (r, EvWrite p w) :: l2 ++ (r, EvWrite p' w') :: l3) = mine r l1 ++ (p, w) :: mine r l2 ++ (p', w') :: mine r l3.
Proof. rewrite mine_app. f_equal. cbn [mine flat_map fst snd]. rewrite Nat.eqb_refl. cbn [app]. f_equal. fold (mine r). change (mine r (l2 ++ (r, EvWrite p' w') :: l3) = mine r l2 ++ (p', w') :: mine r l3). rewrite mine_app. f_equal. cbn [mine flat_map fst snd]. rewrite Nat.eqb_refl. reflexivity. Qed.
Lemma ford_mid {A} (Q : A -> A -> Prop) l1 x l2 y l3 : ForallOrdPairs Q (l1 ++ x :: l2 ++ y :: l3) -> Q x y.
Proof.
  induction l1 as [|z l1 IH]; cbn [app]; intros F; inversion F as [|? ? F1 F2]; subst; auto. rewrite Forall_forall in F1. apply F1. apply in_or_app. right. left. reflexivity.
Qed.
Lemma legacy_apart R fuel fs sort clock ev opens args n s : (1 <= R)%nat -> Forall (no_byte NUL) args ->
  lrun R opens (lmain R fuel fs sort clock ev args) n s -> never_twice (l_log s).
Proof.
  intros HR HA Hrun.
  assert (D : (exists rest arc top more, args = ("C"%char :: rest) :: arc :: top :: more) \/ (forall rest arc top more, args <> ("C"%char :: rest) :: arc :: top :: more)).
  { destruct args as [|[|c rest] [|arc [|top more]]]; try (right; intros; discriminate). destruct (beq_spec c "C"%char) as [X Y]. destruct (beq c "C"%char).
    - rewrite (X eq_refl). left. exists rest, arc, top, more. reflexivity.
    - right. intros rest' arc' top' more' Z0. injection Z0 as Z1 _ _ _ _. discriminate (Y Z1). }
  destruct D as [(rest & arc & top & more & E)|N].
  2:{ intros l1 r p w l2 r' w' l3 El. rewrite (log_none R fuel fs sort clock ev opens args HR HA n s N Hrun) in El. destruct l1; discriminate El. }
  pose proof (main_matched R fuel fs sort clock ev opens args HR HA) as M. set (H := bc opens (lmain R fuel fs sort clock ev args 0)) in *.
  assert (C : exists D nb, forall r, (r < R)%nat -> clean D nb R r (puts (items opens H (lmain R fuel fs sort clock ev args r)))).
  { assert (Hn : no_byte NUL arc) by (rewrite E in HA; inversion HA as [|? ? _ HA1]; inversion HA1; auto).
    subst args. unfold H. clear H M Hrun. rewrite main_create. cbn [Nat.eqb].
    assert (Lone : forall q, bc opens q = [] -> puts (items opens [] q) = [] -> exists D nb, forall r, (r < R)%nat ->
      clean D nb R r (puts (items opens (bc opens q) (if (r =? 0)%nat then q else create_other L_BUCKET clock ev R r)))).
    { intros q Eq Ep. exists 0, 0. intros r Hr. rewrite Eq. destruct (Nat.eqb_spec r 0); [rewrite Ep|]; apply clean_nil. }
    destruct (list_directory fuel fs top) as [[es|]|e] eqn:El.
    2,3: (edestruct Lone as (D & nb & X); [| |exists D, nb; intros r Hr; rewrite main_create, El; apply X; exact Hr]; reflexivity).
    destruct (fill_rels top es) as [es'|e] eqn:Ef; cbn [value_of].
    2: (edestruct Lone as (D & nb & X); [| |exists D, nb; intros r Hr; rewrite main_create, El, Ef; apply X; exact Hr]; reflexivity).
    exists (data_start (sort es')), (n_buckets (sort es')). intros r Hr. rewrite main_create, El, Ef. cbn [value_of]. destruct (Nat.eqb_spec r 0) as [->|].
    - apply boss_clean. exact HR.
    - apply other_clean; auto. }
  destruct C as (D & nb & C). pose proof (good_run R opens _ H M n s Hrun) as G.
  intros l1 r p w l2 r' w' l3 El.
  assert (I1 : In (r, EvWrite p w) (l_log s)) by (rewrite El; apply in_or_app; right; left; reflexivity).
  assert (I2 : In (r', EvWrite p w') (l_log s)) by (rewrite El; apply in_or_app; right; right; apply in_or_app; right; left; reflexivity).
  assert (Hr : (r < R)%nat) by (exact (g_log _ _ _ _ _ G r _ I1)). assert (Hr' : (r' < R)%nat) by (exact (g_log _ _ _ _ _ G r' _ I2)).
  destruct (Nat.eq_dec r r') as [<-|Nr].
  - destruct (mine_some R opens _ H s r G Hr) as (m & Em). rewrite El, mine_split in Em. destruct (C r Hr) as (_ & F). rewrite Em in F. rewrite <- app_assoc in F. cbn [app] in F. rewrite <- app_assoc in F.
    exact (ford_mid _ _ _ _ _ _ F).
  - assert (Z0 : forall q e, (q < R)%nat -> In (q, EvWrite p e) (l_log s) -> zone D nb R q e).
    { intros q e Hq Iq. destruct (log_kinds R opens _ H M n s Hrun q _ Iq) as [(path & X & _)|(path & w0 & X & J)]; [discriminate X|]. injection X as <- <-. destruct (C q Hq) as (F & _).
      rewrite Forall_forall in F. exact (F _ J). }
    apply (zones_apart D nb R r r'); auto.
Qed.
