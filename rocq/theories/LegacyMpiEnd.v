(** The ranks of the 0.5.1 program make matching calls (LegacyMpi.v). *)
From Coq Require Import Lia Permutation Sorted.
From Verif Require Import Bytes Outcome TarModel Layout Mover Worker Boss Spider Program Legacy LegacyLayout LegacyScan LegacyCodec LegacyWrite LegacyCreate Mpi LegacyMpi LegacyMpiProofs LegacyMpiMore.
Local Open Scope nat_scope.

Lemma items_writes opens H path ws k : items opens H (writes path ws k) = map (IPut path) ws ++ items opens H k.
Proof. induction ws as [|w ws IH]; cbn; [reflexivity|]. f_equal. exact IH. Qed.
Lemma okay_writes opens H path ws k : okay opens H (writes path ws k) <-> okay opens H k.
Proof. induction ws as [|w ws IH]; cbn; tauto. Qed.
Lemma endp_writes opens H path ws k : endp opens H (writes path ws k) = endp opens H k.
Proof. induction ws as [|w ws IH]; cbn; auto. Qed.
Lemma nofetch_writes path ws k : nofetch (writes path ws k) <-> nofetch k.
Proof. induction ws as [|w ws IH]; cbn; tauto. Qed.
Lemma nocast_writes path ws k : nocast (writes path ws k) <-> nocast k.
Proof. induction ws as [|w ws IH]; cbn; tauto. Qed.
Lemma calls_puts path ws : calls (map (IPut path) ws) = [].
Proof. induction ws as [|w ws IH]; cbn; auto. Qed.
Lemma puts_puts path ws : puts (map (IPut path) ws) = map (pair path) ws.
Proof. induction ws as [|w ws IH]; cbn; f_equal; auto. Qed.

(** *** moving the buckets *)
Lemma move_items opens P D clock ev l starts path k is : forall m H,
  match all_buckets L_BLOCK P D clock ev l starts m is with
  | Ok (Some ws) => items opens H (move P D clock ev l starts path m is k) = map (IPut path) ws ++ items opens H k /\
                    endp opens H (move P D clock ev l starts path m is k) = endp opens H k
  | _ => exists ws, items opens H (move P D clock ev l starts path m is k) = map (IPut path) ws /\ endp opens H (move P D clock ev l starts path m is k) <> LReturn 0 /\
                    forall H', okay opens H' (move P D clock ev l starts path m is k)
  end.
Proof.
  induction is as [|i is IH]; intros m H; cbn [all_buckets move].
  - split; reflexivity.
  - destruct (one_bucket L_BLOCK P D (clock i) ev l starts m i) as [[[m1 ws]|]|e]; cbn [bind step_of fst snd].
    + specialize (IH m1 H). destruct (all_buckets L_BLOCK P D clock ev l starts m1 is) as [[ws'|]|e]; cbn [bind].
      * rewrite items_writes, endp_writes, map_app, <- app_assoc. destruct IH as [-> ->]. split; reflexivity.
      * destruct IH as (w' & E & N & O). exists (ws ++ w'). rewrite items_writes, endp_writes, map_app, E. split; [reflexivity|]. split; [exact N|]. intros H'. apply okay_writes, O.
      * destruct IH as (w' & E & N & O). exists (ws ++ w'). rewrite items_writes, endp_writes, map_app, E. split; [reflexivity|]. split; [exact N|]. intros H'. apply okay_writes, O.
    + exists []. cbn. split; [reflexivity|]. split; [discriminate|exact (fun _ => I)].
    + exists []. cbn. split; [reflexivity|]. split; [discriminate|exact (fun _ => I)].
Qed.
Lemma move_okay opens P D clock ev l starts path k is : forall m H, okay opens H k -> okay opens H (move P D clock ev l starts path m is k).
Proof.
  induction is as [|i is IH]; intros m H O; cbn [move]; auto. destruct (one_bucket L_BLOCK P D (clock i) ev l starts m i) as [[[m1 ws]|]|e]; cbn [step_of fst snd]; try exact I.
  apply okay_writes, IH, O.
Qed.
Lemma move_nofetch P D clock ev l starts path k is : nofetch k -> forall m, nofetch (move P D clock ev l starts path m is k).
Proof.
  intros O. induction is as [|i is IH]; intros m; cbn [move]; auto. destruct (one_bucket L_BLOCK P D (clock i) ev l starts m i) as [[[m1 ws]|]|e]; cbn [step_of fst snd]; try exact I.
  apply nofetch_writes, IH.
Qed.
Lemma move_nocast P D clock ev l starts path k is : nocast k -> forall m, nocast (move P D clock ev l starts path m is k).
Proof.
  intros O. induction is as [|i is IH]; intros m; cbn [move]; auto. destruct (one_bucket L_BLOCK P D (clock i) ev l starts m i) as [[[m1 ws]|]|e]; cbn [step_of fst snd]; try exact I.
  apply nocast_writes, IH.
Qed.
(** the last part of rank q, while rank 0's is the last part as well *)
Definition at_path_ok (arc : bytes) (i : item) : Prop := match i with ICall (KOpen q) => q = arc | IPut q _ => q = arc | _ => True end.
Lemma forall_puts arc ws : Forall (at_path_ok arc) (map (IPut arc) ws).
Proof. apply Forall_forall. intros i Hi. apply in_map_iff in Hi as (w & <- & _). reflexivity. Qed.
Lemma part_okay opens P D clock ev R r arc l starts H0 :
  okay opens (calls (items opens H0 (move_part P D clock ev R 0 arc l starts))) (move_part P D clock ev R r arc l starts) /\
  Forall (at_path_ok arc) (items opens (calls (items opens H0 (move_part P D clock ev R 0 arc l starts))) (move_part P D clock ev R r arc l starts)).
Proof.
  unfold move_part. destruct (check_calls l 0 starts) as [[|]|e]; cbn [check_of]; [|cbn; split; [exact I|constructor]..].
  cbn [items tl calls flat_map app okay]. fold (calls (items opens (tl H0) (move P D clock ev l starts arc cleared (rank_loop (Z.of_nat R) (Z.of_nat 0) (zlen starts)) closing))).
  pose proof (move_items opens P D clock ev l starts arc closing (rank_loop (Z.of_nat R) (Z.of_nat 0) (zlen starts)) cleared (tl H0)) as M.
  assert (E : calls (items opens (tl H0) (move P D clock ev l starts arc cleared (rank_loop (Z.of_nat R) (Z.of_nat 0) (zlen starts)) closing)) = [] \/
    calls (items opens (tl H0) (move P D clock ev l starts arc cleared (rank_loop (Z.of_nat R) (Z.of_nat 0) (zlen starts)) closing)) = [KBarrier; KFinal]).
  { destruct (all_buckets L_BLOCK P D clock ev l starts cleared (rank_loop (Z.of_nat R) (Z.of_nat 0) (zlen starts))) as [[ws|]|e].
    - destruct M as [-> _]. right. rewrite calls_app, calls_puts. reflexivity.
    - destruct M as (ws & -> & _). left. apply calls_puts.
    - destruct M as (ws & -> & _). left. apply calls_puts. }
  destruct E as [-> | ->].
  - split; [split; [reflexivity|]; apply move_okay; exact I|]. constructor; [exact I|].
    pose proof (move_items opens P D clock ev l starts arc closing (rank_loop (Z.of_nat R) (Z.of_nat r) (zlen starts)) cleared []) as M'.
    destruct (all_buckets L_BLOCK P D clock ev l starts cleared (rank_loop (Z.of_nat R) (Z.of_nat r) (zlen starts))) as [[ws|]|e].
    + destruct M' as [-> _]. apply Forall_app. split; [apply forall_puts|]. repeat constructor.
    + destruct M' as (ws & -> & _). apply forall_puts.
    + destruct M' as (ws & -> & _). apply forall_puts.
  - split; [split; [reflexivity|]; apply move_okay; cbn; auto|]. constructor; [exact I|].
    pose proof (move_items opens P D clock ev l starts arc closing (rank_loop (Z.of_nat R) (Z.of_nat r) (zlen starts)) cleared [KBarrier; KFinal]) as M'.
    destruct (all_buckets L_BLOCK P D clock ev l starts cleared (rank_loop (Z.of_nat R) (Z.of_nat r) (zlen starts))) as [[ws|]|e].
    + destruct M' as [-> _]. apply Forall_app. split; [apply forall_puts|]. repeat constructor.
    + destruct M' as (ws & -> & _). apply forall_puts.
    + destruct M' as (ws & -> & _). apply forall_puts.
Qed.
Lemma part_nofetch P D clock ev R r arc l starts : nofetch (move_part P D clock ev R r arc l starts) /\ nocast (move_part P D clock ev R r arc l starts).
Proof.
  unfold move_part. destruct (check_calls l 0 starts) as [[|]|e]; cbn [check_of]; [|split; exact I..].
  split; cbn [nofetch nocast]; [apply move_nofetch|apply move_nocast]; exact I.
Qed.

(** *** rank 0 in create mode *)
Definition create0 (P : Z) (pad : bytes) (clock : Z -> Z) (ev : env) (R : nat) (arc : bytes) (l : list lent) : lprog :=
  LBcast (KInt (zlen arc + 1)) (LBcast (KText (arc ++ [NUL])) (LBarrier (writer0 P pad clock ev R arc l))).
Lemma writer0_nofetch P pad clock ev R arc l : nofetch (writer0 P pad clock ev R arc l).
Proof.
  unfold writer0. destruct (list_to_buffer l (wrap32 P) true) as [[cat|]|e]; cbn [step_of]; try exact I.
  destruct (zlen arc <? 1)%Z; [exact I|]. cbn [nofetch]. intros [|]; cbn [negb]; [|exact I].
  destruct (compute_hdr_size (b ".parfu_catalog") [] (zlen cat)) as [h|e]; cbn [value_of]; [|exact I].
  apply nofetch_writes. destruct (P =? 0)%Z; [exact I|]. apply nofetch_writes. cbn [nofetch].
  destruct (set_offsets_and_split L_BLOCK P pad l) as [[x|]|e]; cbn [step_of]; try exact I.
  destruct (list_to_buffer (snd (fst x)) (wrap32 P) false) as [[text|]|e]; cbn [step_of]; try exact I.
  destruct (rank_call_list (snd (fst x))) as [[starts|]|e]; cbn [step_of]; try exact I.
  destruct (check_calls (snd (fst x)) 0 starts) as [[|]|e]; cbn [check_of]; try exact I. cbn [nofetch].
  unfold count_of. destruct (INT_MAX <? zlen text)%Z; [exact I|]. cbn [nofetch].
  destruct (buffer_to_list text false) as [[y|]|e]; cbn [step_of]; try exact I. cbn [nofetch]. apply part_nofetch.
Qed.
Lemma worker_nocast P clock ev R r : nocast (create_other P clock ev R r).
Proof.
  unfold create_other. cbn [nocast]. intros _ _ n t [|]; cbn [negb]; [|exact I]. cbn [nocast]. intros D n'. unfold count_of. destruct (INT_MAX <? int_of n')%Z; [exact I|]. cbn [nocast].
  intros t'. destruct (buffer_to_list (text_of t') false) as [[y|]|e]; cbn [step_of]; try exact I. cbn [nocast]. intros. apply part_nofetch.
Qed.
Definition bc (opens : bytes -> bool) (p : lprog) : list lcall := calls (items opens [] p).
Lemma bc_cast opens x k : bc opens (LBcast x k) = KBcast x :: bc opens k. Proof. reflexivity. Qed.
Lemma bc_bar opens k : bc opens (LBarrier k) = KBarrier :: bc opens k. Proof. reflexivity. Qed.
Lemma bc_open opens path k : bc opens (LOpen path k) = KOpen path :: bc opens (k (opens path)). Proof. reflexivity. Qed.
Lemma bc_writes opens path ws k : bc opens (writes path ws k) = bc opens k.
Proof. unfold bc. rewrite items_writes, calls_app, calls_puts. reflexivity. Qed.
Definition fine (opens : bytes -> bool) (arc : bytes) (H : list lcall) (p : lprog) : Prop := okay opens H p /\ Forall (at_path_ok arc) (items opens H p).
Lemma fine_wait opens arc w k : fine opens arc [] (LFetch w k).
Proof. split; [exact I|constructor]. Qed.
Lemma fine_fetch opens arc x H w k : fits w x = true -> fine opens arc H (k x) -> fine opens arc (KBcast x :: H) (LFetch w k).
Proof. intros Hf [A B]. split; [split; auto|]. cbn [items]. constructor; [exact I|exact B]. Qed.
Lemma fine_bar opens arc H k : fine opens arc H k -> fine opens arc (KBarrier :: H) (LBarrier k).
Proof. intros [A B]. split; [split; auto|]. cbn [items tl]. constructor; [exact I|exact B]. Qed.
Lemma fine_open opens arc H path k : path = arc -> fine opens arc H (k (opens path)) -> fine opens arc (KOpen path :: H) (LOpen path k).
Proof. intros Hp [A B]. split; [split; auto|]. cbn [items tl]. constructor; [exact Hp|exact B]. Qed.
Lemma fine_open_wait opens arc path k : path = arc -> Forall (at_path_ok arc) (items opens [] (k (opens path))) -> fine opens arc [] (LOpen path k).
Proof. intros Hp A. split; [exact I|]. cbn [items tl]. constructor; auto. Qed.
Lemma fine_stop opens arc H p : okay opens H p -> items opens H p = [] -> fine opens arc H p.
Proof. intros A B. split; auto. rewrite B. constructor. Qed.

Lemma create_okay opens P pad clock ev R r arc l : no_byte NUL arc -> fine opens arc (bc opens (create0 P pad clock ev R arc l)) (create_other P clock ev R r).
Proof.
  intros Hn. unfold create0, create_other. rewrite !bc_cast, bc_bar.
  apply fine_fetch; [reflexivity|]. apply fine_fetch; [cbn [fits int_of]; rewrite zlen_app; apply Z.eqb_eq; reflexivity|]. apply fine_bar.
  unfold writer0. destruct (list_to_buffer l (wrap32 P) true) as [[cat|]|e]; cbn [step_of]; try apply fine_wait.
  destruct (zlen arc <? 1)%Z; [apply fine_wait|]. rewrite !bc_cast, bc_open.
  apply fine_fetch; [reflexivity|]. apply fine_fetch; [cbn [fits int_of]; rewrite zlen_app; apply Z.eqb_eq; reflexivity|]. cbn [text_of]. cbv zeta. rewrite cstr_app_nul by auto.
  apply fine_open; [reflexivity|]. destruct (opens arc); cbn [negb]; [|apply fine_stop; [exact I|reflexivity]].
  destruct (compute_hdr_size (b ".parfu_catalog") [] (zlen cat)) as [h|e]; cbn [value_of]; [|apply fine_wait].
  rewrite bc_writes. destruct (P =? 0)%Z; [apply fine_wait|]. rewrite bc_writes, bc_cast. apply fine_fetch; [reflexivity|].
  destruct (set_offsets_and_split L_BLOCK P pad l) as [[x|]|e]; cbn [step_of]; try apply fine_wait.
  destruct (list_to_buffer (snd (fst x)) (wrap32 P) false) as [[text|]|e]; cbn [step_of]; try apply fine_wait.
  destruct (rank_call_list (snd (fst x))) as [[starts|]|e]; cbn [step_of]; try apply fine_wait.
  destruct (check_calls (snd (fst x)) 0 starts) as [[|]|e]; cbn [check_of]; try apply fine_wait. rewrite bc_cast. apply fine_fetch; [reflexivity|]. cbn [int_of].
  unfold count_of. destruct (INT_MAX <? zlen text)%Z; [apply fine_stop; [exact I|reflexivity]|]. rewrite bc_cast. apply fine_fetch; [apply Z.eqb_refl|]. cbn [text_of].
  destruct (buffer_to_list text false) as [[y|]|e]; cbn [step_of]; try (apply fine_stop; [exact I|reflexivity]). rewrite !bc_cast.
  apply fine_fetch; [reflexivity|]. apply fine_fetch; [apply Z.eqb_refl|]. cbn [int_of ints_of]. unfold bc. apply part_okay.
Qed.
Lemma boss_paths opens P pad clock ev R arc l H : Forall (at_path_ok arc) (items opens H (create0 P pad clock ev R arc l)).
Proof.
  assert (N : nofetch (create0 P pad clock ev R arc l)) by exact (writer0_nofetch P pad clock ev R arc l).
  rewrite (items_own opens _ N H []). unfold create0. cbn [items tl]. do 3 (constructor; [exact I|]).
  unfold writer0. destruct (list_to_buffer l (wrap32 P) true) as [[cat|]|e]; cbn [step_of]; try constructor.
  destruct (zlen arc <? 1)%Z; [constructor|]. cbn [items tl]. do 2 (constructor; [exact I|]). constructor; [reflexivity|].
  destruct (opens arc); cbn [negb]; [|constructor].
  destruct (compute_hdr_size (b ".parfu_catalog") [] (zlen cat)) as [h|e]; cbn [value_of]; [|constructor].
  rewrite items_writes. apply Forall_app. split; [apply forall_puts|]. destruct (P =? 0)%Z; [constructor|].
  rewrite items_writes. apply Forall_app. split; [apply forall_puts|]. cbn [items tl]. constructor; [exact I|].
  destruct (set_offsets_and_split L_BLOCK P pad l) as [[x|]|e]; cbn [step_of]; try constructor.
  destruct (list_to_buffer (snd (fst x)) (wrap32 P) false) as [[text|]|e]; cbn [step_of]; try constructor.
  destruct (rank_call_list (snd (fst x))) as [[starts|]|e]; cbn [step_of]; try constructor.
  destruct (check_calls (snd (fst x)) 0 starts) as [[|]|e]; cbn [check_of]; try constructor; [exact I|]. cbn [tl].
  unfold count_of. destruct (INT_MAX <? zlen text)%Z; [constructor|]. constructor; [exact I|]. cbn [tl].
  destruct (buffer_to_list text false) as [[y|]|e]; cbn [step_of]; try constructor; [exact I|]. constructor; [exact I|]. cbn [tl].
  match goal with |- context [move_part ?P ?D ?clock ?ev ?R ?r ?arc ?l ?st] => pose proof (part_okay opens P D clock ev R 0 arc l st []) as [_ X]; rewrite (items_own opens _ (proj1 (part_nofetch P D clock ev R 0 arc l st)) _ []) in X; exact X end.
Qed.

(** *** a create run in which everything works *)
Definition all_calls (arc : bytes) (D : Z) (text : bytes) (starts : list Z) : list lcall :=
  [KBcast (KInt (zlen arc + 1)); KBcast (KText (arc ++ [NUL])); KBarrier; KBcast (KInt (zlen arc)); KBcast (KText (arc ++ [NUL])); KOpen arc;
   KBcast (KLong D); KBcast (KLong (zlen text)); KBcast (KText text); KBcast (KInt (zlen starts)); KBcast (KInts starts); KBarrier; KBarrier; KFinal].
Definition head_items (arc : bytes) (D : Z) (text : bytes) (starts : list Z) (ws0 : list wr) : list item :=
  map ICall [KBcast (KInt (zlen arc + 1)); KBcast (KText (arc ++ [NUL])); KBarrier; KBcast (KInt (zlen arc)); KBcast (KText (arc ++ [NUL])); KOpen arc] ++
  map (IPut arc) ws0 ++
  map ICall [KBcast (KLong D); KBcast (KLong (zlen text)); KBcast (KText text); KBcast (KInt (zlen starts)); KBcast (KInts starts)].
Definition tail_items (arc : bytes) (ws : list wr) : list item := map (IPut arc) ws ++ [ICall KBarrier; ICall KFinal].

Lemma part_shape opens P D clock ev R r arc text starts y H : buffer_to_list text false = Ok (Some y) ->
  match rank_part L_BLOCK P D clock ev text starts (Z.of_nat R) (Z.of_nat r) with
  | Ok (Some ws) => items opens H (move_part P D clock ev R r arc (snd y) starts) = ICall KBarrier :: tail_items arc ws /\
                    endp opens H (move_part P D clock ev R r arc (snd y) starts) = LReturn 0
  | _ => length (calls (items opens H (move_part P D clock ev R r arc (snd y) starts))) <= 1 /\ ~ In KFinal (calls (items opens H (move_part P D clock ev R r arc (snd y) starts))) /\
         endp opens H (move_part P D clock ev R r arc (snd y) starts) <> LReturn 0
  end.
Proof.
  intros E. unfold rank_part. rewrite E. cbn [bind]. destruct y as [bk l]. cbn [snd]. unfold move_part.
  destruct (check_calls l 0 starts) as [[|]|e]; cbn [bind check_of]; [|cbn; repeat split; (lia || tauto || discriminate)..].
  pose proof (move_items opens P D clock ev l starts arc closing (rank_loop (Z.of_nat R) (Z.of_nat r) (zlen starts)) cleared (tl H)) as M.
  cbn [items endp]. destruct (all_buckets L_BLOCK P D clock ev l starts cleared (rank_loop (Z.of_nat R) (Z.of_nat r) (zlen starts))) as [[ws|]|e].
  - destruct M as [-> ->]. split; reflexivity.
  - destruct M as (ws & -> & N & _). cbn [calls flat_map app]. fold (calls (map (IPut arc) ws)). rewrite calls_puts. cbn. split; [lia|]. split; [|exact N]. intros [X|[]]. discriminate X.
  - destruct M as (ws & -> & N & _). cbn [calls flat_map app]. fold (calls (map (IPut arc) ws)). rewrite calls_puts. cbn. split; [lia|]. split; [|exact N]. intros [X|[]]. discriminate X.
Qed.

Lemma boss_shape opens P pad clock ev R arc l ws0 D text starts wsr H :
  prologue L_BLOCK P pad clock l = Ok (Some (ws0, D, text, starts)) -> rank_part L_BLOCK P D clock ev text starts (Z.of_nat R) 0 = Ok (Some wsr) ->
  (zlen text <= INT_MAX)%Z -> opens arc = true -> arc <> [] ->
  items opens H (create0 P pad clock ev R arc l) = head_items arc D text starts ws0 ++ ICall KBarrier :: tail_items arc wsr /\ endp opens H (create0 P pad clock ev R arc l) = LReturn 0.
Proof.
  intros Hp Hr Ht Ho Ha. unfold prologue in Hp. unfold create0, writer0.
  destruct (list_to_buffer l (wrap32 P) true) as [[cat|]|e]; cbn [bind step_of] in *; try discriminate Hp.
  destruct (compute_hdr_size (b ".parfu_catalog") [] (zlen cat)) as [h|e]; cbn [bind value_of] in *; try discriminate Hp.
  destruct (P =? 0)%Z; [discriminate Hp|].
  destruct (set_offsets_and_split L_BLOCK P pad l) as [[[[es fs] nb]|]|e]; cbn [bind step_of fst snd] in *; try discriminate Hp.
  destruct (list_to_buffer fs (wrap32 P) false) as [[text'|]|e]; cbn [bind step_of] in *; try discriminate Hp.
  destruct (rank_call_list fs) as [[starts'|]|e]; cbn [bind step_of] in *; try discriminate Hp.
  destruct (check_calls fs 0 starts') as [[|]|e]; cbn [bind check_of] in *; try discriminate Hp. injection Hp as <- <- <- <-.
  assert (Hl : (zlen arc <? 1)%Z = false) by (destruct arc; [contradiction|]; apply Z.ltb_ge; rewrite zlen_cons; pose proof (zlen_nonneg arc); lia).
  assert (Hc : forall k, count_of (zlen text') k = k) by (intros k; unfold count_of; destruct (Z.ltb_spec INT_MAX (zlen text')); [lia|reflexivity]).
  rewrite Hl, Hc. assert (Hb : exists y, buffer_to_list text' false = Ok (Some y)).
  { unfold rank_part in Hr. destruct (buffer_to_list text' false) as [[y|]|e]; cbn [bind] in Hr; try discriminate Hr. eauto. }
  destruct Hb as (y & Hb). rewrite Hb. cbn [step_of].
  cbn [items endp tl]. rewrite Ho. cbn [negb]. rewrite items_writes, endp_writes, items_writes, endp_writes. cbn [items endp].
  match goal with |- context [items opens ?H' (move_part P ?DD clock ev R 0 arc (snd y) starts')] => pose proof (part_shape opens P DD clock ev R 0 arc text' starts' y H' Hb) as S end.
  change (Z.of_nat 0) with 0%Z in S. rewrite Hr in S. destruct S as [-> ->].
  split; [|reflexivity]. unfold head_items. cbn [map app]. do 8 f_equal. rewrite <- app_assoc. reflexivity.
Qed.

Lemma boss_final opens P pad clock ev R arc l : In KFinal (bc opens (create0 P pad clock ev R arc l)) ->
  exists ws0 D text starts wsr, prologue L_BLOCK P pad clock l = Ok (Some (ws0, D, text, starts)) /\ rank_part L_BLOCK P D clock ev text starts (Z.of_nat R) 0 = Ok (Some wsr) /\
  (zlen text <= INT_MAX)%Z /\ opens arc = true /\ arc <> [].
Proof.
  unfold create0. rewrite !bc_cast, bc_bar. intros [X|[X|[X|X]]]; try discriminate X. revert X. unfold writer0, prologue.
  destruct (list_to_buffer l (wrap32 P) true) as [[cat|]|e]; cbn [step_of bind]; try (intros []; fail).
  destruct (Z.ltb_spec (zlen arc) 1) as [Hl|Hl]; [intros []|]. rewrite !bc_cast, bc_open. intros [X|[X|[X|X]]]; try discriminate X. revert X.
  destruct (opens arc); cbn [negb]; [|intros []].
  destruct (compute_hdr_size (b ".parfu_catalog") [] (zlen cat)) as [h|e]; cbn [value_of bind]; [|intros []].
  rewrite bc_writes. destruct (P =? 0)%Z; [intros []|]. rewrite bc_writes, bc_cast. intros [X|X]; [discriminate X|]. revert X.
  destruct (set_offsets_and_split L_BLOCK P pad l) as [[[[es fs] nb]|]|e]; cbn [step_of bind fst snd]; try (intros []; fail).
  destruct (list_to_buffer fs (wrap32 P) false) as [[text|]|e]; cbn [step_of bind]; try (intros []; fail).
  destruct (rank_call_list fs) as [[starts|]|e]; cbn [step_of bind]; try (intros []; fail).
  destruct (check_calls fs 0 starts) as [[|]|e]; cbn [check_of bind]; try (intros []; fail). rewrite bc_cast. intros [X|X]; [discriminate X|]. revert X.
  unfold count_of. destruct (Z.ltb_spec INT_MAX (zlen text)) as [Ht|Ht]; [intros []|]. rewrite bc_cast. intros [X|X]; [discriminate X|]. revert X.
  destruct (buffer_to_list text false) as [[y|]|e] eqn:Hb; cbn [step_of]; try (intros []; fail). rewrite !bc_cast. intros [X|[X|X]]; try discriminate X.
  match type of X with In _ (bc opens (move_part _ ?DD _ _ _ _ _ _ _)) => pose proof (part_shape opens P DD clock ev R 0 arc text starts y [] Hb) as S; exists (put 0 h (poke fresh 0 (catalog_header (zlen cat) (clock (-2)%Z))) :: put h (zlen cat) (poke fresh 0 cat) :: catalog_spacer L_BLOCK P h (h + zlen cat)%Z (clock (-1)%Z)), DD, text, starts end.
  change (Z.of_nat 0) with 0%Z in S. destruct (rank_part _ _ _ _ _ _ _ _ _) as [[ws|]|e] eqn:Er; [|exfalso; exact (proj1 (proj2 S) X)..].
  exists ws. split; [reflexivity|]. split; [reflexivity|]. split; [lia|]. split; [reflexivity|]. intros ->. cbn in Hl. lia.
Qed.

Lemma calls_map l : calls (map ICall l) = l.
Proof. induction l as [|c l IH]; cbn; f_equal; auto. Qed.
Lemma head_calls arc D text starts ws0 : calls (head_items arc D text starts ws0) =
  [KBcast (KInt (zlen arc + 1)); KBcast (KText (arc ++ [NUL])); KBarrier; KBcast (KInt (zlen arc)); KBcast (KText (arc ++ [NUL])); KOpen arc;
   KBcast (KLong D); KBcast (KLong (zlen text)); KBcast (KText text); KBcast (KInt (zlen starts)); KBcast (KInts starts)].
Proof. unfold head_items. rewrite !calls_app, !calls_map, calls_puts. reflexivity. Qed.
Lemma tail_calls arc ws : calls (tail_items arc ws) = [KBarrier; KFinal].
Proof. unfold tail_items. rewrite calls_app, calls_puts. reflexivity. Qed.

(** a rank other than 0, when rank 0 makes all its calls *)
Lemma worker_shape opens P D clock ev R r arc text starts : no_byte NUL arc -> opens arc = true -> (zlen text <= INT_MAX)%Z ->
  match rank_part L_BLOCK P D clock ev text starts (Z.of_nat R) (Z.of_nat r) with
  | Ok (Some ws) => items opens (all_calls arc D text starts) (create_other P clock ev R r) = head_items arc D text starts [] ++ ICall KBarrier :: tail_items arc ws /\
                    endp opens (all_calls arc D text starts) (create_other P clock ev R r) = LReturn 0
  | _ => length (calls (items opens (all_calls arc D text starts) (create_other P clock ev R r))) <= 12 /\ endp opens (all_calls arc D text starts) (create_other P clock ev R r) <> LReturn 0
  end.
Proof.
  intros Hn Ho Ht. unfold create_other, all_calls. cbn [items endp tl text_of int_of ints_of]. rewrite cstr_app_nul by auto. rewrite Ho. cbn [negb items endp int_of].
  assert (Hc : forall k, count_of (zlen text) k = k) by (intros k; unfold count_of; destruct (Z.ltb_spec INT_MAX (zlen text)); [lia|reflexivity]). rewrite Hc. cbn [items endp text_of].
  destruct (buffer_to_list text false) as [[y|]|e] eqn:Hb; cbn [step_of].
  - cbn [items endp int_of ints_of]. pose proof (part_shape opens P D clock ev R r arc text starts y [KBarrier; KBarrier; KFinal] Hb) as S.
    destruct (rank_part L_BLOCK P D clock ev text starts (Z.of_nat R) (Z.of_nat r)) as [[ws|]|e].
    + destruct S as [-> ->]. split; reflexivity.
    + destruct S as (S1 & _ & S3). split; [|exact S3]. cbn [calls flat_map app length]. unfold calls in S1. lia.
    + destruct S as (S1 & _ & S3). split; [|exact S3]. cbn [calls flat_map app length]. unfold calls in S1. lia.
  - unfold rank_part. rewrite Hb. cbn. split; [lia|discriminate].
  - unfold rank_part. rewrite Hb. cbn. split; [lia|discriminate].
Qed.
