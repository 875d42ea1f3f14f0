(** Property theorem C99: what is unpacked does not depend on how the archive was
    made. *)
From Coq Require Import Permutation.
From Verif Require Import Bytes Outcome TarSpec TarModel Layout LayoutSpec LayoutMore Mover MoverSpec Boss BossProofs BossMore BossRuns Assemble
  Spider SpiderSpec SpiderProofs SpiderMore Samples PropertiesScan Program ProgramProofs EndSpec EndProofs EndMore PropertiesEnd MembersSpec Members PropertiesMembers UnpackSpec Unpack
  Legacy LegacyLayout LegacyScan LegacyCodec LegacyWrite LegacyCreate LegacySpec LegacyEndSpec LegacyTreeSpec PropertiesLegacyScan LegacyCreateProofs PropertiesLegacyEnd
  PropertiesUnpack PropertiesTarget.

(** two places made from the same start, from members that describe the same nodes *)
Lemma same_result base ev (Q Q' : list bytes -> node -> Prop) (ps : list (list bytes)) (X : list bytes -> Prop) (S0 S S' : place) :
  (forall p n, Q p n -> In p ps) -> (forall p, In p ps -> exists n, Q p n) ->
  (forall p n, Q p n -> exists n', Q' p n' /\ bare n = bare n') -> (forall p n', Q' p n' -> exists n, Q p n) ->
  (forall p n, Q p n -> exists m, S (components base ++ p) = Some (Made m) /\ describes ev base p n m) ->
  (forall p n, Q' p n -> exists m, S' (components base ++ p) = Some (Made m) /\ describes ev base p n m) ->
  (forall q, (forall p n, Q p n -> q <> components base ++ p) -> ~ X q -> S q = S0 q) ->
  (forall q, (forall p n, Q' p n -> q <> components base ++ p) -> ~ X q -> S' q = S0 q) ->
  forall q, ~ X q -> S q = S' q.
Proof.
  intros P1 P2 To Fro M M' O O' q Hq.
  destruct (in_dec (list_eq_dec (list_eq_dec Ascii.ascii_dec)) q (map (fun p => components base ++ p) ps)) as [Hin|Hni].
  - apply in_map_iff in Hin as (p & <- & Hp). destruct (P2 p Hp) as (n & Hn). destruct (M p n Hn) as (m & -> & D).
    destruct (To p n Hn) as (n' & Hn' & E). destruct (M' p n' Hn') as (m' & -> & D'). do 2 f_equal. exact (describes_det _ _ _ _ _ _ _ E D D').
  - rewrite O, O'; auto.
    + intros p n' Hn' ->. destruct (Fro p n' Hn') as (n & Hn). apply Hni. apply in_map_iff. exists p. split; auto. eapply P1; eauto.
    + intros p n Hn ->. apply Hni. apply in_map_iff. exists p. split; auto. eapply P1; eauto.
Qed.

(** *** C99.  Two archives [a], [a'] of one tree, made by 0.6 with any bucket
    sizes, order limits, ranks, schedules and orders of directory listings, and
    unpacked in the same place: the result is the same at every path.  Partial:
    the conditions of C69. *)
Theorem C99_same_place_partial : forall fs fs' sort sort' base t t' ev,
  (forall l, order_files l (sort l)) -> (forall l, order_files l (sort' l)) ->
  base <> [] -> no_byte NUL base -> is_dir_node t -> wf_node t -> wf_node t' ->
  shows fs base t -> shows fs' base t' -> same_tree t t' ->
  short_paths base t -> tab_free t ->
  (forall p n, at_path t p n -> archivable n -> still ev base p n) ->
  (forall p n, at_path t p n -> is_dir_node n -> p <> [] -> slash_safe (node_path base p)) ->
  forall fuel fuel' bucket bucket' maxo maxo' bs bs',
  plan fuel fs sort base bucket maxo = Ok (Some bs) -> plan fuel' fs' sort' base bucket' maxo' = Ok (Some bs') ->
  100000 <= bucket -> bucket mod 512 = 0 -> 100000 <= bucket' -> bucket' mod 512 = 0 ->
  forall path path' R n s R' n' s' a a' S0, (1 <= R)%nat -> (1 <= R')%nat ->
  run (length bs) R (fun o => succeeds (jobs ev bucket path base bs o)) n s -> boss s = BEnd ->
  run (length bs') R' (fun o => succeeds (jobs ev bucket' path' base bs' o)) n' s' -> boss s' = BEnd ->
  concretises a (assemble (jobs ev bucket path base bs) (map snd (log s))) ->
  concretises a' (assemble (jobs ev bucket' path' base bs') (map snd (log s'))) ->
  ~ In (b "..") (components base) -> room_for S0 (components base) ->
  exists ms ms' S S', tar_list a = Some ms /\ tar_list a' = Some ms' /\ unpack S0 ms = Some S /\ unpack S0 ms' = Some S' /\ forall q, S q = S' q.
Proof.
  intros fs fs' sort sort' base t t' ev Hso Hso' Hb Hbn Hd Hw Hw' Hs Hs' Hst Hsh Htab Hstill Hsl fuel fuel' bucket bucket' maxo maxo' bs bs' Hp Hp' Hk Hm Hk' Hm'
    path path' R n s R' n' s' a a' S0 HR HR' H1 H2 H1' H2' Ca Ca' Hdd Hroom.
  pose proof (other_dir t t' Hd Hst) as Hd'. pose proof (other_short base t t' Hst Hsh) as Hsh'. pose proof (other_tab t t' Hst Htab) as Htab'.
  pose proof (other_still base t t' ev Hst Hstill) as Hstill'. pose proof (other_safe base t t' Hst Hsl) as Hsl'.
  destruct (C19_ordered _ _ _ _ _ _ _ _ _ _ _ _ _ _ Hp Hso Hb Hbn Hd Hw Hs Hsh Htab Hk Hm Hstill Hsl HR H1 H2 Ca) as (ms0 & nodes & _ & _ & In1 & _).
  destruct (C69_unpack_partial _ _ _ _ _ _ _ _ _ _ _ _ _ _ S0 Hp Hso Hb Hbn Hd Hw Hs Hsh Htab Hk Hm Hstill Hsl HR H1 H2 Ca Hdd Hroom) as (ms & S & T & U & M & O).
  destruct (C69_unpack_partial _ _ _ _ _ _ _ _ _ _ _ _ _ _ S0 Hp' Hso' Hb Hbn Hd' Hw' Hs' Hsh' Htab' Hk' Hm' Hstill' Hsl' HR' H1' H2' Ca' Hdd Hroom) as (ms' & S' & T' & U' & M' & O').
  exists ms, ms', S, S'. do 4 (split; auto). intros q.
  apply (same_result base ev (fun p n => at_path t p n /\ archivable n) (fun p n => at_path t' p n /\ archivable n) (map fst nodes) (fun _ => False) S0); auto.
  - intros p x H. apply in_map_iff. exists (p, x). split; auto. apply In1. exact H.
  - intros p H. apply in_map_iff in H as ([q0 x] & E & H). cbn in E. subst q0. exists x. apply In1. exact H.
  - intros p x [Ha Hx]. destruct (same_at _ _ p x Hst Ha) as (x' & Ha' & E). exists x'. split; [split; [auto|exact (bare_arch _ _ E Hx)]|congruence].
  - intros p x [Ha Hx]. destruct (same_at _ _ p x (bare_sym _ _ Hst) Ha) as (x' & Ha' & E). exists x'. split; [auto|exact (bare_arch _ _ E Hx)].
  - intros p x [Ha Hx]. auto.
  - intros p x [Ha Hx]. auto.
  - intros q0 Hq _. apply O. intros p x Ha Hx. apply (Hq p x). auto.
  - intros q0 Hq _. apply O'. intros p x Ha Hx. apply (Hq p x). auto.
Qed.
Print Assumptions C99_same_place_partial.

(** the same for two runs of 0.5.1 (any ranks, interleavings, clocks, prior
    contents of the archive file), but for the catalog and the spacer files *)
Theorem C99_legacy_partial : forall fs fs' base t t' ev,
  base <> [] -> ends_with_slash base = false -> no_byte NUL base -> no_byte TAB base -> wf_node t -> wf_node t' -> is_dir_node t ->
  shows fs base t -> shows fs' base t' -> same_tree t t' -> tab_free t ->
  (forall p n, reached t p n -> still ev base p n) -> manageable base t -> manageable base t' ->
  forall fuel clock R prior l ar a cat, (1 <= R)%nat ->
  create_run fuel fs clock ev base R prior l ar -> zlen l <= 4000000 -> total_size l <= 8000000000000000 ->
  concretises a ar -> list_to_buffer l L_BUCKET true = Ok (Some cat) -> (1024 + zlen cat) mod L_BUCKET <> 0 ->
  forall fuel' clock' R' prior' l' ar' a' cat', (1 <= R')%nat ->
  create_run fuel' fs' clock' ev base R' prior' l' ar' -> zlen l' <= 4000000 -> total_size l' <= 8000000000000000 ->
  concretises a' ar' -> list_to_buffer l' L_BUCKET true = Ok (Some cat') -> (1024 + zlen cat') mod L_BUCKET <> 0 ->
  forall S0, ~ In (b "..") (components base) -> room_for S0 (components base) -> is_directory (S0 []) = true ->
  (forall x, x = b ".parfu_catalog" \/ x = b ".parfu_spacer " -> hd_error (components base) <> Some x /\ is_directory (S0 [x]) = false) ->
  exists ms ms' S S', tar_list a = Some ms /\ tar_list a' = Some ms' /\ unpack S0 ms = Some S /\ unpack S0 ms' = Some S' /\
    forall q, q <> [b ".parfu_catalog"] -> q <> [b ".parfu_spacer "] -> S q = S' q.
Proof.
  intros fs fs' base t t' ev A1 A2 A3 A4 A5 A5' A6 A7 A7' Hst A8 A9 A10 A10' fuel clock R prior l ar a cat A11 A12 A13 A14 A15 A16 A17
    fuel' clock' R' prior' l' ar' a' cat' B11 B12 B13 B14 B15 B16 B17 S0 Hdd Hroom H0 Hx.
  assert (Go : forall t t' p n, same_tree t t' -> reached t p n -> exists n', reached t' p n' /\ bare n' = bare n).
  { clear. intros t t' p n Hst (Ha & Hpl & Hn). destruct (same_at _ _ p n Hst Ha) as (n' & Ha' & E). exists n'. split; [split; [auto|split; [auto|exact (bare_arch _ _ E Hn)]]|auto]. }
  assert (A9' : forall p n, reached t' p n -> still ev base p n).
  { intros p n' Hr. destruct (Go _ _ p n' (bare_sym _ _ Hst) Hr) as (n & Hr' & E). destruct (A9 p n Hr') as (s & tg & A). exists s, tg.
    destruct Hr as (_ & _ & Hn). destruct n, n'; cbn in *; try discriminate; try contradiction; auto; injection E as <-; exact A. }
  destruct (create_ordered _ _ _ _ _ _ _ _ _ _ _ _ A1 A2 A3 A4 A5 A6 A7 A8 A9 A10 A11 A12 A13 A14 A15 A16 A17) as (mc & ms1 & nodes & _ & _ & _ & In1 & _).
  destruct (C70_legacy_unpack_partial _ _ _ _ _ _ _ _ _ _ _ _ S0 A1 A2 A3 A4 A5 A6 A7 A8 A9 A10 A11 A12 A13 A14 A15 A16 A17 Hdd Hroom H0 Hx) as (ms & S & T & U & M & O).
  destruct (C70_legacy_unpack_partial _ _ _ _ _ _ _ _ _ _ _ _ S0 A1 A2 A3 A4 A5' (other_dir _ _ A6 Hst) A7' (other_tab _ _ Hst A8) A9' A10' B11 B12 B13 B14 B15 B16 B17 Hdd Hroom H0 Hx) as (ms' & S' & T' & U' & M' & O').
  exists ms, ms', S, S'. do 4 (split; auto). intros q N1 N2.
  apply (same_result base ev (reached t) (reached t') (map fst nodes) (fun q => q = [b ".parfu_catalog"] \/ q = [b ".parfu_spacer "]) S0); auto.
  - intros p x H. apply in_map_iff. exists (p, x). split; auto. apply In1. exact H.
  - intros p H. apply in_map_iff in H as ([q0 x] & E & H). cbn in E. subst q0. exists x. apply In1. exact H.
  - intros p x H. destruct (Go _ _ p x Hst H) as (x' & H' & E). exists x'. split; [auto|congruence].
  - intros p x H. destruct (Go _ _ p x (bare_sym _ _ Hst) H) as (x' & H' & E). eauto.
  - intros [F|F]; auto.
Qed.
Print Assumptions C99_legacy_partial.

(** one archive of each version: the same at every path of the tree without
    names that start with a dot *)
Theorem C99_versions_partial : forall fs fs' sort base t t' ev, (forall l, order_files l (sort l)) ->
  base <> [] -> ends_with_slash base = false -> no_byte NUL base -> no_byte TAB base -> is_dir_node t -> wf_node t -> wf_node t' ->
  shows fs base t -> shows fs' base t' -> same_tree t t' ->
  short_paths base t -> tab_free t -> manageable base t' ->
  (forall p n, at_path t p n -> archivable n -> still ev base p n) ->
  (forall p n, at_path t p n -> is_dir_node n -> p <> [] -> slash_safe (node_path base p)) ->
  (* parfu 0.6 *)
  forall fuel bucket maxo bs path R n s a,
  plan fuel fs sort base bucket maxo = Ok (Some bs) -> 100000 <= bucket -> bucket mod 512 = 0 -> (1 <= R)%nat ->
  run (length bs) R (fun o => succeeds (jobs ev bucket path base bs o)) n s -> boss s = BEnd ->
  concretises a (assemble (jobs ev bucket path base bs) (map snd (log s))) ->
  (* parfu 0.5.1 *)
  forall fuel' clock R' prior l ar a' cat, (1 <= R')%nat ->
  create_run fuel' fs' clock ev base R' prior l ar -> zlen l <= 4000000 -> total_size l <= 8000000000000000 ->
  concretises a' ar -> list_to_buffer l L_BUCKET true = Ok (Some cat) -> (1024 + zlen cat) mod L_BUCKET <> 0 ->
  forall S0, ~ In (b "..") (components base) -> room_for S0 (components base) -> is_directory (S0 []) = true ->
  (forall x, x = b ".parfu_catalog" \/ x = b ".parfu_spacer " -> hd_error (components base) <> Some x /\ is_directory (S0 [x]) = false) ->
  exists ms ms' S S', tar_list a = Some ms /\ tar_list a' = Some ms' /\ unpack S0 ms = Some S /\ unpack S0 ms' = Some S' /\
    forall p n, reached t p n -> S (components base ++ p) = S' (components base ++ p).
Proof.
  intros fs fs' sort base t t' ev Hso A1 A2 A3 A4 A6 A5 A5' A7 A7' Hst Hsh A8 A10 A9 Hsl fuel bucket maxo bs path R n s a Hp Hk Hm HR H1 H2 Ca
    fuel' clock R' prior l ar a' cat B11 B12 B13 B14 B15 B16 B17 S0 Hdd Hroom H0 Hx.
  assert (A9' : forall p n, reached t' p n -> still ev base p n) by (intros p x (Ha & _ & Hx'); exact (other_still base t t' ev Hst A9 p x Ha Hx')).
  destruct (C69_unpack_partial _ _ _ _ _ _ _ _ _ _ _ _ _ _ S0 Hp Hso A1 A3 A6 A5 A7 Hsh A8 Hk Hm A9 Hsl HR H1 H2 Ca Hdd Hroom) as (ms & S & T & U & M & _).
  destruct (C70_legacy_unpack_partial _ _ _ _ _ _ _ _ _ _ _ _ S0 A1 A2 A3 A4 A5' (other_dir _ _ A6 Hst) A7' (other_tab _ _ Hst A8) A9' A10 B11 B12 B13 B14 B15 B16 B17 Hdd Hroom H0 Hx) as (ms' & S' & T' & U' & M' & _).
  exists ms, ms', S, S'. do 4 (split; auto). intros p x (Ha & Hpl & Hn). destruct (M p x Ha Hn) as (m & -> & D).
  destruct (same_at _ _ p x Hst Ha) as (x' & Ha' & E). destruct (M' p x') as (m' & -> & D'); [split; [auto|split; [auto|exact (bare_arch _ _ E Hn)]]|].
  do 2 f_equal. exact (describes_det _ _ _ _ _ _ _ (eq_sym E) D D').
Qed.
Print Assumptions C99_versions_partial.

(** witnesses: two runs of 0.6 on the sample tree of C19, its names read in two
    orders, bundles written in two orders; two runs of 0.5.1 on the sample tree of
    C50, over different files; one of each *)
Example C99_witness : exists n s a n' s' a',
  same_tree s_tree r_tree2 /\ plan 9 s_fs isort (b "base") a_bucket 3 = Ok (Some s_plan3) /\ plan 9 r_fs2 isort (b "base") a_bucket 3 = Ok (Some r_plan2) /\
  run (length s_plan3) 4 (fun o => succeeds (jobs s_env a_bucket (b "out") (b "base") s_plan3 o)) n s /\ boss s = BEnd /\
  concretises a (assemble (jobs s_env a_bucket (b "out") (b "base") s_plan3) (map snd (log s))) /\
  run (length r_plan2) 4 (fun o => succeeds (jobs s_env a_bucket (b "out") (b "base") r_plan2 o)) n' s' /\ boss s' = BEnd /\
  concretises a' (assemble (jobs s_env a_bucket (b "out") (b "base") r_plan2) (map snd (log s'))) /\
  ~ In (b "..") (components (b "base")) /\ room_for empty_dir (components (b "base")).
Proof.
  destruct C69_witness as (n & s & a & S' & R1 & R2 & Ca & Hdd & Hroom & _). destruct C68_witness as (n' & s' & a' & P' & R1' & R2' & Ca' & T').
  exists n, s, a, n', s', a'. split; [exact C68_same|]. split; [exact s_plan3_ok|]. split; [exact P'|]. split; [exact R1|]. split; [exact R2|]. split; [exact Ca|].
  split; [exact R1'|]. split; [exact R2'|]. split; [exact Ca'|]. split; [exact Hdd|exact Hroom].
Qed.
Example C99_legacy_witness : exists l cat ar ar',
  create_run 5 h_fs (fun _ => 7) g_env (b "base") 3 empty_archive l ar /\
  create_run 5 h_fs (fun _ => 9) g_env (b "base") 5 {| ar_size := 7; ar_cell := fun _ => Byte "!"%char |} l ar' /\
  concretises (fill "?"%char ar) ar /\ concretises (fill "!"%char ar') ar' /\
  list_to_buffer l L_BUCKET true = Ok (Some cat) /\ (1024 + zlen cat) mod L_BUCKET <> 0 /\ zlen l = 4 /\ total_size l = 1234 /\
  exists ms ms' S S', tar_list (fill "?"%char ar) = Some ms /\ tar_list (fill "!"%char ar') = Some ms' /\ unpack empty_dir ms = Some S /\ unpack empty_dir ms' = Some S' /\
    forall q, q <> [b ".parfu_catalog"] -> q <> [b ".parfu_spacer "] -> S q = S' q.
Proof.
  destruct C50_witness as (W1 & W2 & W3 & W4 & W5 & l & cat & L1 & L2 & L3 & L4 & L5).
  destruct (L5 (fun _ => 7) 3%nat empty_archive ltac:(vm_compute; discriminate)) as (ar & Hr & Ca).
  destruct (L5 (fun _ => 9) 5%nat {| ar_size := 7; ar_cell := fun _ => Byte "!"%char |} ltac:(vm_compute; discriminate)) as (ar' & Hr' & Ca0').
  destruct C70_witness as (V1 & V2 & V3 & V4).
  assert (Ca' : concretises (fill "!"%char ar') ar'). { apply fill_ok. pose proof (proj1 Ca0') as Z. pose proof (zlen_nonneg (fill "?"%char ar')). lia. }
  assert (Nb : no_byte NUL (b "base")) by (unfold no_byte; vm_compute; intros F; repeat destruct F as [F|F]; try discriminate F; contradiction).
  assert (Tb : no_byte TAB (b "base")) by (unfold no_byte; vm_compute; intros F; repeat destruct F as [F|F]; try discriminate F; contradiction).
  assert (Zl : zlen l = 4) by (unfold zlen; rewrite <- (map_length l_rel), L1; reflexivity).
  assert (Zl' : zlen l <= 4000000) by lia. assert (Tl : total_size l <= 8000000000000000) by lia.
  assert (Bn : b "base" <> []) by discriminate. assert (R1 : (1 <= 3)%nat) by lia. assert (R2 : (1 <= 5)%nat) by lia.
  assert (Hst : same_tree (NDir h_tree) (NDir h_tree)) by (intros p m; reflexivity).
  exists l, cat, ar, ar'. split; [exact Hr|]. split; [exact Hr'|]. split; [exact Ca|]. split; [exact Ca'|]. split; [exact L3|]. split; [exact L4|]. split; [exact Zl|]. split; [exact L2|].
  exact (C99_legacy_partial h_fs h_fs (b "base") (NDir h_tree) (NDir h_tree) g_env Bn eq_refl Nb Tb W2 W2 I W1 W1 Hst W3 W5 W4 W4 _ _ _ _ _ _ _ _ R1 Hr Zl' Tl Ca L3 L4 _ _ _ _ _ _ _ _ R2 Hr' Zl' Tl Ca' L3 L4 empty_dir V1 V2 V3 V4).
Qed.
(** the conditions of C99_versions_partial are those of C75_witness and
    C70_witness together *)
Example C99_versions_witness : manageable (b "base") (NDir h_tree) /\ short_paths (b "base") (NDir h_tree) /\
  (forall p n, at_path (NDir h_tree) p n -> archivable n -> still v_env (b "base") p n) /\
  plan 9 h_fs isort (b "base") a_bucket 3 = Ok (Some v_plan) /\
  (exists n s a, run (length v_plan) 4 (fun o => succeeds (jobs v_env a_bucket (b "out") (b "base") v_plan o)) n s /\ boss s = BEnd /\
     concretises a (assemble (jobs v_env a_bucket (b "out") (b "base") v_plan) (map snd (log s)))) /\
  (forall clock R prior, exists fuel l ar, create_run fuel h_fs clock v_env (b "base") R prior l ar /\ zlen l = 4 /\ total_size l = 1234) /\
  ~ In (b "..") (components (b "base")) /\ room_for empty_dir (components (b "base")) /\ is_directory (empty_dir []) = true /\
  reached (NDir h_tree) [b "dir"; b "file"] (NFile 1234).
Proof.
  destruct C75_witness as (_ & _ & _ & W4 & W5 & W6 & W7 & (n & s & a & W8 & W9 & W10 & _) & W11). destruct C70_witness as (V1 & V2 & V3 & _).
  split; [exact W4|]. split; [exact W5|]. split; [exact W6|]. split; [exact W7|]. split; [exists n, s, a; auto|]. split; [exact W11|]. split; [exact V1|]. split; [exact V2|]. split; [exact V3|].
  split; [econstructor; [right; left; reflexivity|econstructor; [left; reflexivity|constructor]]|]. split; [|exact I]. repeat constructor; intros r X; discriminate X.
Qed.
