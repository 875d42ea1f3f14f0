(** Lemmas and samples for the theorems about 0.5.1 archives. *)
From Coq Require Import Permutation Sorted Lia.
From Verif Require Import Bytes Outcome TarSpec TarModel TarProofs TarMore Layout Mover MoverSpec Spider SpiderSpec EndSpec Samples
  Legacy LegacyProofs LegacyLayout LegacySpec LegacyLayoutProofs LegacyRanks LegacyMore LegacyScan LegacyScanProofs LegacyCodec LegacyCodecProofs LegacyWrite LegacyArchive LegacyWalk LegacyEndSpec LegacyEnd LegacyRun LegacyHead LegacyBridge
  LegacyCreate PropertiesLegacyScan LegacyTreeSpec LegacyCreateProofs.

(** every field the same, except that a missing pad name becomes "(null)" *)
Definition same_but_null_pad (e e' : lent) : Prop :=
  (l_pname e <> None -> e' = e) /\
  l_rel e' = l_rel e /\ l_arc e' = l_arc e /\ l_type e' = l_type e /\ l_tgt e' = l_tgt e /\ l_size e' = l_size e /\ l_hdr e' = l_hdr e /\ l_loc e' = l_loc e /\
  l_orig e' = l_orig e /\ l_ploc e' = l_ploc e /\ l_phdr e' = l_phdr e /\ l_psize e' = l_psize e /\ l_nfrag e' = l_nfrag e /\ l_fptr e' = l_fptr e /\ l_bucket e' = l_bucket e.
Lemma received_same e : same_but_null_pad e (received e).
Proof. split; [destruct e as [? ? ? ? ? ? ? ? ? [x|] ? ? ? ? ?]; intros H; [reflexivity|destruct (H eq_refl)]|]. repeat split. Qed.

Lemma C40_text l bkt buf : 100000 <= bkt <= 500000000 -> 2 <= zlen l -> Forall sendable l -> list_to_buffer l bkt false = Ok (Some buf) ->
  buffer_to_list buf false = Ok (Some (bkt, map received l)).
Proof.
  intros Hb Hl Hs H. destruct (text_count _ _ _ _ H) as (E1 & E2 & E3); [change (10 ^ 10) with 10000000000; lia|].
  apply (buffer_to_list_text l bkt false buf E1 E2 Hb ltac:(lia)). exact Hs.
Qed.
Lemma C40_lemma l bkt buf : 100000 <= bkt <= 500000000 -> 2 <= zlen l -> Forall sendable l -> list_to_buffer l bkt false = Ok (Some buf) ->
  exists l', buffer_to_list buf false = Ok (Some (bkt, l')) /\ Forall2 same_but_null_pad l l'.
Proof.
  intros Hb Hl Hs H. exists (map received l). split; [apply C40_text; auto|]. clear. induction l as [|e l IH]; cbn [map]; constructor; auto. apply received_same.
Qed.

Definition one_entry (rel arc : bytes) : lent :=
  {| l_rel := rel; l_arc := arc; l_type := LReg; l_tgt := []; l_size := 0; l_hdr := 512; l_loc := -1; l_orig := -1; l_ploc := -1; l_pname := Some (b "x");
     l_phdr := -1; l_psize := -1; l_nfrag := -1; l_fptr := -1; l_bucket := -1 |}.
Lemma one_send rel arc : is_text rel -> is_text arc -> sendable (one_entry rel arc).
Proof.
  intros A B. unfold sendable, is_long, is_int, one_entry. cbn [l_rel l_arc l_type l_tgt l_size l_hdr l_loc l_orig l_ploc l_pname l_phdr l_psize l_nfrag l_fptr l_bucket pad_text].
  change (2 ^ 63) with 9223372036854775808. change (2 ^ 31) with 2147483648. repeat split; auto; try lia; try discriminate; try apply A; try apply B; nb.
Qed.
Lemma C40_false :
  (forall l bkt buf, 100000 <= bkt <= 500000000 -> 2 <= zlen l -> Forall sendable l -> list_to_buffer l bkt false = Ok (Some buf) ->
     Exists (fun e => l_pname e = None) l -> buffer_to_list buf false <> Ok (Some (bkt, l))) /\
  (exists e buf, sendable e /\ list_to_buffer [e] 102400 false = Ok (Some buf) /\ buffer_to_list buf false = Err EUB) /\
  (exists e buf l', l_pname e <> None /\ l_rel e = b "d/a" ++ [TAB] ++ b "b" /\ list_to_buffer [e; e] 102400 false = Ok (Some buf) /\
     buffer_to_list buf false = l' /\ forall l2, l' = Ok (Some (102400, l2)) -> ~ Forall2 same_but_null_pad [e; e] l2).
Proof.
  split; [|split].
  - intros l bkt buf Hb Hl Hs H Hx. rewrite (C40_text _ _ _ Hb Hl Hs H). intros E. assert (E' : map received l = l) by congruence. clear - Hx E'.
    induction Hx as [e l He|e l _ IH]; cbn [map] in E'.
    + assert (X : received e = e) by congruence. apply (f_equal l_pname) in X. cbn in X. congruence.
    + apply IH. congruence.
  - exists (one_entry (b "d/a") (b "a")). eexists. split; [apply one_send; split; nb|]. split; [vm_compute; reflexivity|]. vm_compute. reflexivity.
  - exists (one_entry (b "d/a" ++ [TAB] ++ b "b") (b "a")). eexists. eexists. split; [discriminate|]. split; [reflexivity|]. split; [vm_compute; reflexivity|]. split; [vm_compute; reflexivity|].
    intros l2 E. discriminate E.
Qed.

(** ** the catalog *)
Lemma C41_text P pad clock ev l R prior ar a :
  100000 <= P <= 500000000 -> 2 <= zlen l <= 4000000 -> Forall storable l ->
  legacy_run 512 P pad clock ev l R prior ar -> concretises a ar ->
  exists cat, firstn (length cat) (skipn 512 a) = cat /\ buffer_to_list cat true = Ok (Some (P, map stored_entry l)).
Proof.
  intros HP Hl Hs Hr Ha. destruct (run_head _ _ _ _ _ _ _ _ _ HP (proj2 Hl) Hr Ha) as (cat & E1 & E2 & _ & _ & E3 & E4).
  exists cat. split.
  - pose proof (LegacyWalk.data_at a 512 cat ltac:(lia) E3) as X. unfold zlen in X. rewrite Nat2Z.id in X. exact X.
  - destruct (text_count _ _ _ _ E1) as (T1 & T2 & T3); [change (10 ^ 10) with 10000000000; lia|].
    apply (buffer_to_list_text l P true cat T1 T2 HP ltac:(lia)). exact Hs.
Qed.
Lemma C41_lemma P pad clock ev l R prior ar a :
  100000 <= P <= 500000000 -> 2 <= zlen l <= 4000000 -> Forall storable l ->
  legacy_run 512 P pad clock ev l R prior ar -> concretises a ar ->
  exists cat l', firstn (length cat) (skipn 512 a) = cat /\ buffer_to_list cat true = Ok (Some (P, l')) /\
    Forall2 (fun e e' => l_arc e' = l_arc e /\ l_type e' = l_type e /\ l_tgt e' = l_tgt e /\ l_size e' = l_size e /\ l_hdr e' = l_hdr e /\ l_loc e' = l_loc e) l l'.
Proof.
  intros HP Hl Hs Hr Ha. destruct (C41_text _ _ _ _ _ _ _ _ _ HP Hl Hs Hr Ha) as (cat & A & B). exists cat, (map stored_entry l). split; auto. split; auto.
  clear. induction l as [|e l IH]; cbn [map]; constructor; auto. repeat split.
Qed.
Lemma run_two P pad clock ev l R prior ar : 100000 <= P <= 500000000 -> zlen l <= 4000000 -> legacy_run 512 P pad clock ev l R prior ar -> 2 <= zlen l.
Proof.
  intros HP Hl H. destruct H as [ws0 D text starts wss ws Hpro _ _].
  destruct (prologue_inv _ _ _ _ _ _ _ _ HP Hl Hpro) as (cat & es & fs & nb & _ & _ & E3 & _). apply split_inv in E3. tauto.
Qed.
Lemma C41_false fuel fs clock ev top t R prior l ar a :
  top <> [] -> ends_with_slash top = false -> no_byte NUL top -> no_byte TAB top -> wf_node t -> is_dir_node t -> shows fs top t -> tab_free t ->
  manageable top t ->
  create_run fuel fs clock ev top R prior l ar -> zlen l <= 4000000 -> concretises a ar ->
  exists cat l', firstn (length cat) (skipn 512 a) = cat /\ buffer_to_list cat true = Ok (Some (L_BUCKET, l')) /\ l' <> [] /\
    Forall (fun e => l_loc e = -1) l'.
Proof.
  intros H1 H2 H3 H4 Hw Hd Hs Htf Hman Hc Hlen Ha.
  destruct (run_list _ _ _ _ _ _ _ _ _ _ H1 H2 Hw Hd Hs Hc) as (N & nodes & El & F & Nd & Hn & Hso & Hr).
  assert (HN : forall x, In x N -> exists n, reached t (fst x) n /\ snd x = prune n).
  { intros x Hx. destruct (In_nth_error _ _ Hx) as (k & Hk). destruct (forall2_nth _ _ _ F k x Hk) as (y & _ & Y1 & Y2 & Y3). rewrite Y1. eauto. }
  assert (HP : 100000 <= L_BUCKET <= 500000000) by (unfold L_BUCKET; lia).
  pose proof (run_two _ _ _ _ _ _ _ _ HP Hlen Hr) as H5.
  assert (All : forall e, In e l -> sendable e /\ l_loc e = -1).
  { intros e He. rewrite El in He. apply in_map_iff in He as ([p m] & <- & Hin). destruct (HN _ Hin) as (n & Hre & Em). cbn [fst snd] in *. subst m.
    split; [apply (node_send top t H2 H3 H4 Hw Htf Hman p n); auto|].
    destruct (ent_fields top p (prune n) H2) as (_ & _ & _ & _ & X & _); [apply archivable_prune; apply Hre|exact X]. }
  assert (Hsto : Forall storable l).
  { apply Forall_forall. intros e He. destruct (All e He) as (((S1 & S2 & S3 & S4 & S5) & (S6 & S7 & S8 & _) & _) & _). unfold storable. auto. }
  destruct (C41_text _ _ _ _ _ _ _ _ _ HP (conj H5 Hlen) Hsto Hr Ha) as (cat & A & B).
  exists cat, (map stored_entry l). split; auto. split; auto. split.
  - destruct l; [unfold zlen in H5; cbn [length] in H5; lia|discriminate].
  - apply Forall_forall. intros e He. apply in_map_iff in He as (e0 & <- & He). cbn [stored_entry l_loc]. apply (All e0 He).
Qed.

(** ** C45 *)
Lemma C45_lemma P pad clock ev l R prior ar a cat :
  present P pad ev l -> (1 <= R)%nat -> legacy_run 512 P pad clock ev l R prior ar -> concretises a ar ->
  list_to_buffer l P true = Ok (Some cat) ->
  exists D, D mod P = 0 /\ 512 + zlen cat <= D < 512 + zlen cat + P /\
    (exists e0 h, nth_error l 0 = Some e0 /\ file_header ev (l_rel e0) = Some h /\ firstn (length h) (skipn (Z.to_nat D) a) = h) /\
    ((1024 + zlen cat) mod P <> 0 -> exists mc r, read_member a = Some (mc, r) /\ is_catalog cat mc /\
       (r = skipn (Z.to_nat D) a \/ exists m, read_member r = Some (m, skipn (Z.to_nat D) a) /\ is_spacer m)).
Proof.
  intros Hp HR Hr Ha Hc. assert (X : exists es fs nb, set_offsets_and_split 512 P pad l = Ok (Some (es, fs, nb))).
  { destruct Hr as [ws0 D text starts wss ws Hpro _ _]. destruct (prologue_inv _ _ _ _ _ _ _ _ (ps_P _ _ _ _ Hp) (ps_len _ _ _ _ Hp) Hpro) as (cat' & es & fs & nb & _ & _ & E3 & _). eauto. }
  destruct X as (es & fs & nb & E). destruct (run_bridges _ _ _ _ _ _ _ _ _ _ _ _ _ Hp HR Hr Ha Hc E) as (D & A & B & C & C2 & _). exists D. auto.
Qed.

(** a list of a thousand empty files whose catalog ends one block before the
    bucket boundary *)
Definition q_name (i : nat) : bytes := zpad (if (i <? 321)%nat then 89 else 88) (print_dec (Z.of_nat i)).
Definition q_entry (i : nat) : lent := one_entry (b "t/" ++ q_name i) (q_name i).
Definition q_list : list lent := map q_entry (seq 0 1000).
Definition q_env : env := {| e_names := a_names; e_lstat := fun _ => Some (st_reg 0, []); e_data := fun _ => Some [] |}.
Definition q_P : Z := 102400.
Definition q_pad : bytes := b ".parfu_space".

Lemma q_text i : (i < 1000)%nat -> is_text (q_name i) /\ zlen (q_name i) <= 90.
Proof.
  assert (X : forallb (fun i => (negb (existsb (beq TAB) (q_name i)) && negb (existsb (beq NUL) (q_name i)) && (zlen (q_name i) <=? 90))%bool) (seq 0 1000) = true) by (vm_compute; reflexivity).
  intros Hi. rewrite forallb_forall in X. specialize (X i ltac:(apply in_seq; lia)). apply andb_prop in X as (X & X3). apply andb_prop in X as (X1 & X2).
  apply Z.leb_le in X3. split; auto. split; intros Hin.
  - apply Bool.negb_true_iff in X1. assert (existsb (beq TAB) (q_name i) = true) by (apply existsb_exists; exists TAB; split; auto; apply beq_spec; auto). congruence.
  - apply Bool.negb_true_iff in X2. assert (existsb (beq NUL) (q_name i) = true) by (apply existsb_exists; exists NUL; split; auto; apply beq_spec; auto). congruence.
Qed.

Lemma q_in e : In e q_list -> exists i, (i < 1000)%nat /\ e = q_entry i.
Proof. unfold q_list. intros H. apply in_map_iff in H as (i & <- & Hi). apply in_seq in Hi. exists i. split; [lia|reflexivity]. Qed.
Lemma q_rel_text i : (i < 1000)%nat -> is_text (b "t/" ++ q_name i).
Proof. intros H. destruct (q_text i H) as ((A & B) & _). split; apply no_byte_app; (split; [nb|auto]). Qed.
Lemma q_listed i : (i < 1000)%nat -> as_listed q_env (q_entry i).
Proof.
  intros Hi. destruct (q_rel_text i Hi) as (T1 & T2). destruct (q_text i Hi) as (_ & T3).
  exists (st_reg 0), []. cbn [q_env e_lstat e_data q_entry one_entry l_rel l_type l_size l_hdr st_reg st_uid st_gid st_mtime st_size st_kind].
  split; [reflexivity|]. split; [change (2 ^ 21) with 2097152; lia|]. split; [change (2 ^ 21) with 2097152; lia|]. split; [change (2 ^ 33) with 8589934592; lia|]. split; [change (2 ^ 63) with 9223372036854775808; lia|].
  split; [change (2 ^ 33) with 8589934592; lia|]. split; auto. split; [rewrite zlen_app; change (zlen (b "t/")) with 2; change (2 ^ 29) with 536870912; lia|].
  split; [split; auto; split; auto; split; auto; exists []; split; reflexivity|].
  set (rel := b "t/" ++ q_name i) in *. assert (L : zlen rel <= 92) by (unfold rel; rewrite zlen_app; change (zlen (b "t/")) with 2; lia). clearbody rel.
  assert (E : new_tarentry (e_lstat q_env) rel 0 = Ok {| te_offset := 0; te_stat := st_reg 0; te_file := rel; te_link := [] |}) by reflexivity.
  destruct (proj2 (C02_lemma a_names {| te_offset := 0; te_stat := st_reg 0; te_file := rel; te_link := [] |})) as (h & Eh);
    [cbn [te_stat st_reg st_kind]; discriminate|vm_compute; discriminate|vm_compute; discriminate|].
  exists h. split; [unfold file_header; rewrite E; cbn [q_env e_names]; rewrite Eh; reflexivity|].
  pose proof (make_tar_header_length _ _ _ Eh) as X. rewrite hdr_size_short in X; [congruence|..]; unfold need_path, need_link, need_size, is_reg; cbn [te_file te_link te_stat st_reg st_kind st_size andb]; try reflexivity.
  apply Z.ltb_ge. lia.
Qed.
Lemma q_proper : proper q_P q_pad q_env q_list.
Proof.
  assert (F : Forall (fits 512 q_P) q_list). { apply Forall_forall. intros e He. apply q_in in He as (i & Hi & ->). vm_compute. discriminate. }
  constructor.
  - vm_compute. split; discriminate.
  - reflexivity.
  - split; nb.
  - vm_compute. discriminate.
  - apply Forall_forall. intros e He. apply q_in in He as (i & Hi & ->). apply one_send; [apply q_rel_text; auto|apply q_text; auto].
  - apply Forall_forall. intros e He. apply q_in in He as (i & Hi & ->). apply q_listed; auto.
  - exists q_list, []. rewrite app_nil_r. auto.
  - apply Forall_forall. intros e He. apply q_in in He as (i & Hi & ->). vm_compute. reflexivity.
  - eapply Forall_impl; [|exact F]. intros e He. left. exact He.
  - vm_compute. discriminate.
Qed.
Lemma q_tgt : Forall (fun e => zlen (l_tgt e) <= 100) q_list.
Proof. apply Forall_forall. intros e He. apply q_in in He as (i & Hi & ->). vm_compute. discriminate. Qed.
Lemma q_two : 2 <= zlen q_list. Proof. vm_compute. discriminate. Qed.
(** the lengths of the two texts; the texts themselves are not computed *)
Definition text_len (arch : bool) (l : list lent) : Z := fold_right (fun e z => zlen (line arch e) + z) 0 l.
Lemma text_len_ok arch l : zlen (concat (map (line arch) l)) = text_len arch l.
Proof. induction l as [|e l IH]; [reflexivity|]. cbn [map concat text_len fold_right]. rewrite zlen_app, IH. reflexivity. Qed.
Definition fs_small (o : outcome (option (list lent * list lent * Z))) : bool :=
  match o with Ok (Some (_, fs, _)) => (1 <=? zlen fs) && (zlen fs <=? 4000000) && (text_len false fs <=? 499999000) | _ => false end.
Lemma small_some o : fs_small o = true -> forall es fs nb, o = Ok (Some (es, fs, nb)) -> exists text, list_to_buffer fs q_P false = Ok (Some text).
Proof.
  intros H es fs nb ->. unfold fs_small in H. apply andb_prop in H as (H & H3). apply andb_prop in H as (H1 & H2). apply Z.leb_le in H1, H2, H3.
  apply list_to_buffer_some; [unfold q_P; lia|lia|rewrite text_len_ok; lia].
Qed.
Lemma q_len : text_len true q_list = 101321.
Proof. vm_compute. reflexivity. Qed.
Lemma q_some : exists cat, list_to_buffer q_list q_P true = Ok (Some cat) /\ (1024 + zlen cat) mod q_P = 0.
Proof.
  assert (Z1 : zlen q_list = 1000) by (unfold zlen, q_list; rewrite map_length, seq_length; reflexivity).
  pose proof (text_len_ok true q_list) as T. rewrite q_len in T.
  destruct (list_to_buffer_some q_list q_P true) as (cat & E); [unfold q_P; lia|lia|lia|].
  exists cat. split; [exact E|]. destruct (text_count _ _ _ _ E) as (E1 & E2 & _); [unfold q_P; change (10 ^ 10) with 10000000000; lia|].
  assert (L : zlen cat = 55 + 101321).
  { pose proof (f_equal zlen E1) as X. rewrite zlen_app, T in X. unfold cat_head in X. rewrite !zlen_app in X. pose proof (zlen_nonneg cat).
    rewrite !ten_zlen in X by (unfold q_P; rewrite ?Z1; change (10 ^ 10) with 10000000000 in *; lia). rewrite X. reflexivity. }
  rewrite L. reflexivity.
Qed.
Lemma q_split : fs_small (set_offsets_and_split 512 q_P q_pad q_list) = true.
Proof. vm_compute. reflexivity. Qed.
Definition q_texts := small_some _ q_split.
Lemma q_run clock R prior : exists ar, legacy_run 512 q_P q_pad clock q_env q_list R prior ar.
Proof.
  destruct q_some as (cat & E & _).
  exact (run_succeeds q_P q_pad clock q_env q_list R prior cat q_proper q_two ltac:(vm_compute; discriminate) q_tgt E q_texts).
Qed.
Lemma C45_false :
  (forall P pad clock ev l R ar a cat, proper P pad ev l -> (1 <= R)%nat -> legacy_run 512 P pad clock ev l R empty_archive ar -> concretises a ar ->
     list_to_buffer l P true = Ok (Some cat) -> (1024 + zlen cat) mod P = 0 -> exists mc, tar_list a = Some [mc] /\ is_catalog cat mc) /\
  exists P pad ev l cat, proper P pad ev l /\ 2 <= zlen l /\ list_to_buffer l P true = Ok (Some cat) /\ (1024 + zlen cat) mod P = 0 /\
    forall clock R, exists ar, legacy_run 512 P pad clock ev l R empty_archive ar.
Proof.
  split; [intros; eapply run_stops; eauto|]. destruct q_some as (cat & E & C).
  exists q_P, q_pad, q_env, q_list, cat. split; [exact q_proper|]. split; [exact q_two|]. split; [exact E|]. split; [exact C|]. intros. apply q_run.
Qed.

(** ** C48 *)
Lemma header_begin n t : exists r, catalog_header n t = b ".parfu_catalog" ++ r.
Proof. unfold catalog_header, fixed_header. eexists. rewrite <- app_assoc. unfold field at 1. cbn [length b app firstn]. reflexivity. Qed.
Lemma C48_false :
  (forall P pad clock ev l R prior ar a, 100000 <= P <= 500000000 -> zlen l <= 4000000 ->
     legacy_run 512 P pad clock ev l R prior ar -> concretises a ar -> exists rest, a = b ".parfu_catalog" ++ rest) /\
  exists P pad ev l, forall clock R prior, exists ar, legacy_run 512 P pad clock ev l R prior ar.
Proof.
  split; [|exists q_P, q_pad, q_env, q_list; intros; apply q_run].
  intros P pad clock ev l R prior ar a HP Hl Hr Ha. destruct (run_head _ _ _ _ _ _ _ _ _ HP Hl Hr Ha) as (cat & _ & _ & E & _).
  apply at_prefix in E as (r & ->). destruct (header_begin (zlen cat) (clock (-2))) as (r' & ->). exists (r' ++ r). rewrite app_assoc. reflexivity.
Qed.
Lemma C48_tail P pad clock ev l R prior ar : legacy_run 512 P pad clock ev l R prior ar -> ar_size prior <= ar_size ar.
Proof. intros H. destruct H. apply size_mono. Qed.

(** ** C51 *)
Lemma C51_false rank mode args : (mode = "X"%char /\ 2 <= zlen args) \/ (mode = "T"%char /\ 1 <= zlen args) ->
  forall rest, legacy_main rank ((mode :: rest) :: args) = (0, DoNothing).
Proof.
  intros H rest. unfold legacy_main, zlen in *. cbn [length].
  destruct H as [(-> & H)|(-> & H)].
  - destruct (Nat.ltb_spec (S (length args)) 2); [lia|]. destruct (Nat.eqb_spec (S (length args)) 2); [lia|]. cbn. destruct (rank =? 0)%nat; reflexivity.
  - destruct (Nat.ltb_spec (S (length args)) 2); [lia|]. destruct (S (length args) =? 2)%nat; cbn; destruct (rank =? 0)%nat; reflexivity.
Qed.
