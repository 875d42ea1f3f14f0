(** C40-C42, C44, C45, C48-C51: the catalog, the file and the modes of the 0.5.1
    program. *)
From Coq Require Import Permutation Sorted Lia.
From Verif Require Import Bytes Outcome TarSpec TarModel TarProofs Layout Mover MoverSpec Spider SpiderSpec EndSpec Samples PropertiesEnd
  Legacy LegacyProofs LegacyLayout LegacySpec LegacyScan LegacyScanProofs LegacyCodec LegacyCodecProofs LegacyWrite LegacyWalk LegacyEndSpec LegacyEnd LegacyRun LegacyHead LegacyBridge
  LegacyCreate PropertiesLegacyScan LegacyTreeSpec LegacyCreateProofs LegacyTotal LegacyEndMore.

(** C40 (partial): every rank decodes the text of a list of at least two entries
    to that list and its bucket size, whatever the names (no tab or NUL), when all numbers fit
    their C types.  Only a null pad name comes back as the text "(null)". *)
Theorem C40_broadcast_partial : forall l bkt buf,
  100000 <= bkt <= 500000000 -> 2 <= zlen l -> Forall sendable l -> list_to_buffer l bkt false = Ok (Some buf) ->
  exists l', buffer_to_list buf false = Ok (Some (bkt, l')) /\ Forall2 same_but_null_pad l l'.
Proof. exact C40_lemma. Qed.
Print Assumptions C40_broadcast_partial.
(** FALSE of the code in general: the list of one entry makes the decoder write
    out of bounds (C43); a tab in a name changes the list; and no list with a
    null pad name comes back as it was *)
Theorem C40_refuted :
  (forall l bkt buf, 100000 <= bkt <= 500000000 -> 2 <= zlen l -> Forall sendable l -> list_to_buffer l bkt false = Ok (Some buf) ->
     Exists (fun e => l_pname e = None) l -> buffer_to_list buf false <> Ok (Some (bkt, l))) /\
  (exists e buf, sendable e /\ list_to_buffer [e] 102400 false = Ok (Some buf) /\ buffer_to_list buf false = Err EUB) /\
  (exists e buf l', l_pname e <> None /\ l_rel e = b "d/a" ++ [TAB] ++ b "b" /\ list_to_buffer [e; e] 102400 false = Ok (Some buf) /\
     buffer_to_list buf false = l' /\ forall l2, l' = Ok (Some (102400, l2)) -> ~ Forall2 same_but_null_pad [e; e] l2).
Proof. exact C40_false. Qed.
Print Assumptions C40_refuted.

(** C41 (partial): the catalog stored in the file (at byte 512) decodes to the
    archive name, type, link target, size and header size of every entry, and to
    the location the list had before the layout was computed *)
Theorem C41_catalog_partial : forall P pad clock ev l R prior ar a,
  100000 <= P <= 500000000 -> 2 <= zlen l <= 4000000 -> Forall storable l ->
  legacy_run 512 P pad clock ev l R prior ar -> concretises a ar ->
  exists cat l', firstn (length cat) (skipn 512 a) = cat /\ buffer_to_list cat true = Ok (Some (P, l')) /\
    Forall2 (fun e e' => l_arc e' = l_arc e /\ l_type e' = l_type e /\ l_tgt e' = l_tgt e /\ l_size e' = l_size e /\ l_hdr e' = l_hdr e /\ l_loc e' = l_loc e) l l'.
Proof. exact C41_lemma. Qed.
Print Assumptions C41_catalog_partial.
(** FALSE of the code, for every archive the program creates: the location in
    every catalog line is -1 *)
Theorem C41_refuted : forall fuel fs clock ev top t R prior l ar a,
  top <> [] -> ends_with_slash top = false -> no_byte NUL top -> no_byte TAB top -> wf_node t -> is_dir_node t -> shows fs top t -> tab_free t ->
  manageable top t ->
  create_run fuel fs clock ev top R prior l ar -> zlen l <= 4000000 -> concretises a ar ->
  exists cat l', firstn (length cat) (skipn 512 a) = cat /\ buffer_to_list cat true = Ok (Some (L_BUCKET, l')) /\ l' <> [] /\
    Forall (fun e => l_loc e = -1) l'.
Proof. exact C41_false. Qed.
Print Assumptions C41_refuted.

(** C42: FALSE of the code, for every archive a run writes: reading the catalog
    back fails, with and without skipping the tar header *)
Theorem C42_refuted : forall P pad clock ev l R prior ar a, 100000 <= P <= 500000000 -> zlen l <= 4000000 ->
  legacy_run 512 P pad clock ev l R prior ar -> concretises a ar -> forall skip, ffel_from_file a skip = Ok None.
Proof. exact run_unreadable. Qed.
Print Assumptions C42_refuted.

(** C44: whatever entries a rank puts into bucket [i], the buffer it writes at
    the bucket's place is full, or ends with a spacer header whose size leads
    exactly to the next bucket *)
Theorem C44_bucket_bridged : forall P D now ev l starts m i m' ws, P mod 512 = 0 -> P < 2147483648 -> Forall (fun e => 0 <= l_hdr e) l ->
  one_bucket 512 P D now ev l starts m i = Ok (Some (m', ws)) ->
  exists mine w rest, visited l starts i = Ok mine /\ ws = w :: rest /\ w_pos w = D + i * P /\
    ((taken mine = P /\ w_len w = P) \/
     (w_len w = taken mine + 512 /\ exists h u, zlen h = 512 /\ (forall r, read_header (h ++ r) = Some (u, r)) /\
        (forall k c, nth_error h k = Some c -> w_mem w (taken mine + Z.of_nat k) = Byte c) /\
        u_name u = b ".parfu_spacer " /\ taken mine + 512 + round512 (u_size u) = P)).
Proof. exact one_bridge. Qed.
Print Assumptions C44_bucket_bridged.
(** in the finished file: after the last fragment of a bucket a tar reader is at
    the next bucket or reads a spacer and is there.  ([present]: the entries are
    still there, their sizes may be any) *)
Theorem C44_archive_bridged : forall P pad clock ev l R prior ar a cat es fs nb,
  present P pad ev l -> (1 <= R)%nat -> legacy_run 512 P pad clock ev l R prior ar -> concretises a ar ->
  list_to_buffer l P true = Ok (Some cat) -> set_offsets_and_split 512 P pad l = Ok (Some (es, fs, nb)) ->
  exists D, D mod P = 0 /\ 512 + zlen cat <= D < 512 + zlen cat + P /\
    forall f, In f fs -> (forall g, In g fs -> l_bucket g = l_bucket f -> frag_end g <= frag_end f) ->
      let stop := blocked_up 512 (frag_end f) in
      stop = (l_bucket f + 1) * P \/
      exists m, read_member (skipn (Z.to_nat (D + stop)) a) = Some (m, skipn (Z.to_nat (D + (l_bucket f + 1) * P)) a) /\ is_spacer m.
Proof.
  intros P pad clock ev l R prior ar a cat es fs nb H1 H2 H3 H4 H5 H6.
  destruct (run_bridges _ _ _ _ _ _ _ _ _ _ _ _ _ H1 H2 H3 H4 H5 H6) as (D & A & B & _ & _ & C). exists D. auto.
Qed.
Print Assumptions C44_archive_bridged.

(** C45 (partial): the data area starts at the first bucket boundary after the
    catalog, with the first entry's header; a reader that has read the catalog
    is there, possibly after one spacer - unless the gap is exactly one block *)
Theorem C45_data_start_partial : forall P pad clock ev l R prior ar a cat,
  present P pad ev l -> (1 <= R)%nat -> legacy_run 512 P pad clock ev l R prior ar -> concretises a ar ->
  list_to_buffer l P true = Ok (Some cat) ->
  exists D, D mod P = 0 /\ 512 + zlen cat <= D < 512 + zlen cat + P /\
    (exists e0 h, nth_error l 0 = Some e0 /\ file_header ev (l_rel e0) = Some h /\ firstn (length h) (skipn (Z.to_nat D) a) = h) /\
    ((1024 + zlen cat) mod P <> 0 -> exists mc r, read_member a = Some (mc, r) /\ is_catalog cat mc /\
       (r = skipn (Z.to_nat D) a \/ exists m, read_member r = Some (m, skipn (Z.to_nat D) a) /\ is_spacer m)).
Proof. exact C45_lemma. Qed.
Print Assumptions C45_data_start_partial.
(** FALSE of the code when exactly one block is left: nothing is written there;
    a tar reader takes the zeros for the end and lists the catalog only, none of
    the entries.  There is such a list, and its runs succeed. *)
Theorem C45_refuted :
  (forall P pad clock ev l R ar a cat, proper P pad ev l -> (1 <= R)%nat -> legacy_run 512 P pad clock ev l R empty_archive ar -> concretises a ar ->
     list_to_buffer l P true = Ok (Some cat) -> (1024 + zlen cat) mod P = 0 -> exists mc, tar_list a = Some [mc] /\ is_catalog cat mc) /\
  exists P pad ev l cat, proper P pad ev l /\ 2 <= zlen l /\ list_to_buffer l P true = Ok (Some cat) /\ (1024 + zlen cat) mod P = 0 /\
    forall clock R, exists ar, legacy_run 512 P pad clock ev l R empty_archive ar.
Proof. exact C45_false. Qed.
Print Assumptions C45_refuted.

(** C48: FALSE of the code: whatever the file was before, after a run it begins
    with the catalog's header; and a run exists for every prior file *)
Theorem C48_refuted :
  (forall P pad clock ev l R prior ar a, 100000 <= P <= 500000000 -> zlen l <= 4000000 ->
     legacy_run 512 P pad clock ev l R prior ar -> concretises a ar -> exists rest, a = b ".parfu_catalog" ++ rest) /\
  exists P pad ev l, forall clock R prior, exists ar, legacy_run 512 P pad clock ev l R prior ar.
Proof. exact C48_false. Qed.
Print Assumptions C48_refuted.
(** the old file is never truncated: the new one is at least as long *)
Theorem C48_not_truncated : forall P pad clock ev l R prior ar, legacy_run 512 P pad clock ev l R prior ar -> ar_size prior <= ar_size ar.
Proof. exact C48_tail. Qed.
Print Assumptions C48_not_truncated.

(** C49 (partial): for every list as the file system shows it, sorted so that what fits a
    bucket comes first, every number of ranks, every interleaving of their
    writes and every prior file: a tar reader finds the catalog, then every
    entry exactly once, in order, with its contents, and only spacers in between *)
Theorem C49_list_to_archive_partial : forall P pad clock ev l R prior ar a cat,
  proper P pad ev l -> (1 <= R)%nat -> legacy_run 512 P pad clock ev l R prior ar -> concretises a ar ->
  list_to_buffer l P true = Ok (Some cat) -> (1024 + zlen cat) mod P <> 0 ->
  exists mc ms, tar_list a = Some (mc :: ms) /\ is_catalog cat mc /\ interspersed (entry_shown ev) is_spacer l ms.
Proof. exact run_readable. Qed.
Print Assumptions C49_list_to_archive_partial.
Theorem C49_run_succeeds : forall P pad clock ev l R prior cat, proper P pad ev l -> 2 <= zlen l -> zlen pad <= 100 -> Forall (fun e => zlen (l_tgt e) <= 100) l ->
  list_to_buffer l P true = Ok (Some cat) ->
  (forall es fs nb, set_offsets_and_split 512 P pad l = Ok (Some (es, fs, nb)) -> exists text, list_to_buffer fs P false = Ok (Some text)) ->
  exists ar, legacy_run 512 P pad clock ev l R prior ar.
Proof. exact run_succeeds. Qed.
Print Assumptions C49_run_succeeds.

(** C50 (partial): the create mode, from the tree to the archive *)
Theorem C50_create_partial : forall fuel fs clock ev top t R prior l ar a cat,
  top <> [] -> ends_with_slash top = false -> no_byte NUL top -> no_byte TAB top -> wf_node t -> is_dir_node t -> shows fs top t -> tab_free t ->
  (forall p n, reached t p n -> still ev top p n) -> manageable top t -> (1 <= R)%nat ->
  create_run fuel fs clock ev top R prior l ar -> zlen l <= 4000000 -> total_size l <= 8000000000000000 ->
  concretises a ar -> list_to_buffer l L_BUCKET true = Ok (Some cat) -> (1024 + zlen cat) mod L_BUCKET <> 0 ->
  exists mc ms nodes, tar_list a = Some (mc :: ms) /\ is_catalog cat mc /\ NoDup (map fst nodes) /\
    (forall p n, In (p, n) nodes <-> reached t p n) /\
    interspersed (fun pn m => describes ev top (fst pn) (snd pn) m) is_spacer nodes ms.
Proof. exact create_lemma. Qed.
Print Assumptions C50_create_partial.
(** and there is such a run, whatever the file was before and on any number of
    ranks: a tree of 2 to 250000 entries with paths up to [M] bytes, link targets
    up to 100, up to a million megabytes (see [few_enough]) and no unreadable
    directory is archived to the end *)
Theorem C50_run_exists_partial : forall M fs clock ev top t nodes R prior,
  top <> [] -> ends_with_slash top = false -> no_byte NUL top -> no_byte TAB top -> wf_node t -> is_dir_node t -> shows fs top t -> tab_free t ->
  (forall p n, reached t p n -> still ev top p n) -> manageable top t -> names_to M top t -> (forall p, Forall PropertiesLegacyScan.plain p -> ~ at_path t p NLocked) ->
  NoDup (map fst nodes) -> (forall p n, In (p, n) nodes <-> reached t p n) -> few_enough M nodes ->
  exists fuel l ar, create_run fuel fs clock ev top R prior l ar /\ zlen l = zlen nodes /\ total_size l = nodes_bytes nodes.
Proof. exact create_completes. Qed.
Print Assumptions C50_run_exists_partial.

(** C51: FALSE of the code: the modes X and T return success and do nothing, on
    every rank, for every archive *)
Theorem C51_refuted : forall rank mode args, (mode = "X"%char /\ 2 <= zlen args) \/ (mode = "T"%char /\ 1 <= zlen args) ->
  forall rest, legacy_main rank ((mode :: rest) :: args) = (0, DoNothing).
Proof. exact C51_false. Qed.
Print Assumptions C51_refuted.

(** *** witnesses *)
Definition g_lstat (p : bytes) : option (stat * bytes) := if bytes_eqb p (b "base/") then Some (st_dir, []) else h_lstat p.
Definition g_env : env := {| e_names := a_names; e_lstat := g_lstat; e_data := fun p => if bytes_eqb p (b "base/dir/file") then Some (repeat "z"%char 1234) else None |}.
Ltac walk_tree :=
  repeat match goal with
  | A : at_path (NDir _) _ _ |- _ => inversion A; clear A; subst
  | A : at_path (NFile _) _ _ |- _ => inversion A; clear A; subst
  | A : at_path (NLink _) _ _ |- _ => inversion A; clear A; subst
  | A : at_path NOther _ _ |- _ => inversion A; clear A; subst
  | I : In _ _ |- _ => cbn [In] in I; repeat (destruct I as [I|I]; [injection I as ? ?; subst|]); [..|destruct I]
  end.
Lemma g_reached p n : reached (NDir h_tree) p n ->
  (p = [] /\ n = NDir h_tree) \/ (p = [b "dir"] /\ n = NDir [(b "file", NFile 1234); (b ".d", NDir [(b "x", NFile 0)])]) \/
  (p = [b "dir"; b "file"] /\ n = NFile 1234) \/ (p = [b "lnk"] /\ n = NLink (b "target")).
Proof.
  intros (A & B & C). unfold h_tree in A.
  walk_tree; cbn [archivable] in C; try contradiction;
    try solve [left; split; reflexivity | right; left; split; reflexivity | right; right; left; split; reflexivity | right; right; right; split; reflexivity]; exfalso.
  all: repeat match goal with F : Forall PropertiesLegacyScan.plain (_ :: _) |- _ => inversion F as [|? ? ? ?]; clear F; subst end.
  all: match goal with F : PropertiesLegacyScan.plain _ |- _ => exact (F _ eq_refl) end.
Qed.
Definition g_list : list lent := map (LegacyCreateProofs.ent (b "base")) [([], NDir h_tree); ([b "dir"], NDir []); ([b "lnk"], NLink (b "target")); ([b "dir"; b "file"], NFile 1234)].
Ltac g_cases H := apply g_reached in H as [(-> & ->)|[(-> & ->)|[(-> & ->)|(-> & ->)]]].
Lemma g_still p n : reached (NDir h_tree) p n -> still g_env (b "base") p n.
Proof.
  intros H. g_cases H; unfold still; (eexists; eexists; (split; [vm_compute; reflexivity|]));
    cbn [st_uid st_gid st_mtime st_size st_kind st_dir st_reg st_lnk g_env e_names];
    change (2 ^ 21) with 2097152; change (2 ^ 33) with 8589934592; change (2 ^ 63) with 9223372036854775808;
    repeat (split; [lia|]); (split; [vm_compute; discriminate|]); (split; [vm_compute; discriminate|]).
  - split; auto.
  - split; auto.
  - split; auto. split; auto. split; auto. exists (repeat "z"%char 1234). split; vm_compute; reflexivity.
  - split; [split; auto|]. intros X. destruct (X eq_refl).
Qed.
Lemma g_manageable : manageable (b "base") (NDir h_tree).
Proof. left. intros p n H. g_cases H; (split; [vm_compute; reflexivity|]); try exact I; vm_compute; discriminate. Qed.
Lemma g_tab : tab_free (NDir h_tree).
Proof. intros p n H. unfold h_tree in H. walk_tree; (split; [nb|]); try exact I; nb. Qed.
Example C50_witness : shows h_fs (b "base") (NDir h_tree) /\ wf_node (NDir h_tree) /\ tab_free (NDir h_tree) /\ manageable (b "base") (NDir h_tree) /\
  (forall p n, reached (NDir h_tree) p n -> still g_env (b "base") p n) /\
  exists l cat, map l_rel l = [b "base/"; b "base/dir"; b "base/lnk"; b "base/dir/file"] /\ total_size l = 1234 /\
    list_to_buffer l L_BUCKET true = Ok (Some cat) /\ (1024 + zlen cat) mod L_BUCKET <> 0 /\
    forall clock R prior, 0 <= ar_size prior -> exists ar, create_run 5 h_fs clock g_env (b "base") R prior l ar /\ concretises (fill "?"%char ar) ar.
Proof.
  split; [exact h_shows|]. split; [exact h_wf|]. split; [exact g_tab|]. split; [exact g_manageable|]. split; [exact g_still|].
  set (N := [([], NDir [(b "dir", NDir [(b "file", NFile 1234)]); (b "lnk", NLink (b "target")); (b "dev", NOther)]); ([b "dir"], NDir [(b "file", NFile 1234)]); ([b "lnk"], NLink (b "target")); ([b "dir"; b "file"], NFile 1234)]).
  assert (Hl : exists es, list_directory 5 h_fs (b "base") = Ok (Some es) /\ map (fill_rel (b "base")) es = map (LegacyCreateProofs.ent (b "base")) N) by (eexists; split; vm_compute; reflexivity).
  destruct Hl as (es & Hl & He). set (l := map (LegacyCreateProofs.ent (b "base")) N) in *.
  assert (Hs : sorted l) by (unfold sorted, l, N; cbn [map]; repeat constructor; vm_compute; discriminate).
  assert (Hp : proper L_BUCKET L_PAD g_env l).
  { apply (tree_proper g_env (b "base") (NDir h_tree) eq_refl) with (N := N); auto.
    - nb.
    - nb.
    - exact h_wf.
    - exact I.
    - exact g_tab.
    - exact g_still.
    - exact g_manageable.
    - intros x [<-|[<-|[<-|[<-|[]]]]]; cbn [fst snd].
      + exists (NDir h_tree). split; [|reflexivity]. split; [constructor|]. split; [constructor|exact I].
      + exists (NDir [(b "file", NFile 1234); (b ".d", NDir [(b "x", NFile 0)])]). split; [|reflexivity].
        split; [econstructor; [right; left; reflexivity|constructor]|]. split; [|exact I]. repeat constructor; intros r X; discriminate X.
      + exists (NLink (b "target")). split; [|reflexivity].
        split; [econstructor; [right; right; left; reflexivity|constructor]|]. split; [|exact I]. repeat constructor; intros r X; discriminate X.
      + exists (NFile 1234). split; [|reflexivity].
        split; [econstructor; [right; left; reflexivity|econstructor; [left; reflexivity|constructor]]|]. split; [|exact I]. repeat constructor; intros r X; discriminate X.
    - vm_compute. discriminate.
    - vm_compute. discriminate. }
  assert (Hc : exists cat, list_to_buffer l L_BUCKET true = Ok (Some cat) /\ (1024 + zlen cat) mod L_BUCKET <> 0) by (eexists; split; [vm_compute; reflexivity|vm_compute; discriminate]).
  destruct Hc as (cat & Hc & Hg). exists l, cat. split; [vm_compute; reflexivity|]. split; [vm_compute; reflexivity|]. split; [exact Hc|]. split; [exact Hg|].
  intros clock R prior Hprior. destruct (run_succeeds L_BUCKET L_PAD clock g_env l R prior cat Hp) as (ar & Hr); auto.
  - vm_compute. discriminate.
  - vm_compute. discriminate.
  - repeat constructor; vm_compute; discriminate.
  - intros es' fs' nb' X. vm_compute in X. assert (Y : fs' = match Ok (Some (es', fs', nb')) with Ok (Some (_, y, _)) => y | _ => [] end) by reflexivity. rewrite <- X in Y. rewrite Y. eexists. vm_compute. reflexivity.
  - exists ar. split; [|apply fill_ok; pose proof (C48_tail _ _ _ _ _ _ _ _ Hr); lia].
    apply (Create_run 5 h_fs clock g_env (b "base") R prior es l l ar); auto. rewrite <- He. reflexivity.
Qed.
Example C50_exists_witness : short_names (b "base") (NDir h_tree) /\ (forall p, Forall PropertiesLegacyScan.plain p -> ~ at_path (NDir h_tree) p NLocked) /\
  exists nodes, NoDup (map fst nodes) /\ (forall p n, In (p, n) nodes <-> reached (NDir h_tree) p n) /\ zlen nodes = 4 /\ nodes_bytes nodes = 1234.
Proof.
  split; [intros p n H; g_cases H; (split; [vm_compute; reflexivity|]); try exact I; vm_compute; discriminate|]. split.
  { intros p _ A. unfold h_tree in A. walk_tree. all: inversion H0. }
  exists [([], NDir h_tree); ([b "dir"], NDir [(b "file", NFile 1234); (b ".d", NDir [(b "x", NFile 0)])]); ([b "dir"; b "file"], NFile 1234); ([b "lnk"], NLink (b "target"))].
  split; [repeat constructor; cbn [map fst In]; intuition discriminate|]. split; [|split; reflexivity].
  intros p n. split.
  - intros [E|[E|[E|[E|[]]]]]; injection E as <- <-.
    + split; [constructor|]. split; [constructor|exact I].
    + split; [econstructor; [right; left; reflexivity|constructor]|]. split; [|exact I]. repeat constructor; intros r X; discriminate X.
    + split; [econstructor; [right; left; reflexivity|econstructor; [left; reflexivity|constructor]]|]. split; [|exact I]. repeat constructor; intros r X; discriminate X.
    + split; [econstructor; [right; right; left; reflexivity|constructor]|]. split; [|exact I]. repeat constructor; intros r X; discriminate X.
  - intros H. g_cases H; cbn [In]; auto.
Qed.
Example C40_witness : exists buf, Forall sendable [one_entry (b "d/a") (b "a"); one_entry (b "d/b c") (b "b c")] /\
  list_to_buffer [one_entry (b "d/a") (b "a"); one_entry (b "d/b c") (b "b c")] 102400 false = Ok (Some buf).
Proof.
  destruct (list_to_buffer_some [one_entry (b "d/a") (b "a"); one_entry (b "d/b c") (b "b c")] 102400 false) as (buf & E);
    [lia|vm_compute; split; discriminate|rewrite text_len_ok; vm_compute; discriminate|].
  exists buf. split; [apply Forall_cons; [|apply Forall_cons; [|apply Forall_nil]]; apply one_send; split; nb|exact E].
Qed.
Example C44_witness : match one_bucket 512 102400 0 0 q_env [{| l_rel := b "t/a"; l_arc := b "a"; l_type := LReg; l_tgt := []; l_size := 0; l_hdr := 512; l_loc := 512; l_orig := 0;
    l_ploc := -1; l_pname := None; l_phdr := -1; l_psize := -1; l_nfrag := 1; l_fptr := 0; l_bucket := 0 |}] [0] fresh 0 with
  | Ok (Some (_, ws)) => map (fun w => (w_pos w, w_len w)) ws | _ => [] end = [(0, 1024); (102400, 1024)].
Proof. vm_compute. reflexivity. Qed.
