(** Property theorems C58-C63: histories of calls on the objects of the API. *)
From Coq Require Import Lia.
From Verif Require Import Bytes Outcome TarModel TarProofs TarMore Layout OrderCodec Mover Spider SpiderSpec SpiderProofs Objects ObjectsSpec ObjectsProofs Samples PropertiesScan.

(** *** C58.  For every history of calls, header_size() of object [i] is the
    size for its path, its size and the link target of the moment the header
    size was first asked for ([first_asked], through copies and assignments). *)
Theorem C58_header_exact : forall cs st i o, do_calls [] cs = Ok st -> nth_error st i = Some o ->
  exists t k h, nth_error (first_asked cs) i = Some (t, k) /\ t = ob_target o /\
    do_call st (CHeaderSize i) = Ok (replace st i (with_hdr o h), ANum h) /\
    compute_hdr_size (cstr (absolute_path (ob_base o) (ob_rel o))) (cstr (match k with Some t0 => t0 | None => t end)) (ob_size o) = Ok h.
Proof. exact header_exact_history. Qed.
Print Assumptions C58_header_exact.
(** Partial: histories without set_symlink_target (create makes none). *)
Theorem C58_header_current_partial : forall cs st i o, do_calls [] cs = Ok st -> (forall j t, ~ In (CSetTarget j t) cs) -> nth_error st i = Some o ->
  exists h, do_call st (CHeaderSize i) = Ok (replace st i (with_hdr o h), ANum h) /\
    compute_hdr_size (cstr (absolute_path (ob_base o) (ob_rel o))) (cstr (ob_target o)) (ob_size o) = Ok h.
Proof. exact header_current. Qed.
Print Assumptions C58_header_current_partial.
(** false of the code with it: the size for the old target [t1] is still given after the target is [t2] *)
Theorem C58_refuted : forall base rel ty size t1 t2 h1 h2,
  compute_hdr_size (cstr (absolute_path base rel)) (cstr t1) size = Ok h1 ->
  compute_hdr_size (cstr (absolute_path base rel)) (cstr t2) size = Ok h2 ->
  exists st, do_calls [] [CNew base rel ty size t1; CHeaderSize 0; CSetTarget 0 t2] = Ok st /\
    exists o, nth_error st 0 = Some o /\ ob_target o = t2 /\ exists st', do_call st (CHeaderSize 0) = Ok (st', ANum h1).
Proof. exact header_stale. Qed.
Print Assumptions C58_refuted.
(** the entries the scan makes (C11-C19, C46, C47) are these objects, asked for
    the first time *)
Theorem C58_entries : forall ty base rel tgt size e, mk_entry ty base rel tgt size = Ok e ->
  let o := new_obj base rel (Some ty) size tgt in
  header_size o = Ok (en_hdr e, with_hdr o (en_hdr e)) /\ obj_catalog_line o = Ok (catalog_line e, with_hdr o (en_hdr e)) /\ forall start, obj_next_available o start = Ok (next_available_after_me e start, with_hdr o (en_hdr e)).
Proof.
  intros ty base rel tgt size e H. cbv zeta. unfold mk_entry in H.
  assert (E : header_size (new_obj base rel (Some ty) size tgt) = Ok (en_hdr e, with_hdr (new_obj base rel (Some ty) size tgt) (en_hdr e))).
  { unfold header_size. cbn [ob_hdr new_obj ob_base ob_rel ob_target ob_size Z.ltb Z.compare].
    destruct (compute_hdr_size (cstr (absolute_path base rel)) (cstr tgt) size) as [h|]; [|discriminate]. cbn [bind] in *. injection H as <-. reflexivity. }
  destruct (compute_hdr_size (cstr (absolute_path base rel)) (cstr tgt) size) as [h|]; [|discriminate]. cbn [bind] in H.
  split; [exact E|]. split.
  - unfold obj_catalog_line. rewrite E. cbn [bind]. injection H as <-. reflexivity.
  - intros start. unfold obj_next_available. rewrite E. cbn [bind]. injection H as <-. reflexivity.
Qed.
Print Assumptions C58_entries.
Example C58_sizes_differ :
  compute_hdr_size (cstr (absolute_path (b "base") (b "l"))) (cstr (b "t")) 0 = Ok 512 /\
  compute_hdr_size (cstr (absolute_path (b "base") (b "l"))) (cstr (repeat "t"%char 101)) 0 = Ok 1536.
Proof. split; vm_compute; reflexivity. Qed.
Example C58_witness : exists st, do_calls [] [CNew (b "base") (b "l") (Some TLink) 0 (b "t"); CCopy 0; CSetTarget 1 (repeat "t"%char 101); CHeaderSize 0; CNextAvailable 1 700; CAssign 0 1] = Ok st /\
  map ob_hdr st = [1536; 1536].
Proof. eexists. split; vm_compute; reflexivity. Qed.

(** *** C59.  A copy of a target file is the target file, at any point of any
    history, and so is what an assignment leaves. *)
Theorem C59_file_copy_partial : forall cs st i o, do_calls [] cs = Ok st -> nth_error st i = Some o ->
  do_call st (CCopy i) = Ok (st ++ [o], ANone) /\
  (forall j a, nth_error st j = Some a -> do_call st (CAssign j i) = Ok (replace st j o, ANone)).
Proof. exact copies_equal. Qed.
Print Assumptions C59_file_copy_partial.
(** false of the code for everything that holds a vector: copying anything but
    an empty one is undefined; an empty directory loses its type; assigning to a
    larger one keeps the larger one's tail *)
Theorem C59_refuted :
  (forall d, do_subdirs d <> [] \/ do_subfiles d <> [] -> copy_dir d = Err EUB) /\
  (forall d, do_subdirs d = [] -> do_subfiles d = [] -> exists d', copy_dir d = Ok d' /\ do_type d' = None) /\
  (forall A (c : list A * list A), c <> ([], []) -> copy_collection c = Err EUB) /\
  (forall A (me c : list A * list A), (length (fst me) < length (fst c) \/ length (snd me) < length (snd c))%nat -> assign_collection me c = Err EUB) /\
  (forall A (me c : list A * list A), (length (fst c) <= length (fst me))%nat -> (length (snd c) <= length (snd me))%nat ->
     assign_collection me c = Ok (fst c ++ skipn (length (fst c)) (fst me), snd c ++ skipn (length (snd c)) (snd me))).
Proof.
  split; [|split; [|split; [|split]]].
  - intros d H. unfold copy_dir. rewrite !copy_into_nil. destruct (do_subdirs d), (do_subfiles d); try reflexivity. destruct H; congruence.
  - intros d H1 H2. unfold copy_dir. rewrite H1, H2. eexists. split; reflexivity.
  - intros A [x y] H. unfold copy_collection. cbn [fst snd]. rewrite !copy_into_nil. destruct x, y; try reflexivity. congruence.
  - intros A me c H. unfold assign_collection. destruct (copy_into_spec (fst c) (fst me)) as [A1 A2], (copy_into_spec (snd c) (snd me)) as [B1 B2].
    destruct (Nat.lt_ge_cases (length (fst me)) (length (fst c))) as [L|L]; [rewrite A2 by auto; reflexivity|]. rewrite A1 by auto. cbn [bind].
    rewrite B2; [reflexivity|]. destruct H; [lia|auto].
  - intros A me c H1 H2. unfold assign_collection. destruct (copy_into_spec (fst c) (fst me)) as [A1 _], (copy_into_spec (snd c) (snd me)) as [B1 _].
    rewrite A1, B1 by auto. reflexivity.
Qed.
Print Assumptions C59_refuted.
(** directories: a copy of one that holds nothing has its path and knows
    whether it was scanned; what an assignment leaves has the path, the flag and
    the contents of the source, then the old tail *)
Theorem C59_directory_partial :
  (forall d, do_subdirs d = [] -> do_subfiles d = [] ->
     exists d', copy_dir d = Ok d' /\ do_base d' = do_base d /\ do_rel d' = do_rel d /\ do_spidered d' = do_spidered d /\ do_subdirs d' = [] /\ do_subfiles d' = []) /\
  (forall me d, (length (do_subdirs d) <= length (do_subdirs me))%nat -> (length (do_subfiles d) <= length (do_subfiles me))%nat ->
     exists d', assign_dir me d = Ok d' /\ do_base d' = do_base d /\ do_rel d' = do_rel d /\ do_spidered d' = do_spidered d /\ do_type d' = do_type me /\
       do_subdirs d' = do_subdirs d ++ skipn (length (do_subdirs d)) (do_subdirs me) /\
       do_subfiles d' = do_subfiles d ++ skipn (length (do_subfiles d)) (do_subfiles me)) /\
  (forall me d, (length (do_subdirs me) < length (do_subdirs d) \/ length (do_subfiles me) < length (do_subfiles d))%nat -> assign_dir me d = Err EUB).
Proof.
  split; [|split].
  - intros d H1 H2. unfold copy_dir. rewrite H1, H2. eexists. split; [reflexivity|]. repeat split.
  - intros me d H1 H2. unfold assign_dir. destruct (copy_into_spec (do_subdirs d) (do_subdirs me)) as [A1 _], (copy_into_spec (do_subfiles d) (do_subfiles me)) as [B1 _].
    rewrite A1, B1 by auto. cbn [bind]. eexists. split; [reflexivity|]. repeat split.
  - intros me d H. unfold assign_dir. destruct (copy_into_spec (do_subdirs d) (do_subdirs me)) as [A1 A2], (copy_into_spec (do_subfiles d) (do_subfiles me)) as [B1 B2].
    destruct (Nat.lt_ge_cases (length (do_subdirs me)) (length (do_subdirs d))) as [L|L]; [rewrite A2 by auto; reflexivity|]. rewrite A1 by auto. cbn [bind].
    rewrite B2; [reflexivity|]. destruct H; [lia|auto].
Qed.
Print Assumptions C59_directory_partial.
Example C59_directory_witness : exists d, copy_dir {| do_base := b "base"; do_rel := b "d"; do_type := Some TDir; do_spidered := true; do_subdirs := []; do_subfiles := [] |} = Ok d /\
  assign_dir {| do_base := b "x"; do_rel := b "y"; do_type := Some TDir; do_spidered := false; do_subdirs := [1; 2]%nat; do_subfiles := [] |} d
  = Ok {| do_base := b "base"; do_rel := b "d"; do_type := Some TDir; do_spidered := true; do_subdirs := [1; 2]%nat; do_subfiles := [] |}.
Proof. eexists. split; reflexivity. Qed.
Example C59_witness : exists st, do_calls [] [CNew (b "base") (b "f") (Some TFile) 7 []; CHeaderSize 0; CCopy 0; CNew (b "x") (b "y") None 1 (b "z"); CAssign 2 1] = Ok st /\
  map ob_rel st = [b "f"; b "f"; b "f"] /\ map ob_hdr st = [512; 512; 512].
Proof. eexists. split; [vm_compute; reflexivity|]. split; vm_compute; reflexivity. Qed.

(** *** C60.  A directory object scanned any number of times while the file
    system changes between the calls: calls that cannot open it return -2 and
    change nothing, the first that can fills the object with what that scan
    finds, later ones return -1 and change nothing. *)
Theorem C60_rescan_partial : forall fuel base rel fss, (1 <= fuel)%nat ->
  (Forall (fun fs => f_readdir fs (dir_path base rel) = None) fss -> spider_calls fuel base fss (Fresh rel) = Ok (repeat (-2) (length fss), Fresh rel)) /\
  (forall pre fs post d z, fss = pre ++ fs :: post -> Forall (fun fs => f_readdir fs (dir_path base rel) = None) pre ->
     f_readdir fs (dir_path base rel) <> None -> spider fuel fs base rel = Ok (z, d) ->
     spider_calls fuel base fss (Fresh rel) = Ok (repeat (-2) (length pre) ++ 0 :: repeat (-1) (length post), Done rel d)).
Proof. exact spider_history. Qed.
Print Assumptions C60_rescan_partial.
(** false of the code: the value returned is never the number of entries found *)
Theorem C60_refuted : forall fuel fs base rel z d, spider_call fuel fs base (Fresh rel) = Ok (z, Done rel d) -> z = 0.
Proof.
  intros fuel fs base rel z d H. cbn [spider_call] in H. destruct (spider fuel fs base rel) as [[z' d']|] eqn:E; [|discriminate]. cbn [bind fst snd] in H.
  destruct (spider_value _ _ _ _ _ _ E) as [[_ ->]|[_ ->]]; cbn [Z.eqb Pos.eqb] in H; congruence.
Qed.
Print Assumptions C60_refuted.
Definition shut_fs : fsys := {| f_readdir := fun _ => None; f_lstat := fun _ => None; f_heap := fun _ => NUL |}.
Example C60_witness : exists d, spider_calls 9 (b "base") [shut_fs; s_fs; shut_fs; s_fs] (Fresh []) = Ok ([-2; 0; -1; -1], Done [] d) /\
  length (d_files d) = 2%nat /\ length (d_subs d) = 2%nat.
Proof. eexists. split; [vm_compute; reflexivity|]. split; vm_compute; reflexivity. Qed.

(** *** C61: false of the code for every entry with a name: the constructor
    from a catalog line ignores the line. *)
Theorem C61_refuted : forall o line o', obj_catalog_line o = Ok (line, o') -> ob_rel o <> [] -> ob_rel (from_catalog_line line) = [] /\ from_catalog_line line <> o.
Proof. intros o line o' _ H. split; [reflexivity|]. intros E. apply H. rewrite <- E. reflexivity. Qed.
Print Assumptions C61_refuted.
Example C61_witness : exists x, obj_catalog_line (new_obj (b "base") (b "f") (Some TFile) 7 []) = Ok x /\ fst x = b "f" ++ [TAB] ++ b "F" ++ [TAB] ++ [TAB] ++ b "7" ++ [TAB] ++ b "512" ++ [TAB; LF].
Proof. eexists. split; vm_compute; reflexivity. Qed.

(** *** C62: false of the code: whatever container objects have been made,
    copied and assigned, opening one stores the handle through a null pointer. *)
Theorem C62_refuted : forall cs st i c h, do_ccalls [] cs = Ok st -> nth_error st i = Some c -> open_cfile c h = Err EUB.
Proof.
  intros cs st i c h H E. pose proof (no_handle cs [] st (Forall_nil _) H) as F. rewrite Forall_forall in F.
  unfold open_cfile. rewrite (F c (nth_error_In _ _ E)). reflexivity.
Qed.
Print Assumptions C62_refuted.
(** what does hold: copies and assignments of container objects, whatever their
    state, name the same file, are open when the source is and share its handle *)
Theorem C62_copies_partial : forall st i c, nth_error st i = Some c ->
  do_ccall st (KCopy i) = Ok (st ++ [c]) /\ (forall j a, nth_error st j = Some a -> do_ccall st (KAssign j i) = Ok (replace st j c)).
Proof.
  intros st i c H. assert (E : copy_cfile c = c) by (destruct c; reflexivity). unfold do_ccall. split.
  - rewrite H, E. reflexivity.
  - intros j a Ha. rewrite Ha, H, E. reflexivity.
Qed.
Print Assumptions C62_copies_partial.
Example C62_witness : exists st, do_ccalls [] [KNew (b "a"); KCopy 0; KNew (b "b"); KAssign 0 2] = Ok st /\ length st = 3%nat.
Proof. eexists. split; reflexivity. Qed.

(** *** C63.  Partial: any index but the number of orders itself. *)
Theorem C63_name_of_order_partial : forall os i, zlen os < 2 ^ 31 -> INT_MIN <= i <= INT_MAX ->
  (forall o, 0 <= i -> nth_error os (Z.to_nat i) = Some o -> order_n_filename os i = Ok (o_rel o)) /\
  (i < 0 \/ zlen os < i -> order_n_filename os i = Ok []).
Proof.
  intros os i Hz Hi. unfold INT_MIN, INT_MAX in Hi. pose proof (zlen_nonneg os). unfold order_n_filename. split.
  - intros o H0 E. rewrite Z.mod_small by lia. pose proof (nth_error_len _ _ _ E). destruct (Z.ltb_spec (zlen os) i); [unfold zlen in *; lia|]. rewrite E. reflexivity.
  - intros [Hn|Hg].
    + assert (E : i mod 2 ^ 64 = i + 2 ^ 64) by (rewrite <- (Z_mod_plus_full i 1); apply Z.mod_small; lia).
      rewrite E. destruct (Z.ltb_spec (zlen os) (i + 2 ^ 64)); [reflexivity|lia].
    + rewrite Z.mod_small by lia. destruct (Z.ltb_spec (zlen os) i); [reflexivity|lia].
Qed.
Print Assumptions C63_name_of_order_partial.
(** false of the code there: the check lets it through and at() throws *)
Theorem C63_refuted : forall os, zlen os < 2 ^ 31 -> order_n_filename os (zlen os) = Err EThrow.
Proof.
  intros os Hz. pose proof (zlen_nonneg os). unfold order_n_filename. rewrite Z.mod_small by lia. rewrite Z.ltb_irrefl.
  destruct (nth_error os (Z.to_nat (zlen os))) eqn:E; [|reflexivity]. apply nth_error_len in E. unfold zlen in E. rewrite Nat2Z.id in E. lia.
Qed.
Print Assumptions C63_refuted.
Example C63_witness : let o := {| o_index := 0; o_rel := b "a"; o_type := "F"%char; o_target := []; o_size := 5; o_hdr := 512; o_pos := 1024; o_fpos := 0 |} in
  order_n_filename [o; o] 1 = Ok (b "a") /\ order_n_filename [o; o] 3 = Ok [] /\ order_n_filename [o; o] (-1) = Ok [] /\ order_n_filename [o; o] 2 = Err EThrow.
Proof. cbv zeta. repeat split; vm_compute; reflexivity. Qed.
