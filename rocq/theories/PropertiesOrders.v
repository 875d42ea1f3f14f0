(** Property theorems C16, C46 (text of orders and catalog lines). *)
From Verif Require Import Bytes Outcome TarModel Layout LayoutSpec LayoutProofs LayoutMore OrderCodec OrderCodecProofs OrderMore OrderRobust Samples.

(** *** C16.  Partial: names and targets without a tab, numbers below 2^31 (the
    parser uses stoi), text below 4 GiB. *)
Theorem C16_orders_roundtrip_partial : forall os,
  Forall (fun o => INT_MIN <= o_index o <= INT_MAX /\ no_byte TAB (o_rel o) /\ o_type o <> TAB /\ no_byte TAB (o_target o) /\
            0 <= o_size o <= INT_MAX /\ 0 <= o_hdr o <= INT_MAX /\ 0 <= o_pos o <= INT_MAX /\ 0 <= o_fpos o <= INT_MAX) os ->
  zlen (print_bundle os) < 2 ^ 32 - 2 ->
  parse_bundle (print_bundle os) = Ok os.
Proof. exact C16_lemma. Qed.
Print Assumptions C16_orders_roundtrip_partial.
(** ... in particular every bundle planned for an archive below 2 GiB *)
Theorem C16_planned_roundtrip_partial : forall idx bucket maxo dirs files d f bs,
  plannable bucket dirs files -> set_offsets dirs files = (d, f) ->
  create_transfer_orders idx bucket maxo d f = Ok (Some bs) ->
  Forall clean (dirs ++ files) -> INT_MIN <= idx <= INT_MAX ->
  (forall e off, In (e, off) (d ++ f) -> off + en_hdr e + en_size e < 2 ^ 31 - 512) ->
  (forall B, In B bs -> zlen (print_bundle B) < 2 ^ 32 - 2) ->
  forall B, In B bs -> parse_bundle (print_bundle B) = Ok B.
Proof. exact C16_planned_lemma. Qed.
Print Assumptions C16_planned_roundtrip_partial.
Example C16_witness :
  let '(d, f) := set_offsets a_dirs a_files in
  exists bs, create_transfer_orders 0 a_bucket 0 d f = Ok (Some bs) /\ plannable a_bucket a_dirs a_files /\
    Forall clean (a_dirs ++ a_files) /\
    Forall (fun eo => snd eo + en_hdr (fst eo) + en_size (fst eo) < 2 ^ 31 - 512) (d ++ f) /\
    Forall (fun B => zlen (print_bundle B) < 2 ^ 32 - 2) bs.
Proof.
  eexists. split; [vm_compute; reflexivity|]. split.
  { unfold plannable. split; [vm_compute; discriminate|]. split; [vm_compute; reflexivity|]. split; [discriminate|].
    split; repeat constructor; vm_compute; try reflexivity; discriminate. }
  split. { repeat constructor; vm_compute; intuition discriminate. }
  split; repeat constructor; vm_compute; reflexivity.
Qed.
(** the property is false of the code: past 2 GiB some worker always dies *)
Theorem C16_two_gib_refuted : forall idx bucket maxo dirs files d f bs e off,
  plannable bucket dirs files -> set_offsets dirs files = (d, f) ->
  create_transfer_orders idx bucket maxo d f = Ok (Some bs) ->
  Forall clean (dirs ++ files) -> INT_MIN <= idx <= INT_MAX ->
  (forall B, In B bs -> zlen (print_bundle B) < 2 ^ 32 - 2) ->
  In (e, off) (d ++ f) -> 2 ^ 31 <= off ->
  exists B, In B bs /\ parse_bundle (print_bundle B) = Err EThrow.
Proof. exact C16_two_gib_lemma. Qed.
Print Assumptions C16_two_gib_refuted.
Example C16_two_gib_witness :
  let files := [force (mk_entry TFile (b "base") (b "big") [] 3000000000); force (mk_entry TFile (b "base") (b "bigger") [] 3000000001)] in
  let '(d, f) := set_offsets a_dirs files in
  exists bs e off, create_transfer_orders 0 1073741824 0 d f = Ok (Some bs) /\ plannable 1073741824 a_dirs files /\
    Forall clean (a_dirs ++ files) /\ Forall (fun B => zlen (print_bundle B) < 2 ^ 32 - 2) bs /\ In (e, off) (d ++ f) /\ 2 ^ 31 <= off.
Proof.
  do 3 eexists. split; [vm_compute; reflexivity|]. split.
  { unfold plannable. split; [vm_compute; discriminate|]. split; [vm_compute; reflexivity|]. split; [discriminate|].
    split; repeat constructor; vm_compute; try reflexivity; discriminate. }
  split. { repeat constructor; vm_compute; intuition discriminate. }
  split. { repeat constructor; vm_compute; reflexivity. }
  split; [right; right; right; left; vm_compute; reflexivity|]. vm_compute. discriminate.
Qed.
(** ... and so does every file or directory name with one tab in it *)
Theorem C16_tab_refuted : forall n1 n2 o r,
  o_rel o = n1 ++ [TAB] ++ n2 -> no_byte TAB n1 -> no_byte TAB n2 -> o_target o = [] ->
  o_type o <> TAB -> INT_MIN <= o_index o <= INT_MAX ->
  zlen (print_order o ++ r) < 2 ^ 32 - 2 -> parse_bundle (print_order o ++ r) = Err EThrow.
Proof. exact C16_tab_lemma. Qed.
Print Assumptions C16_tab_refuted.
(** a name with six tabs is even parsed without complaint, as a different order *)
Example C16_tab_silent : exists o o', parse_bundle (print_order o) = Ok [o'] /\ o_rel o <> o_rel o'.
Proof.
  exists {| o_index := 0; o_rel := b "a" ++ [TAB] ++ b "F" ++ [TAB] ++ [TAB] ++ b "1" ++ [TAB] ++ b "512" ++ [TAB] ++ b "0" ++ [TAB] ++ b "0";
            o_type := "F"%char; o_target := []; o_size := 5; o_hdr := 512; o_pos := 1024; o_fpos := 0 |}.
  eexists. split; [vm_compute; reflexivity|]. vm_compute. discriminate.
Qed.

(** *** C46.  Partial: path and target without a tab. *)
Theorem C46_catalog_line_partial : forall e e',
  no_byte TAB (en_rel e) -> no_byte TAB (en_rel e') -> no_byte TAB (en_target e) -> no_byte TAB (en_target e') ->
  0 <= en_size e -> 0 <= en_size e' -> 0 <= en_hdr e -> 0 <= en_hdr e' ->
  catalog_line e = catalog_line e' ->
  en_rel e = en_rel e' /\ en_type e = en_type e' /\ en_target e = en_target e' /\ en_size e = en_size e' /\ en_hdr e = en_hdr e'.
Proof. exact C46_lemma. Qed.
Print Assumptions C46_catalog_line_partial.
Example C46_witness : map catalog_line (firstn 2 a_files) =
  [b "lnk" ++ [TAB] ++ b "L" ++ [TAB] ++ b "target" ++ [TAB] ++ b "0" ++ [TAB] ++ b "512" ++ [TAB; LF];
   b "empty" ++ [TAB] ++ b "F" ++ [TAB] ++ [TAB] ++ b "0" ++ [TAB] ++ b "512" ++ [TAB; LF]].
Proof. vm_compute. reflexivity. Qed.
Theorem C46_refuted : exists e e',
  mk_entry TLink (b "base") (b "a") (b "b" ++ [TAB] ++ b "L" ++ [TAB] ++ b "c") 0 = Ok e /\
  mk_entry TLink (b "base") (b "a" ++ [TAB] ++ b "L" ++ [TAB] ++ b "b") (b "c") 0 = Ok e' /\
  catalog_line e = catalog_line e' /\ en_rel e <> en_rel e'.
Proof. do 2 eexists. split; [vm_compute; reflexivity|]. split; [vm_compute; reflexivity|]. split; [vm_compute; reflexivity|]. vm_compute. discriminate. Qed.
Print Assumptions C46_refuted.

(** *** C57.  What the parser does with text that is not a whole bundle.
    Partial: names and targets without tab or newline.  Any prefix of the text
    of a bundle (a message cut short anywhere) is either rejected or, cut
    exactly between two orders, read as the orders it holds. *)
Theorem C57_truncated_partial : forall os p q,
  Forall (fun o => sendable o /\ o_type o <> LF /\ no_byte LF (o_rel o) /\ no_byte LF (o_target o)) os ->
  zlen (print_bundle os) < 2 ^ 32 - 2 -> p ++ q = print_bundle os ->
  (exists k, p = print_bundle (firstn k os) /\ parse_bundle p = Ok (firstn k os)) \/ parse_bundle p = Err EThrow.
Proof. exact truncated. Qed.
Print Assumptions C57_truncated_partial.
(** Partial: any lines whatever of seven tabs or more each.  Every line is read
    by itself (as if it were alone), the call ends, and the first line that is
    wrong makes it throw ([first_bad]: all results, or the first error). *)
Theorem C57_lines_partial : forall ls, Forall (fun l => (7 <= count_occ ascii_dec l TAB)%nat /\ no_byte LF l) ls ->
  zlen (flat_map (fun l => l ++ [LF]) ls) < 2 ^ 32 - 2 ->
  exists xs, length xs = length ls /\ parse_bundle (flat_map (fun l => l ++ [LF]) ls) = first_bad xs /\
    (forall k l, nth_error ls k = Some l -> exists x, nth_error xs k = Some x /\ parse_bundle (l ++ [LF]) = first_bad [x] /\
       (x = Err EThrow \/ exists o, x = Ok o)).
Proof. exact lines_lemma. Qed.
Print Assumptions C57_lines_partial.
(** [parse_bundle] gives the loop [length s + 1] rounds; a call that ends at all ends within them *)
Theorem C57_rounds : forall s fuel, parse_orders fuel s 0 <> Err EHang -> parse_orders fuel s 0 = parse_bundle s.
Proof. exact fuel_enough. Qed.
Print Assumptions C57_rounds.
(** false of the code: a good line followed by one that lacks its last field
    (and so the tab before it) makes the constructor loop for ever *)
Theorem C57_refuted : forall o1 o2, sendable o1 -> sendable o2 -> o_type o1 <> LF -> no_byte LF (o_rel o1) -> no_byte LF (o_target o1) ->
  zlen (print_order o1 ++ cut_line o2) < 2 ^ 32 - 2 ->
  forall fuel, parse_orders fuel (print_order o1 ++ cut_line o2) 0 = Err EHang.
Proof. exact hangs. Qed.
Print Assumptions C57_refuted.
(** ... and a line of two numbers is accepted as an order with all eight fields *)
Theorem C57_garbage_refuted : forall i j, 0 <= i <= INT_MAX -> 0 <= j <= INT_MAX ->
  exists c, parse_bundle (print_int i ++ [TAB] ++ print_int j ++ [LF]) =
    Ok [{| o_index := i; o_rel := print_int j ++ [LF]; o_type := c; o_target := print_int j ++ [LF]; o_size := i; o_hdr := j; o_pos := i; o_fpos := j |}].
Proof. exact garbage. Qed.
Print Assumptions C57_garbage_refuted.
Example C57_witness :
  let o := {| o_index := 0; o_rel := b "a"; o_type := "F"%char; o_target := []; o_size := 5; o_hdr := 512; o_pos := 1024; o_fpos := 0 |} in
  (sendable o /\ o_type o <> LF /\ no_byte LF (o_rel o) /\ no_byte LF (o_target o)) /\
  cut_line o = b "0" ++ [TAB] ++ b "a" ++ [TAB] ++ b "F" ++ [TAB] ++ [TAB] ++ b "5" ++ [TAB] ++ b "512" ++ [TAB] ++ b "1024" ++ [LF] /\
  parse_bundle (print_bundle [o; o] ++ firstn 5 (print_order o)) = Err EThrow /\
  parse_bundle (firstn (length (print_order o)) (print_bundle [o; o])) = Ok [o] /\
  parse_bundle (b "0" ++ [TAB] ++ b "a" ++ [TAB] ++ [TAB] ++ [TAB] ++ b "5" ++ [TAB] ++ b "512" ++ [TAB] ++ b "1024" ++ [TAB] ++ b "0" ++ [LF]) = Err EThrow.
Proof.
  cbv zeta. split. { unfold sendable, no_byte, int31. cbn. intuition (try discriminate; try lia). }
  split; [vm_compute; reflexivity|]. split; [vm_compute; reflexivity|]. split; vm_compute; reflexivity.
Qed.
