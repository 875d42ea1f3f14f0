(** Property theorems C09-C15 and C47 (archive layout and planning). *)
From Coq Require Import Permutation Sorted.
From Verif Require Import Bytes Outcome TarModel Layout LayoutSpec LayoutProofs LayoutMore Samples.

(** Entries as the scan makes them meet the hypotheses below: [wf_item], and a
    header that fits every bucket the planner accepts (paths < 40000 bytes). *)
Theorem scanned_entry_wf : forall ty base rel target size e,
  mk_entry ty base rel target size = Ok e -> 0 <= size < 2 ^ 63 ->
  wf_item e /\
  (zlen base + 1 + zlen rel <= 40000 -> zlen target <= 40000 -> en_hdr e <= 100000) /\
  en_type e = ty /\ en_base e = base /\ en_rel e = rel /\ en_target e = target /\ en_size e = size.
Proof. exact mk_entry_wf. Qed.
Print Assumptions scanned_entry_wf.
Example a_plannable : plannable a_bucket a_dirs a_files.
Proof.
  unfold plannable. split; [vm_compute; discriminate|]. split; [vm_compute; reflexivity|]. split; [discriminate|].
  split; repeat constructor; vm_compute; try reflexivity; discriminate.
Qed.

(** *** C09 *)
Theorem C09_layout : forall dirs files d f,
  Forall wf_item (dirs ++ files) -> set_offsets dirs files = (d, f) ->
  map fst d = dirs /\ map fst f = files /\
  (forall e off, nth_error (d ++ f) 0 = Some (e, off) -> off = 0) /\
  (forall e off, In (e, off) (d ++ f) -> off mod 512 = 0) /\
  (* only padding below one block separates neighbours *)
  (forall i e off e' off', nth_error (d ++ f) i = Some (e, off) -> nth_error (d ++ f) (S i) = Some (e', off') ->
     off + en_hdr e + en_size e <= off' < off + en_hdr e + en_size e + 512) /\
  (forall i j e off e' off', (i < j)%nat -> nth_error (d ++ f) i = Some (e, off) -> nth_error (d ++ f) j = Some (e', off') ->
     off + en_hdr e + en_size e <= off').
Proof. exact C09_lemma. Qed.
Print Assumptions C09_layout.
Example C09_witness : Forall wf_item (a_dirs ++ a_files) /\
  let '(d, f) := set_offsets a_dirs a_files in map snd (d ++ f) = [0; 512; 1024; 1536; 2048; 4096; 66048].
Proof. split; [|vm_compute; reflexivity]. repeat constructor; vm_compute; try reflexivity; discriminate. Qed.

(** *** C10: for every result std::sort may deliver *)
Theorem C10_order_files : forall files files',
  Forall (fun e => 0 <= en_size e) files -> order_files files files' ->
  Permutation files files' /\
  (forall i j x y, nth_error files' i = Some x -> nth_error files' j = Some y ->
     en_target x <> [] -> en_target y = [] -> (i < j)%nat) /\
  (forall i j x y, (i < j)%nat -> nth_error files' i = Some x -> nth_error files' j = Some y ->
     en_target x = [] -> en_target y = [] -> en_size x <= en_size y).
Proof. exact C10_lemma. Qed.
Print Assumptions C10_order_files.
(** the comparison is the strict weak order std::sort requires, and the contract can be met *)
Theorem C10_comparison : strict_weak_order sort_by_size /\ (forall l, exists l', order_files l l').
Proof. split; [exact sort_by_size_swo|]. intros l. exists (isort l). apply isort_order_files. Qed.
Print Assumptions C10_comparison.
Example C10_witness : order_files (rev a_files) (isort (rev a_files)) /\ isort (rev a_files) = a_files.
Proof. split; [apply isort_order_files|vm_compute; reflexivity]. Qed.

(** *** C11: [orders_at os p] lists everything the orders put at archive byte p *)
Theorem C11_orders_cover : forall idx bucket maxo dirs files d f,
  plannable bucket dirs files -> set_offsets dirs files = (d, f) ->
  exists bs, create_transfer_orders idx bucket maxo d f = Ok (Some bs) /\
    (forall e off k, In (e, off) (d ++ f) ->
      (0 <= k < en_hdr e -> orders_at (concat bs) (off + k) = [CHdr (entry_id e) k]) /\
      (0 <= k < en_size e -> orders_at (concat bs) (off + en_hdr e + k) = [CData (entry_id e) k])) /\
    (forall p, (forall e off, In (e, off) (d ++ f) -> ~ (off <= p < off + en_hdr e + en_size e)) ->
      orders_at (concat bs) p = []).
Proof. exact C11_lemma. Qed.
Print Assumptions C11_orders_cover.
Example C11_witness : let '(d, f) := set_offsets a_dirs a_files in
  exists bs, create_transfer_orders 0 a_bucket 3 d f = Ok (Some bs) /\ map (@length order) bs = [3; 3; 1; 1; 1]%nat.
Proof. eexists. split; [vm_compute; reflexivity|vm_compute; reflexivity]. Qed.

(** *** C12 *)
Theorem C12_bundles_tile : forall idx bucket maxo dirs files d f,
  plannable bucket dirs files -> set_offsets dirs files = (d, f) ->
  exists bs z, create_transfer_orders idx bucket maxo d f = Ok (Some bs) /\ tiles 0 bs z /\
    (forall e off l', d ++ f = l' ++ [(e, off)] -> z = up512 (off + en_hdr e + en_size e)).
Proof. exact C12_lemma. Qed.
Print Assumptions C12_bundles_tile.
(** what [tiles] means *)
Theorem C12_tiles_meaning : forall bs a z, tiles a bs z ->
  (forall p, a <= p < z ->
    exists B, In B bs /\ bundle_start B <= p < bundle_start B + up512 (bundle_end B - bundle_start B)) /\
  (forall i j B B', (i < j)%nat -> nth_error bs i = Some B -> nth_error bs j = Some B' ->
    bundle_start B + up512 (bundle_end B - bundle_start B) <= bundle_start B').
Proof. intros bs a z H. split; [intros p Hp; exact (tiles_cover bs a z p H Hp)|intros i j B B'; exact (tiles_disjoint bs a z i j B B' H)]. Qed.
Print Assumptions C12_tiles_meaning.

(** *** C13: false of the code; proved when the files are in order of header+size,
    and in general only that two buckets suffice *)
Theorem C13_bundle_fits_partial : forall idx bucket maxo dirs files d f bs,
  plannable bucket dirs files -> set_offsets dirs files = (d, f) ->
  StronglySorted (fun x y => en_hdr x + en_size x <= en_hdr y + en_size y) files ->
  create_transfer_orders idx bucket maxo d f = Ok (Some bs) ->
  Forall (fun B => bundle_end B - bundle_start B <= bucket) bs.
Proof. exact C13_lemma. Qed.
Print Assumptions C13_bundle_fits_partial.
Example C13_witness : plannable a_bucket a_dirs a_files /\
  StronglySorted (fun x y => en_hdr x + en_size x <= en_hdr y + en_size y) a_files.
Proof. split; [exact a_plannable|]. repeat constructor; vm_compute; discriminate. Qed.
Theorem C13_two_buckets_partial : forall idx bucket maxo dirs files d f,
  plannable bucket dirs files -> set_offsets dirs files = (d, f) ->
  exists bs, create_transfer_orders idx bucket maxo d f = Ok (Some bs) /\
    Forall (fun B => bundle_end B - bundle_start B <= 2 * bucket) bs.
Proof. intros. destruct (plannable_ok idx bucket maxo dirs files d f) as (bs & w & E & _ & _ & _ & _ & _ & F & _); auto. eauto. Qed.
Print Assumptions C13_two_buckets_partial.
(** a collection in the order the sort delivers whose second bundle exceeds the bucket *)
Theorem C13_refuted : exists dirs files d f bs,
  plannable a_bucket dirs files /\ order_files files files /\ set_offsets dirs files = (d, f) /\
  create_transfer_orders 0 a_bucket 0 d f = Ok (Some bs) /\
  Exists (fun B => a_bucket < bundle_end B - bundle_start B) bs.
Proof.
  exists (firstn 1 a_dirs), c13_files. do 3 eexists. split; [|split; [|split; [vm_compute; reflexivity|split; [vm_compute; reflexivity|]]]].
  - unfold plannable. split; [vm_compute; discriminate|]. split; [vm_compute; reflexivity|]. split; [discriminate|].
    split; repeat constructor; vm_compute; try reflexivity; discriminate.
  - exact (isort_order_files c13_files).
  - apply Exists_exists. eexists. split; [right; right; left; reflexivity|]. vm_compute. reflexivity.
Qed.
Print Assumptions C13_refuted.

(** *** C14 *)
Theorem C14_max_orders : forall idx bucket maxo dirs files d f,
  plannable bucket dirs files -> set_offsets dirs files = (d, f) ->
  exists bs, create_transfer_orders idx bucket maxo d f = Ok (Some bs) /\
    (0 < maxo -> Forall (fun B => zlen B <= maxo) bs).
Proof. intros. destruct (plannable_ok idx bucket maxo dirs files d f) as (bs & w & E & _ & _ & _ & _ & F & _); auto. eauto. Qed.
Print Assumptions C14_max_orders.

(** *** C15 *)
Theorem C15_no_empty_bundle : forall idx bucket maxo dirs files d f,
  set_offsets dirs files = (d, f) ->
  (bucket < 100000 -> create_transfer_orders idx bucket maxo d f = Ok None) /\
  (dirs ++ files = [] -> create_transfer_orders idx bucket maxo d f = Ok None) /\
  (plannable bucket dirs files ->
   exists bs, create_transfer_orders idx bucket maxo d f = Ok (Some bs) /\ bs <> [] /\ Forall (fun B => B <> []) bs).
Proof. exact C15_lemma. Qed.
Print Assumptions C15_no_empty_bundle.
(** the alignment hypothesis is needed: called with an unaligned bucket size and
    a collection without directories the planner does emit an empty bundle *)
Theorem C15_unaligned_refuted : exists files d f bs, set_offsets [] files = (d, f) /\
  create_transfer_orders 0 100001 0 d f = Ok (Some bs) /\ In [] bs.
Proof.
  exists [force (mk_entry TFile (b "base") (b "f") [] (100001 - 512))]. do 3 eexists.
  split; [vm_compute; reflexivity|]. split; [vm_compute; reflexivity|]. left. reflexivity.
Qed.
Print Assumptions C15_unaligned_refuted.

(** *** C47 *)
Theorem C47_next_available : forall dirs files d f, set_offsets dirs files = (d, f) ->
  (forall e off l', d ++ f = l' ++ [(e, off)] -> Forall wf_item (dirs ++ files) ->
   up512 (fold_left (fun p e => next_available_after_me e p) (dirs ++ files) 0) = up512 (off + en_hdr e + en_size e)) /\
  (forall i e off, nth_error (d ++ f) i = Some (e, off) ->
     next_block_boundary (fold_left (fun p e => next_available_after_me e p) (firstn i (dirs ++ files)) 0) = off).
Proof. exact C47_lemma. Qed.
Print Assumptions C47_next_available.
Example C47_witness : fold_left (fun p e => next_available_after_me e p) (a_dirs ++ a_files) 0 = 66048 + 512 + 250000.
Proof. vm_compute. reflexivity. Qed.
