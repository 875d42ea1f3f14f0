(** Property theorems C17, C18, C34 (assembling a bucket). *)
From Verif Require Import Bytes Outcome TarModel Layout LayoutSpec LayoutProofs LayoutMore Mover MoverSpec MoverProofs MoverMore Samples.

(** *** C17.  Partial: for bundles that fit (see C13) and entries whose header
    still has the planned length. EUB is an access outside the buffer. *)
Theorem C17_inside_buffer_partial : forall ev base idx bucket maxo dirs files d f bs B,
  plannable bucket dirs files -> set_offsets dirs files = (d, f) ->
  create_transfer_orders idx bucket maxo d f = Ok (Some bs) ->
  Forall (unchanged ev base) (dirs ++ files) -> In B bs ->
  bundle_end B - bundle_start B <= bucket ->
  exists w, move_data_Create ev base bucket B = Ok w.
Proof. intros. destruct (bundle_image ev base idx bucket maxo dirs files d f bs B) as (w & E & _); auto. eauto. Qed.
Print Assumptions C17_inside_buffer_partial.
(** the sorted two-file collection of C13_refuted makes a worker write past its buffer *)
Theorem C17_refuted : exists dirs files d f bs B,
  plannable a_bucket dirs files /\ order_files files files /\ Forall (unchanged t_env (b "base")) (dirs ++ files) /\
  set_offsets dirs files = (d, f) /\ create_transfer_orders 0 a_bucket 0 d f = Ok (Some bs) /\ In B bs /\
  move_data_Create t_env (b "base") a_bucket B = Err EUB.
Proof.
  exists (firstn 1 a_dirs), c13_files. do 4 eexists. split.
  { unfold plannable. split; [vm_compute; discriminate|]. split; [vm_compute; reflexivity|]. split; [discriminate|].
    split; repeat constructor; vm_compute; try reflexivity; discriminate. }
  split; [exact (isort_order_files c13_files)|]. split.
  { cbn [firstn a_dirs c13_files app]. repeat (constructor; [split; [eexists; split; [vm_compute; reflexivity|vm_compute; reflexivity]|first [left; vm_compute; reflexivity|right; eexists; split; [reflexivity|vm_compute; discriminate]]]|]). constructor. }
  split; [vm_compute; reflexivity|]. split; [vm_compute; reflexivity|]. split; [right; right; left; reflexivity|]. vm_compute. reflexivity.
Qed.
Print Assumptions C17_refuted.

(** *** C18.  Partial: everything is in place, the tail after the last entry is
    zero, but the padding between entries of a bundle is whatever malloc returned. *)
Theorem C18_bucket_image_partial : forall ev base idx bucket maxo dirs files d f bs B,
  plannable bucket dirs files -> set_offsets dirs files = (d, f) ->
  create_transfer_orders idx bucket maxo d f = Ok (Some bs) ->
  Forall (unchanged ev base) (dirs ++ files) -> In B bs ->
  bundle_end B - bundle_start B <= bucket ->
  exists w, move_data_Create ev base bucket B = Ok w /\
    w_pos w = bundle_start B /\ w_len w = up512 (bundle_end B - bundle_start B) /\
    forall p, bundle_start B <= p < bundle_start B + w_len w ->
      match layout_at (d ++ f) p with
      | c :: _ => exists x, meant ev base c = Some x /\ w_mem w (p - bundle_start B) = Byte x
      | [] => w_mem w (p - bundle_start B) = if p <? bundle_end B then Undef else Byte NUL
      end.
Proof.
  intros. destruct (bundle_image ev base idx bucket maxo dirs files d f bs B) as (w & E & E1 & E2 & _ & E3); auto. exists w. auto.
Qed.
Print Assumptions C18_bucket_image_partial.
Lemma t_unchanged : Forall (unchanged t_env (b "base")) (a_dirs ++ a_files).
Proof.
  cbn [a_dirs a_files app]. repeat (constructor; [split; [eexists; split; [vm_compute; reflexivity|vm_compute; reflexivity]|first [left; vm_compute; reflexivity|right; eexists; split; [reflexivity|vm_compute; discriminate]]]|]). constructor.
Qed.
Lemma t_plannable : plannable a_bucket a_dirs a_files.
Proof.
  unfold plannable. split; [vm_compute; discriminate|]. split; [vm_compute; reflexivity|]. split; [discriminate|].
  split; repeat constructor; vm_compute; try reflexivity; discriminate.
Qed.
(** the first bundle of the sample tree, and a byte of it that is padding *)
Theorem C18_refuted : exists dirs files d f bs B w p,
  plannable a_bucket dirs files /\ Forall (unchanged t_env (b "base")) (dirs ++ files) /\
  set_offsets dirs files = (d, f) /\ create_transfer_orders 0 a_bucket 0 d f = Ok (Some bs) /\ In B bs /\
  bundle_end B - bundle_start B <= a_bucket /\
  move_data_Create t_env (b "base") a_bucket B = Ok w /\
  bundle_start B <= p < bundle_start B + w_len w /\ layout_at (d ++ f) p = [] /\ w_mem w (p - bundle_start B) = Undef.
Proof.
  destruct (set_offsets a_dirs a_files) as [d f] eqn:Es.
  destruct (create_transfer_orders 0 a_bucket 0 d f) as [[bs|]|] eqn:Ec; [|exfalso; vm_compute in Es; injection Es as <- <-; vm_compute in Ec; discriminate..].
  destruct bs as [|B bs]; [exfalso; vm_compute in Es; injection Es as <- <-; vm_compute in Ec; discriminate|].
  assert (HB : bundle_start B = 0 /\ bundle_end B = 65632).
  { clear -Es Ec. vm_compute in Es; injection Es as <- <-; vm_compute in Ec. injection Ec as <- _. vm_compute. auto. }
  destruct HB as [B1 B2].
  destruct (bundle_image t_env (b "base") 0 a_bucket 0 a_dirs a_files d f (B :: bs) B t_plannable Es Ec t_unchanged (or_introl eq_refl)) as (w & E & E1 & E2 & _ & E3).
  { rewrite B1, B2. vm_compute. discriminate. }
  exists a_dirs, a_files, d, f, (B :: bs), B, w, 4000. 
  split; [exact t_plannable|]. split; [exact t_unchanged|]. split; auto. split; auto. split; [left; auto|].
  rewrite B1, B2 in *. split; [vm_compute; discriminate|]. split; auto.
  assert (L : layout_at (d ++ f) 4000 = []) by (vm_compute in Es; injection Es as <- <-; vm_compute; reflexivity).
  assert (Hr : 0 <= 4000 < 0 + w_len w) by (rewrite E2; vm_compute; split; [discriminate|reflexivity]).
  split; auto. split; auto. specialize (E3 4000 Hr). rewrite L in E3. rewrite E3. reflexivity.
Qed.
Print Assumptions C18_refuted.

(** *** C34: false; the number of target files left open after a bundle is the
    number of its orders with contents, without bound. *)
Theorem C34_open_count_partial : forall ev base bucket start m k o m' k',
  move_order ev base bucket start (m, k) o = Ok (m', k') ->
  k' = k + (if (negb (o_size o =? 0) && match e_data ev (full_name base (o_rel o)) with Some _ => true | None => false end)%bool then 1 else 0).
Proof. exact move_order_opens. Qed.
Print Assumptions C34_open_count_partial.
Theorem C34_refuted : forall limit, exists ev base bucket os w,
  move_data_Create ev base bucket os = Ok w /\ limit < w_opens w.
Proof.
  intros limit.
  pose (ev := {| e_names := a_names; e_lstat := fun _ => Some (st_reg 1, []); e_data := fun _ => Some (b "x") |}).
  pose (n := S (Z.to_nat limit)).
  assert (Hs : serves ev [] {| o_index := 0; o_rel := b "f"; o_type := "F"%char; o_target := []; o_size := 1; o_hdr := 512; o_pos := 0; o_fpos := 0 |}).
  { split; right; eexists; split; [vm_compute; reflexivity|vm_compute; reflexivity|reflexivity|vm_compute; split; discriminate]. }
  destruct (many_opens ev [] n) as (w & E & O); [unfold n; lia|..].
  - unfold many_orders. apply Forall_forall. intros o Ho. apply in_map_iff in Ho as (i & <- & _). exact Hs.
  - exists ev, [], (1024 * Z.of_nat n), (many_orders n), w. split; auto. unfold n in *. lia.
Qed.
Print Assumptions C34_refuted.
