(** Properties of the 0.5.1 entry lists, layout and bucket distribution. *)
From Verif Require Import Bytes Outcome TarModel Legacy LegacyProofs LegacyLayout LegacySpec LegacyLayoutProofs LegacyRanks LegacyMore.
From Coq Require Import Sorted Permutation Lia.

(** *** C37: the comparison the sort uses is a total preorder on entries, equal
    exactly for the same size and archive name; so a sorted arrangement of the
    same entries is determined up to entries with the same size and name. *)
Theorem C37_total_preorder :
  (forall x y, compare_entries y x = - compare_entries x y) /\
  (forall x y z, compare_entries x y <= 0 -> compare_entries y z <= 0 -> compare_entries x z <= 0) /\
  (forall x y, compare_entries x y = 0 <-> l_size x = l_size y /\ l_arc x = l_arc y) /\
  (forall x y, l_size x < l_size y -> compare_entries x y < 0).
Proof.
  split; [exact compare_opp|]. split; [exact compare_trans|]. split.
  - intros x y. rewrite compare_eq. unfold key. split; [intros E; injection E; auto|intros (-> & ->); auto].
  - intros x y H. unfold compare_entries. destruct (Z.ltb_spec (l_size y) (l_size x)); [lia|]. destruct (Z.ltb_spec (l_size x) (l_size y)); lia.
Qed.
Print Assumptions C37_total_preorder.
Theorem C37_sorted_unique : forall l1 l2,
  StronglySorted (fun x y => compare_entries x y <= 0) l1 -> StronglySorted (fun x y => compare_entries x y <= 0) l2 ->
  Permutation l1 l2 -> map (fun e => (l_size e, l_arc e)) l1 = map (fun e => (l_size e, l_arc e)) l2.
Proof. intros l1 l2. exact (sorted_unique l1 l2). Qed.
Print Assumptions C37_sorted_unique.

(** sample entries *)
Definition ent (name : bytes) (size hdr : Z) : lent :=
  {| l_rel := name; l_arc := name; l_type := LReg; l_tgt := []; l_size := size; l_hdr := hdr; l_loc := -1; l_orig := -1;
     l_ploc := -1; l_pname := None; l_phdr := -1; l_psize := -1; l_nfrag := -1; l_fptr := -1; l_bucket := -1 |}.
Example C37_witness : compare_entries (ent (b "a") 5 512) (ent (b "b") 5 512) = -1 /\ compare_entries (ent (b "a") 6 512) (ent (b "b") 5 512) = 1.
Proof. split; reflexivity. Qed.

(** *** C38, the part that holds: the bucket size is a multiple of the blocking
    size, and entries that fit a bucket come before those that do not.  Then every
    fragment lies inside its bucket, fragments do not overlap, and the fragments are
    - per entry, in order - the entry itself or consecutive pieces covering it. *)
Theorem C38_layout_partial : forall blk P pad l es fs nb,
  0 < blk -> 0 < P -> P mod blk = 0 -> Forall (fun e => l_hdr e < P) l -> small_first blk P l ->
  set_offsets_and_split blk P pad l = Ok (Some (es, fs, nb)) ->
  Forall (in_bucket P) fs /\ apart fs /\ Forall (fun f => 0 <= frag_start f) fs /\
  exists groups, fs = concat groups /\ Forall2 (split_of blk P) l groups.
Proof. exact C38_lemma. Qed.
Print Assumptions C38_layout_partial.
(** sorting provides the order when all headers have the same size *)
Theorem C38_sorted_list : forall blk P h l, 0 < blk ->
  StronglySorted (fun x y => compare_entries x y <= 0) l -> Forall (fun e => l_hdr e = h) l -> small_first blk P l.
Proof. exact sorted_small_first. Qed.
Print Assumptions C38_sorted_list.
(** and the layout is made: it does not return a null list *)
Theorem C38_succeeds_partial : forall blk P pad l,
  512 <= blk -> 0 < P <= MAX_FILE_SIZE -> P mod blk = 0 -> zlen pad <= 100 -> 2 <= zlen l ->
  Forall (fun e => 0 < l_hdr e < P /\ zlen (l_tgt e) <= 100) l -> small_first blk P l ->
  exists es fs nb, set_offsets_and_split blk P pad l = Ok (Some (es, fs, nb)).
Proof. exact succeeds_lemma. Qed.
Print Assumptions C38_succeeds_partial.

(** a layout with all three cases of the code *)
Definition lay : list lent := [ent (b "a") 100 512; ent (b "b") 3000 512; ent (b "c") 3100 512; ent (b "d") 9000 512].
Example C38_witness :
  StronglySorted (fun x y => compare_entries x y <= 0) lay /\ Forall (fun e => l_hdr e = 512) lay /\
  exists es fs, set_offsets_and_split 512 4096 (b ".parfu_space") lay = Ok (Some (es, fs, 5)) /\
    map (fun f => (l_bucket f, l_loc f, l_orig f, l_size f)) fs =
      [(0, 512, 0, 100); (1, 4608, 0, 3000); (2, 8704, 0, 3100); (3, 12800, 0, 3584); (4, 16384, 3584, 4096); (5, 20480, 7680, 1320)] .
Proof.
  split; [repeat (apply SSorted_cons; [|repeat (apply Forall_cons; [vm_compute; discriminate|]); apply Forall_nil]); apply SSorted_nil|].
  split; [repeat (apply Forall_cons; [reflexivity|]); apply Forall_nil|].
  eexists. eexists. split; [vm_compute; reflexivity|]. vm_compute. reflexivity.
Qed.
(** FALSE of the code in general: a sorted list of two files where the one with
    the larger header does not fit a bucket: the next file is written where that
    one ended, with a stale position in the bucket, and runs over the end of its
    bucket (sizes of the default bucket, header of a name longer than 100 bytes). *)
Theorem C38_refuted : exists l es fs nb f,
  StronglySorted (fun x y => compare_entries x y <= 0) l /\
  set_offsets_and_split 512 102400 (b ".parfu_space") l = Ok (Some (es, fs, nb)) /\ In f fs /\ ~ in_bucket 102400 f.
Proof.
  exists [ent (b "a") 101376 1536; ent (b "b") 101376 512].
  eexists. eexists. eexists. eexists. 
  split; [apply SSorted_cons; [apply SSorted_cons; [apply SSorted_nil|apply Forall_nil]|apply Forall_cons; [vm_compute; discriminate|apply Forall_nil]]|].
  split; [vm_compute; reflexivity|]. split; [right; right; left; reflexivity|].
  unfold in_bucket. vm_compute. intros (H1 & H2). apply H2. reflexivity.
Qed.
Print Assumptions C38_refuted.
(** a directory with nothing in it gives a list of one entry: undefined behaviour *)
Theorem C38_refuted_single : forall blk P pad e, set_offsets_and_split blk P pad [e] = Err EUB.
Proof. reflexivity. Qed.
Print Assumptions C38_refuted_single.

(** *** C39: rank r of R works on the buckets i with i mod R = r, each once; hence
    every bucket is processed by exactly one rank, exactly once. *)
Theorem C39_round_robin : forall R len,
  (forall r, 0 <= r < R -> NoDup (rank_loop R r len)) /\
  (forall i, 0 < R -> 0 <= i < len -> exists! r, 0 <= r < R /\ In i (rank_loop R r len)) /\
  (forall r i, 0 <= r < R -> In i (rank_loop R r len) -> 0 <= i < len).
Proof.
  intros R len. split; [intros r H; apply (rank_loop_spec R r len H)|]. split.
  - intros i HR Hi. exists (i mod R). pose proof (Z.mod_pos_bound i R HR) as B. split.
    + split; [exact B|]. apply (rank_loop_spec R (i mod R) len B). auto.
    + intros r (Hr & Hin). apply (rank_loop_spec R r len Hr) in Hin. tauto.
  - intros r i Hr Hin. apply (rank_loop_spec R r len Hr) in Hin. tauto.
Qed.
Print Assumptions C39_round_robin.
Example C39_witness_loop : rank_loop 3 1 8 = [1; 4; 7] /\ rank_loop 3 2 8 = [2; 5] /\ rank_loop 3 0 8 = [0; 3; 6].
Proof. repeat split; reflexivity. Qed.

(** once the start-up check has accepted the list, every entry belongs to one of the
    buckets handed out, and a rank working on bucket i visits exactly the entries of
    bucket i, in order. *)
Theorem C39_visits_exactly : forall l starts,
  rank_call_list l = Ok (Some starts) -> check_calls l 0 starts = Ok true ->
  Forall (fun e => 0 <= l_bucket e < zlen starts) l /\
  forall i, 0 <= i < zlen starts -> visited l starts i = Ok (filter (fun e => l_bucket e =? i) l).
Proof. exact visited_lemma. Qed.
Print Assumptions C39_visits_exactly.

(** and the check accepts the layout of any list as in C38 where every file larger
    than a bucket leaves room for a header in its last bucket (partial: see below). *)
Theorem C39_check_accepts_partial : forall blk P pad l es fs nb,
  0 < blk -> 0 < P -> P mod blk = 0 -> small_first blk P l -> Forall (fun e => fits blk P e \/ room_left blk P e) l ->
  set_offsets_and_split blk P pad l = Ok (Some (es, fs, nb)) ->
  exists starts, rank_call_list fs = Ok (Some starts) /\ check_calls fs 0 starts = Ok true.
Proof. exact accepted_lemma. Qed.
Print Assumptions C39_check_accepts_partial.
(** a header of one block always has room *)
Theorem C39_room : forall blk P e, 0 < blk -> 0 < P -> P mod blk = 0 -> l_hdr e <= blk -> room_left blk P e.
Proof. exact room_lemma. Qed.
Print Assumptions C39_room.
Example C39_witness :
  Forall (fun e => fits 512 4096 e \/ room_left 512 4096 e) lay /\
  exists es fs nb starts, set_offsets_and_split 512 4096 (b ".parfu_space") lay = Ok (Some (es, fs, nb)) /\
    rank_call_list fs = Ok (Some starts) /\ check_calls fs 0 starts = Ok true /\ starts = [0; 1; 2; 3; 4; 5] /\
    exists f, visited fs starts 4 = Ok [f] /\ l_orig f = 3584.
Proof.
  split.
  - repeat (apply Forall_cons; [first [left; vm_compute; discriminate|right; right; vm_compute; discriminate]|]). apply Forall_nil.
  - eexists. eexists. eexists. eexists. split; [vm_compute; reflexivity|]. split; [vm_compute; reflexivity|]. split; [vm_compute; reflexivity|].
    split; [vm_compute; reflexivity|]. eexists. split; vm_compute; reflexivity.
Qed.
(** FALSE of the code in general: two files larger than a bucket with headers of
    three blocks (names over 100 bytes), the first leaving less than a header of room: its header is counted twice, the layout skips a
    bucket and the start-up check refuses the list (the program gives up). *)
Theorem C39_refuted : exists l es fs nb starts,
  StronglySorted (fun x y => compare_entries x y <= 0) l /\ Forall (fun e => l_hdr e = 1536) l /\
  set_offsets_and_split 512 102400 (b ".parfu_space") l = Ok (Some (es, fs, nb)) /\
  rank_call_list fs = Ok (Some starts) /\ check_calls fs 0 starts = Ok false.
Proof.
  exists [ent (b "a") 202240 1536; ent (b "b") 202240 1536]. eexists. eexists. eexists. eexists.
  split; [apply SSorted_cons; [apply SSorted_cons; [apply SSorted_nil|apply Forall_nil]|apply Forall_cons; [vm_compute; discriminate|apply Forall_nil]]|].
  split; [repeat (apply Forall_cons; [reflexivity|]); apply Forall_nil|].
  split; [vm_compute; reflexivity|]. split; vm_compute; reflexivity.
Qed.
Print Assumptions C39_refuted.

(** *** C43: a list created for two or more entries, then any number of additions:
    every addition succeeds (0) except a symlink without target (-1, nothing added),
    and the list then holds exactly the accepted entries, in order, within its
    allocation. *)
Theorem C43_append : forall n qs, 2 <= n <= INT_MAX -> zlen qs < 2 ^ 30 ->
  exists l l',
    create_list n = Ok (Some l) /\
    add_all (Some l) qs = Ok (map (fun q => match q_type q, q_tgt q with LLnk, None => -1 | _, _ => 0 end) qs, Some l') /\
    let kept := filter (fun q => match q_type q, q_tgt q with LLnk, None => false | _, _ => true end) qs in
    n_full l' = zlen kept /\ n_full l' <= n_total l' <= zlen (slots l') /\
    firstn (length kept) (slots l') = map (fun q => Some (stored q)) kept.
Proof.
  intros n qs Hn Hq. destruct (create_holds n) as (l & E & H & Ht); [lia|].
  destruct (add_all_holds qs l [] H) as (l' & Ea & H'); [exact Hq|lia|].
  exists l, l'. split; auto. split.
  - rewrite Ea. f_equal. f_equal. apply map_ext. intros q. unfold accepted. destruct (q_type q), (q_tgt q); reflexivity.
  - destruct H' as (A & B & _ & D). cbn [app] in A, D. unfold zlen in *. rewrite map_length in A, D. split; [exact A|]. split; [exact B|]. transitivity (map Some (map stored (filter accepted qs))); [exact D|apply map_map].
Qed.
Print Assumptions C43_append.
Definition req (name : bytes) (ty : ltype) : request := name_request ty name name None 7 512.
Example C43_witness : exists l, create_list 2 = Ok (Some l) /\ exists l',
  add_all (Some l) [req (b "a") LReg; req (b "s") LLnk; req (b "b") LReg; req (b "c") LDir; req (b "d") LReg; req (b "e") LReg] = Ok ([0; -1; 0; 0; 0; 0], Some l') /\
  n_total l' = 8 /\ n_full l' = 5.
Proof. eexists. split; [reflexivity|]. eexists. split; [vm_compute; reflexivity|]. split; vm_compute; reflexivity. Qed.
(** FALSE of the code for a list of one entry: creating it writes past the allocation *)
Theorem C43_refuted : create_list 1 = Err EUB.
Proof. reflexivity. Qed.
Print Assumptions C43_refuted.
