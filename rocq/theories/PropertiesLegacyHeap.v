(** Property theorems C64 (memory of the 0.5.1 entry lists). *)
From Verif Require Import Bytes Outcome TarModel Legacy LegacyProofs LegacyLayout LegacyHeap LegacyHeapProofs PropertiesLegacy.
From Coq Require Import ZifyBool ZifyNat ZifyN.
Ltac Zify.zify_post_hook ::= Z.div_mod_to_equations.

(** *** C64: freeing a list gives back exactly the memory taken for it.  The part
    that holds, with its exact boundary: a list created with room for [n], to which
    [k] entries were added, can be freed - and then the allocated blocks are those
    from before its creation - exactly when it never grew ([k <= n]) or is full to
    the last slot ([k = n 2^j]); otherwise freeing it reads pointers nobody ever
    assigned.  [h]: any heap whose allocated blocks were allocated. *)
Theorem C64_free_partial : forall n qs h,
  2 <= n -> zlen qs < 2 ^ 30 -> Forall (fun p => p < next h)%nat (live h) ->
  let k := zlen (filter (fun q => match q_type q, q_tgt q with LLnk, None => false | _, _ => true end) qs) in
  exists h1 l, h_build n qs h = Ok (Some (h1, l)) /\
    ((k <= n \/ exists j, 0 <= j /\ k = n * 2 ^ j) ->
       exists h2, h_free l h1 = Ok h2 /\ forall p, In p (live h2) <-> In p (live h)) /\
    (~ (k <= n \/ exists j, 0 <= j /\ k = n * 2 ^ j) -> h_free l h1 = Err EUB).
Proof. intros n qs h Hn Hq Hs. exact (build_free n qs h Hn Hs Hq). Qed.
Print Assumptions C64_free_partial.
Definition no_heap : heap := {| next := 3; live := [2; 0]%nat |}.
Example C64_free_witness :
  (exists h1 l h2, h_build 2 [req (b "a") LReg; req (b "b") LReg; req (b "c") LDir; req (b "d") LReg] no_heap = Ok (Some (h1, l)) /\
     h_free l h1 = Ok h2 /\ live h2 = [2; 0]%nat /\ length (live h1) = 15%nat) /\
  (exists h1 l, h_build 2 [req (b "a") LReg; req (b "b") LReg; req (b "c") LDir] no_heap = Ok (Some (h1, l)) /\ h_free l h1 = Err EUB).
Proof. split; [eexists; eexists; eexists; split; [vm_compute; reflexivity|]; split; [vm_compute; reflexivity|]; split; vm_compute; reflexivity|eexists; eexists; split; vm_compute; reflexivity]. Qed.

(** FALSE of the code in general: the directory listing makes its list with room
    for 100 entries (parfu_file_list_utils.cc 1222); no list of 101 to 199 entries
    can be freed. *)
Theorem C64_refuted : forall qs h, Forall (fun p => p < next h)%nat (live h) -> Forall (fun q => q_type q <> LLnk) qs -> 100 < zlen qs < 200 ->
  exists h1 l, h_build 100 qs h = Ok (Some (h1, l)) /\ h_free l h1 = Err EUB.
Proof.
  intros qs h Hs Hq Hk. assert (Hf : filter accepted qs = qs).
  { clear -Hq. induction Hq as [|q qs H1 H2 IH]; [reflexivity|]. cbn [filter]. unfold accepted at 1. destruct (q_type q); try congruence; rewrite IH; reflexivity. }
  destruct (build_free 100 qs h ltac:(lia) Hs ltac:(change (2 ^ 30) with 1073741824; lia)) as (h1 & l & E & _ & B). exists h1, l. split; [exact E|]. apply B.
  rewrite Hf. intros [C|(j & Hj & C)]; [lia|]. destruct (Z.eq_dec j 0) as [->|]; [rewrite Z.pow_0_r in C; lia|].
  assert (2 ^ 1 <= 2 ^ j) by (apply Z.pow_le_mono_r; lia). change (2 ^ 1) with 2 in *. lia.
Qed.
Print Assumptions C64_refuted.
Example C64_refuted_witness : let qs := repeat (req (b "a") LReg) 101 in
  Forall (fun q => q_type q <> LLnk) qs /\ 100 < zlen qs < 200.
Proof. cbv zeta. split; [apply Forall_forall; intros q Hq; apply repeat_spec in Hq; subst q; discriminate|]. vm_compute. split; reflexivity. Qed.

(** the layout.  [src] is the incoming list with the entries [l] (no pad names
    yet).  If padding was needed anywhere, the incoming list and the split list
    cannot both be freed; if it was needed before a file of several fragments, the
    split list cannot be freed at all. *)
Theorem C64_pads_refuted : forall blk P pad l src h es fs nb,
  0 < P -> Forall (fun e => l_pname e = None) l -> zlen l <= h_total src <= zlen (h_cells src) -> zlen fs < 2 ^ 30 ->
  set_offsets_and_split blk P pad l = Ok (Some (es, fs, nb)) ->
  exists h' src' out, h_split blk P pad l src h = Ok (Some (h', (src', out))) /\
    (Exists (fun e => l_pname e <> None) es ->
       (forall h1, h_free src' h' = Ok h1 -> h_free out h1 = Err EUB) /\
       (forall h1, h_free out h' = Ok h1 -> h_free src' h1 = Err EUB)) /\
    (Exists (fun f => l_pname f <> None /\ 2 <= l_nfrag f) fs -> h_free out h' = Err EUB).
Proof. exact split_padded. Qed.
Print Assumptions C64_pads_refuted.
(** without padding the incoming list is as before and the split list can be
    freed exactly when it is full: no file was cut, or to a power of two *)
Theorem C64_split_partial : forall blk P pad l src h es fs nb,
  0 < P -> Forall (fun p => p < next h)%nat (live h) -> Forall (fun e => l_pname e = None) l ->
  zlen l <= h_total src <= zlen (h_cells src) -> zlen fs < 2 ^ 30 ->
  Forall (fun c => c_pad c = Null) (firstn (length l) (h_cells src)) ->
  set_offsets_and_split blk P pad l = Ok (Some (es, fs, nb)) -> Forall (fun e => l_pname e = None) es ->
  exists h' out, h_split blk P pad l src h = Ok (Some (h', (src, out))) /\
    ((zlen fs <= zlen l \/ exists j, 0 <= j /\ zlen fs = zlen l * 2 ^ j) -> exists h1, h_free out h' = Ok h1 /\ forall p, In p (live h1) <-> In p (live h)) /\
    (~ (zlen fs <= zlen l \/ exists j, 0 <= j /\ zlen fs = zlen l * 2 ^ j) -> h_free out h' = Err EUB).
Proof. exact split_plain. Qed.
Print Assumptions C64_split_partial.

(** both on real lists: three small files share a bucket; the layout of C38
    needs padding *)
Definition h_src (l : list lent) : outcome (option (heap * hlist)) :=
  h_build (zlen l) (map (fun e => name_request (l_type e) (l_rel e) (l_arc e) (Some (l_tgt e)) (l_size e) (l_hdr e)) l) no_heap.
Definition low : list lent := [ent (b "a") 100 512; ent (b "b") 200 512; ent (b "c") 300 512].
Definition padless (e : lent) : bool := match l_pname e with None => true | Some _ => false end.
Definition s_layout (l : list lent) : list lent * list lent :=
  match set_offsets_and_split 512 4096 (b ".parfu_space") l with Ok (Some (es, fs, _)) => (es, fs) | _ => ([], []) end.
Example C64_split_witness :
  (exists h1 src h2 out h3 h4, h_src low = Ok (Some (h1, src)) /\ forallb padless (fst (s_layout low)) = true /\
     h_split 512 4096 (b ".parfu_space") low src h1 = Ok (Some (h2, (src, out))) /\ h_free out h2 = Ok h3 /\ h_free src h3 = Ok h4 /\ live h4 = [2; 0]%nat) /\
  (exists h1 src h2 src' out, h_src lay = Ok (Some (h1, src)) /\ forallb padless (fst (s_layout lay)) = false /\ length (snd (s_layout lay)) = 6%nat /\
     h_split 512 4096 (b ".parfu_space") lay src h1 = Ok (Some (h2, (src', out))) /\ h_free out h2 = Err EUB).
Proof.
  split.
  - do 6 eexists. split; [vm_compute; reflexivity|]. split; [vm_compute; reflexivity|]. split; [vm_compute; reflexivity|]. split; [vm_compute; reflexivity|]. split; vm_compute; reflexivity.
  - do 5 eexists. split; [vm_compute; reflexivity|]. split; [vm_compute; reflexivity|]. split; [vm_compute; reflexivity|]. split; vm_compute; reflexivity.
Qed.
(** the hypotheses of the theorem about padding: a small file, then one of three
    fragments; the split list has 4 = 2 * 2 entries, so only the padding matters *)
Definition deep : list lent := [ent (b "a") 100 512; ent (b "d") 9000 512].
Example C64_pads_witness : Exists (fun e => l_pname e <> None) (fst (s_layout lay)) /\ length (snd (s_layout deep)) = 4%nat /\
  Exists (fun f => l_pname f <> None /\ 2 <= l_nfrag f) (snd (s_layout deep)) /\ Forall (fun e => l_pname e = None) deep.
Proof.
  split; [|split; [vm_compute; reflexivity|split]].
  - apply Exists_exists. eexists. split; [|]. { vm_compute. right. left. reflexivity. } vm_compute. discriminate.
  - apply Exists_exists. eexists. split; [|]. { vm_compute. do 2 right. left. reflexivity. } vm_compute. split; discriminate.
  - repeat constructor.
Qed.

(** the memory model and the model of the contents (Legacy.v) make the same
    decisions: same return values, counters and allocated slots *)
Theorem C64_models_agree : forall n qs h, 2 <= n ->
  exists h1 a l, h_create n h = Ok (Some (h1, a)) /\ create_list n = Ok (Some l) /\
    match add_all (Some l) qs with
    | Ok (_, Some l') => exists h' a', h_adds qs h1 a = Ok (h', a') /\ h_total a' = n_total l' /\ h_full a' = n_full l' /\ length (h_cells a') = length (slots l')
    | Ok (_, None) => False
    | Err e => h_adds qs h1 a = Err e
    end.
Proof.
  intros n qs h Hn. unfold h_create, create_list. replace (n <? 1) with false by lia. replace (n <? 2) with false by lia. do 3 eexists. split; [reflexivity|]. split; [reflexivity|].
  match goal with |- context [h_adds qs ?x ?y] => match goal with |- context [add_all (Some ?z) qs] => pose proof (models_agree qs x y z) as M end end.
  destruct (add_all _ qs) as [[vs [l'|]]|e].
  - destruct M as (h' & a' & E & A1 & A2 & A3 & _); [|eauto 8]. repeat split; cbn; rewrite ?repeat_length; auto.
  - apply M. repeat split; cbn; rewrite ?repeat_length; auto.
  - apply M. repeat split; cbn; rewrite ?repeat_length; auto.
Qed.
Print Assumptions C64_models_agree.
Example C64_agree_witness : exists h1 l, h_build 2 [req (b "a") LReg; req (b "s") LLnk; req (b "b") LReg; req (b "c") LDir; req (b "d") LReg; req (b "e") LReg] no_heap = Ok (Some (h1, l)) /\
  h_total l = 8 /\ h_full l = 5.
Proof. eexists. eexists. split; [vm_compute; reflexivity|]. split; vm_compute; reflexivity. Qed.
