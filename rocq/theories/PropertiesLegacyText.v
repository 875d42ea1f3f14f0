(** Property theorem C90 (0.5.1: making the catalog text is memory safe). *)
From Coq Require Import Lia.
From Verif Require Import Bytes Outcome TarModel TarProofs Legacy LegacyLayout LegacySpec LegacyCodec LegacyCodecProofs Samples LegacySend LegacyEndMore LegacyTotal PropertiesLegacy PropertiesEnd.

Lemma wrap32_le z : - 2147483648 <= z -> wrap32 z <= z.
Proof.
  intros H. unfold wrap32. pose proof (Z.mod_le (z + 2147483648) 4294967296). lia.
Qed.
Lemma room_fits fuel : forall size total need s, room fuel size total need = Some s -> 0 <= total -> 0 <= need -> total + 1 <= size -> total + need + 1 <= s.
Proof.
  induction fuel as [|f IH]; intros size total need s; cbn [room]; intros H H1 H2 H3;
    pose proof (wrap32_le (size - total) ltac:(lia)) as W; destruct (Z.ltb_spec (wrap32 (size - total)) (need + 1)); try discriminate.
  - assert (s = size) by congruence. lia.
  - destruct (MAX_BUFFER <? size * 2); [discriminate|]. apply IH in H; lia.
  - assert (s = size) by congruence. lia.
Qed.
Lemma add_lines_safe ls : forall size out, zlen out + 1 <= size -> exists r, add_lines size out ls = Ok r.
Proof.
  induction ls as [|x ls IH]; intros size out H; cbn [add_lines]; [eauto|].
  destruct (room 40 size (zlen out) (zlen x)) as [s|] eqn:E; [|eauto].
  apply room_fits in E; [|apply zlen_nonneg|apply zlen_nonneg|lia].
  destruct (Z.ltb_spec s (zlen out + zlen x + 1)); [lia|]. apply IH. rewrite zlen_app. lia.
Qed.

(** C90: the text is made, or refused, without a byte written outside the
    buffer, for every list of 1 to 10,737,418 entries, whatever their names *)
Theorem C90_text_safe_partial : forall l bkt arch, 0 <= bkt <= INT_MAX -> 1 <= zlen l <= 10737418 ->
  exists r, list_to_buffer l bkt arch = Ok r.
Proof.
  intros l bkt arch Hb Hl. unfold list_to_buffer. unfold INT_MAX in *.
  destruct (Z.ltb_spec 2147483647 (200 * zlen l)); [lia|].
  destruct (Z.ltb_spec ((if arch then 512 else 0) + 200 * zlen l) 56); [destruct arch; lia|].
  destruct (add_lines_safe (map (line arch) l) ((if arch then 512 else 0) + 200 * zlen l) (cat_head 0 bkt (zlen l) arch)) as (r & ->).
  { rewrite cat_head_zlen by (change (10 ^ 10) with 10000000000; lia). lia. }
  cbn [bind]. destruct r as [out|]; [|eauto]. destruct (_ =? 10); eauto.
Qed.
Print Assumptions C90_text_safe_partial.

(** and not refused when the strings of the entries and 216 bytes for each come
    to less than 500 million bytes *)
Definition weight (e : lent) : Z :=
  zlen (l_rel e) + zlen (l_arc e) + zlen (l_tgt e) + match l_pname e with Some p => zlen p | None => 6 end + 216.
Theorem C90_text_made_partial : forall l bkt arch, 100000 <= bkt <= 500000000 -> 1 <= zlen l <= 4000000 -> Forall sendable l ->
  fold_right (fun e z => weight e + z) 0 l <= 499999000 -> exists buf, list_to_buffer l bkt arch = Ok (Some buf).
Proof.
  intros l bkt arch Hb Hl Hs Hw. apply list_to_buffer_some; [exact Hb|exact Hl|]. revert Hw.
  enough (H : zlen (concat (map (line arch) l)) <= fold_right (fun e z => weight e + z) 0 l) by lia. clear Hb Hl.
  induction Hs as [|e l He Hs IH]; [reflexivity|]. cbn [map concat fold_right]. rewrite zlen_app.
  enough (zlen (line arch e) <= weight e) by lia. unfold weight.
  pose proof (full_line_len e He) as F. pose proof (archive_line_len e He) as A. unfold pad_text in F.
  pose proof (zlen_nonneg (l_rel e)). destruct arch; cbn [line].
  - assert (0 <= match l_pname e with Some p => zlen p | None => 6 end) by (destruct (l_pname e); [apply zlen_nonneg|lia]). lia.
  - destruct (l_pname e); [lia|]. change (zlen (b "(null)")) with 6 in F. lia.
Qed.
Print Assumptions C90_text_made_partial.

(** FALSE of the code for more entries (the size of the buffer is an int
    product) and for the empty list *)
Theorem C90_refuted :
  (forall l bkt arch, 10737418 < zlen l -> list_to_buffer l bkt arch = Err EUB) /\
  (forall bkt, list_to_buffer [] bkt false = Err EUB).
Proof.
  split.
  - intros l bkt arch H. unfold list_to_buffer, INT_MAX. destruct (Z.ltb_spec 2147483647 (200 * zlen l)); [reflexivity|lia].
  - reflexivity.
Qed.
Print Assumptions C90_refuted.

Example C90_witness : let l := [one_entry (b "d/a") (b "a"); one_entry (b "d/b c") (b "b c")] in
  1 <= zlen l <= 4000000 /\ Forall sendable l /\ fold_right (fun e z => weight e + z) 0 l <= 499999000 /\
  exists buf, list_to_buffer l 102400 false = Ok (Some buf) /\ 100 < zlen buf.
Proof.
  cbv zeta. split; [unfold zlen; cbn [length]; lia|]. split.
  - apply Forall_cons; [|apply Forall_cons; [|apply Forall_nil]]; apply one_send; split; nb.
  - split; [vm_compute; discriminate|]. eexists. split; [vm_compute; reflexivity|vm_compute; reflexivity].
Qed.
