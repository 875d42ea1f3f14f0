(** What is never written twice is never lost (C95, C96). *)
From Coq Require Import Lia Permutation.
From Verif Require Import Bytes Outcome Mover Worker Program Mpi ApartSpec.

Lemma overlap_sym w w' : overlap w w' -> overlap w' w.
Proof. intros (x & A & B). exists x. auto. Qed.
Lemma kept dk p x c : forall l, (exists ar, dk p = Some ar /\ ar_cell ar x = c) ->
  (forall r w, In (r, EvWrite p w) l -> ~ (w_pos w <= x < w_pos w + w_len w)) ->
  exists ar, disk_after dk l p = Some ar /\ ar_cell ar x = c.
Proof.
  intros l. revert dk. induction l as [|[r e] l IH]; intros dk (ar & Ha & Hc) Hn; [exists ar; split; auto|].
  change (disk_after dk ((r, e) :: l)) with (disk_after (on_disk dk e) l). apply IH; [|intros r' w' Hi; exact (Hn r' w' (or_intror Hi))].
  destruct e as [q ok|k|q|q w|q| |]; try (exists ar; split; auto; fail); cbn [on_disk]; unfold set_file.
  all: try (destruct ok; [|exists ar; split; auto]).
  all: destruct (bytes_eqb p q) eqn:E; [|exists ar; split; auto]; apply bytes_eqb_spec in E; subst q; rewrite Ha; eexists; (split; [reflexivity|]); auto.
  cbn [write_at ar_cell]. pose proof (Hn r w (or_introl eq_refl)) as N.
  destruct (Z.leb_spec (w_pos w) x); destruct (Z.ltb_spec x (w_pos w + w_len w)); cbn [andb]; auto. lia.
Qed.
Lemma twice_lost log : never_twice log -> nothing_lost log.
Proof.
  intros H dk r p w x Hi Hx. apply in_split in Hi as (l1 & l2 & E). rewrite E.
  unfold disk_after. rewrite fold_left_app. cbn [fold_left snd]. apply (kept _ p x).
  - cbn [on_disk]. unfold set_file. replace (bytes_eqb p p) with true by (symmetry; apply bytes_eqb_spec; reflexivity). eexists. split; [reflexivity|]. cbn [write_at ar_cell].
    destruct (Z.leb_spec (w_pos w) x); [|lia]. destruct (Z.ltb_spec x (w_pos w + w_len w)); [|lia]. reflexivity.
  - intros r' w' Hi Hx'. apply in_split in Hi as (l3 & l4 & E'). rewrite E' in E. apply (H _ _ _ _ _ _ _ _ E). exists x. auto.
Qed.
