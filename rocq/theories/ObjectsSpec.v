(** SPECIFICATION for C58: of which link target a header size speaks. *)
From Verif Require Import Bytes Layout TarModel Objects.

(** For each object of a history: its link target now, and the link target it
    (or the object it was copied or assigned from) had when its header size was
    first asked for, if ever. *)
Definition asked (x : bytes * option bytes) : bytes * option bytes :=
  (fst x, Some (match snd x with Some t => t | None => fst x end)).
Definition first_asked_step (l : list (bytes * option bytes)) (c : call) : list (bytes * option bytes) :=
  match c with
  | CNew _ _ _ _ tgt => l ++ [(tgt, None)]
  | CFromLine _ => l ++ [([], None)]
  | CCopy i => l ++ [nth i l ([], None)]
  | CAssign i j => replace l i (nth j l ([], None))
  | CSetTarget i t => replace l i (t, snd (nth i l ([], None)))
  | CHeaderSize i | CCatalogLine i | CNextAvailable i _ => replace l i (asked (nth i l ([], None)))
  end.
Definition first_asked (cs : list call) : list (bytes * option bytes) := fold_left first_asked_step cs [].
