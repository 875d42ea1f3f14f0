(** SPECIFICATION for C102: the order of the members as a tar reader lists them.
    Models nothing in /repo. *)
From Verif Require Import Bytes TarSpec.

(** of two members, the first before the second: no directory comes after
    something else, no link after a file, no file after a larger one ("5"
    directory, "2" symbolic link, "0" regular file) *)
Definition in_size_order (ms : list member) : Prop :=
  forall i j x y, (i < j)%nat -> nth_error ms i = Some x -> nth_error ms j = Some y ->
    (m_type y = "5"%char -> m_type x = "5"%char) /\
    (m_type y = "2"%char -> m_type x <> "0"%char) /\
    (m_type x = "0"%char -> m_type y = "0"%char -> m_size x <= m_size y).
