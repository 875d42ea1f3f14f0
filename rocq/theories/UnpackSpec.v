(** SPECIFICATION for C69, C70: what a careful tar program does when it unpacks
    the members of an archive, one after the other, below some directory.
    Nothing here is taken from parfu. *)
From Verif Require Import Bytes TarSpec.

(** a path cut at its slashes; "" and "." name no new place, so "/a//./b/" is
    a, b (the slash in front is ignored, as tar does) *)
Fixpoint cut (cur : bytes) (l : bytes) : list bytes :=
  match l with
  | [] => [cur]
  | c :: l' => if beq c SLASH then cur :: cut [] l' else cut (cur ++ [c]) l'
  end.
Definition names_nothing (c : bytes) : bool := bytes_eqb c [] || bytes_eqb c (b ".").
Definition components (path : bytes) : list bytes := filter (fun c => negb (names_nothing c)) (cut [] path).

(** what is at a place below the directory: a directory that was there before,
    or what was made of a member *)
Inductive thing := Given | Made (m : member).
Definition place := list bytes -> option thing.
Fixpoint same_place (p q : list bytes) : bool :=
  match p, q with
  | [], [] => true
  | x :: p', y :: q' => bytes_eqb x y && same_place p' q'
  | _, _ => false
  end.
Definition put (S : place) (q : list bytes) (o : thing) : place := fun q' => if same_place q q' then Some o else S q'.
Definition is_directory (o : option thing) : bool :=
  match o with Some Given => true | Some (Made m) => beq (m_type m) "5"%char | None => false end.

(** one member.  It fails if the path contains "..", if the directory to put it
    in is not there (a symbolic link does not count), if a directory should
    replace anything made before, or if anything should replace a directory. *)
Definition unpack_one (S : place) (m : member) : option place :=
  let q := components (m_path m) in
  if existsb (bytes_eqb (b "..")) q then None
  else if negb (match q with [] => true | _ => is_directory (S (removelast q)) end) then None
  else if beq (m_type m) "5"%char then
    match S q with None | Some Given => Some (put S q (Made m)) | Some (Made _) => None end
  else if beq (m_type m) "0"%char || beq (m_type m) "2"%char then
    match q with [] => None | _ => if is_directory (S q) then None else Some (put S q (Made m)) end
  else None.
Fixpoint unpack (S : place) (ms : list member) : option place :=
  match ms with
  | [] => Some S
  | m :: ms' => match unpack_one S m with Some S' => unpack S' ms' | None => None end
  end.

(** there is room for [q] in [S]: the directory to put it in, and nothing at or
    below it, unless [q] is the directory itself, and then that is empty *)
Definition room_for (S : place) (q : list bytes) : Prop :=
  (q <> [] -> is_directory (S (removelast q)) = true /\ S q = None) /\ (q = [] -> S q = Some Given) /\
  forall p, p <> [] -> S (q ++ p) = None.
