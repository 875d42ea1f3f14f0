(** SPECIFICATION of the bytes an archive should hold. *)
From Verif Require Import Bytes Outcome TarSpec TarModel Layout LayoutSpec Mover.

(** the header tarentry produces for a path (its meaning is given by C02-C06) *)
Definition file_header (ev : env) (path : bytes) : option bytes :=
  match new_tarentry (e_lstat ev) path 0 with
  | Ok e => match make_tar_header (e_names ev) e with Ok h => Some h | Err _ => None end
  | Err _ => None
  end.

(** the byte meant by a [content] *)
Definition meant (ev : env) (base : bytes) (c : content) : option byte :=
  match c with
  | CHdr (rel, _, _) k => match file_header ev (full_name base rel) with Some h => nth_error h (Z.to_nat k) | None => None end
  | CData (rel, _, _) k => match e_data ev (full_name base rel) with Some d => nth_error d (Z.to_nat k) | None => None end
  end.

(** the file system serves an order: its header still has the planned length
    and the wanted piece of the file is there *)
Definition serves (ev : env) (base : bytes) (o : order) : Prop :=
  (o_hdr o = 0 \/ exists h, file_header ev (full_name base (o_rel o)) = Some h /\ zlen h = o_hdr o) /\
  (o_size o = 0 \/ exists d, e_data ev (full_name base (o_rel o)) = Some d /\ 0 <= o_fpos o /\ o_fpos o + o_size o <= zlen d).

(** the cell a list of orders asks for at archive byte [p]; [None] = nothing asked *)
Definition asked (ev : env) (base : bytes) (os : list order) (p : Z) : option cell :=
  match orders_at os p with
  | [] => None
  | c :: _ => Some (match meant ev base c with Some x => Byte x | None => Undef end)
  end.

(** the file system still shows entry [e] as it was scanned: its header has the
    length reserved for it, and (unless empty) its contents are readable and
    not shorter than recorded *)
Definition unchanged (ev : env) (base : bytes) (e : entry) : Prop :=
  (exists h, file_header ev (full_name base (en_rel e)) = Some h /\ zlen h = en_hdr e) /\
  (en_size e = 0 \/ exists d, e_data ev (full_name base (en_rel e)) = Some d /\ en_size e <= zlen d).

(** member [m] names the owner and group of [s] as the system does (first 31
    bytes; the tar fields hold 32 with the terminating NUL) *)
Definition owned_as (nm : names) (s : stat) (m : member) : Prop :=
  exists un gn, user_name nm (st_uid s) = Some un /\ group_name nm (st_gid s) = Some gn /\
    m_uname m = firstn 31 (cstr un) /\ m_gname m = firstn 31 (cstr gn).
