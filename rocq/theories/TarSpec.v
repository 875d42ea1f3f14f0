(** SPECIFICATION, independent of the parfu model: what a tar reader that
    follows POSIX.1-2001 "ustar interchange format" + "pax extended header"
    sees in a byte sequence.  Nothing here is taken from parfu's writer. *)
From Verif Require Import Bytes.

(** ustar header: the seventeen fields and their widths (512 bytes). *)
Definition ustar_widths : list nat :=
  [100; 8; 8; 8; 12; 12; 8; 1; 100; 6; 2; 32; 32; 8; 8; 155; 12]%nat.

Fixpoint split_widths (ws : list nat) (l : bytes) : list bytes :=
  match ws with
  | [] => []
  | w :: ws' => firstn w l :: split_widths ws' (skipn w l)
  end.

(** octal number field: optional blanks, octal digits, ended by NUL or blank *)
Definition oct_field (l : bytes) : option Z :=
  let l1 := skip_space l in
  match l1 with
  | c :: _ =>
      match digit_val 8 c with
      | None => None
      | Some _ =>
          let '(v, rest) := scan_digits 8 l1 0 in
          match rest with
          | [] => Some v
          | t :: _ => if beq t NUL || beq t SP then Some v else None
          end
      end
  | [] => None
  end.

Definition byte_sum (l : bytes) : Z := fold_right (fun c a => byte_val c + a) 0 l.

Record uhdr := {
  u_name : bytes; u_mode : Z; u_uid : Z; u_gid : Z; u_size : Z; u_mtime : Z;
  u_type : byte; u_link : bytes; u_uname : bytes; u_gname : bytes }.

(** read one 512-byte block as a ustar header, checksum and magic verified *)
Definition read_block (blk : bytes) : option uhdr :=
  if negb (Nat.eqb (length blk) 512) then None else
  match split_widths ustar_widths blk with
  | [name; mode; uid; gid; size; mtime; chk; typ; lnk; magic; version; uname; gname; dmaj; dmin; prefix; pad] =>
      let sum := byte_sum name + byte_sum mode + byte_sum uid + byte_sum gid + byte_sum size
                 + byte_sum mtime + 8 * 32 + byte_sum typ + byte_sum lnk + byte_sum magic
                 + byte_sum version + byte_sum uname + byte_sum gname + byte_sum dmaj
                 + byte_sum dmin + byte_sum prefix + byte_sum pad in
      match oct_field mode, oct_field uid, oct_field gid, oct_field size, oct_field mtime, oct_field chk, typ with
      | Some m, Some u, Some g, Some s, Some t, Some c, [ty] =>
          if (c =? sum) && bytes_eqb magic (b "ustar" ++ [NUL]) && bytes_eqb version (b "00")
          then Some {| u_name := match cstr prefix with
                                 | [] => cstr name
                                 | p => p ++ [SLASH] ++ cstr name
                                 end;
                       u_mode := m; u_uid := u; u_gid := g; u_size := s; u_mtime := t;
                       u_type := ty; u_link := cstr lnk; u_uname := cstr uname; u_gname := cstr gname |}
          else None
      | _, _, _, _, _, _, _ => None
      end
  | _ => None
  end.

(** pax extended records: "%d %s=%s\n", the number counts the whole record *)
Fixpoint read_pax (fuel : nat) (l : bytes) : option (list (bytes * bytes)) :=
  match l with
  | [] => Some []
  | c :: _ =>
      match fuel with
      | O => None
      | S f =>
          match digit_val 10 c with
          | None => None
          | Some _ =>
              let '(n, rest) := scan_digits 10 l 0 in
              match rest with
              | sp :: body =>
                  if negb (beq sp SP) then None else
                  let reclen := Z.to_nat n in
                  let used := (length l - length body)%nat in
                  if ((reclen <=? used)%nat || (length l <? reclen)%nat)%bool then None else
                  let kv := firstn (reclen - used - 1) body in
                  match skipn (reclen - used - 1) body with
                  | e :: l' =>
                      if negb (beq e LF) then None else
                      match find_byte EQ kv with
                      | None => None
                      | Some i =>
                          match read_pax f l' with
                          | Some rs => Some ((firstn i kv, skipn (S i) kv) :: rs)
                          | None => None
                          end
                      end
                  | [] => None
                  end
              | [] => None
              end
          end
      end
  end.

(** last record with the given key wins *)
Fixpoint pax_get (k : bytes) (rs : list (bytes * bytes)) : option bytes :=
  match rs with
  | [] => None
  | (k', v) :: rs' =>
      match pax_get k rs' with
      | Some v' => Some v'
      | None => if bytes_eqb k k' then Some v else None
      end
  end.

Definition dec_value (l : bytes) : option Z :=
  match l with
  | [] => None
  | _ => match scan_digits 10 l 0 with (v, []) => Some v | _ => None end
  end.

Record member := {
  m_path : bytes; m_type : byte; m_link : bytes; m_mode : Z; m_uid : Z; m_gid : Z;
  m_mtime : Z; m_size : Z; m_uname : bytes; m_gname : bytes; m_data : bytes }.

Definition round512 (n : Z) : Z := (n + 511) / 512 * 512.

(** override the ustar values by the pax records *)
Definition apply_pax (rs : list (bytes * bytes)) (u : uhdr) : option uhdr :=
  let sz := match pax_get (b "size") rs with
            | None => Some (u_size u)
            | Some v => dec_value v
            end in
  match sz with
  | None => None
  | Some s =>
      Some {| u_name := match pax_get (b "path") rs with Some p => p | None => u_name u end;
              u_mode := u_mode u; u_uid := u_uid u; u_gid := u_gid u; u_size := s;
              u_mtime := u_mtime u; u_type := u_type u;
              u_link := match pax_get (b "linkpath") rs with Some p => p | None => u_link u end;
              u_uname := u_uname u; u_gname := u_gname u |}
  end.

(** header of one member: an optional 'x' block with its records, then the
    ustar block.  Returns the effective header and the bytes that follow. *)
Definition read_header (l : bytes) : option (uhdr * bytes) :=
  match read_block (firstn 512 l) with
  | None => None
  | Some u =>
      if beq (u_type u) "x"%char then
        let body := skipn 512 l in
        let n := Z.to_nat (u_size u) in
        if (length body <? n)%nat then None else
        match read_pax (S n) (firstn n body) with
        | None => None
        | Some rs =>
            let l2 := skipn (Z.to_nat (round512 (u_size u))) body in
            match read_block (firstn 512 l2) with
            | None => None
            | Some u2 =>
                match apply_pax rs u2 with
                | None => None
                | Some u3 => Some (u3, skipn 512 l2)
                end
            end
        end
      else Some (u, skipn 512 l)
  end.

Definition member_of (u : uhdr) (data : bytes) : member :=
  {| m_path := u_name u; m_type := u_type u; m_link := u_link u; m_mode := u_mode u;
     m_uid := u_uid u; m_gid := u_gid u; m_mtime := u_mtime u; m_size := u_size u;
     m_uname := u_uname u; m_gname := u_gname u; m_data := data |}.

(** one member: header, [size] bytes of data, padding to a block boundary *)
Definition read_member (l : bytes) : option (member * bytes) :=
  match read_header l with
  | None => None
  | Some (u, r) =>
      let n := Z.to_nat (u_size u) in
      let n' := Z.to_nat (round512 (u_size u)) in
      if (length r <? n')%nat then None
      else Some (member_of u (firstn n r), skipn n' r)
  end.

Definition all_zero (l : bytes) : bool := forallb (fun c => beq c NUL) l.

(** A whole archive: members until end of file or a zero block. *)
Fixpoint read_archive (fuel : nat) (l : bytes) : option (list member) :=
  match l with
  | [] => Some []
  | _ =>
      match fuel with
      | O => None
      | S f =>
          if ((512 <=? length l)%nat && all_zero (firstn 512 l))%bool then Some [] else
          match read_member l with
          | None => None
          | Some (m, r) =>
              match read_archive f r with
              | Some ms => Some (m :: ms)
              | None => None
              end
          end
      end
  end.

Definition tar_list (l : bytes) : option (list member) := read_archive (S (length l)) l.

(** the checksum rule on its own: the number in bytes 148..155 is the sum of
    all bytes of the block with those eight taken as blanks *)
Definition checksum_ok (blk : bytes) : Prop :=
  length blk = 512%nat /\
  oct_field (firstn 8 (skipn 148 blk)) =
  Some (byte_sum (firstn 148 blk) + 8 * 32 + byte_sum (skipn 156 blk)).
