(** An independent reader for capture files: draft-gharris-opsawg-pcap-00 (file
    header of 24 bytes, records of 16 header bytes and data) with the
    LINKTYPE_BLUETOOTH_HCI_H4_WITH_PHDR record format: a four byte big endian
    direction, the H4 type byte, the packet. *)
From Verif Require Import Prelude.
Open Scope N_scope.

Fixpoint from_le (l : list N) : N :=
  match l with [] => 0 | b :: l' => b + 256 * from_le l' end.

Record record := { r_sec : N; r_usec : N; r_dir : N; r_type : N; r_bytes : list N }.

(** Decode one record body of exactly the captured length. *)
Definition read_body (sec usec : N) (body : list N) : option record :=
  match body with
  | d3 :: d2 :: d1 :: d0 :: ty :: rest =>
      Some {| r_sec := sec; r_usec := usec;
              r_dir := d0 + 256 * (d1 + 256 * (d2 + 256 * d3)); r_type := ty; r_bytes := rest |}
  | _ => None
  end.

(** Read records until the end of file; [None] when a record is cut short or
    its captured length differs from its original length. *)
Fixpoint read_records (fuel : nat) (l : list N) : option (list record) :=
  match l with
  | [] => Some []
  | _ =>
      match fuel with
      | O => None
      | S f =>
          if Nat.ltb (length l) 16 then None
          else
            let sec := from_le (firstn 4 l) in
            let usec := from_le (firstn 4 (skipn 4 l)) in
            let incl := N.to_nat (from_le (firstn 4 (skipn 8 l))) in
            let orig := N.to_nat (from_le (firstn 4 (skipn 12 l))) in
            let data := skipn 16 l in
            if negb (Nat.eqb incl orig) || Nat.ltb (length data) incl then None
            else
              match read_body sec usec (firstn incl data), read_records f (skipn incl data) with
              | Some r, Some rs => Some (r :: rs)
              | _, _ => None
              end
      end
  end.

(** A whole file: magic 0xa1b2c3d4 (microsecond time stamps), version 2.4,
    link type 201. *)
Definition read_file (l : list N) : option (list record) :=
  if Nat.ltb (length l) 24 then None
  else if negb (from_le (firstn 4 l) =? 0xa1b2c3d4) then None
  else if negb (from_le (firstn 4 (skipn 20 l)) =? 201) then None
  else read_records (length l) (skipn 24 l).
