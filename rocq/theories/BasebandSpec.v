(** Specification of the baseband header and of the capture records.
    Bluetooth Core, Vol 2, Part B, 6.4 and 7.1.1; LINKTYPE_BLUETOOTH_BREDR_BB. *)
From Verif Require Import Prelude SnifferSpec.
Open Scope N_scope.

(** Polynomials over the field with two elements are numbers: the coefficient of D^i is the
    bit [i]. The multiples of [g] are the sums of shifts of [g]. *)
Inductive multiple (g : N) : N -> Prop :=
| no_shift : multiple g 0
| add_shift : forall a k, multiple g a -> multiple g (N.lxor a (N.shiftl g k)).

(** [r], of degree less than 8, is the remainder of [a] modulo [g] *)
Definition is_remainder (g a r : N) : Prop := r < 256 /\ multiple g (N.lxor a r).

(** D^8+D^7+D^5+D^2+D+1 = (D+1)(D^7+D^4+D^3+D^2+1) *)
Definition generator : N := 2 ^ 8 + 2 ^ 7 + 2 ^ 5 + 2 ^ 2 + 2 + 1.

(** The [n] low bits, in the opposite order *)
Fixpoint reversed (n : nat) (x : N) : N :=
  match n with
  | O => 0
  | S n => (x mod 2) * 2 ^ N.of_nat n + reversed n (x / 2)
  end.

(** The number of bits set among the [n] low ones *)
Fixpoint weight (n : nat) (x : N) : N :=
  match n with O => 0 | S n => x mod 2 + weight n (x / 2) end.

(** The 18 bits of a header: LT_ADDR, TYPE, FLOW, ARQN, SEQN, HEC *)
Record header := Header { lt_addr : N; packet_type : N; flow : N; arqn : N; seqn : N; hec : N }.
Definition read_header (h : N) : header :=
  Header (h mod 8) (h / 8 mod 16) (h / 128 mod 2) (h / 256 mod 2) (h / 512 mod 2) (h / 1024).

(** The header check of a receiver which knows the upper address part: bits are sent least
    significant first, and the bit sent first is the coefficient of the highest degree. The
    register starts with the address part, and the check bits are the remainder. *)
Definition header_ok (uap h : N) : Prop :=
  h < 2 ^ 18 /\
  is_remainder generator (N.lxor (N.shiftl (reversed 10 (h mod 1024)) 8) (N.shiftl uap 10)) (reversed 8 (h / 1024)).

(** Records: 22 bytes, then the payload *)
Record bb_record := BbRecord {
  b_transport : N; b_lower_lap : N; b_ref_lap : N; b_ref_uap : N; b_header : N; b_flags : N; b_payload : list N }.

Definition read_bb (l : list N) : option bb_record :=
  if Nat.ltb (length l) 22 then None
  else Some (BbRecord (nth 4 l 0 / 16) (from_le (firstn 4 (skipn 8 l))) (from_le (firstn 3 (skipn 12 l))) (nth 15 l 0)
                      (from_le (firstn 4 (skipn 16 l))) (from_le (firstn 2 (skipn 20 l))) (skipn 22 l)).

(** The records of a file *)
Fixpoint read_bodies (fuel : nat) (l : list N) : option (list (list N)) :=
  match l with
  | [] => Some []
  | _ =>
      match fuel with
      | O => None
      | S f =>
          if Nat.ltb (length l) 16 then None
          else
            let incl := N.to_nat (from_le (firstn 4 (skipn 8 l))) in
            let orig := N.to_nat (from_le (firstn 4 (skipn 12 l))) in
            let data := skipn 16 l in
            if negb (Nat.eqb incl orig) || Nat.ltb (length data) incl then None
            else match read_bodies f (skipn incl data) with
                 | Some rs => Some (firstn incl data :: rs)
                 | None => None
                 end
      end
  end.
Definition read_bb_file (l : list N) : option (list (list N)) :=
  if Nat.ltb (length l) 24 then None
  else if negb (from_le (firstn 4 l) =? 0xa1b2c3d4) then None
  else if negb (from_le (firstn 4 (skipn 20 l)) =? 255) then None
  else read_bodies (length l) (skipn 24 l).

(** The FHS payload: 144 bits and the CRC (Vol 2, Part B, 6.5.1.4) *)
Definition fhs_bits (p : list N) : N := from_le (firstn 18 p).
Definition fhs_lap (p : list N) : N := fhs_bits p / 2 ^ 34 mod 2 ^ 24.
Definition fhs_uap (p : list N) : N := fhs_bits p / 2 ^ 64 mod 2 ^ 8.
Definition fhs_nap (p : list N) : N := fhs_bits p / 2 ^ 72 mod 2 ^ 16.
Definition fhs_class (p : list N) : N := fhs_bits p / 2 ^ 88 mod 2 ^ 24.

(** The DM1 payload: a header byte (LLID, flow, length), the bytes, the CRC (6.6.2) *)
Definition dm1_llid (p : list N) : N := nth 0 p 0 mod 4.
Definition dm1_length (p : list N) : N := nth 0 p 0 / 8.
Definition dm1_bytes (p : list N) : list N := firstn (N.to_nat (dm1_length p)) (skipn 1 p).

(** What the capture of a page or of an LMP packet should show of the sender's address [a]
    (six bytes, least significant first) *)
Definition record_shows (a : list N) (packet_type : N) (payload_ok : list N -> Prop) (body : list N) : Prop :=
  exists r c, read_bb body = Some r /\ b_transport r = 3 /\ b_ref_uap r = nth 3 a 0 /\
    header_ok (nth 3 a 0) (b_header r) /\ read_header (b_header r) = Header 0 packet_type 1 1 1 c /\ payload_ok (b_payload r).
