(** Model of the baseband capture writer: model/devices/baseband_sniffer.cc and the
    packet layouts of packets/bredr_bb_packets.pdl. The class of device of a PAGE packet
    and the payload of an LMP packet are those of the received packet; time stamps are
    those of include/pcap.h (Sniffer.write_record_header). *)
From Verif Require Import Prelude Sniffer.
Open Scope N_scope.

(** baseband_sniffer.cc:51-60; the nibble table *)
Definition lookup : list N := [0; 8; 4; 12; 2; 10; 6; 14; 1; 9; 5; 13; 3; 11; 7; 15].
Definition reverse_byte (b : N) : N :=
  N.lor (N.shiftl (nth (N.to_nat (N.land b 15)) lookup 0) 4) (nth (N.to_nat (N.shiftr b 4)) lookup 0).

(** baseband_sniffer.cc:66-75, the loop, [n] times *)
Fixpoint hec_loop (n : nat) (value data : N) : N :=
  match n with
  | O => value
  | S n =>
      let bit := N.odd (N.lxor value data) in
      let value := N.shiftr value 1 in
      hec_loop n (if bit then N.lxor value 0xe5 else value) (N.shiftr data 1)
  end.
(** 62-78 *)
Definition header_error_check (uap data : N) : N := hec_loop 10 (reverse_byte uap) data.

(** 80-91 *)
Definition bit (b : bool) : N := if b then 1 else 0.
Definition build_header (uap lt_addr packet_type : N) (flow arqn seqn : bool) : N :=
  let header := N.lor (N.land lt_addr 7) (N.lor (N.shiftl (N.land packet_type 15) 3)
                (N.lor (N.shiftl (bit flow) 7) (N.lor (N.shiftl (bit arqn) 8) (N.shiftl (bit seqn) 9)))) in
  N.lor header (N.shiftl (header_error_check uap header) 10).

(** What is received: link_layer_packets.pdl, the packets PAGE and LMP; addresses are six
    bytes, least significant first *)
Inductive content := Page (class_of_device : N) | Lmp (payload : list N) | Other.
Record received := Received { source : list N; what : content; when : N }.

Definition octet (a : list N) (i : nat) : N := nth i a 0.

(** 97-100 *)
Definition lap_of (a : list N) : N := octet a 0 + 256 * octet a 1 + 65536 * octet a 2.
Definition uap_of (a : list N) : N := octet a 3.
Definition nap_of (a : list N) : N := octet a 4 + 256 * octet a 5.

(** 102-111 *)
Definition record_flags : N := 0x0001 + 0x0008 + 0x0010 + 0x0020 + 0x0080 + 0x0400 + 0x0800.

(** bredr_bb_packets.pdl:22-37 with the values of baseband_sniffer.cc:113-122; the
    variables lower_address_part and reference_lap are 8 bits wide *)
Definition base_record (a : list N) (packet_type : N) : list N :=
  [0; 0; 0; 0] ++ [0 + 16 * 3] ++ [0] ++ le 2 0 ++
  le 4 (lap_of a mod 256) ++ le 3 (lap_of a mod 256) ++ [uap_of a] ++
  le 4 (build_header (uap_of a) 0 packet_type true true true) ++ le 2 record_flags.

(** bredr_bb_packets.pdl:47-61: the 144 bits before the CRC as one little endian number *)
Definition fhs_payload (a : list N) (class_of_device : N) : list N :=
  le 18 (0 + 2 ^ 34 * lap_of a + 2 ^ 58 * 0 + 2 ^ 59 * 0 + 2 ^ 60 * 0 + 2 ^ 62 * 0 +
         2 ^ 64 * uap_of a + 2 ^ 72 * nap_of a + 2 ^ 88 * class_of_device +
         2 ^ 112 * 1 + 2 ^ 115 * 0 + 2 ^ 141 * 0) ++ le 2 0.

(** bredr_bb_packets.pdl:39-45: the size has five bits. What the generated code does with
    longer payloads is not modelled: the size is taken modulo 32. *)
Definition dm1_payload (p : list N) : list N :=
  [3 + 4 * 1 + 8 * (lenN p mod 32)] ++ p ++ le 2 0.

(** 124-160 *)
Definition record_of (r : received) : option (list N) :=
  match what r with
  | Page cod => Some (base_record (source r) 2 ++ fhs_payload (source r) cod)
  | Lmp p => Some (base_record (source r) 3 ++ dm1_payload p)
  | Other => None
  end.

(** 33-49: the bytes written to the file *)
Definition append_record (out : list N) (r : received) : list N :=
  match record_of r with
  | Some bytes => out ++ write_record_header (when r) (lenN bytes) ++ bytes
  | None => out
  end.
Definition capture (rs : list received) : list N := fold_left append_record rs (write_header 255).
