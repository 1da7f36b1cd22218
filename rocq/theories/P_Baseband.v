(** C38: the header error check of captured baseband headers; C46: the baseband capture. *)
From Verif Require Import Prelude Sniffer SnifferSpec Baseband BasebandSpec BasebandProofs BasebandCapture.
Open Scope N_scope.

(** The check bits are the remainder defined by the specification. *)
Theorem C38_check_is_remainder : forall uap data, uap < 256 ->
  header_error_check uap data < 256 /\
  is_remainder generator (N.lxor (N.shiftl (reversed 10 data) 8) (N.shiftl uap 10)) (reversed 8 (header_error_check uap data)).
Proof. exact hec_remainder. Qed.

(** There is only one remainder. *)
Theorem C38_remainder_unique : forall a r r', is_remainder generator a r -> is_remainder generator a r' -> r = r'.
Proof. exact remainder_unique. Qed.

Theorem C38_bit_reversal : forall b, b < 256 ->
  reverse_byte b = reversed 8 b /\ reverse_byte (reverse_byte b) = b /\ reverse_byte b < 256.
Proof. exact reverse_spec. Qed.

Theorem C38_linear : forall u u' d d', u < 256 -> u' < 256 ->
  header_error_check (N.lxor u u') (N.lxor d d') = N.lxor (header_error_check u d) (header_error_check u' d').
Proof. exact hec_linear. Qed.

(** Every header built is accepted by a receiver which knows the address part, and holds the fields given. *)
Theorem C38_header_accepted : forall uap lt ty f g s, uap < 256 ->
  let h := build_header uap lt ty f g s in
  header_ok uap h /\
  exists c, read_header h = Header (lt mod 8) (ty mod 16) (bit f) (bit g) (bit s) c.
Proof. exact header_spec. Qed.

(** Two different headers which are accepted differ in at least four bits: up to three errors are detected. *)
Theorem C38_errors_detected : forall uap h h', uap < 256 -> header_ok uap h -> header_ok uap h' -> h <> h' -> 4 <= weight 18 (N.lxor h h').
Proof. exact errors_detected. Qed.

(** A header is not accepted with another address part. *)
Theorem C38_other_address_detected : forall uap uap' h, uap < 256 -> uap' < 256 -> header_ok uap h -> header_ok uap' h -> uap = uap'.
Proof. exact other_uap_detected. Qed.

(** Sample data of the specification (Vol 2, Part G, HEC generation) *)
Theorem C38_sample : header_error_check 0 0x123 = 0xe1 /\ header_error_check 0x47 0x123 = 0x06.
Proof. split; reflexivity. Qed.

(** C46: the file of the baseband sniffer is read back to one record for each page and each
    LMP packet received, in order, with a valid header, and the payload is the sender's
    address and class, or the LMP bytes. LMP packets longer than 31 bytes are left out. *)
Theorem C46_capture_reads_back_partial : forall rs, Forall fits rs ->
  exists bs, read_bb_file (capture rs) = Some bs /\ Forall2 shown (filter captured rs) bs.
Proof. exact capture_shows. Qed.

(** The records do not hold the lower address part of the sender: only its low byte. *)
Theorem C46_lower_address_part_refuted : exists r b x, fits r /\ read_bb_file (capture [r]) = Some [b] /\ read_bb b = Some x /\
  b_lower_lap x <> lap_of (source r) /\ b_ref_lap x <> lap_of (source r).
Proof. exact lap_witness. Qed.

Print Assumptions C38_check_is_remainder.
Print Assumptions C38_remainder_unique.
Print Assumptions C38_bit_reversal.
Print Assumptions C38_linear.
Print Assumptions C38_header_accepted.
Print Assumptions C38_errors_detected.
Print Assumptions C38_other_address_detected.
Print Assumptions C46_capture_reads_back_partial.
Print Assumptions C46_lower_address_part_refuted.
