(** Properties C78 and C79: the key pairs and the shared secrets of the Link Manager. *)
From Verif Require Import Prelude Ec EcSpec EcProofs EcWitness.
Open Scope N_scope.

Theorem C78_private_key_partial : forall c r, bytes_of (key_size c) r ->
  let m := magnitude (shape_of c) r in
  let top := (2 ^ (8 * Z.of_nat (octets (shape_of c)) - 1))%Z in
  (1 <= m <= top)%Z /\
  ((m < top)%Z -> exists key, generate c r = Some key /\ bytes_of (key_size c) key /\ number key = m /\
                              from_signed_bytes key = m) /\
  (m = top -> generate c r = None).
Proof. exact generate_gives. Qed.
Print Assumptions C78_private_key_partial.

Theorem C78_private_key_refuted : forall c, exists r, bytes_of (key_size c) r /\ generate c r = None.
Proof. exact private_key_panics. Qed.
Print Assumptions C78_private_key_refuted.

Theorem C78_public_key_partial : forall c key d bytes,
  from_signed_bytes key = Zpos d ->
  smooth c d (base c) Infinite = true ->
  derive c key = Some bytes ->
  exists x y,
    multiple (shape_of c) d (Spot (start_x (shape_of c)) (start_y (shape_of c))) (Spot x y) /\
    on_curve (shape_of c) x y /\ List.length bytes = (2 * octets (shape_of c))%nat /\
    mumbles (shape_of c) (first_half (shape_of c) bytes) x /\
    mumbles (shape_of c) (second_half (shape_of c) bytes) y.
Proof. exact derive_gives. Qed.
Print Assumptions C78_public_key_partial.

Theorem C78_public_key_refuted : forall c, exists r key public,
  bytes_of (key_size c) r /\ generate c r = Some key /\
  derive c key = Some public /\ ~ valid_public_key (shape_of c) public.
Proof. exact public_key_invalid. Qed.
Print Assumptions C78_public_key_refuted.

Theorem C78_inverse_found : forall x m, (0 < m)%Z -> extended_gcd x m <> None.
Proof. exact extended_gcd_ends. Qed.
Print Assumptions C78_inverse_found.

Theorem C78_private_key_witness : generate P256 (repeat 255%N 32) = Some (draw P256 1) /\ magnitude nist256 (repeat 255%N 32) = 1%Z.
Proof. exact private_key_case. Qed.
Print Assumptions C78_private_key_witness.

Theorem C78_public_key_witness : derive P192 (draw P192 3) = Some (public_of P192 3) /\ from_signed_bytes (draw P192 3) = 3%Z /\
  smooth P192 3 (base P192) Infinite = true /\ valid_public_key nist192 (public_of P192 3) /\
  derive P256 (draw P256 5) = Some (public_of P256 5) /\ smooth P256 5 (base P256) Infinite = true.
Proof. exact public_key_case. Qed.
Print Assumptions C78_public_key_witness.

Theorem C79_shared_secret_partial : forall c key d public bytes,
  from_signed_bytes key = Zpos d ->
  valid_public_key (shape_of c) public ->
  let top := (2 ^ (8 * Z.of_nat (octets (shape_of c)) - 1))%Z in
  (number (first_half (shape_of c) public) < top)%Z ->
  (number (second_half (shape_of c) public) < top)%Z ->
  smooth c d (to_point public) Infinite = true ->
  shared_secret c key public = Some bytes ->
  exists x y,
    multiple (shape_of c) d
      (Spot (number (first_half (shape_of c) public)) (number (second_half (shape_of c) public))) (Spot x y) /\
    on_curve (shape_of c) x y /\ List.length bytes = (2 * octets (shape_of c))%nat /\
    mumbles (shape_of c) (first_half (shape_of c) bytes) x /\
    mumbles (shape_of c) (second_half (shape_of c) bytes) y.
Proof. exact shared_gives. Qed.
Print Assumptions C79_shared_secret_partial.

Theorem C79_agreement_refuted : forall c, exists ka kb pa pb sa sb,
  generate c (draw c 2) = Some ka /\ generate c (draw c 3) = Some kb /\
  derive c ka = Some pa /\ derive c kb = Some pb /\
  shared_secret c ka pb = Some sa /\ shared_secret c kb pa = Some sb /\ sa <> sb.
Proof. exact secrets_differ. Qed.
Print Assumptions C79_agreement_refuted.

Theorem C79_no_panic_refuted : forall c, exists key,
  generate c (draw c 2) = Some key /\ shared_secret c key (repeat 0%N (2 * key_size c)) = None.
Proof. exact zero_key_panics. Qed.
Print Assumptions C79_no_panic_refuted.

Theorem C79_shared_secret_witness : valid_public_key nist192 (public_of P192 3) /\
  (number (first_half nist192 (public_of P192 3)) < 2 ^ 191)%Z /\
  (number (second_half nist192 (public_of P192 3)) < 2 ^ 191)%Z /\
  smooth P192 5 (to_point (public_of P192 3)) Infinite = true /\
  exists bytes, shared_secret P192 (draw P192 5) (public_of P192 3) = Some bytes.
Proof. exact shared_case. Qed.
Print Assumptions C79_shared_secret_witness.
