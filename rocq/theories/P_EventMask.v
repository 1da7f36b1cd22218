(** Property theorems C35: event masks. *)
From Verif Require Import Prelude EventMask EventMaskSpec EventMaskLe EventMaskProofs LeTypes LeHost LeHistory EventMaskWitness.
Open Scope N_scope.

(** C35: the events of the first page are governed by the bit of the specification. *)
Theorem C35_page1_bits : forall mask mask2 c b, In (c, b) page1_bits ->
  is_event_unmasked mask mask2 c = Some (N.testbit mask b).
Proof. exact page1_correct. Qed.
Print Assumptions C35_page1_bits.

(** C35: so are the LE events, together with the bit of the LE Meta event. *)
Theorem C35_le_bits : forall mask mask2 le_mask c b, In (c, b) le_bits ->
  is_le_event_unmasked mask mask2 le_mask c = Some (N.testbit mask 61 && N.testbit le_mask b).
Proof. exact le_correct. Qed.
Print Assumptions C35_le_bits.

(** C35: those of the second page never are: each is governed by the preceding bit. *)
Theorem C35_page2_bits_refuted : forall mask mask2 c b, In (c, b) page2_bits ->
  is_event_unmasked mask mask2 c = Some (N.testbit mask2 (b - 1)) /\ b <> 0.
Proof. exact page2_shifted. Qed.
Print Assumptions C35_page2_bits_refuted.

(** C35: e.g. a host that unmasks only Encryption Change [v2] does not receive it. *)
Theorem C35_encryption_change_v2_refuted : exists mask2,
  (forall b, N.testbit mask2 b = true <-> In (0x59, b) page2_bits) /\
  forall mask, is_event_unmasked mask mask2 0x59 = Some false.
Proof. exact encryption_change_witness. Qed.
Print Assumptions C35_encryption_change_v2_refuted.

(** C35: the shift is undefined exactly for the code 0 and the codes above 128; none
    of the codes above is one of them. *)
Theorem C35_undefined_exactly : forall mask mask2 evt,
  is_event_unmasked mask mask2 evt = None <-> evt = 0 \/ 128 < evt.
Proof. exact undefined_exact. Qed.
Print Assumptions C35_undefined_exactly.

(** C35: an event notified by any step of the LE controller is allowed by the masks. *)
Theorem C35_notified_allowed : forall aes rng cfg now s o s' st out e,
  step aes rng cfg now s o = Ok s' st out -> In (Notified e) out -> allowed s e.
Proof. exact notified_allowed. Qed.
Print Assumptions C35_notified_allowed.

Theorem C35_notified_reachable : forall aes rng, exists h s s' out e,
  history aes rng default_config h s /\ step aes rng default_config 9 s (Command CancelConnection) = Ok s' (Some SUCCESS) out
  /\ In (Notified e) out.
Proof. exact notified_witness. Qed.
