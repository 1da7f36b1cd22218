(** Witnesses for the theorems on event masks. *)
From Verif Require Import Prelude EventMask EventMaskSpec EventMaskProofs Address Rpa Table LeTypes LeHost LeHistory LeListsWitness LeParamsWitness.
Open Scope N_scope.

Lemma encryption_change_witness : exists mask2,
  (forall b, N.testbit mask2 b = true <-> In (0x59, b) page2_bits) /\
  forall mask, is_event_unmasked mask mask2 0x59 = Some false.
Proof.
  exists (2 ^ 25). split.
  - intros b. destruct (N.eq_dec 25 b) as [<-|NE].
    + split; [intros _; right; right; now left|intros _; reflexivity].
    + rewrite N.pow2_bits_false by congruence. split; [discriminate|].
      intros [E|[E|[E|[]]]]; [discriminate|discriminate|]. injection E as E. congruence.
  - intros mask. rewrite (proj1 (page2_shifted _ _ 0x59 25 ltac:(right; right; now left))). reflexivity.
Qed.

Lemma notified_witness : forall aes rng, exists h s s' out e,
  history aes rng default_config h s /\ step aes rng default_config 9 s (Command CancelConnection) = Ok s' (Some SUCCESS) out
  /\ In (Notified e) out.
Proof.
  intros aes rng. eexists _, _, _, _, _. split.
  - played [(0, Command (SetEventMask 0x3fffffffffffffff)); (1, Command (CreateConnection USE_PEER_ADDRESS remote OWN_PUBLIC usual))].
  - split; [vm_compute; reflexivity|]. now left.
Qed.
