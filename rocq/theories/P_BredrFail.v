(** Property C102: the calls that the BR/EDR controller does not survive. *)
From Coq Require Import Permutation.
From Verif Require Import Prelude Table Sco Bredr BredrBase BredrSpec BredrPairSpec BredrSyncSpec BredrFailSpec BredrFail BredrWitness BredrPairWitness BredrFailWitness.
Open Scope N_scope.

Theorem C102_fails_exactly_partial : forall order cfg, (forall t, Permutation (order t) t) -> forall h s now o f, history order cfg h s -> ~ linked empty_address s ->
  (failure_of (step order cfg now s o) = Some f <-> fatal order cfg now s o f).
Proof. exact fails_exactly. Qed.
Print Assumptions C102_fails_exactly_partial.

Theorem C102_calm_survives_partial : forall order cfg, (forall t, Permutation (order t) t) -> forall h s now o, history order cfg h s -> ~ linked empty_address s -> scos s = [] -> (List.length (peers s) < 7)%nat ->
  calm_op cfg o -> exists r, step order cfg now s o = Ok r.
Proof. exact calm_survives. Qed.
Print Assumptions C102_calm_survives_partial.

Theorem C102_calm_witness : exists hl hr w, reaches same_order same_order some_config your_config me you hl hr w /\
  linked you (left w) /\ linked me (right w) /\ ~ linked empty_address (left w) /\ scos (left w) = [] /\ (List.length (peers (left w)) < 7)%nat.
Proof. exact calm_witness. Qed.
Print Assumptions C102_calm_witness.

Theorem C102_crossed_disconnection_refuted : exists hl hr w p l reason,
  reaches same_order same_order some_config your_config me you hl hr w /\ alone you hl /\ alone me hr /\ to_left w = p :: l /\ content p = Bye reason /\
  (forall now rssi, failure_of (step same_order some_config now (left w) (Receive rssi p)) = Some Aborts).
Proof. exact crossing. Qed.
Print Assumptions C102_crossed_disconnection_refuted.

Theorem C102_two_calls_refuted : exists hl hr w h,
  reaches same_order same_order some_config your_config me you hl hr w /\ alone you hl /\ alone me hr /\ (exists c, lookup (acls (left w)) h = Some c /\ acl_peer c = you) /\
  (forall now reason, failure_of (step same_order some_config now (left w) (Command (Disconnect h reason))) = Some Aborts).
Proof. exact two_calls_close. Qed.
Print Assumptions C102_two_calls_refuted.

Theorem C102_missing_page_refuted : exists hl hr w p l,
  reaches same_order same_order some_config your_config me you hl hr w /\ alone you hl /\ alone me hr /\ to_right w = p :: l /\
  (forall now rssi, failure_of (step same_order your_config now (right w) (Receive rssi p)) = Some ReadsOutside).
Proof. exact curiosity. Qed.
Print Assumptions C102_missing_page_refuted.

Theorem C102_eighth_link_refuted : exists h s, history same_order some_config h s /\ List.length (peers s) = 7%nat /\
  (forall now try, failure_of (step same_order some_config now s (Command (AcceptConnection (device 8) try))) = Some Aborts).
Proof. exact eighth_link. Qed.
Print Assumptions C102_eighth_link_refuted.

Theorem C102_many_calls_refuted : exists h s, history same_order some_config h s /\
  (forall now rssi q cls, failure_of (step same_order some_config now s (Receive rssi (Air you me (ScoRequest q cls)))) = Some NeverReturns).
Proof. exact no_more. Qed.
Print Assumptions C102_many_calls_refuted.

Theorem C102_second_answer_refuted : exists h s, history same_order some_config h s /\
  (exists e, In e h /\ what e = from_you (ScoResponse SUCCESS (Link 6 0 30 30 2 true))) /\
  (forall now st l, failure_of (step same_order some_config now s (from_you (ScoResponse st l))) = Some Aborts).
Proof. exact answered_again. Qed.
Print Assumptions C102_second_answer_refuted.

Theorem C102_broadcast_refuted : exists h s, history same_order some_config h s /\ peers s = [] /\ failure_of (step same_order some_config 0 s (AclFromHost 0 0 1 [1; 2])) = Some Aborts.
Proof. exact broadcast_aborts. Qed.
Print Assumptions C102_broadcast_refuted.
