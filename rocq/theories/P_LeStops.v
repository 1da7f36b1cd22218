(** Property C106: the advertising that accepts a connection stops, and no other. *)
From Verif Require Import Prelude Address Rpa Table LeTypes LeAdvertise LeLists LeScan LeInitiate LeHost LeHistory LeListsSpec LeAdvertSpec LeListsWitness LeParamsWitness LeStops LeStopsWitness.
Open Scope N_scope.

Theorem C106_advertising_stops : forall aes rng cfg h s now i adv x y z s' st out,
  history aes rng cfg h s -> step aes rng cfg now s (Receive (AirConnect i adv x y z)) = Ok s' st out ->
  (out = [] /\ l_enabled (legacy s') = l_enabled (legacy s) /\ forall k, is_enabled s' k <-> is_enabled s k)
  \/ (In (Sent (AirConnectComplete i adv x y z)) out /\ l_enabled (legacy s) = true /\ l_address (legacy s) = adv
      /\ l_enabled (legacy s') = false /\ forall k, is_enabled s' k <-> is_enabled s k)
  \/ (In (Sent (AirConnectComplete i adv x y z)) out /\ l_enabled (legacy s') = l_enabled (legacy s)
      /\ exists k a, lookup (sets s) k = Some a /\ enabled a = true /\ adv_address a = adv
         /\ ~ is_enabled s' k /\ forall j, j <> k -> is_enabled s' j <-> is_enabled s j).
Proof. exact connection_stops. Qed.
Print Assumptions C106_advertising_stops.

Theorem C106_advertising_stops_witness : forall aes rng, exists h s s' out,
  history aes rng default_config h s /\ l_enabled (legacy s) = true
  /\ step aes rng default_config 5 s (Receive (AirConnect remote (AWT local PUBLIC_DEVICE) 40 0 500)) = Ok s' None out
  /\ In (Sent (AirConnectComplete remote (AWT local PUBLIC_DEVICE) 40 0 500)) out /\ l_enabled (legacy s') = false.
Proof. exact stops_witness. Qed.
Print Assumptions C106_advertising_stops_witness.
