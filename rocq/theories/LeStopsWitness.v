(** The advertising that accepts a connection stops: concrete histories. *)
From Verif Require Import Prelude Address Rpa Table LeTypes LeAdvertise LeLists LeScan LeInitiate LeHost LeHistory LeListsSpec LeAdvertSpec LeListsWitness LeParamsWitness LeAdvertWitness LeFilterWitness.
Open Scope N_scope.

(** Legacy advertising *)
Lemma stops_witness : forall aes rng, exists h s s' out,
  history aes rng default_config h s /\ l_enabled (legacy s) = true
  /\ step aes rng default_config 5 s (Receive (AirConnect remote (AWT local PUBLIC_DEVICE) 40 0 500)) = Ok s' None out
  /\ In (Sent (AirConnectComplete remote (AWT local PUBLIC_DEVICE) 40 0 500)) out /\ l_enabled (legacy s') = false.
Proof.
  intros aes rng. eexists _, _, _, _. split.
  - played [(1, Command (SetAdvParameters 160 160 ADV_IND OWN_PUBLIC PEER_PUBLIC empty_address 7 ALL_DEVICES)); (3, Command (SetAdvEnable true))].
  - split; [reflexivity|]. split; [vm_compute; reflexivity|]. split; [shown|]. reflexivity.
Qed.
