(** Histories used as witnesses by the theorems on the connections that the host knows. *)
From Verif Require Import Prelude Address Rpa Table LeTypes LeAdvertise LeLists LeScan LeInitiate LeHost LeHistory LeListsWitness LeParamsWitness LeLedgerSpec.
Open Scope N_scope.

Local Notation central := (AWT [9; 9; 9; 9; 9; 9] PUBLIC_DEVICE).
Local Notation me := (AWT local PUBLIC_DEVICE).
(** All the events of interest *)
Local Notation listen := (0, Command (SetEventMask 0x3fffffffffffffff)).
Local Notation advertise := (1, Command (SetAdvEnable true)).
Local Notation called := (2, Receive (AirConnect central me 24 1 300)).
Local Notation call := (3, Command (CreateConnection USE_PEER_ADDRESS remote OWN_PUBLIC usual)).
Local Notation found := (4, Receive (AirLegacy remote no_address PDU_IND [])).
Local Notation accepted := (5, Receive (AirConnectComplete me remote 40 0 500)).

Local Ltac heard := repeat (split; [|intros; first [discriminate | split; [reflexivity|split; [reflexivity|left; reflexivity]]]]); exact Logic.I.
Local Ltac timely := repeat (split; [|intros ? ? ? ? ? X; first [discriminate X | reflexivity]]); exact Logic.I.

(** A connection as peripheral, one as central, and the end of the first *)
Lemma two_links_witness : forall aes rng, exists h s, history aes rng default_config h s /\ hears h /\ in_time h /\
  links h = [Link 513 true dev 40 0 500] /\ attempts h = 1 /\ answers h = 1 /\ waiting h = false /\ listening h.
Proof.
  intros aes rng. eexists _, _. split.
  - played [listen; advertise; called; call; found; accepted; (6, Receive (AirDisconnect [9; 9; 9; 9; 9; 9] local 19))].
  - split; [heard|]. split; [timely|]. vm_compute. repeat split; try reflexivity; left; reflexivity.
Qed.

(** While the host waits *)
Lemma waiting_witness : forall aes rng, exists h s, history aes rng default_config h s /\ hears h /\ in_time h /\
  links h = [Link 512 false [9; 9; 9; 9; 9; 9] 24 1 300] /\ waiting h = true /\ listening h.
Proof.
  intros aes rng. eexists _, _. split.
  - played [listen; advertise; called; call; found].
  - split; [heard|]. split; [timely|]. vm_compute. repeat split; try reflexivity; left; reflexivity.
Qed.

(** The response comes after the cancellation: the attempt is answered twice *)
Lemma late_response : forall aes rng, exists h s, history aes rng default_config h s /\ hears h /\
  attempts h = 1 /\ answers h = 2 /\ links h = [Link 512 true dev 40 0 500] /\
  exists h' e1 e2, h = e2 :: e1 :: h' /\ what e1 = Command CancelConnection /\ status_of e1 = Some SUCCESS /\
    notified (sent e1) = [EvConnectionComplete UNKNOWN_CONNECTION 0 true no_address 0 0 0] /\
    notified (sent e2) = [EvConnectionComplete SUCCESS 512 true remote 40 0 500].
Proof.
  intros aes rng. eexists _, _. split.
  - played [listen; call; found; (5, Command CancelConnection); accepted].
  - split; [heard|]. split; [reflexivity|]. split; [reflexivity|]. split; [reflexivity|].
    eexists _, _, _. split; [reflexivity|]. repeat split.
Qed.

(** Two connections between the same addresses; the remote device closes one of them and the other stays *)
Lemma same_addresses : forall aes rng, exists h s c1 c2, history aes rng default_config h s /\ hears h /\
  conns s = [(513, c2); (512, c1)] /\ c_peer c1 = c_peer c2 /\ c_own c1 = c_own c2.
Proof.
  intros aes rng. eexists _, _, _, _. split.
  - played [listen; advertise; called; (3, Command (SetAdvEnable true)); (4, Receive (AirConnect central me 24 1 300))].
  - split; [heard|]. repeat split.
Qed.
