(** Histories used as witnesses by the theorems on scan and connection parameters. *)
From Verif Require Import Prelude Address Rpa Table LeTypes LeAdvertise LeLists LeScan LeInitiate LeHost LeHistory LeListsWitness LeParamsSpec.
Open Scope N_scope.

Definition remote : address_with_type := AWT dev PUBLIC_DEVICE.
(** Scan interval and window, connection interval 30 ms to 50 ms, latency 0, supervision timeout *)
Definition usual : init_phy := InitPhy false 96 48 24 40 0 500 0 0.
(** Supervision timeout 100 ms = (1 + 0) * 50 ms * 2 *)
Definition tight : init_phy := InitPhy false 96 48 24 40 0 10 0 0.

Lemma scan_params_witness : forall aes rng, exists h s,
  history aes rng default_config h s /\ never_2m h
  /\ scan_enabled (scan s) = true
  /\ scan_in_force (scan_1m (scan s)) = Some (ACTIVE, 96, 48)
  /\ scan_in_force (scan_coded (scan s)) = Some (PASSIVE, 288, 144).
Proof.
  intros aes rng. eexists _, _. split.
  - played [(0, Command (SetExtScanParameters OWN_PUBLIC ACCEPT_ALL 5 [(ACTIVE, 96, 48); (PASSIVE, 288, 144)]));
            (1, Command (SetExtScanEnable true DUP_DISABLED 0 0))].
  - split; [|now repeat split]. intros e o pol phys l [<-|[<-|[]]] W _; cbn in W; [discriminate|]. now injection W as <- <- <- <-.
Qed.

(** A parameter list for the three PHYs: the coded PHY receives the parameters of the 2M PHY *)
Lemma scan_coded_witness : forall aes rng, exists h s,
  history aes rng default_config h s
  /\ scan_given 2 h = Some (PASSIVE, 288, 144)
  /\ scan_in_force (scan_coded (scan s)) = Some (ACTIVE, 64, 32).
Proof.
  intros aes rng. eexists _, _. split.
  - played [(0, Command (SetExtScanParameters OWN_PUBLIC ACCEPT_ALL 7 [(ACTIVE, 96, 48); (ACTIVE, 64, 32); (PASSIVE, 288, 144)]))].
  - now split.
Qed.

Lemma init_params_witness : forall aes rng, exists h s,
  history aes rng default_config h s /\ init_enabled (init s) = true
  /\ init_given 0 h = Some usual /\ init_given 2 h = Some tight
  /\ ip_enabled (init_phy_of (init s) 0) = true /\ ip_enabled (init_phy_of (init s) 1) = false
  /\ ip_enabled (init_phy_of (init s) 2) = true.
Proof.
  intros aes rng. eexists _, _. split.
  - played [(0, Command (ExtCreateConnection USE_PEER_ADDRESS OWN_PUBLIC remote 5 [usual; tight]))].
  - now repeat split.
Qed.

Lemma supervision_witness : forall aes rng, exists h s,
  history aes rng default_config h s /\ init_enabled (init s) = true /\ ip_enabled (init_phy_of (init s) 0) = true
  /\ ~ link_rule N.lt (init_phy_of (init s) 0).
Proof.
  intros aes rng. eexists _, _. split.
  - played [(0, Command (CreateConnection USE_PEER_ADDRESS remote OWN_PUBLIC tight))].
  - split; [reflexivity|]. split; [reflexivity|]. vm_compute. discriminate.
Qed.

Lemma connect_witness : forall aes rng, exists h s s' out a,
  history aes rng default_config h s /\ init_given 0 h = Some usual
  /\ step aes rng default_config 1 s (Receive (AirLegacy remote no_address PDU_IND [])) = Ok s' None out
  /\ In (Sent (AirConnect a remote 40 0 500)) out.
Proof.
  intros aes rng. eexists _, _, _, _, _. split.
  - played [(0, Command (CreateConnection USE_PEER_ADDRESS remote OWN_PUBLIC usual))].
  - split; [reflexivity|]. split; [vm_compute; reflexivity|]. now left.
Qed.

(** Only the coded PHY is used: the request carries the parameters of the 1M PHY *)
Lemma connect_coded_witness : forall aes rng, exists h s s' out a,
  history aes rng default_config h s
  /\ init_given 0 h = None /\ init_given 1 h = None /\ init_given 2 h = Some usual
  /\ step aes rng default_config 1 s (Receive (AirExtended remote no_address true false false 0 0 3 3 0 [])) = Ok s' None out
  /\ In (Sent (AirConnect a remote 0 0 0)) out.
Proof.
  intros aes rng. eexists _, _, _, _, _. split.
  - played [(0, Command (ExtCreateConnection USE_PEER_ADDRESS OWN_PUBLIC remote 4 [usual]))].
  - split; [reflexivity|]. split; [reflexivity|]. split; [reflexivity|]. split; [vm_compute; reflexivity|]. now left.
Qed.
