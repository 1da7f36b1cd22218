(** Property theorems C31, C32 and C45: LE scan and connection parameters. *)
From Verif Require Import Prelude Address Rpa Table LeTypes LeHost LeHistory LeAdvertSpec LeParamsSpec LeParamsProofs LeInitProofs LeParamsWitness.
Open Scope N_scope.

(** C31: on each PHY used for scanning the window does not exceed the interval, and
    both are in range (the upper bound of the legacy commands is 0x4000; the extended
    command allows all 16 bit values). *)
Theorem C31_scan_parameters_valid : forall aes rng cfg h s p,
  history aes rng cfg h s -> p = scan_1m (scan s) \/ p = scan_coded (scan s) -> sp_enabled p = true ->
  4 <= sp_window p /\ sp_window p <= sp_interval p
  /\ (first_family unchecked h <> Some Extended -> sp_interval p <= 16384).
Proof. exact scan_params_valid. Qed.
Print Assumptions C31_scan_parameters_valid.

(** C31: the 1M PHY uses the parameters supplied for it, and so does the coded PHY if
    no command included the 2M PHY, see [C31_coded_parameters_refuted]. *)
Theorem C31_scan_parameters_as_given_partial : forall aes rng cfg h s, history aes rng cfg h s ->
  scan_in_force (scan_1m (scan s)) = scan_given 0 h /\
  (never_2m h -> scan_in_force (scan_coded (scan s)) = scan_given 2 h).
Proof. exact scan_params_given. Qed.
Print Assumptions C31_scan_parameters_as_given_partial.

Theorem C31_two_phys_reachable : forall aes rng, exists h s,
  history aes rng default_config h s /\ never_2m h
  /\ scan_enabled (scan s) = true
  /\ scan_in_force (scan_1m (scan s)) = Some (ACTIVE, 96, 48)
  /\ scan_in_force (scan_coded (scan s)) = Some (PASSIVE, 288, 144).
Proof. exact scan_params_witness. Qed.

(** C31: with parameters for the three PHYs, those of the 2M PHY are used for the coded PHY. *)
Theorem C31_coded_parameters_refuted : forall aes rng, exists h s,
  history aes rng default_config h s
  /\ scan_given 2 h = Some (PASSIVE, 288, 144)
  /\ scan_in_force (scan_coded (scan s)) = Some (ACTIVE, 64, 32).
Proof. exact scan_coded_witness. Qed.
Print Assumptions C31_coded_parameters_refuted.

(** C32: the parameters of every PHY used to initiate are in range, and the supervision
    timeout is not smaller than (1 + latency) * interval_max * 2. What is missing: the
    specification requires it to be larger, see [C32_supervision_refuted]. *)
Theorem C32_connection_parameters_valid_partial : forall aes rng cfg h s, history aes rng cfg h s ->
  forall k, k < 3 -> ip_enabled (init_phy_of (init s) k) = true ->
  in_range (init_phy_of (init s) k) /\ link_rule N.le (init_phy_of (init s) k).
Proof. exact init_params_valid. Qed.
Print Assumptions C32_connection_parameters_valid_partial.

(** C32: on each PHY they are the parameters supplied for it. *)
Theorem C32_connection_parameters_as_given : forall aes rng cfg h s, history aes rng cfg h s ->
  forall k, k < 3 -> init_in_force (init_phy_of (init s) k) = option_map numbers (init_given k h).
Proof. exact init_params_given. Qed.
Print Assumptions C32_connection_parameters_as_given.

Theorem C32_two_phys_reachable : forall aes rng, exists h s,
  history aes rng default_config h s /\ init_enabled (init s) = true
  /\ init_given 0 h = Some usual /\ init_given 2 h = Some tight
  /\ ip_enabled (init_phy_of (init s) 0) = true /\ ip_enabled (init_phy_of (init s) 1) = false
  /\ ip_enabled (init_phy_of (init s) 2) = true.
Proof. exact init_params_witness. Qed.

(** C32: a supervision timeout equal to (1 + latency) * interval_max * 2 is accepted. *)
Theorem C32_supervision_refuted : forall aes rng, exists h s,
  history aes rng default_config h s /\ init_enabled (init s) = true /\ ip_enabled (init_phy_of (init s) 0) = true
  /\ ~ link_rule N.lt (init_phy_of (init s) 0).
Proof. exact supervision_witness. Qed.
Print Assumptions C32_supervision_refuted.

(** C45: a connection request is sent only while initiating... *)
Theorem C45_request_only_when_initiating : forall aes rng cfg now s o s' st out a b i lat sup,
  step aes rng cfg now s o = Ok s' st out -> In (Sent (AirConnect a b i lat sup)) out ->
  init_enabled (init s) = true.
Proof. exact connect_request_initiating. Qed.
Print Assumptions C45_request_only_when_initiating.

(** C45: ... and carries the parameters the host gave, if it gave some for the 1M PHY;
    see [C45_request_on_coded_refuted] for the other case. *)
Theorem C45_request_as_given_partial : forall aes rng cfg h s now o s' st out a b i lat sup p,
  history aes rng cfg h s -> step aes rng cfg now s o = Ok s' st out -> In (Sent (AirConnect a b i lat sup)) out ->
  init_given 0 h = Some p ->
  i = ip_interval_max p /\ lat = ip_latency p /\ sup = ip_supervision p.
Proof. exact connect_request_given. Qed.
Print Assumptions C45_request_as_given_partial.

Theorem C45_request_reachable : forall aes rng, exists h s s' out a,
  history aes rng default_config h s /\ init_given 0 h = Some usual
  /\ step aes rng default_config 1 s (Receive (AirLegacy remote no_address PDU_IND [])) = Ok s' None out
  /\ In (Sent (AirConnect a remote 40 0 500)) out.
Proof. exact connect_witness. Qed.

(** C45: when the host gives parameters for the coded PHY only, others are sent. *)
Theorem C45_request_on_coded_refuted : forall aes rng, exists h s s' out a,
  history aes rng default_config h s
  /\ init_given 0 h = None /\ init_given 1 h = None /\ init_given 2 h = Some usual
  /\ step aes rng default_config 1 s (Receive (AirExtended remote no_address true false false 0 0 3 3 0 [])) = Ok s' None out
  /\ In (Sent (AirConnect a remote 0 0 0)) out.
Proof. exact connect_coded_witness. Qed.
Print Assumptions C45_request_on_coded_refuted.
