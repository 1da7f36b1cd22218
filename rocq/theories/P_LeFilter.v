(** Properties C65 to C67: the filter policies of the LE controller decide which devices are reported, scanned, connected to and served. *)
From Verif Require Import Prelude Address Rpa Table LeTypes LeAdvertise LeLists LeScan LeInitiate LeHost LeHistory LeOutputs LeListsSpec LeAdvertSpec LeFilterSpec LeFilter LeFilterMore LeFilterInv LeFilterAdv LeFilterInit LeListsWitness LeParamsWitness LeFilterWitness.
Open Scope N_scope.

Theorem C65_reports_filtered : forall aes rng cfg h s now o s' st out e i,
  history aes rng cfg h s -> step aes rng cfg now s o = Ok s' st out -> In (Notified e) out -> reported e = Some i ->
  exists p adv, o = Receive p /\ advertiser_of p = Some adv /\ known_as aes s adv i /\ scan_enabled (scan s) = true
    /\ (listed_only (scan_policy_given h) -> on_accept_list s i).
Proof. exact reports_filtered. Qed.
Print Assumptions C65_reports_filtered.

Theorem C65_scan_requests_filtered : forall aes rng cfg h s now o s' st out a b,
  history aes rng cfg h s -> step aes rng cfg now s o = Ok s' st out -> In (Sent (AirScan a b)) out ->
  exists p i, o = Receive p /\ advertiser_of p = Some b /\ known_as aes s b i /\ scan_enabled (scan s) = true
    /\ (listed_only (scan_policy_given h) -> on_accept_list s i).
Proof. exact scan_requests_filtered. Qed.
Print Assumptions C65_scan_requests_filtered.

Theorem C65_allowed_reported_partial : forall aes rng cfg h s now adv tgt t data s' st out,
  history aes rng cfg h s -> step aes rng cfg now s (Receive (AirLegacy adv tgt t data)) = Ok s' st out ->
  first_family unchecked h = Some Legacy -> scan_enabled (scan s) = true -> scan_dups (scan s) = DUP_DISABLED -> t <> PDU_DIRECT ->
  (listed_only (scan_policy_given h) -> forall i, known_as aes s adv i -> on_accept_list s i) ->
  (forall i c, unmasked s (EvReport i c data)) ->
  exists i c, known_as aes s adv i /\ In (Notified (EvReport i c data)) out.
Proof. exact allowed_reported. Qed.
Print Assumptions C65_allowed_reported_partial.

Theorem C65_witness : forall aes rng, exists h s s' s'' out out',
  history aes rng default_config h s /\ listed_only (scan_policy_given h) /\ on_accept_list s remote /\ ~ on_accept_list s stranger
  /\ step aes rng default_config 5 s (beacon remote) = Ok s' None out
  /\ In (Notified (EvReport remote 0 [2; 1; 6])) out /\ In (Sent (AirScan (AWT local PUBLIC_DEVICE) remote)) out
  /\ step aes rng default_config 6 s' (Receive (AirScanResponse remote local [1; 9])) = Ok s'' None out'
  /\ In (Notified (EvReport remote 4 [1; 9])) out'
  /\ step aes rng default_config 5 s (beacon stranger) = Ok s None [].
Proof. exact scan_listed_witness. Qed.
Print Assumptions C65_witness.

Theorem C65_allowed_witness : forall aes rng, exists h s,
  history aes rng default_config h s /\ first_family unchecked h = Some Legacy /\ scan_enabled (scan s) = true
  /\ scan_dups (scan s) = DUP_DISABLED /\ listed_only (scan_policy_given h)
  /\ (forall i, known_as aes s remote i -> on_accept_list s i) /\ (forall i c d, unmasked s (EvReport i c d)).
Proof. exact allowed_reported_witness. Qed.
Print Assumptions C65_allowed_witness.

Theorem C66_requests_filtered : forall aes rng cfg h s now o s' st out a b x y z,
  history aes rng cfg h s -> step aes rng cfg now s o = Ok s' st out -> In (Sent (AirConnect a b x y z)) out ->
  exists p tgt given i, o = Receive p /\ offers p = Some (b, tgt) /\ connection_given h = Some given
    /\ init_enabled (init s) = true /\ known_as aes s b i /\ may_connect_to s given i
    /\ (forall t, tgt = Some t -> addressed_here aes s t i).
Proof. exact requests_filtered. Qed.
Print Assumptions C66_requests_filtered.

Theorem C66_allowed_connected_partial : forall aes rng cfg h s now p adv given s' st out,
  history aes rng cfg h s -> step aes rng cfg now s (Receive p) = Ok s' st out -> offers p = Some (adv, None) ->
  init_enabled (init s) = true -> init_pending (init s) = None -> connection_given h = Some given ->
  (forall i, known_as aes s adv i -> may_connect_to s given i) ->
  (exists tgt t d, p = AirLegacy adv tgt t d) \/ first_family unchecked h = Some Extended ->
  exists a x y z, In (Sent (AirConnect a adv x y z)) out.
Proof. exact allowed_connected. Qed.
Print Assumptions C66_allowed_connected_partial.

Theorem C66_identity_peer_ignored : forall aes rng cfg h s now o s' st out a b x y z peer,
  history aes rng cfg h s -> step aes rng cfg now s o = Ok s' st out -> In (Sent (AirConnect a b x y z)) out ->
  connection_given h = Some (USE_PEER_ADDRESS, peer) ->
  awt_type peer = PUBLIC_IDENTITY \/ awt_type peer = RANDOM_IDENTITY ->
  b = peer.
Proof. exact identity_peer_ignored. Qed.
Print Assumptions C66_identity_peer_ignored.

Theorem C66_witness : forall aes rng, exists h s s' out,
  history aes rng default_config h s /\ connection_given h = Some (USE_ACCEPT_LIST, no_address)
  /\ init_enabled (init s) = true /\ init_pending (init s) = None
  /\ on_accept_list s remote /\ ~ on_accept_list s stranger
  /\ step aes rng default_config 5 s (beacon remote) = Ok s' None out
  /\ In (Sent (AirConnect (AWT local PUBLIC_DEVICE) remote 40 0 500)) out
  /\ step aes rng default_config 5 s (beacon stranger) = Ok s None [].
Proof. exact connect_listed_witness. Qed.
Print Assumptions C66_witness.

Theorem C66_identity_peer_refuted : forall aes rng, exists h s,
  history aes rng default_config h s /\ connection_given h = Some (USE_PEER_ADDRESS, AWT dev PUBLIC_IDENTITY)
  /\ init_enabled (init s) = true
  /\ (exists e, In e (resolving s) /\ peer_identity_address e = dev /\ peer_identity_type e = PEER_PUBLIC) /\ resolving_on s = true
  /\ step aes rng default_config 5 s (beacon (AWT dev PUBLIC_DEVICE)) = Ok s None [].
Proof. exact identity_peer_witness. Qed.
Print Assumptions C66_identity_peer_refuted.

Theorem C67_scan_response_exact : forall aes rng cfg h s now scanner adv s' st out,
  history aes rng cfg h s -> step aes rng cfg now s (Receive (AirScan scanner adv)) = Ok s' st out ->
  exists i, known_as aes s scanner i
    /\ forall p, In p out <-> exists data, p = Sent (AirScanResponse adv (awt_addr scanner) data) /\ scan_allowed h s adv i data.
Proof. exact scan_response_allowed. Qed.
Print Assumptions C67_scan_response_exact.

Theorem C67_scan_response_only_to_request : forall aes rng cfg now s o s' st out adv dst data,
  step aes rng cfg now s o = Ok s' st out -> In (Sent (AirScanResponse adv dst data)) out ->
  exists scanner, o = Receive (AirScan scanner adv).
Proof. exact scan_response_only. Qed.
Print Assumptions C67_scan_response_only_to_request.

Theorem C67_connection_exact : forall aes rng cfg h s now initiator adv x y z s' st out,
  history aes rng cfg h s -> step aes rng cfg now s (Receive (AirConnect initiator adv x y z)) = Ok s' st out ->
  exists i, known_as aes s initiator i
    /\ ((connect_allowed h s adv i /\ answers initiator adv x y z out) \/ (~ connect_allowed h s adv i /\ out = [])).
Proof. exact connect_request_allowed. Qed.
Print Assumptions C67_connection_exact.

Theorem C67_connection_only_on_request : forall aes rng cfg now s o s' st out i adv x y z,
  step aes rng cfg now s o = Ok s' st out -> In (Sent (AirConnectComplete i adv x y z)) out ->
  o = Receive (AirConnect i adv x y z).
Proof. exact connect_complete_only. Qed.
Print Assumptions C67_connection_only_on_request.

Theorem C67_witness : forall aes rng, exists h s s' s'' out,
  history aes rng default_config h s /\ legacy_given h = (ADV_IND, AWT empty_address PUBLIC_DEVICE, LISTED_SCAN_AND_CONNECT)
  /\ l_enabled (legacy s) = true /\ on_accept_list s remote /\ ~ on_accept_list s stranger
  /\ step aes rng default_config 5 s (Receive (AirScan remote (AWT local PUBLIC_DEVICE))) = Ok s' None [Sent (AirScanResponse (AWT local PUBLIC_DEVICE) dev [1; 9])]
  /\ step aes rng default_config 5 s (Receive (AirScan stranger (AWT local PUBLIC_DEVICE))) = Ok s None []
  /\ step aes rng default_config 5 s (Receive (AirConnect remote (AWT local PUBLIC_DEVICE) 40 0 500)) = Ok s'' None out
  /\ answers remote (AWT local PUBLIC_DEVICE) 40 0 500 out
  /\ step aes rng default_config 5 s (Receive (AirConnect stranger (AWT local PUBLIC_DEVICE) 40 0 500)) = Ok s None [].
Proof. exact serve_listed_witness. Qed.
Print Assumptions C67_witness.

Theorem C67_directed_scan_refuted : forall aes rng, exists h s,
  history aes rng default_config h s /\ set_given 1 h = Some aimed
  /\ (exists a, lookup (sets s) 1 = Some a /\ enabled a = true /\ adv_address a = AWT local PUBLIC_DEVICE)
  /\ scannable (e_props aimed) = true /\ directed (e_props aimed) = true
  /\ peer_device_address (e_peer aimed) (e_peer_kind aimed) = remote
  /\ step aes rng default_config 5 s (Receive (AirScan remote (AWT local PUBLIC_DEVICE))) = Ok s None [].
Proof. exact aimed_scan_witness. Qed.
Print Assumptions C67_directed_scan_refuted.
