(** Properties C73 to C76: the end of advertising and of scanning, the duplicate filter, and the pieces of advertising reports. *)
From Verif Require Import Prelude Address Rpa Table LeTypes LeAdvertise LeLists LeScan LeInitiate LeHost LeHistory LeOutputs LeListsSpec LeAdvertSpec LeFilterSpec LeTimeSpec LeTime LeTimeCount LeTimeScan LeListsWitness LeParamsWitness LeAdvertWitness LeFilterWitness LeTimeWitness.
Open Scope N_scope.

Theorem C73_advertising_stops : forall aes rng cfg h s now st out x,
  history aes rng cfg (Entry now Tick st out :: h) s -> is_enabled s x ->
  exists t d, enabled_by x h = Some (t, d) /\ (en_duration d <> 0 -> now < t + en_duration d * 10000).
Proof. exact advertising_stops. Qed.
Print Assumptions C73_advertising_stops.

Theorem C73_advertising_goes_on : forall aes rng cfg h s now s' st out x a,
  history aes rng cfg h s -> step aes rng cfg now s Tick = Ok s' st out ->
  lookup (sets s) x = Some a -> enabled a = true -> ~ is_enabled s' x ->
  exists t d n, enabled_by x h = Some (t, d)
    /\ ((en_duration d <> 0 /\ t + en_duration d * 10000 <= now) \/ (en_max d <> 0 /\ en_max d <= num_events a))
    /\ (unmasked s (EvSetTerminated ADVERTISING_TIMEOUT x 0 n) -> In (Notified (EvSetTerminated ADVERTISING_TIMEOUT x 0 n)) out)
    /\ (en_max d <> 0 -> n = num_events a).
Proof. exact advertising_goes_on. Qed.
Print Assumptions C73_advertising_goes_on.

Theorem C73_events_limited : forall aes rng cfg h s,
  history aes rng cfg h s -> (forall e, In e h -> limited e) -> adverts_sent h <= events_asked h.
Proof. exact events_bounded. Qed.
Print Assumptions C73_events_limited.

Theorem C73_high_duty_stops : forall aes rng cfg now st out h s,
  history aes rng cfg (Entry now Tick st out :: h) s -> l_enabled (legacy s) = true ->
  fst (fst (legacy_given h)) = ADV_DIRECT_IND_HIGH -> exists t, legacy_enabled_at h = Some t /\ now < t + 1280000.
Proof. exact high_duty_stops. Qed.
Print Assumptions C73_high_duty_stops.

Theorem C73_legacy_goes_on : forall aes rng cfg now st out h s0 s,
  history aes rng cfg h s0 -> step aes rng cfg now s0 Tick = Ok s st out -> l_enabled (legacy s0) = true -> l_enabled (legacy s) = false ->
  fst (fst (legacy_given h)) = ADV_DIRECT_IND_HIGH
  /\ (exists t, legacy_enabled_at h = Some t /\ t + 1280000 <= now)
  /\ (unmasked s0 timeout_complete -> In (Notified timeout_complete) out).
Proof. exact legacy_goes_on. Qed.
Print Assumptions C73_legacy_goes_on.

Theorem C73_duration_witness : forall aes rng, exists h s s' out out',
  history aes rng default_config (Entry 100 Tick None out :: h) s /\ is_enabled s 1 /\ adverts out = 1
  /\ enabled_by 1 h = Some (100, EnabledSet 1 2 0)
  /\ step aes rng default_config 20100 s Tick = Ok s' None out' /\ ~ is_enabled s' 1
  /\ out' = [Notified (EvSetTerminated ADVERTISING_TIMEOUT 1 0 0)].
Proof. exact duration_witness. Qed.
Print Assumptions C73_duration_witness.

Theorem C73_events_witness : forall aes rng, exists h s,
  history aes rng default_config h s /\ (forall e, In e h -> limited e) /\ adverts_sent h = 3 /\ events_asked h = 3.
Proof. exact events_witness. Qed.
Print Assumptions C73_events_witness.

Theorem C73_limit_status_refuted : forall aes rng, exists h s s' out,
  history aes rng default_config h s /\ enabled_by 1 h = Some (100, EnabledSet 1 0 1)
  /\ step aes rng default_config 200 s Tick = Ok s' None out /\ is_enabled s 1 /\ ~ is_enabled s' 1
  /\ out = [Notified (EvSetTerminated ADVERTISING_TIMEOUT 1 0 1)].
Proof. exact limit_status_witness. Qed.
Print Assumptions C73_limit_status_refuted.

Theorem C73_high_duty_witness : forall aes rng, exists h s s' out out',
  history aes rng default_config (Entry 100 Tick None out :: h) s /\ l_enabled (legacy s) = true
  /\ fst (fst (legacy_given h)) = ADV_DIRECT_IND_HIGH /\ legacy_enabled_at h = Some 50
  /\ step aes rng default_config 1280050 s Tick = Ok s' None out' /\ l_enabled (legacy s') = false
  /\ out' = [Notified timeout_complete].
Proof. exact high_duty_witness. Qed.
Print Assumptions C73_high_duty_witness.

Theorem C74_scanning_stops : forall aes rng cfg now st out h s,
  history aes rng cfg (Entry now Tick st out :: h) s -> scan_enabled (scan s) = true ->
  exists o, scan_given h = Some o /\ (so_duration o <> 0 -> so_period o = 0 -> now < so_time o + 10000 * so_duration o).
Proof. exact scanning_stops. Qed.
Print Assumptions C74_scanning_stops.

Theorem C74_scanning_goes_on : forall aes rng cfg now st out h s0 s o,
  history aes rng cfg h s0 -> step aes rng cfg now s0 o = Ok s st out -> scan_enabled (scan s0) = true -> scan_enabled (scan s) = false ->
  stops_scanning o st \/
  (o = Tick /\ (exists d, scan_given h = Some d /\ so_duration d <> 0 /\ so_period d = 0 /\ so_time d + 10000 * so_duration d <= now)
   /\ (unmasked s0 EvScanTimeout -> In (Notified EvScanTimeout) out)).
Proof. exact scanning_goes_on. Qed.
Print Assumptions C74_scanning_goes_on.

Theorem C74_witness : forall aes rng, exists h s s' out out',
  history aes rng default_config (Entry 50099 Tick None out :: h) s /\ scan_enabled (scan s) = true
  /\ scan_given h = Some (ScanOrder 100 DUP_ENABLED 5 0)
  /\ step aes rng default_config 50100 s Tick = Ok s' None out' /\ scan_enabled (scan s') = false
  /\ out' = [Notified EvScanTimeout].
Proof. exact scan_stop_witness. Qed.
Print Assumptions C74_witness.

Theorem C74_pause_refuted : forall aes rng, exists h s s' out o,
  history aes rng default_config (Entry 60000 Tick None [] :: h) s /\ scan_given h = Some o
  /\ so_time o + 10000 * so_duration o <= 60000 /\ 60001 < so_time o + 1280000 * so_period o /\ so_duration o <> 0
  /\ step aes rng default_config 60001 s (beacon remote) = Ok s' None out /\ has_report out.
Proof. exact scan_pause_witness. Qed.
Print Assumptions C74_pause_refuted.

Theorem C75_no_duplicates : forall aes rng cfg h s now p s' st out,
  history aes rng cfg h s -> step aes rng cfg now s (Receive p) = Ok s' st out ->
  (exists o, scan_given h = Some o /\ so_duplicates o = DUP_ENABLED) -> since_scanning (reported_to_host p) h -> ~ has_report out.
Proof. exact no_duplicates. Qed.
Print Assumptions C75_no_duplicates.

Theorem C75_first_reported_partial : forall aes rng cfg h s now adv tgt t data s' st out,
  history aes rng cfg h s -> step aes rng cfg now s (Receive (AirLegacy adv tgt t data)) = Ok s' st out ->
  first_family unchecked h = Some Legacy -> scan_enabled (scan s) = true -> t <> PDU_DIRECT ->
  ~ since_scanning (received (AirLegacy adv tgt t data)) h ->
  (listed_only (scan_policy_given h) -> forall i, known_as aes s adv i -> on_accept_list s i) ->
  (forall i c, unmasked s (EvReport i c data)) ->
  exists i c, known_as aes s adv i /\ In (Notified (EvReport i c data)) out.
Proof. exact first_reported. Qed.
Print Assumptions C75_first_reported_partial.

Theorem C75_witness : forall aes rng, exists h s s' s'' out o,
  history aes rng default_config h s /\ scan_given h = Some o /\ so_duplicates o = DUP_ENABLED
  /\ since_scanning (reported_to_host (AirLegacy remote no_address PDU_IND [2; 1; 6])) h
  /\ step aes rng default_config 60001 s (beacon remote) = Ok s' None []
  /\ first_family unchecked h = Some Legacy /\ scan_enabled (scan s) = true
  /\ ~ since_scanning (received (AirLegacy stranger no_address PDU_IND [2; 1; 6])) h
  /\ (listed_only (scan_policy_given h) -> forall i, known_as aes s stranger i -> on_accept_list s i)
  /\ (forall i c, unmasked s (EvReport i c [2; 1; 6]))
  /\ step aes rng default_config 60001 s (beacon stranger) = Ok s'' None out /\ has_report out.
Proof. exact duplicate_witness. Qed.
Print Assumptions C75_witness.

Theorem C76_extended_report_whole : forall aes rng cfg now s p s' st out adv tgt c sc d sid power prim sec pi data,
  p = AirExtended adv tgt c sc d sid power prim sec pi data -> step aes rng cfg now s (Receive p) = Ok s' st out ->
  extended_pieces out = [] \/ whole 229 data (extended_pieces out).
Proof. exact extended_report_whole. Qed.
Print Assumptions C76_extended_report_whole.

Theorem C76_response_report_whole : forall aes rng cfg now s s' st out adv dst data,
  step aes rng cfg now s (Receive (AirScanResponse adv dst data)) = Ok s' st out ->
  extended_pieces out = [] \/ whole 229 data (extended_pieces out).
Proof. exact response_report_whole. Qed.
Print Assumptions C76_response_report_whole.

Theorem C76_periodic_report_whole : forall aes rng cfg h s now s' st out adv sid power pi data k,
  history aes rng cfg h s -> step aes rng cfg now s (Receive (AirPeriodic adv sid power pi data)) = Ok s' st out ->
  periodic_pieces k out = [] \/ whole 247 data (periodic_pieces k out).
Proof. exact periodic_report_whole. Qed.
Print Assumptions C76_periodic_report_whole.

Theorem C76_witness : forall aes rng, exists h s s' out,
  history aes rng default_config h s
  /\ step aes rng default_config 300 s (Receive (AirExtended remote no_address false false false 3 0 1 1 0 (repeat 7 300))) = Ok s' None out
  /\ extended_pieces out = [(true, repeat 7 229); (false, repeat 7 71)].
Proof. exact pieces_witness. Qed.
Print Assumptions C76_witness.

Theorem C76_periodic_witness : forall aes rng, exists h s s' out,
  history aes rng default_config h s
  /\ step aes rng default_config 300 s (Receive (AirPeriodic remote 3 0 8 (repeat 7 300))) = Ok s' None out
  /\ periodic_pieces 0 out = [(true, repeat 7 247); (false, repeat 7 53)].
Proof. exact periodic_pieces_witness. Qed.
Print Assumptions C76_periodic_witness.
