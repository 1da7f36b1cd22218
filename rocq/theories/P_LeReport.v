(** Properties C65, C66 and C75: packets that pass the filters are reported, and lead to a connection. *)
From Verif Require Import Prelude Address Rpa Table LeTypes LeHost LeHistory LeOutputs LeListsSpec LeAdvertSpec LeFilterSpec LeTimeSpec LeListsWitness LeParamsWitness LeReportSpec LeReport LeReportWitness.
Open Scope N_scope.

Theorem C65_legacy_reported : forall aes rng cfg h s now adv tgt t data s' st out,
  history aes rng cfg h s -> step aes rng cfg now s (Receive (AirLegacy adv tgt t data)) = Ok s' st out ->
  scan_enabled (scan s) = true -> (forall i, known_as aes s adv i -> for_us aes s (scan_policy_given h) (match t with PDU_DIRECT => true | _ => false end) tgt i) ->
  is_new s h (AirLegacy adv tgt t data) ->
  (listed_only (scan_policy_given h) -> forall i, known_as aes s adv i -> on_accept_list s i) ->
  exists i, known_as aes s adv i
  /\ (let e := EvReport i (match t with PDU_IND => 0 | PDU_DIRECT => 1 | PDU_SCAN => 2 | PDU_NONCONN => 3 end) data in
      first_family unchecked h = Some Legacy -> unmasked s e -> unmasked s (EvDirectedReport i (awt_addr tgt)) ->
      In (Notified e) out
      \/ (t = PDU_DIRECT /\ looks_at_identity (scan_policy_given h) /\ is_rpa tgt = true /\ ~ by_key aes s tgt i
          /\ In (Notified (EvDirectedReport i (awt_addr tgt))) out))
  /\ (let e := EvExtendedReport (match t with PDU_IND | PDU_DIRECT => true | _ => false end) (match t with PDU_IND | PDU_SCAN => true | _ => false end)
                 (match t with PDU_DIRECT => true | _ => false end) false true false i 255 data in
      first_family unchecked h = Some Extended -> unmasked s e -> In (Notified e) out).
Proof. exact legacy_reported. Qed.
Print Assumptions C65_legacy_reported.

Theorem C65_extended_reported : forall aes rng cfg h s now adv tgt c sc d sid power prim sec pi data s' st out,
  history aes rng cfg h s ->
  step aes rng cfg now s (Receive (AirExtended adv tgt c sc d sid power prim sec pi data)) = Ok s' st out ->
  first_family unchecked h = Some Extended -> scan_enabled (scan s) = true -> on_scanned_phys cfg s prim sec -> (forall i, known_as aes s adv i -> for_us aes s (scan_policy_given h) d tgt i) ->
  is_new s h (AirExtended adv tgt c sc d sid power prim sec pi data) ->
  (listed_only (scan_policy_given h) -> forall i, known_as aes s adv i -> on_accept_list s i) ->
  (forall m i b, unmasked s (EvExtendedReport c sc d false false m i sid b)) ->
  exists i pieces rest, known_as aes s adv i /\ whole 229 data pieces
  /\ out = map (fun f => Notified (EvExtendedReport c sc d false false (fst f) i sid (snd f))) pieces ++ rest
  /\ forall e, In (Notified e) rest -> reported e = None.
Proof. exact extended_reported. Qed.
Print Assumptions C65_extended_reported.

Theorem C65_response_reported : forall aes rng cfg h s now adv dst data req s' st out,
  history aes rng cfg h s -> step aes rng cfg now s (Receive (AirScanResponse adv dst data)) = Ok s' st out ->
  scan_enabled (scan s) = true -> In (adv, req) (scan_pending (scan s)) -> is_new s h (AirScanResponse adv dst data) ->
  exists i, known_as aes s adv i
  /\ (first_family unchecked h = Some Legacy -> unmasked s (EvReport i 4 data) -> out = [Notified (EvReport i 4 data)])
  /\ (first_family unchecked h = Some Extended -> (forall c l m b, unmasked s (EvExtendedReport c true false true l m i 255 b)) ->
      exists c legacy pieces, whole 229 data pieces
      /\ out = map (fun f => Notified (EvExtendedReport c true false true legacy (fst f) i 255 (snd f))) pieces).
Proof. exact response_reported. Qed.
Print Assumptions C65_response_reported.

Theorem C65_extended_reported_witness : forall aes rng, exists h s s' out s'' out',
  let tgt := AWT local PUBLIC_DEVICE in
  history aes rng default_config h s /\ first_family unchecked h = Some Extended /\ scan_enabled (scan s) = true
  /\ listed_only (scan_policy_given h) /\ scan_dups (scan s) = DUP_ENABLED
  /\ on_scanned_phys default_config s 1 1
  /\ (forall d i, for_us aes s (scan_policy_given h) d tgt i)
  /\ (forall p, is_new s h p)
  /\ (forall i, known_as aes s remote i -> on_accept_list s i)
  /\ (forall c sc d r l m i sid b, unmasked s (EvExtendedReport c sc d r l m i sid b))
  /\ step aes rng default_config 300 s (Receive (AirExtended remote tgt true false true 3 0 1 1 0 (repeat 7 300))) = Ok s' None out
  /\ out = [Notified (EvExtendedReport true false true false false true remote 3 (repeat 7 229));
            Notified (EvExtendedReport true false true false false false remote 3 (repeat 7 71))]
  /\ step aes rng default_config 300 s (Receive (AirLegacy remote tgt PDU_DIRECT [])) = Ok s'' None out'
  /\ out' = [Notified (EvExtendedReport true false true false true false remote 255 [])].
Proof. exact extended_reported_witness. Qed.
Print Assumptions C65_extended_reported_witness.

Theorem C65_legacy_reported_witness : forall aes rng, exists h s s1 s2 s3 o1 o2 o3 req,
  history aes rng default_config h s /\ first_family unchecked h = Some Legacy /\ scan_enabled (scan s) = true
  /\ looks_at_identity (scan_policy_given h)
  /\ (forall d i, for_us aes s (scan_policy_given h) d (AWT local PUBLIC_DEVICE) i)
  /\ (forall d i, for_us aes s (scan_policy_given h) d unknown_private i)
  /\ is_new s h (AirLegacy remote (AWT local PUBLIC_DEVICE) PDU_DIRECT []) /\ is_new s h (AirLegacy remote unknown_private PDU_DIRECT [])
  /\ is_new s h (AirScanResponse remote local [1; 9])
  /\ ~ listed_only (scan_policy_given h)
  /\ (forall i c d, unmasked s (EvReport i c d)) /\ (forall i a, unmasked s (EvDirectedReport i a))
  /\ In (remote, req) (scan_pending (scan s))
  /\ step aes rng default_config 300 s (Receive (AirLegacy remote (AWT local PUBLIC_DEVICE) PDU_DIRECT [])) = Ok s1 None o1
  /\ o1 = [Notified (EvReport remote 1 [])]
  /\ step aes rng default_config 300 s (Receive (AirLegacy remote unknown_private PDU_DIRECT [])) = Ok s2 None o2
  /\ o2 = [Notified (EvDirectedReport remote [1; 2; 3; 4; 5; 0x45])]
  /\ step aes rng default_config 300 s (Receive (AirScanResponse remote local [1; 9])) = Ok s3 None o3
  /\ o3 = [Notified (EvReport remote 4 [1; 9])].
Proof. exact legacy_reported_witness. Qed.
Print Assumptions C65_legacy_reported_witness.

Theorem C66_directed_connected : forall aes rng cfg h s now p adv tgt given s' st out,
  history aes rng cfg h s -> step aes rng cfg now s (Receive p) = Ok s' st out ->
  offers p = Some (adv, Some tgt) -> init_enabled (init s) = true -> init_pending (init s) = None -> connection_given h = Some given ->
  (forall i, known_as aes s adv i -> may_connect_to s given i) ->
  (forall i, known_as aes s adv i -> addressed_here aes s tgt i) ->
  is_rpa tgt = true \/ init_own (init s) = OWN_PUBLIC \/ init_own (init s) = OWN_RANDOM ->
  (exists t d, p = AirLegacy adv tgt t d) \/ first_family unchecked h = Some Extended ->
  exists a x y z, In (Sent (AirConnect a adv x y z)) out.
Proof. exact directed_connected. Qed.
Print Assumptions C66_directed_connected.

Theorem C66_directed_connected_witness : forall aes rng, exists h s s' out,
  history aes rng default_config h s /\ connection_given h = Some (USE_ACCEPT_LIST, no_address)
  /\ init_enabled (init s) = true /\ init_pending (init s) = None /\ init_own (init s) = OWN_PUBLIC
  /\ (forall i, known_as aes s remote i -> may_connect_to s (USE_ACCEPT_LIST, no_address) i)
  /\ (forall i, addressed_here aes s (AWT local PUBLIC_DEVICE) i)
  /\ step aes rng default_config 5 s (Receive (AirLegacy remote (AWT local PUBLIC_DEVICE) PDU_DIRECT [])) = Ok s' None out
  /\ In (Sent (AirConnect (AWT local PUBLIC_DEVICE) remote 40 0 500)) out.
Proof. exact directed_connected_witness. Qed.
Print Assumptions C66_directed_connected_witness.
