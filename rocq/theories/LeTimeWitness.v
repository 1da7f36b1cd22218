(** Histories used as witnesses by the theorems on the end of advertising and of scanning, on
    duplicates and on the pieces of reports. *)
From Verif Require Import Prelude Address Rpa Table LeTypes LeAdvertise LeLists LeScan LeInitiate LeHost LeHistory LeOutputs LeListsSpec LeAdvertSpec LeFilterSpec LeListsWitness LeParamsWitness LeAdvertWitness LeFilterWitness LeSets LeTimeSpec.
Open Scope N_scope.

Ltac off := let X := fresh in let Y := fresh in intros (? & X & Y); vm_compute in X; injection X as <-; discriminate Y.

(** The set 1, enabled at 100 for 20 ms, sends at 100 and is stopped at 20100 *)
Lemma duration_witness : forall aes rng, exists h s s' out out',
  history aes rng default_config (Entry 100 Tick None out :: h) s /\ is_enabled s 1 /\ adverts out = 1
  /\ enabled_by 1 h = Some (100, EnabledSet 1 2 0)
  /\ step aes rng default_config 20100 s Tick = Ok s' None out' /\ ~ is_enabled s' 1
  /\ out' = [Notified (EvSetTerminated ADVERTISING_TIMEOUT 1 0 0)].
Proof.
  intros aes rng. eexists _, _, _, _, _. split.
  - played [(0, Command (SetEventMask 0x3fffffffffffffff)); (0, Command (LeSetEventMask 0xffffffffffff));
            (1, Command (SetExtParameters 1 (params plain OWN_PUBLIC))); (100, Command (SetExtEnable true [EnabledSet 1 2 0])); (100, Tick)].
  - split; [eexists; split; reflexivity|]. split; [reflexivity|]. split; [reflexivity|]. split; [vm_compute; reflexivity|].
    split; [|reflexivity]. off.
Qed.

(** The set 1, enabled for two events, sends two packets and is stopped; it is then enabled for one event more. *)
Lemma events_witness : forall aes rng, exists h s,
  history aes rng default_config h s /\ (forall e, In e h -> limited e) /\ adverts_sent h = 3 /\ events_asked h = 3.
Proof.
  intros aes rng. eexists _, _. split.
  - played [(0, Command (SetEventMask 0x3fffffffffffffff)); (0, Command (LeSetEventMask 0xffffffffffff));
            (1, Command (SetExtParameters 1 (params plain OWN_PUBLIC))); (100, Command (SetExtEnable true [EnabledSet 1 0 2]));
            (100, Tick); (100000, Tick); (200000, Tick); (300000, Tick); (400000, Command (SetExtEnable true [EnabledSet 1 0 1])); (400000, Tick); (800000, Tick); (900000, Tick)].
  - split; [|split; reflexivity]. apply Forall_forall.
    repeat (apply Forall_cons; [exact I || (intros d X; cbn in X; destruct X as [<-|[]]; cbn; lia)|]). apply Forall_nil.
Qed.

(** The event which tells that the number of events was reached has the status of a timeout *)
Lemma limit_status_witness : forall aes rng, exists h s s' out,
  history aes rng default_config h s /\ enabled_by 1 h = Some (100, EnabledSet 1 0 1)
  /\ step aes rng default_config 200 s Tick = Ok s' None out /\ is_enabled s 1 /\ ~ is_enabled s' 1
  /\ out = [Notified (EvSetTerminated ADVERTISING_TIMEOUT 1 0 1)].
Proof.
  intros aes rng. eexists _, _, _, _. split.
  - played [(0, Command (SetEventMask 0x3fffffffffffffff)); (0, Command (LeSetEventMask 0xffffffffffff));
            (1, Command (SetExtParameters 1 (params plain OWN_PUBLIC))); (100, Command (SetExtEnable true [EnabledSet 1 0 1])); (100, Tick)].
  - split; [reflexivity|]. split; [vm_compute; reflexivity|]. split; [eexists; split; reflexivity|]. split; [off|reflexivity].
Qed.

(** High duty cycle directed advertising *)
Lemma high_duty_witness : forall aes rng, exists h s s' out out',
  history aes rng default_config (Entry 100 Tick None out :: h) s /\ l_enabled (legacy s) = true
  /\ fst (fst (legacy_given h)) = ADV_DIRECT_IND_HIGH /\ legacy_enabled_at h = Some 50
  /\ step aes rng default_config 1280050 s Tick = Ok s' None out' /\ l_enabled (legacy s') = false
  /\ out' = [Notified timeout_complete].
Proof.
  intros aes rng. eexists _, _, _, _, _. split.
  - played [(0, Command (SetEventMask 0x3fffffffffffffff)); (0, Command (LeSetEventMask 0xffffffffffff));
            (1, Command (SetAdvParameters 100 200 ADV_DIRECT_IND_HIGH OWN_PUBLIC PEER_PUBLIC dev 7 ALL_DEVICES));
            (50, Command (SetAdvEnable true)); (100, Tick)].
  - split; [reflexivity|]. split; [reflexivity|]. split; [reflexivity|]. split; [vm_compute; reflexivity|]. split; reflexivity.
Qed.

(** Scanning for 50 ms *)
Lemma scan_stop_witness : forall aes rng, exists h s s' out out',
  history aes rng default_config (Entry 50099 Tick None out :: h) s /\ scan_enabled (scan s) = true
  /\ scan_given h = Some (ScanOrder 100 DUP_ENABLED 5 0)
  /\ step aes rng default_config 50100 s Tick = Ok s' None out' /\ scan_enabled (scan s') = false
  /\ out' = [Notified EvScanTimeout].
Proof.
  intros aes rng. eexists _, _, _, _, _. split.
  - played [(0, Command (SetEventMask 0x3fffffffffffffff)); (0, Command (LeSetEventMask 0xffffffffffff));
            (1, Command (SetExtScanParameters OWN_PUBLIC ACCEPT_ALL 1 [(PASSIVE, 16, 16)]));
            (100, Command (SetExtScanEnable true DUP_ENABLED 5 0)); (50099, Tick)].
  - split; [reflexivity|]. split; [reflexivity|]. split; [vm_compute; reflexivity|]. split; reflexivity.
Qed.

(** Scanning 50 ms every 1.28 s: a packet received between the two is reported *)
Lemma scan_pause_witness : forall aes rng, exists h s s' out o,
  history aes rng default_config (Entry 60000 Tick None [] :: h) s /\ scan_given h = Some o
  /\ so_time o + 10000 * so_duration o <= 60000 /\ 60001 < so_time o + 1280000 * so_period o /\ so_duration o <> 0
  /\ step aes rng default_config 60001 s (beacon remote) = Ok s' None out /\ has_report out.
Proof.
  intros aes rng. eexists _, _, _, _, _. split.
  - played [(0, Command (SetEventMask 0x3fffffffffffffff)); (0, Command (LeSetEventMask 0xffffffffffff));
            (1, Command (SetExtScanParameters OWN_PUBLIC ACCEPT_ALL 1 [(PASSIVE, 16, 16)]));
            (100, Command (SetExtScanEnable true DUP_DISABLED 5 1)); (60000, Tick)].
  - split; [reflexivity|]. split; [vm_compute; discriminate|]. split; [reflexivity|]. split; [discriminate|]. split; [vm_compute; reflexivity|].
    eexists. split; [now left|]. discriminate.
Qed.

(** The second reception of a packet is not reported, the first one of another is *)
Lemma duplicate_witness : forall aes rng, exists h s s' s'' out o,
  history aes rng default_config h s /\ scan_given h = Some o /\ so_duplicates o = DUP_ENABLED
  /\ since_scanning (reported_to_host (AirLegacy remote no_address PDU_IND [2; 1; 6])) h
  /\ step aes rng default_config 60001 s (beacon remote) = Ok s' None []
  /\ first_family unchecked h = Some Legacy /\ scan_enabled (scan s) = true
  /\ ~ since_scanning (received (AirLegacy stranger no_address PDU_IND [2; 1; 6])) h
  /\ (listed_only (scan_policy_given h) -> forall i, known_as aes s stranger i -> on_accept_list s i)
  /\ (forall i c, unmasked s (EvReport i c [2; 1; 6]))
  /\ step aes rng default_config 60001 s (beacon stranger) = Ok s'' None out /\ has_report out.
Proof.
  intros aes rng. eexists _, _, _, _, _, _. split.
  - played [(0, Command (SetEventMask 0x3fffffffffffffff)); (0, Command (LeSetEventMask 0xffffffffffff));
            (1, Command (SetScanParameters PASSIVE 16 16 OWN_PUBLIC ACCEPT_ALL));
            (100, Command (SetScanEnable true true)); (200, beacon remote)].
  - split; [reflexivity|]. split; [reflexivity|]. split.
    { left. split; [reflexivity|]. eexists. split; [now left|]. discriminate. }
    split; [vm_compute; reflexivity|]. split; [reflexivity|]. split; [reflexivity|]. split; [vm_compute; intros [X|X]; [discriminate X|destruct X]|].
    split; [intros L; exfalso; vm_compute in L; destruct L as [L|L]; discriminate L|]. split; [reflexivity|]. split; [vm_compute; reflexivity|]. eexists. split; [now left|]. discriminate.
Qed.

(** A long packet is reported in two pieces *)
Lemma pieces_witness : forall aes rng, exists h s s' out,
  history aes rng default_config h s
  /\ step aes rng default_config 300 s (Receive (AirExtended remote no_address false false false 3 0 1 1 0 (repeat 7 300))) = Ok s' None out
  /\ extended_pieces out = [(true, repeat 7 229); (false, repeat 7 71)].
Proof.
  intros aes rng. eexists _, _, _, _. split.
  - played [(0, Command (SetEventMask 0x3fffffffffffffff)); (0, Command (LeSetEventMask 0xffffffffffff));
            (1, Command (SetExtScanParameters OWN_PUBLIC ACCEPT_ALL 1 [(PASSIVE, 16, 16)]));
            (100, Command (SetExtScanEnable true DUP_DISABLED 5 1))].
  - split; [vm_compute; reflexivity|reflexivity].
Qed.
Lemma periodic_pieces_witness : forall aes rng, exists h s s' out,
  history aes rng default_config h s
  /\ step aes rng default_config 300 s (Receive (AirPeriodic remote 3 0 8 (repeat 7 300))) = Ok s' None out
  /\ periodic_pieces 0 out = [(true, repeat 7 247); (false, repeat 7 53)].
Proof.
  intros aes rng. eexists _, _, _, _. split.
  - played [(0, Command (SetEventMask 0x3fffffffffffffff)); (0, Command (LeSetEventMask 0xffffffffffff));
            (1, Command (SetExtScanParameters OWN_PUBLIC ACCEPT_ALL 1 [(PASSIVE, 16, 16)]));
            (100, Command (SetExtScanEnable true DUP_DISABLED 5 1)); (110, Command (CreateSync false false false 3 PEER_PUBLIC dev 100 0));
            (200, Receive (AirPeriodic remote 3 0 8 [1]))].
  - split; [vm_compute; reflexivity|reflexivity].
Qed.
