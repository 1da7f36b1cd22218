(** Histories in which packets have to be reported. *)
From Verif Require Import Prelude Address Rpa Table LeTypes LeAdvertise LeLists LeScan LeInitiate LeHost LeHistory LeOutputs LeListsSpec LeAdvertSpec LeFilterSpec LeListsWitness LeParamsWitness LeAdvertWitness LeFilterWitness LeSets LeTimeSpec LeTimeWitness LeReportSpec.
Open Scope N_scope.

(** With the duplicate filter and the accept list, a long directed packet, and a directed
    packet of the older kind, for the public address. *)
Lemma extended_reported_witness : forall aes rng, exists h s s' out s'' out',
  let tgt := AWT local PUBLIC_DEVICE in
  history aes rng default_config h s /\ first_family unchecked h = Some Extended /\ scan_enabled (scan s) = true
  /\ listed_only (scan_policy_given h) /\ scan_dups (scan s) = DUP_ENABLED
  /\ on_scanned_phys default_config s 1 1
  /\ (forall d i, for_us aes s (scan_policy_given h) d tgt i)
  /\ (forall p, is_new s h p)
  /\ (forall i, known_as aes s remote i -> on_accept_list s i)
  /\ (forall c sc d r l m i sid b, unmasked s (EvExtendedReport c sc d r l m i sid b))
  /\ step aes rng default_config 300 s (Receive (AirExtended remote tgt true false true 3 0 1 1 0 (repeat 7 300))) = Ok s' None out
  /\ out = [Notified (EvExtendedReport true false true false false true remote 3 (repeat 7 229));
            Notified (EvExtendedReport true false true false false false remote 3 (repeat 7 71))]
  /\ step aes rng default_config 300 s (Receive (AirLegacy remote tgt PDU_DIRECT [])) = Ok s'' None out'
  /\ out' = [Notified (EvExtendedReport true false true false true false remote 255 [])].
Proof.
  intros aes rng. eexists _, _, _, _, _, _. cbv zeta. split.
  - played [(0, Command (SetEventMask 0x3fffffffffffffff)); (0, Command (LeSetEventMask 0xffffffffffff)); (1, Command (AddAcceptList ACCEPT_PUBLIC dev));
            (1, Command (SetExtScanParameters OWN_PUBLIC ACCEPT_LIST_ONLY 1 [(PASSIVE, 16, 16)]));
            (100, Command (SetExtScanEnable true DUP_ENABLED 0 0))].
  - split; [reflexivity|]. split; [reflexivity|]. split; [now left|]. split; [reflexivity|]. split.
    { split; [reflexivity|]. split; [discriminate|]. split; [discriminate|]. intros [X|X]; discriminate X. }
    split; [intros d i _; left; now left|]. split; [intros p; right; vm_compute; tauto|].
    split; [intros i [[-> _]|[X _]]; [now apply remote_listed|discriminate X]|]. split; [reflexivity|].
    split; [vm_compute; reflexivity|]. split; [reflexivity|]. split; [vm_compute; reflexivity|reflexivity].
Qed.

(** With the older commands and a policy that looks at identities: a packet for the public
    address, one for a private address that nobody knows, and the response to a scan request. *)
Definition unknown_private : address_with_type := AWT [1; 2; 3; 4; 5; 0x45] RANDOM_DEVICE.
Lemma legacy_reported_witness : forall aes rng, exists h s s1 s2 s3 o1 o2 o3 req,
  history aes rng default_config h s /\ first_family unchecked h = Some Legacy /\ scan_enabled (scan s) = true
  /\ looks_at_identity (scan_policy_given h)
  /\ (forall d i, for_us aes s (scan_policy_given h) d (AWT local PUBLIC_DEVICE) i)
  /\ (forall d i, for_us aes s (scan_policy_given h) d unknown_private i)
  /\ is_new s h (AirLegacy remote (AWT local PUBLIC_DEVICE) PDU_DIRECT []) /\ is_new s h (AirLegacy remote unknown_private PDU_DIRECT [])
  /\ is_new s h (AirScanResponse remote local [1; 9])
  /\ ~ listed_only (scan_policy_given h)
  /\ (forall i c d, unmasked s (EvReport i c d)) /\ (forall i a, unmasked s (EvDirectedReport i a))
  /\ In (remote, req) (scan_pending (scan s))
  /\ step aes rng default_config 300 s (Receive (AirLegacy remote (AWT local PUBLIC_DEVICE) PDU_DIRECT [])) = Ok s1 None o1
  /\ o1 = [Notified (EvReport remote 1 [])]
  /\ step aes rng default_config 300 s (Receive (AirLegacy remote unknown_private PDU_DIRECT [])) = Ok s2 None o2
  /\ o2 = [Notified (EvDirectedReport remote [1; 2; 3; 4; 5; 0x45])]
  /\ step aes rng default_config 300 s (Receive (AirScanResponse remote local [1; 9])) = Ok s3 None o3
  /\ o3 = [Notified (EvReport remote 4 [1; 9])].
Proof.
  intros aes rng. eexists _, _, _, _, _, _, _, _, _. split.
  - played [(0, Command (SetEventMask 0x3fffffffffffffff)); (0, Command (LeSetEventMask 0xffffffffffff));
            (1, Command (SetScanParameters ACTIVE 16 16 OWN_PUBLIC CHECK_IDENTITY)); (100, Command (SetScanEnable true true)); (200, beacon remote)].
  - split; [reflexivity|]. split; [reflexivity|]. split; [now left|].
    split; [intros d i _; left; now left|]. split; [intros d i _; right; right; split; [now left|reflexivity]|].
    split; [right; vm_compute; intros [X|X]; [discriminate X|destruct X]|]. split; [right; vm_compute; intros [X|X]; [discriminate X|destruct X]|].
    split; [right; vm_compute; intros [X|X]; [discriminate X|destruct X]|].
    split; [intros L; vm_compute in L; destruct L as [L|L]; discriminate L|]. split; [reflexivity|]. split; [reflexivity|].
    split; [left; reflexivity|]. split; [vm_compute; reflexivity|]. split; [reflexivity|]. split; [vm_compute; reflexivity|]. split; [reflexivity|].
    split; [vm_compute; reflexivity|reflexivity].
Qed.

(** A directed packet for the public address, while a connection to a device of the accept list is wanted. *)
Lemma directed_connected_witness : forall aes rng, exists h s s' out,
  history aes rng default_config h s /\ connection_given h = Some (USE_ACCEPT_LIST, no_address)
  /\ init_enabled (init s) = true /\ init_pending (init s) = None /\ init_own (init s) = OWN_PUBLIC
  /\ (forall i, known_as aes s remote i -> may_connect_to s (USE_ACCEPT_LIST, no_address) i)
  /\ (forall i, addressed_here aes s (AWT local PUBLIC_DEVICE) i)
  /\ step aes rng default_config 5 s (Receive (AirLegacy remote (AWT local PUBLIC_DEVICE) PDU_DIRECT [])) = Ok s' None out
  /\ In (Sent (AirConnect (AWT local PUBLIC_DEVICE) remote 40 0 500)) out.
Proof.
  intros aes rng. eexists _, _, _, _. split.
  - played [(1, Command (AddAcceptList ACCEPT_PUBLIC dev)); (2, Command (CreateConnection USE_ACCEPT_LIST no_address OWN_PUBLIC usual))].
  - split; [reflexivity|]. split; [reflexivity|]. split; [reflexivity|]. split; [reflexivity|].
    split; [intros i [[-> _]|[X _]]; [now apply remote_listed|discriminate X]|]. split; [intros i; now left|].
    split; [vm_compute; reflexivity|]. shown.
Qed.
