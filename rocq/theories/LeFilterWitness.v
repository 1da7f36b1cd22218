(** Histories used as witnesses by the theorems on the filter policies. *)
From Verif Require Import Prelude Address Rpa Table LeTypes LeAdvertise LeLists LeScan LeInitiate LeHost LeHistory LeOutputs LeListsSpec LeAdvertSpec LeFilterSpec LeListsWitness LeParamsWitness LeSets.
Open Scope N_scope.

(** A device which is not in the accept list *)
Definition stranger : address_with_type := AWT [9; 9; 9; 9; 9; 9] PUBLIC_DEVICE.
Definition beacon (a : address_with_type) : op := Receive (AirLegacy a no_address PDU_IND [2; 1; 6]).

Lemma remote_listed : forall s, accept s = [(ACCEPT_PUBLIC, dev)] -> on_accept_list s remote.
Proof. intros s E. unfold on_accept_list, listed. rewrite E. exists ACCEPT_PUBLIC, dev. split; [now left|]. split; [reflexivity|now right]. Qed.
Lemma stranger_unlisted : forall s, accept s = [(ACCEPT_PUBLIC, dev)] -> ~ on_accept_list s stranger.
Proof. intros s E. unfold on_accept_list, listed. rewrite E. intros (t & a & [X|[]] & Y). injection X as <- <-. destruct Y as [_ [Y|Y]]; discriminate Y. Qed.

Ltac shown := vm_compute; tauto.

(** A listed device is reported and scanned, then its scan response is reported *)
Lemma scan_listed_witness : forall aes rng, exists h s s' s'' out out',
  history aes rng default_config h s /\ listed_only (scan_policy_given h) /\ on_accept_list s remote /\ ~ on_accept_list s stranger
  /\ step aes rng default_config 5 s (beacon remote) = Ok s' None out
  /\ In (Notified (EvReport remote 0 [2; 1; 6])) out /\ In (Sent (AirScan (AWT local PUBLIC_DEVICE) remote)) out
  /\ step aes rng default_config 6 s' (Receive (AirScanResponse remote local [1; 9])) = Ok s'' None out'
  /\ In (Notified (EvReport remote 4 [1; 9])) out'
  /\ step aes rng default_config 5 s (beacon stranger) = Ok s None [].
Proof.
  intros aes rng. eexists _, _, _, _, _, _. split.
  - played [(0, Command (SetEventMask 0x3fffffffffffffff)); (1, Command (AddAcceptList ACCEPT_PUBLIC dev));
            (2, Command (SetScanParameters ACTIVE 16 16 OWN_PUBLIC ACCEPT_LIST_ONLY)); (3, Command (SetScanEnable true false))].
  - split; [now left|]. split; [now apply remote_listed|]. split; [now apply stranger_unlisted|].
    split; [vm_compute; reflexivity|]. split; [shown|]. split; [shown|]. split; [vm_compute; reflexivity|]. split; [shown|]. vm_compute; reflexivity.
Qed.

(** The hypotheses of the converse *)
Lemma allowed_reported_witness : forall aes rng, exists h s,
  history aes rng default_config h s /\ first_family unchecked h = Some Legacy /\ scan_enabled (scan s) = true
  /\ scan_dups (scan s) = DUP_DISABLED /\ listed_only (scan_policy_given h)
  /\ (forall i, known_as aes s remote i -> on_accept_list s i) /\ (forall i c d, unmasked s (EvReport i c d)).
Proof.
  intros aes rng. eexists _, _. split.
  - played [(0, Command (SetEventMask 0x3fffffffffffffff)); (1, Command (AddAcceptList ACCEPT_PUBLIC dev));
            (2, Command (SetScanParameters ACTIVE 16 16 OWN_PUBLIC ACCEPT_LIST_ONLY)); (3, Command (SetScanEnable true false))].
  - split; [reflexivity|]. split; [reflexivity|]. split; [reflexivity|]. split; [now left|]. split.
    + intros i [[-> _]|[X _]]; [|discriminate X]. now apply remote_listed.
    + reflexivity.
Qed.

(** Connection to the devices of the accept list *)
Lemma connect_listed_witness : forall aes rng, exists h s s' out,
  history aes rng default_config h s /\ connection_given h = Some (USE_ACCEPT_LIST, no_address)
  /\ init_enabled (init s) = true /\ init_pending (init s) = None
  /\ on_accept_list s remote /\ ~ on_accept_list s stranger
  /\ step aes rng default_config 5 s (beacon remote) = Ok s' None out
  /\ In (Sent (AirConnect (AWT local PUBLIC_DEVICE) remote 40 0 500)) out
  /\ step aes rng default_config 5 s (beacon stranger) = Ok s None [].
Proof.
  intros aes rng. eexists _, _, _, _. split.
  - played [(1, Command (AddAcceptList ACCEPT_PUBLIC dev)); (2, Command (CreateConnection USE_ACCEPT_LIST no_address OWN_PUBLIC usual))].
  - split; [reflexivity|]. split; [reflexivity|]. split; [reflexivity|]. split; [now apply remote_listed|]. split; [now apply stranger_unlisted|].
    split; [vm_compute; reflexivity|]. split; [shown|]. vm_compute; reflexivity.
Qed.

(** The host asks for a connection to the identity address of a bonded device: the
    device advertises and is ignored *)
Lemma identity_peer_witness : forall aes rng, exists h s,
  history aes rng default_config h s /\ connection_given h = Some (USE_PEER_ADDRESS, AWT dev PUBLIC_IDENTITY)
  /\ init_enabled (init s) = true
  /\ (exists e, In e (resolving s) /\ peer_identity_address e = dev /\ peer_identity_type e = PEER_PUBLIC) /\ resolving_on s = true
  /\ step aes rng default_config 5 s (beacon (AWT dev PUBLIC_DEVICE)) = Ok s None [].
Proof.
  intros aes rng. eexists _, _. split.
  - played [(0, Command (AddResolvingList PEER_PUBLIC dev irk1 irk2)); (1, Command (SetPrivacyMode PEER_PUBLIC dev)); (2, Command (SetAddressResolution true));
            (3, Command (CreateConnection USE_PEER_ADDRESS (AWT dev PUBLIC_IDENTITY) OWN_PUBLIC usual))].
  - split; [reflexivity|]. split; [reflexivity|]. split; [eexists; split; [now left|split; reflexivity]|]. split; [reflexivity|]. vm_compute; reflexivity.
Qed.

(** An advertiser which only serves the devices of the accept list *)
Lemma serve_listed_witness : forall aes rng, exists h s s' s'' out,
  history aes rng default_config h s /\ legacy_given h = (ADV_IND, AWT empty_address PUBLIC_DEVICE, LISTED_SCAN_AND_CONNECT)
  /\ l_enabled (legacy s) = true /\ on_accept_list s remote /\ ~ on_accept_list s stranger
  /\ step aes rng default_config 5 s (Receive (AirScan remote (AWT local PUBLIC_DEVICE))) = Ok s' None [Sent (AirScanResponse (AWT local PUBLIC_DEVICE) dev [1; 9])]
  /\ step aes rng default_config 5 s (Receive (AirScan stranger (AWT local PUBLIC_DEVICE))) = Ok s None []
  /\ step aes rng default_config 5 s (Receive (AirConnect remote (AWT local PUBLIC_DEVICE) 40 0 500)) = Ok s'' None out
  /\ answers remote (AWT local PUBLIC_DEVICE) 40 0 500 out
  /\ step aes rng default_config 5 s (Receive (AirConnect stranger (AWT local PUBLIC_DEVICE) 40 0 500)) = Ok s None [].
Proof.
  intros aes rng. eexists _, _, _, _, _. split.
  - played [(0, Command (AddAcceptList ACCEPT_PUBLIC dev));
            (1, Command (SetAdvParameters 160 160 ADV_IND OWN_PUBLIC PEER_PUBLIC empty_address 7 LISTED_SCAN_AND_CONNECT));
            (2, Command (SetScanResponseData [1; 9])); (3, Command (SetAdvEnable true))].
  - split; [reflexivity|]. split; [reflexivity|]. split; [now apply remote_listed|]. split; [now apply stranger_unlisted|].
    split; [vm_compute; reflexivity|]. split; [vm_compute; reflexivity|]. split; [vm_compute; reflexivity|].
    split; [|vm_compute; reflexivity]. split; [shown|]. intros p I. vm_compute in I. destruct I as [I|[]]. now injection I as <-.
Qed.

(** A scannable set directed to a bonded device does not answer it *)
Definition aimed : ext_params :=
  ExtParams (Props false true true false false false false) 160 160 7 OWN_PUBLIC PEER_PUBLIC dev ALL_DEVICES 0 PRIMARY_1M SECONDARY_NONE 1 false.
Lemma mistaken_target : forall aes rng now s scanner adv x a,
  resolve aes scanner s = (s, scanner) -> l_enabled (legacy s) = false -> sets s = [(x, a)] ->
  directed (props a) = true -> awt_type (target a) <> awt_type scanner ->
  step aes rng default_config now s (Receive (AirScan scanner adv)) = Ok s None [].
Proof.
  intros aes rng now s scanner adv x a R L S D T. cbn [step receive]. unfold receive_scan. rewrite R. unfold legacy_scan_request. rewrite L, S.
  cbn [flat_map snd andb app]. unfold set_scan_request_pdu. rewrite D.
  replace (awt_eqb (target a) scanner) with false.
  - cbn [andb negb]. now rewrite Bool.andb_false_r.
  - symmetry. apply not_true_is_false. intros E. apply awt_eqb_eq in E. now rewrite E in T.
Qed.
Lemma aimed_scan_witness : forall aes rng, exists h s,
  history aes rng default_config h s /\ set_given 1 h = Some aimed
  /\ (exists a, lookup (sets s) 1 = Some a /\ enabled a = true /\ adv_address a = AWT local PUBLIC_DEVICE)
  /\ scannable (e_props aimed) = true /\ directed (e_props aimed) = true
  /\ peer_device_address (e_peer aimed) (e_peer_kind aimed) = remote
  /\ step aes rng default_config 5 s (Receive (AirScan remote (AWT local PUBLIC_DEVICE))) = Ok s None [].
Proof.
  intros aes rng. eexists _, _. split.
  - played [(0, Command (AddResolvingList PEER_PUBLIC dev irk1 irk2)); (1, Command (SetPrivacyMode PEER_PUBLIC dev)); (2, Command (SetAddressResolution true));
            (3, Command (SetExtParameters 1 aimed)); (3, Command (SetExtScanResponse 1 COMPLETE [1; 9])); (4, Command (SetExtEnable true [EnabledSet 1 0 0]))].
  - split; [reflexivity|]. split; [eexists; split; [reflexivity|split; reflexivity]|]. split; [reflexivity|]. split; [reflexivity|]. split; [reflexivity|]. eapply mistaken_target; try (vm_compute; reflexivity). vm_compute. discriminate.
Qed.
