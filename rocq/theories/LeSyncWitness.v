(** Histories used as witnesses by the theorems on periodic advertising synchronisation. *)
From Verif Require Import Prelude Address Rpa Table LeTypes LeAdvertise LeLists LeScan LeInitiate LeHost LeHistory LeListsSpec LeListsWitness LeParamsWitness LeAdvertWitness LeFilterSpec LeLedgerSpec LeTimeSpec LeSyncSpec.
Open Scope N_scope.

Local Notation listen := [(0, Command (SetEventMask 0x3fffffffffffffff)); (0, Command (LeSetEventMask 0xffffffffffff));
  (1, Command (SetExtScanParameters OWN_PUBLIC ACCEPT_ALL 1 [(PASSIVE, 16, 16)])); (2, Command (SetExtScanEnable true DUP_DISABLED 0 0))].
(** A request for the set 3 of [remote], with a timeout of one second *)
Local Notation ask := (Command (CreateSync false false false 3 PEER_PUBLIC dev 100 0)).
Local Notation ask_list := (Command (CreateSync true false false 0 PEER_PUBLIC dev 100 0)).
Local Notation packet sid d := (Receive (AirPeriodic remote sid 0 8 d)).

Local Ltac heard := repeat (split; [|intros; first [discriminate | split; reflexivity]]); exact Logic.I.

(** Two synchronisations are made, the first one is ended, and a third one is asked for *)
Lemma syncs_witness : forall aes rng, exists h s, history aes rng default_config h s /\ hears_syncs h /\ hears_answers h /\ hears_reports h /\ scanning s /\
  syncs h = [(1, (PEER_PUBLIC, dev, 4))] /\ pending h = Some None /\ requests h = 3 /\ sync_answers h = 2 /\ padv_holds h (PEER_PUBLIC, dev, 3).
Proof.
  intros aes rng. eexists _, _. split.
  - played (listen ++ [(3, ask); (4, packet 9 [1]); (5, packet 3 [1]); (6, Command (CreateSync false false false 4 PEER_PUBLIC dev 100 0)); (7, packet 4 [2]);
      (8, Command (TerminateSync 0)); (9, Command (AddPadv PEER_PUBLIC dev 3)); (10, ask_list)]).
  - split; [heard|]. split; [split; reflexivity|]. split; [split; reflexivity|]. split; [split; reflexivity|]. repeat (split; [vm_compute; reflexivity|]).
    apply padv_still; try discriminate. apply padv_add.
Qed.

(** Each packet of the train is reported *)
Lemma reported_witness : forall aes rng, exists h s s' out, history aes rng default_config h s /\ hears_syncs h /\ hears_answers h /\ hears_reports h /\ scanning s /\
  pending h = None /\ syncs h = [(0, (PEER_PUBLIC, dev, 3))] /\ requests h = 1 /\ names_trains h /\
  step aes rng default_config 300 s (packet 3 (repeat 7 300)) = Ok s' None out /\ periodic_pieces 0 out = [(true, repeat 7 247); (false, repeat 7 53)].
Proof.
  intros aes rng. eexists _, _, _, _. split.
  - played (listen ++ [(3, ask); (5, packet 3 [1])]).
  - split; [heard|]. split; [split; reflexivity|]. split; [split; reflexivity|]. split; [split; reflexivity|]. repeat (split; [vm_compute; reflexivity|]).
    split; [|split; [vm_compute; reflexivity|reflexivity]].
    intros e I nr dup sid k a t c W. cbn [In] in I. repeat (destruct I as [<-|I]; [discriminate W|]). contradiction.
Qed.

(** A request that is cancelled is answered *)
Lemma cancelled_witness : forall aes rng, exists h s, history aes rng default_config h s /\ hears_syncs h /\ hears_answers h /\ pending h = Some (Some (PEER_PUBLIC, dev, 3)) /\
  exists s', step aes rng default_config 9 s (Command CancelSync) = Ok s' (Some SUCCESS) [Notified (EvSyncEstablished OPERATION_CANCELLED 0 0 no_address 0)].
Proof.
  intros aes rng. eexists _, _. split.
  - played (listen ++ [(3, ask); (4, packet 9 [1])]).
  - split; [heard|]. split; [split; reflexivity|]. split; [vm_compute; reflexivity|]. eexists. vm_compute. reflexivity.
Qed.

(** With the periodic advertiser list a host gets a second synchronisation with the same
    train, and each packet twice *)
Lemma same_train : forall aes rng, exists h s s' out, history aes rng default_config h s /\ hears_syncs h /\ hears_answers h /\ hears_reports h /\ scanning s /\
  syncs h = [(0, (PEER_PUBLIC, dev, 3)); (1, (PEER_PUBLIC, dev, 3))] /\
  step aes rng default_config 300 s (packet 3 [7]) = Ok s' None out /\
  out = [Notified (EvPeriodicReport 0 false [7]); Notified (EvPeriodicReport 1 false [7])].
Proof.
  intros aes rng. eexists _, _, _, _. split.
  - played (listen ++ [(2, Command (AddPadv PEER_PUBLIC dev 3)); (3, ask_list); (5, packet 3 [1]); (6, ask_list); (7, packet 3 [1])]).
  - split; [heard|]. split; [split; reflexivity|]. split; [split; reflexivity|]. split; [split; reflexivity|]. split; [vm_compute; reflexivity|].
    split; [vm_compute; reflexivity|reflexivity].
Qed.

(** A train that stops: an hour later, at a timeout of one second, the host was told
    nothing and still has the synchronisation *)
Lemma never_lost : forall aes rng, exists h s s', history aes rng default_config h s /\ hears_syncs h /\ hears_answers h /\ hears_reports h /\ scanning s /\
  (exists h1 h2, h = h2 ++ Entry 5 (packet 3 [1]) None [Notified (EvSyncEstablished SUCCESS 0 3 remote 8)] :: Entry 3 ask (Some SUCCESS) [] :: h1
     /\ (forall e, In e h2 -> what e = Tick /\ sent e = []) /\ map at_time h2 = [3600000000; 60000000; 3000000; 1500000; 1000000]) /\
  syncs h = [(0, (PEER_PUBLIC, dev, 3))] /\ syncs_of s = [(0, (PEER_PUBLIC, dev, 3))] /\
  step aes rng default_config 3600000001 s (Command (TerminateSync 0)) = Ok s' (Some SUCCESS) [].
Proof.
  intros aes rng. eexists _, _, _. split.
  - played (listen ++ [(3, ask); (5, packet 3 [1]); (1000000, Tick); (1500000, Tick); (3000000, Tick); (60000000, Tick); (3600000000, Tick)]).
  - split; [heard|]. split; [split; reflexivity|]. split; [split; reflexivity|]. split; [split; reflexivity|]. split.
    + eexists _, [_; _; _; _; _]. split; [cbn [app]; reflexivity|]. split; [|reflexivity].
      intros e I. repeat (destruct I as [<-|I]; [split; reflexivity|]). contradiction.
    + split; [vm_compute; reflexivity|]. split; [vm_compute; reflexivity|]. vm_compute. reflexivity.
Qed.

(** A host which stops scanning gets no more reports from the train it is synchronised with *)
Lemma not_scanning : forall aes rng, exists h s, history aes rng default_config h s /\ hears_syncs h /\ hears_answers h /\ hears_reports h /\
  syncs h = [(0, (PEER_PUBLIC, dev, 3))] /\ pending h = None /\ ~ scanning s /\
  step aes rng default_config 300 s (packet 3 [7]) = Ok s None [].
Proof.
  intros aes rng. eexists _, _. split.
  - played (listen ++ [(3, ask); (5, packet 3 [1]); (6, Command (SetExtScanEnable false DUP_DISABLED 0 0))]).
  - split; [heard|]. split; [split; reflexivity|]. split; [split; reflexivity|]. split; [vm_compute; reflexivity|]. split; [vm_compute; reflexivity|].
    split; [intros [X _]; discriminate X|]. vm_compute. reflexivity.
Qed.

(** A second controller synchronised with the first one's set gets what its host stored *)
Lemma between_witness : forall aes rng, exists hA sA sA' outA power pi hB sB sB' outB,
  history aes rng default_config hA sA /\ step aes rng default_config 9 sA Tick = Ok sA' None outA /\
  In (Sent (AirPeriodic (AWT local PUBLIC_DEVICE) 3 power pi [1; 2; 3])) outA /\
  history aes rng default_config hB sB /\ hears_syncs hB /\ hears_answers hB /\ hears_reports hB /\ scanning sB /\ pending hB = None /\
  syncs hB = [(0, (PEER_PUBLIC, local, 3))] /\
  step aes rng default_config 10 sB (Receive (AirPeriodic (AWT local PUBLIC_DEVICE) 3 power pi [1; 2; 3])) = Ok sB' None outB /\
  periodic_pieces 0 outB = [(false, [1; 2; 3])].
Proof.
  intros aes rng. eexists _, _, _, _, _, _, _, _, _, _. split; [played busy|]. split; [vm_compute; reflexivity|].
  split; [cbn [In app]; right; left; reflexivity|]. split.
  - eapply (play_history _ _ _ (listen ++ [(3, Command (CreateSync false false false 3 PEER_PUBLIC local 100 0)); (4, Receive (AirPeriodic (AWT local PUBLIC_DEVICE) 3 0 6 [1]))]) [] (new_le dev));
      [apply power_on|vm_compute; reflexivity].
  - split; [heard|]. split; [split; reflexivity|]. split; [split; reflexivity|]. split; [split; reflexivity|]. split; [vm_compute; reflexivity|]. split; [vm_compute; reflexivity|].
    split; [vm_compute; reflexivity|reflexivity].
Qed.
