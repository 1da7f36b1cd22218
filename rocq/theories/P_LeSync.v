(** Property C109: synchronisation with periodic advertising. *)
From Verif Require Import Prelude Address Rpa Table LeTypes LeAdvertise LeLists LeScan LeInitiate LeHost LeHistory LeListsSpec LeListsWitness LeParamsWitness LeAdvertSpec LeFilterSpec LeLedgerSpec LeTimeSpec LeSyncSpec LeSyncProofs LeSyncWitness.
Open Scope N_scope.

Theorem C109_ledger : forall aes rng cfg h s, history aes rng cfg h s -> hears_syncs h -> syncs_of s = syncs h /\ request_of s = pending h.
Proof. exact sync_ledger. Qed.
Print Assumptions C109_ledger.

Theorem C109_answered_once : forall aes rng cfg h s, history aes rng cfg h s -> hears_syncs h -> requests h = sync_answers h + (if pending h then 1 else 0).
Proof. exact requests_counted. Qed.
Print Assumptions C109_answered_once.

Theorem C109_handles_distinct : forall aes rng cfg h s, history aes rng cfg h s -> hears_syncs h -> NoDup (map fst (syncs h)).
Proof. exact sync_handles_distinct. Qed.
Print Assumptions C109_handles_distinct.

Theorem C109_ledger_witness : forall aes rng, exists h s, history aes rng default_config h s /\ hears_syncs h /\ hears_answers h /\ hears_reports h /\ scanning s /\
  syncs h = [(1, (PEER_PUBLIC, dev, 4))] /\ pending h = Some None /\ requests h = 3 /\ sync_answers h = 2 /\ padv_holds h (PEER_PUBLIC, dev, 3).
Proof. exact syncs_witness. Qed.
Print Assumptions C109_ledger_witness.

Theorem C109_packet : forall aes rng cfg h s now adv sid power pi data s' st out, history aes rng cfg h s -> hears_syncs h -> hears_answers h -> hears_reports h -> scanning s ->
  step aes rng cfg now s (Receive (AirPeriodic adv sid power pi data)) = Ok s' st out ->
  exists i, known_as aes s adv i /\
    ((exists r k, pending h = Some r /\ asked_for h r (train_of i sid) /\ least_unused (map fst (syncs h)) k
        /\ out = [Notified (EvSyncEstablished SUCCESS k sid i pi)])
     \/ ((forall r, pending h = Some r -> ~ asked_for h r (train_of i sid)) /\ Forall reporting out
        /\ forall k, (In (k, train_of i sid) (syncs h) -> whole 247 data (periodic_pieces k out))
                     /\ (~ In (k, train_of i sid) (syncs h) -> periodic_pieces k out = []))).
Proof. exact packet_received. Qed.
Print Assumptions C109_packet.

Theorem C109_packet_witness : forall aes rng, exists h s s' out, history aes rng default_config h s /\ hears_syncs h /\ hears_answers h /\ hears_reports h /\ scanning s /\
  pending h = None /\ syncs h = [(0, (PEER_PUBLIC, dev, 3))] /\ requests h = 1 /\ names_trains h /\
  step aes rng default_config 300 s (Receive (AirPeriodic remote 3 0 8 (repeat 7 300))) = Ok s' None out /\ periodic_pieces 0 out = [(true, repeat 7 247); (false, repeat 7 53)].
Proof. exact reported_witness. Qed.
Print Assumptions C109_packet_witness.

Theorem C109_events_come_from : forall aes rng cfg now s o s' st out e, step aes rng cfg now s o = Ok s' st out -> In (Notified e) out ->
  match e with
  | EvPeriodicReport _ _ _ | EvSyncEstablished SUCCESS _ _ _ _ => exists adv sid power pi data, o = Receive (AirPeriodic adv sid power pi data) /\ scanning s
  | EvSyncEstablished st' _ _ _ _ => o = Command CancelSync /\ st' = OPERATION_CANCELLED
  | _ => True
  end.
Proof. exact sync_events_come_from. Qed.
Print Assumptions C109_events_come_from.

Theorem C109_report_known : forall aes rng cfg h s now o s' st out k more d, history aes rng cfg h s -> hears_syncs h -> step aes rng cfg now s o = Ok s' st out -> In (Notified (EvPeriodicReport k more d)) out ->
  exists adv sid power pi data i, o = Receive (AirPeriodic adv sid power pi data) /\ known_as aes s adv i /\ In (k, train_of i sid) (syncs h).
Proof. exact report_is_known. Qed.
Print Assumptions C109_report_known.

Theorem C109_requesting : forall aes rng cfg h s now ul nr dup sid k a t c, history aes rng cfg h s -> hears_syncs h ->
  exists s' st, step aes rng cfg now s (Command (CreateSync ul nr dup sid k a t c)) = Ok s' (Some st) [] /\
    (st <> SUCCESS -> s' = s) /\
    (st = SUCCESS <-> pending h = None /\ ~ excludes_all c /\ (ul = false -> ~ In (k, a, sid) (map snd (syncs h)))
                      /\ (nr = false -> dup = true -> cfg_adi cfg = true) /\ (nr = true -> cfg_receive_enable cfg = true)) /\
    (pending h <> None -> st = COMMAND_DISALLOWED).
Proof. exact requesting. Qed.
Print Assumptions C109_requesting.

Theorem C109_cancelling : forall aes rng cfg h s now, history aes rng cfg h s -> hears_syncs h -> hears_answers h ->
  exists s', step aes rng cfg now s (Command CancelSync) = (if pending h then Ok s' (Some SUCCESS) [Notified (EvSyncEstablished OPERATION_CANCELLED 0 0 no_address 0)]
                                                 else Ok s (Some COMMAND_DISALLOWED) []).
Proof. exact cancelling_sync. Qed.
Print Assumptions C109_cancelling.

Theorem C109_cancelling_witness : forall aes rng, exists h s, history aes rng default_config h s /\ hears_syncs h /\ hears_answers h /\ pending h = Some (Some (PEER_PUBLIC, dev, 3)) /\
  exists s', step aes rng default_config 9 s (Command CancelSync) = Ok s' (Some SUCCESS) [Notified (EvSyncEstablished OPERATION_CANCELLED 0 0 no_address 0)].
Proof. exact cancelled_witness. Qed.
Print Assumptions C109_cancelling_witness.

Theorem C109_terminating : forall aes rng cfg h s now k, history aes rng cfg h s -> hears_syncs h ->
  (In k (map fst (syncs h)) -> exists s', step aes rng cfg now s (Command (TerminateSync k)) = Ok s' (Some SUCCESS) []) /\
  (~ In k (map fst (syncs h)) -> step aes rng cfg now s (Command (TerminateSync k)) = Ok s (Some UNKNOWN_ADVERTISING_ID) []).
Proof. exact terminating_sync. Qed.
Print Assumptions C109_terminating.

Theorem C109_kept : forall aes rng cfg now s o s' st out y, step aes rng cfg now s o = Ok s' st out -> In y (syncs_of s) -> o <> Command Reset -> o <> Command (TerminateSync (fst y)) -> In y (syncs_of s').
Proof. exact sync_kept. Qed.
Print Assumptions C109_kept.

Theorem C109_trains_distinct_partial : forall aes rng cfg h s, history aes rng cfg h s -> hears_syncs h -> names_trains h -> NoDup (map snd (syncs h)).
Proof. exact trains_distinct. Qed.
Print Assumptions C109_trains_distinct_partial.

Theorem C109_same_train_refuted : forall aes rng, exists h s s' out, history aes rng default_config h s /\ hears_syncs h /\ hears_answers h /\ hears_reports h /\ scanning s /\
  syncs h = [(0, (PEER_PUBLIC, dev, 3)); (1, (PEER_PUBLIC, dev, 3))] /\
  step aes rng default_config 300 s (Receive (AirPeriodic remote 3 0 8 [7])) = Ok s' None out /\
  out = [Notified (EvPeriodicReport 0 false [7]); Notified (EvPeriodicReport 1 false [7])].
Proof. exact same_train. Qed.
Print Assumptions C109_same_train_refuted.

Theorem C109_lost_refuted : forall aes rng, exists h s s', history aes rng default_config h s /\ hears_syncs h /\ hears_answers h /\ hears_reports h /\ scanning s /\
  (exists h1 h2, h = h2 ++ Entry 5 (Receive (AirPeriodic remote 3 0 8 [1])) None [Notified (EvSyncEstablished SUCCESS 0 3 remote 8)] :: Entry 3 (Command (CreateSync false false false 3 PEER_PUBLIC dev 100 0)) (Some SUCCESS) [] :: h1
     /\ (forall e, In e h2 -> what e = Tick /\ sent e = []) /\ map at_time h2 = [3600000000; 60000000; 3000000; 1500000; 1000000]) /\
  syncs h = [(0, (PEER_PUBLIC, dev, 3))] /\ syncs_of s = [(0, (PEER_PUBLIC, dev, 3))] /\
  step aes rng default_config 3600000001 s (Command (TerminateSync 0)) = Ok s' (Some SUCCESS) [].
Proof. exact never_lost. Qed.
Print Assumptions C109_lost_refuted.

Theorem C109_not_scanning_refuted : forall aes rng, exists h s, history aes rng default_config h s /\ hears_syncs h /\ hears_answers h /\ hears_reports h /\
  syncs h = [(0, (PEER_PUBLIC, dev, 3))] /\ pending h = None /\ ~ scanning s /\
  step aes rng default_config 300 s (Receive (AirPeriodic remote 3 0 8 [7])) = Ok s None [].
Proof. exact not_scanning. Qed.
Print Assumptions C109_not_scanning_refuted.

Theorem C109_between_hosts : forall aesA rngA cfgA hA sA nowA oA sA' stA outA aesB rngB cfgB hB sB nowB adv sid power pi data sB' stB outB,   history aesA rngA cfgA hA sA -> step aesA rngA cfgA nowA sA oA = Ok sA' stA outA -> In (Sent (AirPeriodic adv sid power pi data)) outA ->
  history aesB rngB cfgB hB sB -> hears_syncs hB -> hears_answers hB -> hears_reports hB -> scanning sB -> pending hB = None ->
  step aesB rngB cfgB nowB sB (Receive (AirPeriodic adv sid power pi data)) = Ok sB' stB outB ->
  exists x a i, lookup (sets sA) x = Some a /\ periodic_on a = true /\ adv = adv_address a /\ sid = LeTypes.sid a
    /\ stored_data PeriodicData x hA = Some data /\ known_as aesB sB adv i
    /\ forall k, (In (k, train_of i sid) (syncs hB) -> whole 247 data (periodic_pieces k outB))
               /\ (~ In (k, train_of i sid) (syncs hB) -> periodic_pieces k outB = []).
Proof. exact sync_between. Qed.
Print Assumptions C109_between_hosts.

Theorem C109_between_witness : forall aes rng, exists hA sA sA' outA power pi hB sB sB' outB,
  history aes rng default_config hA sA /\ step aes rng default_config 9 sA Tick = Ok sA' None outA /\
  In (Sent (AirPeriodic (AWT local PUBLIC_DEVICE) 3 power pi [1; 2; 3])) outA /\
  history aes rng default_config hB sB /\ hears_syncs hB /\ hears_answers hB /\ hears_reports hB /\ scanning sB /\ pending hB = None /\
  syncs hB = [(0, (PEER_PUBLIC, local, 3))] /\
  step aes rng default_config 10 sB (Receive (AirPeriodic (AWT local PUBLIC_DEVICE) 3 power pi [1; 2; 3])) = Ok sB' None outB /\
  periodic_pieces 0 outB = [(false, [1; 2; 3])].
Proof. exact between_witness. Qed.
Print Assumptions C109_between_witness.
