(** Properties C93 to C97: data over LE links, and their supervision. *)
From Verif Require Import Prelude Table LeData LeDataSpec LeDataProofs LeDataMore LeDataWatch LeDataTell LeDataPair LeDataWitness.
From Verif Require Iso.
Open Scope N_scope.

Theorem C93_in_order : forall h s, history h s -> timely h ->
  exists rest, all_asked h = filter acl_or_credit (said h) ++ rest.
Proof. exact acl_in_order. Qed.
Print Assumptions C93_in_order.

Theorem C93_all_sent : forall e h s, history (e :: h) s -> timely (e :: h) -> what e = Tick ->
  filter acl_or_credit (said (e :: h)) = all_asked (e :: h).
Proof. exact acl_flushed. Qed.
Print Assumptions C93_all_sent.

Theorem C93_received : forall e now f s b bc d s' x,
  about f = Acl b bc d -> step e now s (Receive f) = Some (s', x) ->
  open_links s' = open_links s /\
  (links_between (destination f) (source f) s = [] -> x = []) /\
  (links_between (destination f) (source f) s <> [] -> exists k, In k (links_between (destination f) (source f) s) /\
     x = [AclToHost (AclPacket k (if b =? 0 then 2 else b) bc d)]).
Proof. exact acl_received. Qed.
Print Assumptions C93_received.

Theorem C93_end_to_end : forall k a j b now tl tr n, joint k a j b now tl tr n ->
  (exists rest, map (arrives j) (on_link k (from_left n)) = at_right n ++ rest) /\
  (exists rest, map (arrives k) (on_link j (from_right n)) = at_left n ++ rest).
Proof. exact through. Qed.
Print Assumptions C93_end_to_end.

Theorem C93_end_to_end_complete : forall k a j b now tl tr n e e' now' s x s2 y,
  joint k a j b now tl tr n -> now <= now' -> now' <= tl + 499000 -> now' <= tr + 499000 ->
  step e now' (left n) Tick = Some (s, x) -> deliver e' now' x (right n) = (s2, y) ->
  at_right n ++ acl_out y = map (arrives j) (on_link k (from_left n)).
Proof. exact all_through. Qed.
Print Assumptions C93_end_to_end_complete.

Theorem C93_witness : exists h s, history h s /\ timely h /\ (exists e h', h = e :: h' /\ what e = Tick) /\
  filter acl_or_credit (said h) =
  [Sent (Frame 100 200 (Acl 0 0 [1; 2])); Completed 1; Sent (Frame 100 201 (Acl 0 0 [3])); Completed 2; Completed 7;
   Sent (Frame 100 200 (Acl 1 0 [4])); Completed 1].
Proof. exact acl_case. Qed.
Print Assumptions C93_witness.

Theorem C93_received_witness : exists h s s', history h s /\ links_between 100 201 s = [2] /\
  step none 30 s (Receive (Frame 201 100 (Acl 0 0 [5; 6]))) = Some (s', [AclToHost (AclPacket 2 2 0 [5; 6])]).
Proof. exact acl_received_case. Qed.
Print Assumptions C93_received_witness.

Theorem C93_end_to_end_witness : exists x, joint 1 100 2 200 30 20 30 x /\
  from_left x = [AclPacket 1 0 0 [1; 2; 3]; AclPacket 1 1 0 [4]] /\ at_right x = [AclPacket 2 2 0 [1; 2; 3]; AclPacket 2 1 0 [4]] /\
  from_right x = [AclPacket 2 0 0 [9]] /\ at_left x = [AclPacket 1 2 0 [9]].
Proof. exact exchange. Qed.
Print Assumptions C93_end_to_end_witness.

Theorem C93_broadcast_flag_refuted : forall e now s h b bc d, bc <> 0 -> step e now s (HostAcl (AclPacket h b bc d)) = None.
Proof. exact acl_broadcast. Qed.
Print Assumptions C93_broadcast_flag_refuted.

Theorem C94_units_sent_partial : forall ways us e es e0 h s,
  history (e :: es ++ e0 :: h) s -> timely (e :: es ++ e0 :: h) -> what e = Tick -> what e0 = Tick ->
  led ways es -> Forall well_formed us -> host_iso es = flat_map (packets_of true) us ->
  pdus (e :: es ++ e0 :: h) = pdus (e0 :: h) ++ flat_map (carried ways) us.
Proof. exact units_sent. Qed.
Print Assumptions C94_units_sent_partial.

Theorem C94_whole_units_sent : forall ways us e es e0 h s,
  history (e :: es ++ e0 :: h) s -> timely (e :: es ++ e0 :: h) -> what e = Tick -> what e0 = Tick ->
  led ways es -> Forall well_formed us -> Forall (fun u => lenN (u_chunks u) = 1) us ->
  host_iso es = flat_map (packets_of false) us ->
  pdus (e :: es ++ e0 :: h) = pdus (e0 :: h) ++ flat_map (carried ways) us.
Proof. exact whole_units_sent. Qed.
Print Assumptions C94_whole_units_sent.

Theorem C94_only_from_host : forall h s o, history h s -> timely h -> In o (pdus h) -> origin h o.
Proof. exact pdu_limits. Qed.
Print Assumptions C94_only_from_host.

Theorem C94_units_witness : passed iso_ways (flat_map (packets_of true) [unit1; unit2])
    [Sent (Frame 100 200 (IsoPdu 1 1 7 [10; 11; 12; 13; 14; 15])); Sent (Frame 100 200 (IsoPdu 1 2 300 [20; 21]))] /\
  well_formed unit1 /\ well_formed unit2.
Proof. exact units_case. Qed.
Print Assumptions C94_units_witness.

Theorem C94_whole_units_witness : passed iso_ways (flat_map (packets_of false) [unit2; unit2])
    [Sent (Frame 100 200 (IsoPdu 1 2 300 [20; 21])); Sent (Frame 100 200 (IsoPdu 1 2 300 [20; 21]))].
Proof. exact whole_case. Qed.
Print Assumptions C94_whole_units_witness.

Theorem C94_fragments_refuted : well_formed unit3 /\
  carried iso_ways unit3 = [Sent (Frame 100 200 (IsoPdu 1 1 7 [10; 11; 12; 13; 14; 15; 16; 17]))] /\
  passed iso_ways (packets_of false unit3) [Sent (Frame 100 200 (IsoPdu 1 1 3340 [10; 11; 16; 17]))].
Proof. exact bytes_lost. Qed.
Print Assumptions C94_fragments_refuted.

Theorem C94_streams_mixed_refuted : well_formed unit4 /\ well_formed unit5 /\
  filter (fun p => i_handle p =? 0xe00) woven = packets_of true unit4 /\
  filter (fun p => i_handle p =? 0xe01) woven = packets_of true unit5 /\
  passed iso_ways woven [Sent (Frame 100 200 (IsoPdu 1 1 1 [20; 11])); Sent (Frame 100 200 (IsoPdu 1 2 2 [21]))].
Proof. exact streams_mixed. Qed.
Print Assumptions C94_streams_mixed_refuted.

Theorem C94_short_fragment_refuted : exists h s, history h s /\ reached two /\
  leads (Entry 5 (plain two) (open_links s) Tick []) 0xe00 (iso_ways 0xe00) /\
  step (plain two) 5 s (HostIso (IsoPacket 0xe00 LAST false [1; 2; 3])) = None.
Proof. exact short_fragment. Qed.
Print Assumptions C94_short_fragment_refuted.

Theorem C94_large_packet_aborts : forall e now s h b t l, iso_length e < lenN l -> step e now s (HostIso (IsoPacket h b t l)) = None.
Proof. exact large_packet. Qed.
Print Assumptions C94_large_packet_aborts.

Theorem C95_delivered_partial : forall e now f s g c q d s' x y,
  about f = IsoPdu g c q d -> step e now s (Receive f) = Some (s', x) ->
  links_between (destination f) (source f) s <> [] -> q < 65536 -> lenN d <= 4091 -> streams_named g c (iso e) = [y] ->
  Forall (fun p => i_handle p = y) (iso_out x) /\ host_reads (iso_out x) = Some (q, d).
Proof. exact iso_read. Qed.
Print Assumptions C95_delivered_partial.

Theorem C95_pieces : forall e now f s g c q d s' x y,
  about f = IsoPdu g c q d -> step e now s (Receive f) = Some (s', x) ->
  links_between (destination f) (source f) s <> [] -> q < 65536 -> lenN d < 4096 -> streams_named g c (iso e) = [y] ->
  exists l, l <> [] /\ concat l = d /\ Forall (fun c => lenN c <= 4091) l /\
    x = map IsoToHost (packets_of true (Unit y None q l)).
Proof. exact iso_received. Qed.
Print Assumptions C95_pieces.

Theorem C95_strangers_ignored : forall e now f s g c q d s' x,
  about f = IsoPdu g c q d -> step e now s (Receive f) = Some (s', x) ->
  links_between (destination f) (source f) s = [] \/ streams_named g c (iso e) = [] -> x = [].
Proof. exact iso_ignored. Qed.
Print Assumptions C95_strangers_ignored.

Theorem C95_witness : exists h s s', history h s /\ reached piped /\ links_between 100 200 s = [1] /\
  streams_named 1 1 (iso (plain piped)) = [0xe00] /\
  step (plain piped) 5 s (Receive (Frame 200 100 (IsoPdu 1 1 7 [1; 2; 3]))) =
  Some (s', [IsoToHost (IsoPacket 0xe00 COMPLETE false [7; 0; 3; 0; 1; 2; 3])]).
Proof. exact iso_received_case. Qed.
Print Assumptions C95_witness.

Theorem C95_long_unit_refuted : exists h s s' x, history h s /\ reached piped /\ links_between 100 200 s = [1] /\
  streams_named 1 1 (iso (plain piped)) = [0xe00] /\ lenN long = 4092 /\
  step (plain piped) 5 s (Receive (Frame 200 100 (IsoPdu 1 1 7 long))) = Some (s', x) /\ x <> [] /\ host_reads (iso_out x) = None.
Proof. exact long_misread. Qed.
Print Assumptions C95_long_unit_refuted.

Theorem C95_wrong_stream_refuted : exists h s, history h s /\ reached same /\ links_between 100 200 s = [1] /\
  (exists c, lookup (Iso.conns same) 0xe00 = Some c /\ Iso.c_acl c = Some 1) /\
  (exists c, lookup (Iso.conns same) 0xe02 = Some c /\ Iso.c_acl c = Some 2) /\
  exists s', step (Env same true 1021 0 1) 5 s (Receive (Frame 200 100 (IsoPdu 1 1 7 [1; 2; 3]))) =
    Some (s', [IsoToHost (IsoPacket 0xe02 COMPLETE false [7; 0; 3; 0; 1; 2; 3])]).
Proof. exact taken_for_other. Qed.
Print Assumptions C95_wrong_stream_refuted.

Theorem C95_no_path_refuted : exists h s, history h s /\ reached two /\
  (exists c, lookup (Iso.conns two) 0xe00 = Some c /\ Iso.path_cp c = false /\ Iso.path_pc c = false) /\
  exists s', step (plain two) 5 s (Receive (Frame 200 100 (IsoPdu 1 1 7 [1; 2; 3]))) =
    Some (s', [IsoToHost (IsoPacket 0xe00 COMPLETE false [7; 0; 3; 0; 1; 2; 3])]).
Proof. exact no_path. Qed.
Print Assumptions C95_no_path_refuted.

Theorem C96_supervised : forall e h s, history (e :: h) s -> timely (e :: h) -> what e = Tick ->
  forall k a b, In (k, (a, b)) (open_links s) -> exists x, In x h /\ contact a b x /\ at_time e <= at_time x + 3000000.
Proof. exact supervised. Qed.
Print Assumptions C96_supervised.

Theorem C96_not_early : forall e h s, history (e :: h) s -> timely (e :: h) -> apart h -> what e = Tick ->
  forall k a b, lookup (known e) k = Some (a, b) -> lookup (open_links s) k = None ->
  forall x, In x h -> heard a b x -> at_time x + 3000000 < at_time e.
Proof. exact not_early. Qed.
Print Assumptions C96_not_early.

Theorem C96_ends_only : forall e h s, history (e :: h) s -> timely (e :: h) ->
  forall k a b, lookup (known e) k = Some (a, b) -> lookup (open_links s) k = None ->
  what e = Tick \/ what e = Reset \/ (exists r, what e = Disconnect k r) \/ exists r, what e = Receive (Frame b a (Bye r)).
Proof. exact ends_only. Qed.
Print Assumptions C96_ends_only.

Theorem C96_both_told : forall e1 m e h s s0, history (e1 :: m ++ e :: h) s -> timely (e1 :: m ++ e :: h) -> what e1 = Tick -> history (e :: h) s0 ->
  forall k a b r r', lookup (known e) k = Some (a, b) -> lookup (open_links s0) k = None -> ended_by (what e) = Some (r, r') ->
  (told (seen e) = true -> In (Disconnected k r) (said (e1 :: m))) /\
  (forall r2, r' = Some r2 -> In (Sent (Frame a b (Bye r2))) (said (e1 :: m))).
Proof. exact end_told. Qed.
Print Assumptions C96_both_told.

Theorem C96_open_witness : exists h s, history h s /\ timely h /\ apart h /\
  (exists e h', h = e :: h' /\ what e = Tick /\ at_time e = 4000000) /\ In (1, (100, 200)) (open_links s).
Proof. exact open_case. Qed.
Print Assumptions C96_open_witness.

Theorem C96_dropped_witness : exists e1 e h s s0, history (e1 :: [] ++ e :: h) s /\ timely (e1 :: [] ++ e :: h) /\ apart (e :: h) /\
  what e1 = Tick /\ what e = Tick /\ history (e :: h) s0 /\ lookup (known e) 1 = Some (100, 200) /\
  lookup (open_links s0) 1 = None /\ told (seen e) = true /\
  said [e1] = [Sent (Frame 100 200 (Bye 8)); Disconnected 1 8] /\ at_time e = 4000400.
Proof. exact dropped_case. Qed.
Print Assumptions C96_dropped_witness.

Theorem C96_long_timeout_refuted : exists h s, history h s /\ timely h /\
  (exists e, In e h /\ what e = LinkUp 1 100 200 3200 /\ at_time e = 0) /\ (forall e, In e h -> at_time e <= 3000001) /\
  (forall e, In e h -> match what e with LinkUp _ _ _ _ | Tick => True | _ => False end) /\ open_links s = [].
Proof. exact dropped_early. Qed.
Print Assumptions C96_long_timeout_refuted.

Theorem C96_short_timeout_refuted : exists h s, history h s /\ timely h /\
  (exists e h', h = e :: h' /\ what e = Tick /\ at_time e = 2900000) /\
  (exists e, In e h /\ what e = LinkUp 1 100 200 10 /\ at_time e = 0) /\ (forall e, In e h -> ~ heard 100 200 e) /\
  open_links s = [(1, (100, 200))].
Proof. exact kept_late. Qed.
Print Assumptions C96_short_timeout_refuted.

Theorem C97_idle_links_stay : forall k a j b now tl tr n, joint k a j b now tl tr n ->
  open_links (left n) = [(k, (a, b))] /\ open_links (right n) = [(j, (b, a))].
Proof. exact kept. Qed.
Print Assumptions C97_idle_links_stay.

Theorem C97_witness : forall n, exists x,
  joint 1 100 2 200 (400000 * N.of_nat n) (400000 * N.of_nat n) (400000 * N.of_nat n) x.
Proof. exact rounds. Qed.
Print Assumptions C97_witness.
