(** Properties of the capture writer (C13, and C11 for captures). *)
From Verif Require Import Prelude PcapFilter PcapFilterSpec Sniffer SnifferSpec SnifferProofs.
Open Scope N_scope.

(** C13: for any sequence of packets in both directions the file is read back
    to the same directions, types and bytes, and the packets are handed on
    unchanged. *)
Theorem C13_capture_reads_back : forall ps s' outs,
  Forall (fun p => 5 + lenN (p_packet p) < 4294967296) ps ->
  pass_all (new_sniffer true None) ps = Some (s', outs) ->
  outs = map (fun p => (p_dir p, p_type p, p_packet p)) ps /\
  exists file recs, output s' = Some file /\ read_file file = Some recs /\
  Forall2 (fun p r => r_dir r = match p_dir p with HostToController => 0 | ControllerToHost => 1 end /\ r_type r = p_type p /\
    r_bytes r = p_packet p) ps recs.
Proof. exact unfiltered_read_back. Qed.
Print Assumptions C13_capture_reads_back.

(** C13: without a filter nothing can stop a packet. *)
Theorem C13_capture_never_blocks : forall ps present, exists s' outs,
  pass_all (new_sniffer present None) ps = Some (s', outs).
Proof. exact unfiltered_total. Qed.
Print Assumptions C13_capture_never_blocks.

(** C13 with a filter: record boundaries are still right although the record
    header holds the length before filtering; the records hold the filtered
    bytes; the packets handed on are not filtered. *)
Theorem C13_filtered_capture_reads_back : forall ps s' outs,
  Forall (fun p => 5 + lenN (p_packet p) < 4294967296) ps ->
  pass_all (new_sniffer true (Some [])) ps = Some (s', outs) ->
  outs = map (fun p => (p_dir p, p_type p, p_packet p)) ps /\
  exists file recs m filtered, output s' = Some file /\ read_file file = Some recs /\
  filter_all [] (map (fun p => (p_packet p, p_type p)) ps) = Some (m, filtered) /\
  map r_bytes recs = filtered /\
  Forall2 (fun p r => r_dir r = match p_dir p with HostToController => 0 | ControllerToHost => 1 end /\ r_type r = p_type p) ps recs.
Proof. exact filtered_read_back. Qed.
Print Assumptions C13_filtered_capture_reads_back.

(** C13: the time stamps are wrong: the microsecond field holds milliseconds. *)
Theorem C13_time_stamp_refuted : exists p s' outs file r,
  pass_all (new_sniffer true None) [p] = Some (s', outs) /\
  output s' = Some file /\ read_file file = Some [r] /\
  1000000 * r_sec r + r_usec r <> p_time p /\ p_time p < 1000000 * 4294967296.
Proof. exact time_stamp_witness. Qed.
Print Assumptions C13_time_stamp_refuted.

(** C11 is false of a sniffer made by HciSniffer::Create with a filter: the
    filter is dropped and link payloads are captured in clear. *)
Theorem C11_created_sniffer_filters_refuted : exists ps s' outs file recs,
  ps = [{| p_dir := HostToController; p_type := 2; p_packet := [1; 0; 2; 0; 65; 66]; p_time := 0 |}] /\
  pass_all (create_sniffer true (Some [])) ps = Some (s', outs) /\
  output s' = Some file /\ read_file file = Some recs /\ map r_bytes recs = map p_packet ps.
Proof. exact create_ignores_filter_witness. Qed.
Print Assumptions C11_created_sniffer_filters_refuted.
