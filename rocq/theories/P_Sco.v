(** C37: synchronous link parameters. *)
From Verif Require Import Prelude Sco ScoSpec ScoProofs ScoWitness.
Open Scope N_scope.

(** An eSCO link that is chosen carries the bandwidth both ways in packets of allowed
    types, and no link that does uses a smaller part of the time. Missing: the bits of
    3-EV3 and 2-EV5 are exchanged in the code, hence [same_edr]; the latency is that of the
    window alone. *)
Theorem C37_extended_partial : forall p l,
  same_edr (packet_type p) -> get_link_parameters p = Some l -> extended l = true ->
  exists tx rx, admissible p tx rx l /\ air_mode l = air_mode_of (voice_setting p) /\
    forall tx' rx' l', admissible p tx' rx' l' ->
      slots_used tx rx l * transmission_interval l' <= slots_used tx' rx' l' * transmission_interval l.
Proof. exact extended_ok. Qed.

(** When some link is possible, one is found. *)
Theorem C37_extended_found_partial : forall p tx rx l,
  same_edr (packet_type p) -> 0 < transmit_bandwidth p -> 0 < receive_bandwidth p -> admissible p tx rx l ->
  exists l', get_link_parameters p = Some l' /\ extended l' = true.
Proof. exact extended_found. Qed.

Theorem C37_extended_witness :
  get_link_parameters s3 = Some (Link 12 2 60 60 2 true) /\ same_edr (packet_type s3) /\ params_ok s3 /\
  in_time s3 EDR2_EV3 EDR2_EV3 (Link 12 2 60 60 2 true).
Proof. exact s3_link. Qed.
Theorem C37_extended_found_witness : admissible s3 EDR2_EV3 EDR2_EV3 (Link 12 2 60 60 2 true).
Proof. exact s3_admissible. Qed.

(** A SCO link uses the longest allowed HV packets, and no retransmission. Missing: the
    bandwidth (refuted below). *)
Theorem C37_sco_partial : forall p l, get_link_parameters p = Some l -> extended l = false ->
  exists t, hv_allowed (packet_type p) t = true /\ (forall t', hv_allowed (packet_type p) t' = true -> hv_length t' <= hv_length t) /\
    l = Link (hv_interval t) 0 (hv_length t) (hv_length t) (air_mode_of (voice_setting p)) false /\
    retransmission_effort p <> 1 /\ retransmission_effort p <> 2.
Proof. exact sco_ok. Qed.
Theorem C37_sco_witness : get_link_parameters (Params 8000 8000 0xffff 0x60 255 0x3c7) = Some (Link 6 0 30 30 2 false).
Proof. exact sco_usual. Qed.

(** The packets may be longer than any allowed one. *)
Theorem C37_packet_types_refuted : exists p l, params_ok p /\ get_link_parameters p = Some l /\ extended l = true /\
  forall t, type_allowed (packet_type p) t = true -> max_length t < tx_packet_length l.
Proof. exact wrong_packets. Qed.

(** The latency of the chosen link may exceed the limit, although another link meets it. *)
Theorem C37_latency_refuted : exists p l, params_ok p /\ same_edr (packet_type p) /\ get_link_parameters p = Some l /\ extended l = true /\
  (forall tx rx, ~ in_time p tx rx l) /\
  exists l', admissible p EDR2_EV3 EDR2_EV3 l' /\ in_time p EDR2_EV3 EDR2_EV3 l'.
Proof. exact too_late. Qed.

(** A SCO link may not carry the bandwidth. *)
Theorem C37_sco_bandwidth_refuted : exists p l, params_ok p /\ same_edr (packet_type p) /\ get_link_parameters p = Some l /\ extended l = false /\
  1600 * tx_packet_length l < transmit_bandwidth p * transmission_interval l.
Proof. exact sco_too_slow. Qed.

(** Extended links are requested exactly when some eSCO packet is allowed. *)
Theorem C37_is_extended : forall p, packet_type p < 1024 -> is_extended p = existsb (type_allowed (packet_type p)) all_types.
Proof. exact is_extended_spec. Qed.

(** The link negotiated meets the requirements of both ends. *)
Theorem C37_negotiated : forall s mine peer l, negotiate s mine peer = Some l ->
  exists p, get_link_parameters p = Some l /\
    (forall t, type_allowed (packet_type p) t = true <-> type_allowed (packet_type mine) t = true /\ type_allowed (packet_type peer) t = true) /\
    (forall t, hv_allowed (packet_type p) t = true <-> hv_allowed (packet_type mine) t = true /\ hv_allowed (packet_type peer) t = true) /\
    within_latency (Sco.max_latency mine) (Sco.max_latency p) /\ within_latency (Sco.max_latency peer) (Sco.max_latency p) /\
    transmit_bandwidth p = transmit_bandwidth mine /\ receive_bandwidth p = receive_bandwidth mine /\
    (transmit_bandwidth peer = receive_bandwidth p \/ transmit_bandwidth peer = 0xffff) /\
    (is_esco_request s = true -> receive_bandwidth peer = transmit_bandwidth p \/ receive_bandwidth peer = 0xffff) /\
    voice_setting p = voice_setting mine /\ voice_setting peer / 4 = voice_setting mine / 4 /\
    (is_sco_request s = true -> retransmission_effort p = 0).
Proof. exact negotiated_ok. Qed.
Theorem C37_negotiated_effort : forall s mine peer p, negotiated s mine peer = Some p -> is_sco_request s = false ->
  In (retransmission_effort mine) [0; 1; 2; 255] -> In (retransmission_effort peer) [0; 1; 2; 255] ->
  effort_agrees (retransmission_effort mine) (retransmission_effort p) /\ effort_agrees (retransmission_effort peer) (retransmission_effort p).
Proof. exact effort_ok. Qed.
Theorem C37_negotiated_witness : negotiate SENT_ESCO_CONNECTION_REQUEST s3 (Params 8000 8000 0xffff 0x60 2 0x388) = Some (Link 12 2 60 60 2 true).
Proof. exact negotiation_example. Qed.

(** A peer that accepts any bandwidth is refused. *)
Theorem C37_any_bandwidth_refuted : exists mine peer l, params_ok mine /\ params_ok peer /\ get_link_parameters mine = Some l /\
  transmit_bandwidth peer = any_bandwidth /\ receive_bandwidth peer = any_bandwidth /\ Sco.max_latency peer = 0xffff /\
  voice_setting peer = voice_setting mine /\ retransmission_effort peer = 255 /\ packet_type peer = packet_type mine /\
  forall s, negotiate s mine peer = None.
Proof. exact any_bandwidth_rejected. Qed.

Print Assumptions C37_extended_partial.
Print Assumptions C37_extended_found_partial.
Print Assumptions C37_extended_witness.
Print Assumptions C37_extended_found_witness.
Print Assumptions C37_sco_partial.
Print Assumptions C37_sco_witness.
Print Assumptions C37_packet_types_refuted.
Print Assumptions C37_latency_refuted.
Print Assumptions C37_sco_bandwidth_refuted.
Print Assumptions C37_is_extended.
Print Assumptions C37_negotiated.
Print Assumptions C37_negotiated_effort.
Print Assumptions C37_negotiated_witness.
Print Assumptions C37_any_bandwidth_refuted.
