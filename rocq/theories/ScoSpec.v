(** Specification of synchronous links: Bluetooth Core, Vol 2, Part B, 6.5.2 and 6.5.3 (the
    packet types), and Vol 4, Part E, 7.1.26 (the parameters). *)
From Verif Require Import Prelude Sco.
Open Scope N_scope.

Inductive esco_type := EV3 | EV4 | EV5 | EDR2_EV3 | EDR3_EV3 | EDR2_EV5 | EDR3_EV5.
Definition all_types : list esco_type := [EV3; EV4; EV5; EDR2_EV3; EDR3_EV3; EDR2_EV5; EDR3_EV5].

(** The longest payload, in bytes *)
Definition max_length (t : esco_type) : N :=
  match t with EV3 => 30 | EV4 => 120 | EV5 => 180 | EDR2_EV3 => 60 | EDR3_EV3 => 90 | EDR2_EV5 => 360 | EDR3_EV5 => 540 end.
(** The number of slots of a packet *)
Definition slots_of (t : esco_type) : N :=
  match t with EV3 | EDR2_EV3 | EDR3_EV3 => 1 | EV4 | EV5 | EDR2_EV5 | EDR3_EV5 => 3 end.

(** The bits of the parameter Packet_Type; those of the EDR packets forbid them *)
Definition type_allowed (pt : N) (t : esco_type) : bool :=
  match t with
  | EV3 => N.testbit pt 3
  | EV4 => N.testbit pt 4
  | EV5 => N.testbit pt 5
  | EDR2_EV3 => negb (N.testbit pt 6)
  | EDR3_EV3 => negb (N.testbit pt 7)
  | EDR2_EV5 => negb (N.testbit pt 8)
  | EDR3_EV5 => negb (N.testbit pt 9)
  end.

(** SCO packets: payload and interval in slots *)
Inductive sco_type := HV1 | HV2 | HV3.
Definition hv_length (t : sco_type) : N := match t with HV1 => 10 | HV2 => 20 | HV3 => 30 end.
Definition hv_interval (t : sco_type) : N := match t with HV1 => 2 | HV2 => 4 | HV3 => 6 end.
Definition hv_allowed (pt : N) (t : sco_type) : bool := match t with HV1 => N.testbit pt 0 | HV2 => N.testbit pt 1 | HV3 => N.testbit pt 2 end.

(** The slots reserved for retransmissions *)
Definition retransmission_slots (effort both : N) : N := if effort =? 1 then both else if effort =? 2 then 2 * both else 0.

(** A link is admissible for [p] with packets of type [tx] and [rx]: there are 1600 slots
    of 625 us in a second. The latency counts the reserved slots and those for
    retransmissions; [in_time] below is the limit that the Core specification sets. *)
Record admissible (p : params) (tx rx : esco_type) (l : link) : Prop := {
  ad_tx : type_allowed (packet_type p) tx = true;
  ad_rx : type_allowed (packet_type p) rx = true;
  ad_tx_length : 0 < tx_packet_length l <= max_length tx;
  ad_rx_length : 0 < rx_packet_length l <= max_length rx;
  ad_interval : transmission_interval l <= 254 /\ transmission_interval l mod 2 = 0;
  ad_window : retransmission_window l = retransmission_slots (retransmission_effort p) (slots_of tx + slots_of rx);
  ad_fits : slots_of tx + slots_of rx + retransmission_window l <= transmission_interval l;
  ad_latency : 625 * (slots_of tx + slots_of rx + retransmission_window l) <= 1000 * Sco.max_latency p;
  ad_tx_bandwidth : transmit_bandwidth p * transmission_interval l <= 1600 * tx_packet_length l;
  ad_rx_bandwidth : receive_bandwidth p * transmission_interval l <= 1600 * rx_packet_length l }.

(** The slots used in each interval *)
Definition slots_used (tx rx : esco_type) (l : link) : N := slots_of tx + slots_of rx + retransmission_window l.

(** The air coding of the voice setting, as an air mode: CVSD, u-law, A-law, transparent *)
Definition air_mode_of (voice_setting : N) : N :=
  match voice_setting mod 4 with 0 => 2 | 1 => 0 | 2 => 1 | _ => 3 end.

(** The values fit their fields *)
Definition params_ok (p : params) : Prop :=
  transmit_bandwidth p < 2 ^ 32 /\ receive_bandwidth p < 2 ^ 32 /\ Sco.max_latency p < 2 ^ 16 /\
  voice_setting p < 2 ^ 16 /\ retransmission_effort p < 2 ^ 8 /\ packet_type p < 2 ^ 16.

(** The bits for 3-EV3 and 2-EV5, which the code exchanges, are the same *)
Definition same_edr (pt : N) : Prop := N.testbit pt 7 = N.testbit pt 8.

(** Vol 4, Part E, 7.1.26: Max_Latency limits the sum of the interval and of the window *)
Definition in_time (p : params) (tx rx : esco_type) (l : link) : Prop :=
  625 * (transmission_interval l + slots_used tx rx l) <= 1000 * Sco.max_latency p.

(** What both ends allow: the lower latency, where 0xffff means any *)
Definition within_latency (limit latency : N) : Prop := limit = 0xffff \/ latency <= limit.
(** The retransmission effort of one end, where 255 means any *)
Definition effort_agrees (wanted effort : N) : Prop := wanted = 255 \/ effort = wanted \/ (wanted = 2 /\ effort = 1).
(** Any bandwidth, for a peer: Vol 4, Part E, 7.1.27 *)
Definition any_bandwidth : N := 0xffffffff.
