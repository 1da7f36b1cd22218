(** Model of the derivation and negotiation of synchronous link parameters:
    model/controller/sco_connection.{h,cc}. *)
From Verif Require Import Prelude.
Open Scope N_scope.

(** sco_connection.h:45-52 *)
Record link := Link {
  transmission_interval : N; retransmission_window : N; rx_packet_length : N; tx_packet_length : N; air_mode : N; extended : bool }.

(** sco_connection.h:54-60; the widths are 32, 32, 16, 16, 8 and 16 bits *)
Record params := Params {
  transmit_bandwidth : N; receive_bandwidth : N; max_latency : N; voice_setting : N; retransmission_effort : N; packet_type : N }.

Definition allowed_bit (pt mask : N) : bool := negb (N.land pt mask =? 0).

(** sco_connection.cc:33-42 *)
Definition is_extended (p : params) : bool :=
  negb (N.ldiff (N.lxor (packet_type p) 0x3c0) 7 =? 0).

(** sco_connection.cc:53-60 *)
Record packet := Packet { length : N; slots : N }.

(** sco_connection.cc:62-84 *)
Definition accepted_packets (pt : N) : list packet :=
  [Packet 0 1] ++
  (if allowed_bit pt 0x08 then [Packet 30 1] else []) ++
  (if allowed_bit pt 0x10 then [Packet 120 3] else []) ++
  (if allowed_bit pt 0x20 then [Packet 180 3] else []) ++
  (if negb (allowed_bit pt 0x40) then [Packet 60 1] else []) ++
  (if negb (allowed_bit pt 0x80) then [Packet 360 3] else []) ++
  (if negb (allowed_bit pt 0x100) then [Packet 90 1] else []) ++
  (if negb (allowed_bit pt 0x200) then [Packet 540 3] else []).

(** sco_connection.cc:46-51 *)
Definition air_coding_to_air_mode (coding : N) : N := nth (N.to_nat coding) [2; 0; 1; 3] 0.

(** 123-129 *)
Definition window_for (effort : N) (rx tx : packet) : N :=
  if effort =? 0 then 0
  else if effort =? 1 then slots rx + slots tx
  else if effort =? 2 then 2 * (slots rx + slots tx)
  else 0.

(** The best combination so far: its bandwidth usage as a fraction, and its parameters.
    The code compares quotients of numbers below 2^16 computed in double precision; the
    quotients are compared exactly here, which gives the same result. *)
Record best := Best { usage_num : N; usage_den : N; chosen : option link }.

(** 100-170, the body of the loops; arithmetic is on 32 bits numbers, and does not wrap:
    see ScoProofs.no_overflow *)
Definition try_combination (p : params) (tx rx : packet) (b : best) : best :=
  if length tx =? 0 then b
  else if length rx =? 0 then b
  else
    let tx_max := (1600 * length tx) / transmit_bandwidth p in
    let rx_max := (1600 * length rx) / receive_bandwidth p in
    let interval := N.min tx_max rx_max in
    let interval := interval - interval mod 2 in
    let interval := N.min interval 254 in
    let retransmission := window_for (retransmission_effort p) rx tx in
    let window := slots tx + slots rx + retransmission in
    if interval <? window then b
    else
      let latency := (window * 1250) / 2 in
      if 1000 * max_latency p <? latency then b
      else if window * usage_den b <=? usage_num b * interval then
        let tx_length := (transmit_bandwidth p * interval + 1600 - 1) / 1600 in
        let rx_length := (receive_bandwidth p * interval + 1600 - 1) / 1600 in
        Best window interval
          (Some (Link (interval mod 256) (retransmission mod 256) (rx_length mod 65536) (tx_length mod 65536)
                   (air_coding_to_air_mode (N.land (voice_setting p) 3)) true))
      else b.

(** 93-170 *)
Definition search (p : params) : best :=
  let ps := accepted_packets (packet_type p) in
  fold_left (fun b tx => fold_left (fun b rx => try_combination p tx rx b) ps b) ps (Best 1 1 None).

(** 44-215 *)
Definition get_link_parameters (p : params) : option link :=
  if (transmit_bandwidth p =? 0) || (receive_bandwidth p =? 0) then None
  else
    match chosen (search p) with
    | Some l => Some l
    | None =>
        if (retransmission_effort p =? 1) || (retransmission_effort p =? 2) then None
        else
          let mode := air_coding_to_air_mode (N.land (voice_setting p) 3) in
          if allowed_bit (packet_type p) 4 then Some (Link 6 0 30 30 mode false)
          else if allowed_bit (packet_type p) 2 then Some (Link 4 0 20 20 mode false)
          else if allowed_bit (packet_type p) 1 then Some (Link 2 0 10 10 mode false)
          else None
    end.

(** sco_connection.h:69-75 *)
Inductive sco_state := CLOSED | PENDING | SENT_ESCO_CONNECTION_REQUEST | SENT_SCO_CONNECTION_REQUEST | OPENED.
Definition is_esco_request (s : sco_state) : bool := match s with SENT_ESCO_CONNECTION_REQUEST => true | _ => false end.
Definition is_sco_request (s : sco_state) : bool := match s with SENT_SCO_CONNECTION_REQUEST => true | _ => false end.

(** 239-240 *)
Definition common_types (peer mine : N) : N :=
  N.lor (N.land (N.land peer mine) 0x3f) (N.land (N.lor peer mine) 0x3c0).

(** 255-273; [None] when the requirements cannot be met *)
Definition common_effort (s : sco_state) (peer mine : N) : option N :=
  if is_sco_request s then Some 0
  else if (peer =? mine) || (peer =? 255) then Some mine
  else if mine =? 255 then Some peer
  else if (peer =? 0) || (mine =? 0) then None
  else Some 1.

(** 217-290: the negotiated parameters, if the negotiation succeeds so far *)
Definition negotiated (s : sco_state) (mine peer : params) : option params :=
  if negb (transmit_bandwidth peer =? 0xffff) && negb (transmit_bandwidth peer =? receive_bandwidth mine) then None
  else if is_esco_request s && negb (receive_bandwidth peer =? 0xffff) && negb (receive_bandwidth peer =? transmit_bandwidth mine) then None
  else if negb (N.ldiff (voice_setting peer) 3 =? N.ldiff (voice_setting mine) 3) then None
  else
    let types := common_types (packet_type peer) (packet_type mine) in
    if types =? 0x3c0 then None
    else
      let latency := if max_latency peer =? 0xffff then max_latency mine
                     else if max_latency mine =? 0xffff then max_latency peer
                     else N.min (max_latency peer) (max_latency mine) in
      match common_effort s (retransmission_effort peer) (retransmission_effort mine) with
      | None => None
      | Some e => Some (Params (transmit_bandwidth mine) (receive_bandwidth mine) latency (voice_setting mine) e types)
      end.
Definition negotiate (s : sco_state) (mine peer : params) : option link :=
  match negotiated s mine peer with Some p => get_link_parameters p | None => None end.
