(** Concrete synchronous connections. *)
From Verif Require Import Prelude Sco ScoSpec ScoProofs.
Open Scope N_scope.

(** Wide band speech over 2-EV3 packets (the S3 settings of the Hands-Free Profile) *)
Definition s3 : params := Params 8000 8000 10 0x60 1 0x380.
Lemma s3_link : get_link_parameters s3 = Some (Link 12 2 60 60 2 true) /\ same_edr (packet_type s3) /\ params_ok s3 /\
  in_time s3 EDR2_EV3 EDR2_EV3 (Link 12 2 60 60 2 true).
Proof. repeat split; try reflexivity; vm_compute; intuition discriminate. Qed.
Lemma s3_admissible : admissible s3 EDR2_EV3 EDR2_EV3 (Link 12 2 60 60 2 true).
Proof. constructor; vm_compute; repeat split; try reflexivity; intuition discriminate. Qed.

(** All packets are allowed: 3-EV5 packets are chosen, with an interval of 108 slots, or
    67.5 ms, for a latency of 10 ms *)
Lemma too_late : exists p l, params_ok p /\ same_edr (packet_type p) /\ get_link_parameters p = Some l /\ extended l = true /\
  (forall tx rx, ~ in_time p tx rx l) /\
  exists l', admissible p EDR2_EV3 EDR2_EV3 l' /\ in_time p EDR2_EV3 EDR2_EV3 l'.
Proof.
  exists (Params 8000 8000 10 0x60 1 0x3f), (Link 108 6 540 540 2 true). split; [vm_compute; repeat split; reflexivity|].
  split; [reflexivity|]. split; [vm_compute; reflexivity|]. split; [reflexivity|]. split.
  - intros tx rx H. unfold in_time in H. destruct tx, rx; vm_compute in H; apply H; reflexivity.
  - exists (Link 12 2 60 60 2 true). split; [constructor|]; vm_compute; repeat split; try reflexivity; intuition discriminate.
Qed.

(** Only 3-EV3 packets, of 90 bytes at most, are allowed: packets of 360 bytes are chosen *)
Lemma wrong_packets : exists p l, params_ok p /\ get_link_parameters p = Some l /\ extended l = true /\
  forall t, type_allowed (packet_type p) t = true -> max_length t < tx_packet_length l.
Proof.
  exists (Params 8000 8000 100 0x60 0 0x340), (Link 72 0 360 360 2 true). split; [vm_compute; repeat split; reflexivity|].
  split; [vm_compute; reflexivity|]. split; [reflexivity|]. intros [] A; try discriminate A; reflexivity.
Qed.

(** HV3 packets, of 30 bytes every 6 slots, for 16000 bytes per second *)
Lemma sco_too_slow : exists p l, params_ok p /\ same_edr (packet_type p) /\ get_link_parameters p = Some l /\ extended l = false /\
  1600 * tx_packet_length l < transmit_bandwidth p * transmission_interval l.
Proof. exists (Params 16000 16000 0xffff 0x60 0 0x3c4), (Link 6 0 30 30 2 false). repeat split; vm_compute; reflexivity. Qed.

Lemma sco_usual : get_link_parameters (Params 8000 8000 0xffff 0x60 255 0x3c7) = Some (Link 6 0 30 30 2 false).
Proof. vm_compute. reflexivity. Qed.

(** A peer that accepts any bandwidth *)
Definition any_peer : params := Params any_bandwidth any_bandwidth 0xffff 0x60 255 0x380.
Lemma any_bandwidth_rejected : exists mine peer l, params_ok mine /\ params_ok peer /\ get_link_parameters mine = Some l /\
  transmit_bandwidth peer = any_bandwidth /\ receive_bandwidth peer = any_bandwidth /\ Sco.max_latency peer = 0xffff /\
  voice_setting peer = voice_setting mine /\ retransmission_effort peer = 255 /\ packet_type peer = packet_type mine /\
  forall s, negotiate s mine peer = None.
Proof.
  exists s3, any_peer, (Link 12 2 60 60 2 true). repeat split; try (vm_compute; reflexivity); intros []; vm_compute; reflexivity.
Qed.

Lemma negotiation_example : negotiate SENT_ESCO_CONNECTION_REQUEST s3 (Params 8000 8000 0xffff 0x60 2 0x388) = Some (Link 12 2 60 60 2 true).
Proof. vm_compute. reflexivity. Qed.
