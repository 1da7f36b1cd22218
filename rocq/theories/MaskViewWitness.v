(** Concrete histories: two hosts that differ in their masks. *)
From Verif Require Import Prelude Address Rpa Table LeTypes LeAdvertise LeLists LeScan LeInitiate LeHost EventMaskLe MaskViewSpec.
Open Scope N_scope.

Definition own_addr : list N := [1; 2; 3; 4; 5; 6].
Definition advertiser : address_with_type := AWT [9; 8; 7; 6; 5; 4] PUBLIC_DEVICE.
Definition central : address_with_type := AWT [7; 7; 7; 7; 7; 7] PUBLIC_DEVICE.
Definition story (mask lemask : N) : list (N * op) :=
  [(0, Command (SetEventMask mask)); (0, Command (LeSetEventMask lemask));
   (1, Command (SetScanParameters ACTIVE 16 16 OWN_PUBLIC ACCEPT_ALL)); (2, Command (SetScanEnable true false));
   (3, Receive (AirLegacy advertiser no_address PDU_IND [1; 2]));
   (4, Command (SetAdvEnable true));
   (5, Receive (AirConnect central (AWT own_addr PUBLIC_DEVICE) 24 0 500))].

Local Ltac outputs := eexists _, _; split; [vm_compute; reflexivity|]; vm_compute; reflexivity.

(** The packets are the same; one host hears nothing, one the plain events and one the
    enhanced event. *)
Lemma masks_witness aes rng cfg :
  same_history (story 0 0) (story (N.ones 64) 31) /\
  (exists s o, run aes rng cfg (new_le own_addr) (story 0 0) = Some (s, o)
     /\ o = [Sent (AirScan (AWT own_addr PUBLIC_DEVICE) advertiser);
             Sent (AirConnectComplete central (AWT own_addr PUBLIC_DEVICE) 24 0 500)]) /\
  (exists s o, run aes rng cfg (new_le own_addr) (story (N.ones 64) 31) = Some (s, o)
     /\ o = [Notified (EvReport advertiser 0 [1; 2]); Sent (AirScan (AWT own_addr PUBLIC_DEVICE) advertiser);
             Notified (EvConnectionComplete SUCCESS 512 false central 24 0 500);
             Sent (AirConnectComplete central (AWT own_addr PUBLIC_DEVICE) 24 0 500)]) /\
  (exists s o, run aes rng cfg (new_le own_addr) (story (N.ones 64) (N.ones 64)) = Some (s, o)
     /\ o = [Notified (EvReport advertiser 0 [1; 2]); Sent (AirScan (AWT own_addr PUBLIC_DEVICE) advertiser);
             Notified (EvEnhancedConnectionComplete SUCCESS 512 false central empty_address empty_address 24 0 500);
             Sent (AirConnectComplete central (AWT own_addr PUBLIC_DEVICE) 24 0 500)]).
Proof.
  split; [repeat constructor|]. split; [|split].
  - outputs.
  - outputs.
  - outputs.
Qed.
