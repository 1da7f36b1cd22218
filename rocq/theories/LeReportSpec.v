(** Vocabulary for the packets that have to be reported. *)
From Verif Require Import Prelude Address Rpa Table LeTypes LeHost LeHistory LeListsSpec LeAdvertSpec LeFilterSpec LeTimeSpec.
Open Scope N_scope.

(** The target is a private address made with the key shared with the device [i]. *)
Definition by_key (aes : list N -> list N -> list N) (s : le) (tgt i : address_with_type) : Prop :=
  resolving_on s = true /\ exists e, In e (resolving s)
  /\ i = peer_device_address (peer_identity_address e) (peer_identity_type e) /\ matches_irk aes tgt (local_irk e) = true.
Definition by_address (s : le) (tgt : address_with_type) : Prop :=
  tgt = AWT (public_address s) PUBLIC_DEVICE \/ tgt = AWT (random_address s) RANDOM_DEVICE.
Definition looks_at_identity (p : scan_policy) : Prop := p = CHECK_IDENTITY \/ p = ACCEPT_LIST_AND_IDENTITY.
(** A directed packet of the device [i] is for this controller; two of the policies
    also take those for any private address. *)
Definition for_us (aes : list N -> list N -> list N) (s : le) (policy : scan_policy) (directed : bool) (tgt i : address_with_type) : Prop :=
  directed = true -> by_address s tgt \/ by_key aes s tgt i \/ (looks_at_identity policy /\ is_rpa tgt = true).
(** A packet that the duplicate filter lets through. *)
Definition is_new (s : le) (h : list entry) (p : air) : Prop :=
  scan_dups (scan s) = DUP_DISABLED \/ ~ since_scanning (received p) h.
(** The PHYs of the packet are supported, and scanned. *)
Definition on_scanned_phys (cfg : config) (s : le) (prim sec : N) : Prop :=
  (prim = 1 -> sp_enabled (scan_1m (scan s)) = true) /\ (prim = 3 -> sp_enabled (scan_coded (scan s)) = true)
  /\ (sec = 2 -> cfg_2m cfg = true) /\ (sec = 3 \/ sec = 4 -> cfg_coded cfg = true).
