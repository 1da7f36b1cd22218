(** Vocabulary of the whole mask of supported commands. *)
From Verif Require Import Prelude HciTables Hci HciSpec.
Open Scope N_scope.

(** The positions of the Channel Sounding commands, as packets/hci_packets.pdl:515-614 gives
    them (Core Specification 6.0) *)
Definition sounding_positions : list (N * N * N) := [
  (0x208e, 12, 2); (0x208f, 12, 3); (0x2090, 16, 6); (0x2091, 16, 7);
  (0x2089, 20, 5); (0x208a, 20, 6); (0x208b, 20, 7); (0x2095, 23, 3); (0x2096, 23, 4);
  (0x208c, 24, 1); (0x208d, 24, 7); (0x2092, 29, 0); (0x2093, 29, 1); (0x2094, 29, 2)].

(** Those of the six other commands that are not in [core_positions]: flow control mode,
    data block size, size of the list of monitored advertisers, monitoring of advertisers,
    frame space (packets/hci_packets.pdl:430-765) *)
Definition other_positions : list (N * N * N) := [
  (0x0c66, 23, 0); (0x0c67, 23, 1); (0x100a, 23, 2); (0x209c, 28, 7); (0x209b, 48, 0); (0x209d, 48, 1)].

Definition all_positions : list (N * N * N) := core_positions ++ sounding_positions ++ other_positions.

(** Vendor commands have no position *)
Definition vendor (op : N) : Prop := op / 1024 = 63.

(** The command has a position of its own *)
Definition has_position (op : N) : Prop := exists octet bit, In (op, octet, bit) all_positions.
