(** A history used as a witness by the theorems on how commands are settled. *)
From Verif Require Import Prelude HciTables Hci HciSpec HciProofs HciHistory HciWitness HciAccountSpec.
Open Scope N_scope.

(** Reset, a command for the link manager, one for the link layer, a packet that is too
    short, a data packet, a CSR vendor command, loopback, and a command that comes back *)
Definition mixed : list input := [
  Command (packet 0x0c03 []); Command (packet 0x0411 [5; 0]); Command (packet 0x2065 [1]); Command [0x19; 0x0c];
  AclData [0x05; 0x20; 0x02; 0x00; 0xaa; 0xbb]; Command (packet 0xfc00 [0xc2; 0; 0; 0]);
  Command (packet 0x1802 [1]); Command (packet 0x0c1a [3]); Command (packet 0x1801 [])].

Lemma mixed_runs : Hci.ran unit quiet true usual (start unit usual tt) (log_of mixed) (last_of mixed)
  /\ map fst (log_of mixed) = mixed
  /\ settled_in (log_of mixed) = [
      Event (CommandComplete 1 0x0c03 [0]); ToLinkManager (packet 0x0411 [5; 0]); ToLinkLayer (packet 0x2065 [1]);
      Event (HardwareError 0x43); Event (VendorSpecific [0xc2; 1; 0; 0]); Event (CommandComplete 1 0x1802 [0]);
      Event (LoopbackCommand (packet 0x0c1a [3])); Event (CommandComplete 1 0x1801 [0; 1])]
  /\ due (log_of mixed) = [(0x0c03, 1); (0x1802, 1); (0x1801, 1)].
Proof.
  split; [apply runs_ran; vm_compute; reflexivity|]. split; [vm_compute; reflexivity|].
  split; vm_compute; reflexivity.
Qed.
