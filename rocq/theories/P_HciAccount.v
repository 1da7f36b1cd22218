(** Property C87, continued: every command of every history is settled exactly once. *)
From Verif Require Import Prelude HciTables Hci HciSpec HciProofs HciHistory HciWitness HciAccountSpec HciAccount HciAccountWitness.
Open Scope N_scope.

Theorem C87_settled_once : forall W inner exact c s p s' l, command W inner exact c s p = Done W s' l ->
  exists e, settled l = [e] /\ settled_well c (mode W s) (was_reset W s) p e.
Proof. exact command_settled. Qed.
Print Assumptions C87_settled_once.

Theorem C87_settled_in_order : forall W inner exact c s h t, ran W inner exact c s h t ->
  Forall2 (fun p e => exists m r, settled_well c m r p e) (commands_in h) (settled_in h).
Proof. exact history_settled. Qed.
Print Assumptions C87_settled_in_order.

Theorem C87_answers_due : forall W inner exact c s h t, ran W inner exact c s h t -> answers (all_effects h) = due h.
Proof. exact history_due. Qed.
Print Assumptions C87_answers_due.

Theorem C87_data_settles_nothing : forall W inner exact c s i s' l, step W inner exact c s i = Done W s' l ->
  match i with Command _ => True | _ => settled l = [] \/ settled l = [Event (HardwareError 0x43)] /\ tolerant c = true end.
Proof. exact data_settled. Qed.
Print Assumptions C87_data_settles_nothing.

Theorem C87_settled_witness : ran unit quiet true usual (start unit usual tt) (log_of mixed) (last_of mixed)
  /\ map fst (log_of mixed) = mixed
  /\ settled_in (log_of mixed) = [
      Event (CommandComplete 1 0x0c03 [0]); ToLinkManager (packet 0x0411 [5; 0]); ToLinkLayer (packet 0x2065 [1]);
      Event (HardwareError 0x43); Event (VendorSpecific [0xc2; 1; 0; 0]); Event (CommandComplete 1 0x1802 [0]);
      Event (LoopbackCommand (packet 0x0c1a [3])); Event (CommandComplete 1 0x1801 [0; 1])]
  /\ due (log_of mixed) = [(0x0c03, 1); (0x1802, 1); (0x1801, 1)].
Proof. exact mixed_runs. Qed.
Print Assumptions C87_settled_witness.
