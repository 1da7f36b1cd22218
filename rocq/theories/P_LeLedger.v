(** Property C105: the LE connections that the host knows from the events. *)
From Verif Require Import Prelude Address Rpa Table LeTypes LeAdvertise LeLists LeScan LeInitiate LeHost LeHistory LeListsWitness LeParamsWitness LeLedgerSpec LeLedger LeLedgerWitness.
Open Scope N_scope.

Theorem C105_ledger : forall aes rng cfg, forall h s, history aes rng cfg h s -> hears h -> links_of s = links h.
Proof. exact ledger. Qed.
Print Assumptions C105_ledger.

Theorem C105_handles_distinct : forall aes rng cfg, forall h s, history aes rng cfg h s -> hears h -> NoDup (map k_handle (links h)).
Proof. exact handles_distinct. Qed.
Print Assumptions C105_handles_distinct.

Theorem C105_ledger_witness : forall aes rng, exists h s, history aes rng default_config h s /\ hears h /\ in_time h /\
  links h = [Link 513 true dev 40 0 500] /\ attempts h = 1 /\ answers h = 1 /\ waiting h = false /\ listening h.
Proof. exact two_links_witness. Qed.
Print Assumptions C105_ledger_witness.

Theorem C105_disconnecting : forall aes rng cfg, forall h s, history aes rng cfg h s -> hears h -> listening h -> forall now hd r cr s' st out,
  step aes rng cfg now s (Command (Disconnect hd r cr)) = Ok s' st out ->
  (In hd (map k_handle (links h)) -> st = Some SUCCESS /\ notified out = [EvDisconnection hd cr]) /\
  (~ In hd (map k_handle (links h)) -> st = Some UNKNOWN_CONNECTION /\ out = [] /\ s' = s).
Proof. exact disconnecting. Qed.
Print Assumptions C105_disconnecting.

Theorem C105_counted_partial : forall aes rng cfg, forall h s, history aes rng cfg h s -> hears h -> in_time h ->
  attempts h = answers h + (if init_enabled (init s) then 1 else 0).
Proof. exact counted. Qed.
Print Assumptions C105_counted_partial.

Theorem C105_one_at_a_time : forall aes rng cfg, forall h s, history aes rng cfg h s -> hears h -> in_time h -> waiting h = true ->
  forall now c s' st out, match c with CreateConnection _ _ _ _ | ExtCreateConnection _ _ _ _ _ => True | _ => False end ->
  step aes rng cfg now s (Command c) = Ok s' st out -> st = Some COMMAND_DISALLOWED /\ out = [].
Proof. exact one_at_a_time. Qed.
Print Assumptions C105_one_at_a_time.

Theorem C105_cancelling : forall aes rng cfg, forall h s, history aes rng cfg h s -> hears h -> in_time h ->
  forall now, listening h -> exists s' out, step aes rng cfg now s (Command CancelConnection) = Ok s' (Some (if waiting h then SUCCESS else COMMAND_DISALLOWED)) out /\
    notified out = (if waiting h then [if N.testbit (le_mask_of h) 9
        then EvEnhancedConnectionComplete UNKNOWN_CONNECTION 0 true no_address empty_address empty_address 0 0 0
        else EvConnectionComplete UNKNOWN_CONNECTION 0 true no_address 0 0 0] else []).
Proof. exact cancelling. Qed.
Print Assumptions C105_cancelling.

Theorem C105_waiting_witness : forall aes rng, exists h s, history aes rng default_config h s /\ hears h /\ in_time h /\
  links h = [Link 512 false [9; 9; 9; 9; 9; 9] 24 1 300] /\ waiting h = true /\ listening h.
Proof. exact waiting_witness. Qed.
Print Assumptions C105_waiting_witness.

Theorem C105_late_response_refuted : forall aes rng, exists h s, history aes rng default_config h s /\ hears h /\
  attempts h = 1 /\ answers h = 2 /\ links h = [Link 512 true dev 40 0 500] /\
  exists h' e1 e2, h = e2 :: e1 :: h' /\ what e1 = Command CancelConnection /\ status_of e1 = Some SUCCESS /\
    notified (sent e1) = [EvConnectionComplete UNKNOWN_CONNECTION 0 true no_address 0 0 0] /\
    notified (sent e2) = [EvConnectionComplete SUCCESS 512 true remote 40 0 500].
Proof. exact late_response. Qed.
Print Assumptions C105_late_response_refuted.

Theorem C105_same_addresses_refuted : forall aes rng, exists h s c1 c2, history aes rng default_config h s /\ hears h /\
  conns s = [(513, c2); (512, c1)] /\ c_peer c1 = c_peer c2 /\ c_own c1 = c_own c2.
Proof. exact same_addresses. Qed.
Print Assumptions C105_same_addresses_refuted.
