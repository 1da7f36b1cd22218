(** Property C89, continued: the whole mask of supported commands. *)
From Verif Require Import Prelude HciTables Hci HciSpec HciProofs HciHistory HciWitness HciMaskSpec HciMask HciMaskWitness.
Open Scope N_scope.

Theorem C89_any_hidden_refused : forall W inner exact c s p op octet bit,
  In (op, octet, bit) all_positions -> opcode p = op -> operational c s -> sound exact p ->
  shown (commands c) octet bit = false ->
  command W inner exact c s p = Done W s [Event (CommandComplete 1 op [1])].
Proof. exact any_hidden_refused. Qed.
Print Assumptions C89_any_hidden_refused.

Theorem C89_any_offered_executed_partial : forall W inner exact c s p op octet bit s' l,
  In (op, octet, bit) all_positions -> opcode p = op -> operational c s -> sound exact p ->
  shown (commands c) octet bit = true -> strict c = true ->
  (forall o b w a, inner o b w = Some a -> status W a <> 1) ->
  command W inner exact c s p = Done W s' l -> no_refusal op l.
Proof. exact any_offered_executed. Qed.
Print Assumptions C89_any_offered_executed_partial.

Theorem C89_no_position_refused : forall W inner exact c s p,
  opcode p <> 0x1002 -> ~ vendor (opcode p) -> ~ has_position (opcode p) -> operational c s -> sound exact p ->
  command W inner exact c s p = Done W s [Event (CommandComplete 1 (opcode p) [1])].
Proof. exact no_position_refused. Qed.
Print Assumptions C89_no_position_refused.

Theorem C89_bit_governs_one : forall op1 op2 octet bit,
  In (op1, octet, bit) all_positions -> In (op2, octet, bit) all_positions -> op1 = op2.
Proof. exact bit_governs_one. Qed.
Print Assumptions C89_bit_governs_one.

Theorem C89_positions_witness : In (0x2089, 20, 5) all_positions
  /\ operational usual (start unit usual tt) /\ operational silent (start unit silent tt)
  /\ sound true (packet 0x2089 []) /\ sound true (packet 0x2200 [])
  /\ shown (commands usual) 20 5 = true /\ shown (commands silent) 20 5 = false
  /\ (exists s' r, command unit quiet true usual (start unit usual tt) (packet 0x2089 []) =
        Done unit s' [Event (CommandComplete 1 0x2089 (0 :: r))])
  /\ command unit quiet true silent (start unit silent tt) (packet 0x2089 []) =
        Done unit (start unit silent tt) [Event (CommandComplete 1 0x2089 [1])]
  /\ opcode (packet 0x2200 []) <> 0x1002 /\ ~ vendor (opcode (packet 0x2200 [])) /\ ~ has_position (opcode (packet 0x2200 [])).
Proof. exact masks_case. Qed.
Print Assumptions C89_positions_witness.

Theorem C89_offered_unknown_refuted : In (0x0c08, 6, 1) all_positions /\ operational lenient (start unit lenient tt)
  /\ sound true (packet 0x0c08 [1; 0]) /\ shown (commands lenient) 6 1 = true
  /\ command unit quiet true lenient (start unit lenient tt) (packet 0x0c08 [1; 0]) =
       Done unit (start unit lenient tt) [Event (CommandComplete 1 0x0c08 [1])].
Proof. exact offered_unknown. Qed.
Print Assumptions C89_offered_unknown_refuted.
