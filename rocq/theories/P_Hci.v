(** Properties C87 to C92: the HCI front end. *)
From Verif Require Import Prelude HciTables Hci HciSpec HciProofs HciHistory HciWitness.
Open Scope N_scope.

Theorem C87_one_answer_each : forall W inner exact c w h t,
  ran W inner exact c (start W c w) h t -> error_before_reset c = false -> Forall ordinary h ->
  answers (all_effects h) = expected h.
Proof. exact started_history_answers. Qed.
Print Assumptions C87_one_answer_each.

Theorem C87_left_to_link_manager : forall W inner exact c s p,
  well_framed p -> (exact = true -> lenN p = 3 + nth 2 p 0) -> operational c s -> In (opcode p) for_link_manager ->
  command W inner exact c s p = Done W s [if supported c (opcode p) then ToLinkManager p else unknown (opcode p)].
Proof. exact to_manager. Qed.
Print Assumptions C87_left_to_link_manager.

Theorem C87_left_to_link_layer : forall W inner exact c s p,
  well_framed p -> (exact = true -> lenN p = 3 + nth 2 p 0) -> operational c s -> In (opcode p) for_link_layer ->
  command W inner exact c s p = Done W s [if supported c (opcode p) then ToLinkLayer p else unknown (opcode p)].
Proof. exact to_layer. Qed.
Print Assumptions C87_left_to_link_layer.

Theorem C87_disconnect_routed : forall W inner exact c s p h,
  well_framed p -> (exact = true -> lenN p = 3 + nth 2 p 0) -> operational c s ->
  opcode p = 0x0406 -> supported c 0x0406 = true -> lenN (parameters p) = 3 -> h = le16 (parameters p) mod 4096 ->
  (0xe00 <= h <= 0xeff -> command W inner exact c s p = Done W s [ToLinkLayer p]) /\
  (0x2ff < h -> h < 0xe00 \/ 0xeff < h -> command W inner exact c s p = Done W s [Event (CommandStatus 2 1 0x0406)]) /\
  (h <= 0x2ff -> forall a, inner 0x0406 (parameters p) (world W s) = Some a ->
    command W inner exact c s p = Done W {| mode := mode W s; was_reset := was_reset W s; kept := kept W s; world := next W a |}
      (map (fun e => Event (Other (fst e) (snd e))) (raised W a) ++ [Event (CommandStatus (status W a) 1 0x0406)])).
Proof. exact disconnects. Qed.
Print Assumptions C87_disconnect_routed.

Theorem C87_history_witness : ran unit quiet true usual (start unit usual tt) (log_of chat) (last_of chat) /\ map fst (log_of chat) = chat /\
  error_before_reset usual = false /\ Forall ordinary (log_of chat) /\
  answers (all_effects (log_of chat)) = [(0x0c03, 1); (0x0c1a, 1); (0x0406, 1); (0x0c19, 1)].
Proof. exact chat_runs. Qed.
Print Assumptions C87_history_witness.

Theorem C87_delegation_witness : In (opcode (packet 0x0411 [5; 0])) for_link_manager /\ sound true (packet 0x0411 [5; 0]) /\
  command unit quiet true usual (start unit usual tt) (packet 0x0411 [5; 0]) =
  Done unit (start unit usual tt) [ToLinkManager (packet 0x0411 [5; 0])].
Proof. exact pass_case. Qed.
Print Assumptions C87_delegation_witness.

Theorem C88_alive_iff_partial : forall W inner exact c s p,
  commands c = mask_of advertised -> strict c = true -> tolerant c = true -> operational c s ->
  well_framed p -> (exact = true -> lenN p = 3 + nth 2 p 0) -> inner (opcode p) (parameters p) (world W s) <> None ->
  alive W (command W inner exact c s p) <->
  ~ In (opcode p) advertised_in_vain /\ ~ deadly exact c (opcode p) (parameters p).
Proof. exact default_alive. Qed.
Print Assumptions C88_alive_iff_partial.

Theorem C88_alive_witness : commands usual = mask_of advertised /\ strict usual = true /\ tolerant usual = true /\
  operational usual (start unit usual tt) /\ sound true (packet 0x0c14 []) /\ quiet 0x0c14 [] tt <> None /\
  alive unit (command unit quiet true usual (start unit usual tt) (packet 0x0c14 [])) /\
  sound true (packet 0x1004 [3]) /\ command unit quiet true usual (start unit usual tt) (packet 0x1004 [3]) = Undefined unit /\
  sound true (packet 0x0c05 [1; 0]) /\ command unit quiet true usual (start unit usual tt) (packet 0x0c05 [1; 0]) = Abort unit [].
Proof. exact alive_case. Qed.
Print Assumptions C88_alive_witness.

Theorem C88_advertised_refuted : operational usual (start unit usual tt) /\ sound true (packet 0x0c08 [1; 0]) /\
  shown (commands usual) 6 1 = true /\ In (0x0c08, 6, 1) core_positions /\
  command unit quiet true usual (start unit usual tt) (packet 0x0c08 [1; 0]) = Abort unit [].
Proof. exact flush_aborts. Qed.
Print Assumptions C88_advertised_refuted.

Theorem C88_advertised_in_vain : forall W inner exact c s p,
  commands c = mask_of advertised -> strict c = true -> operational c s ->
  well_framed p -> (exact = true -> lenN p = 3 + nth 2 p 0) -> In (opcode p) advertised_in_vain ->
  command W inner exact c s p = Abort W [].
Proof. exact vain_aborts. Qed.
Print Assumptions C88_advertised_in_vain.

Theorem C88_features_page_refuted : forall W inner exact c s p,
  operational c s -> sound exact p -> opcode p = READ_LOCAL_EXTENDED_FEATURES ->
  supported c READ_LOCAL_EXTENDED_FEATURES = true -> lenN (parameters p) = 1 -> 3 <= nth 0 (parameters p) 0 ->
  command W inner exact c s p = Undefined W.
Proof. exact features_page. Qed.
Print Assumptions C88_features_page_refuted.

Theorem C88_contact_counter_refuted : forall W inner exact c s p,
  operational c s -> sound exact p -> opcode p = 0x1402 -> supported c 0x1402 = true ->
  command W inner exact c s p =
  if tolerant c then Done W s [Event (HardwareError 0x43); InvalidPacket p] else Abort W [Event (HardwareError 0x43)].
Proof. exact counter_invalid. Qed.
Print Assumptions C88_contact_counter_refuted.

Theorem C88_contact_counter_witness : supported usual 0x1402 = true /\ sound true (packet 0x1402 [1; 0]) /\
  command unit quiet true usual (start unit usual tt) (packet 0x1402 [1; 0]) =
  Done unit (start unit usual tt) [Event (HardwareError 0x43); InvalidPacket (packet 0x1402 [1; 0])].
Proof. exact counter_case. Qed.
Print Assumptions C88_contact_counter_witness.

Theorem C89_mask_returned : forall W inner exact c s p,
  opcode p = 0x1002 -> parameters p = [] -> operational c s -> sound exact p ->
  command W inner exact c s p = Done W s [Event (CommandComplete 1 0x1002 (0 :: commands c))].
Proof. exact mask_shown. Qed.
Print Assumptions C89_mask_returned.

Theorem C89_hidden_refused : forall W inner exact c s p op octet bit,
  In (op, octet, bit) core_positions -> opcode p = op -> operational c s -> sound exact p ->
  shown (commands c) octet bit = false ->
  command W inner exact c s p = Done W s [Event (CommandComplete 1 op [1])].
Proof. exact hidden_refused. Qed.
Print Assumptions C89_hidden_refused.

Theorem C89_offered_executed_partial : forall W inner exact c s p op octet bit s' l,
  In (op, octet, bit) core_positions -> opcode p = op -> operational c s -> sound exact p ->
  shown (commands c) octet bit = true -> strict c = true ->
  (forall o b w a, inner o b w = Some a -> status W a <> 1) ->
  command W inner exact c s p = Done W s' l -> no_refusal op l.
Proof. exact offered_executed. Qed.
Print Assumptions C89_offered_executed_partial.

Theorem C89_mask_witness : (forall o b w a, quiet o b w = Some a -> status unit a <> 1) /\
  nth 0 core_positions (0, 0, 0) = (0x0401, 0, 0) /\ shown (commands usual) 0 0 = true /\
  (exists s', command unit quiet true usual (start unit usual tt) (packet 0x0401 [0x33; 0x8b; 0x9e; 8; 0]) =
    Done unit s' [Event (CommandStatus 0 1 0x0401)]) /\
  existsb (fun e => match e with (op, o, b) => (op =? 0x2026) && (o =? 34) && (b =? 2) end) core_positions = true /\
  shown (commands usual) 34 2 = false /\
  command unit quiet true usual (start unit usual tt) (packet 0x2026 (repeat 0 64)) =
    Done unit (start unit usual tt) [Event (CommandComplete 1 0x2026 [1])].
Proof. exact mask_case. Qed.
Print Assumptions C89_mask_witness.

Theorem C90_commands_returned : forall W inner exact c w h t p,
  ran W inner exact c (start W c w) h t -> sound exact p -> ~ In (opcode p) never_looped ->
  last_loopback h 0 = 1 -> command W inner exact c t p = Done W t [Event (LoopbackCommand p)].
Proof. exact history_loops. Qed.
Print Assumptions C90_commands_returned.

Theorem C90_only_in_loopback : forall W inner exact c w h t p s' l q,
  ran W inner exact c (start W c w) h t -> last_loopback h 0 <> 1 ->
  command W inner exact c t p = Done W s' l -> ~ In (Event (LoopbackCommand q)) l.
Proof. exact no_loop_no_echo. Qed.
Print Assumptions C90_only_in_loopback.

Theorem C90_data_returned : forall W inner exact c w h t p,
  ran W inner exact c (start W c w) h t -> last_loopback h 0 = 1 -> acl_frame p ->
  step W inner exact c t (AclData p) = Done W t [AclToHost p; Event (NumberOfCompletedPackets (handle_of p) 1)].
Proof. exact history_acl_echo. Qed.
Print Assumptions C90_data_returned.

Theorem C90_voice_returned : forall W inner exact c w h t p,
  ran W inner exact c (start W c w) h t -> last_loopback h 0 = 1 -> writes_in_range c FlowControl h ->
  sco_frame p -> no_reserved p ->
  step W inner exact c t (ScoData p) = Done W t (ScoToHost p ::
    (if list_eqb (last_value FlowControl h [0]) [1] then [Event (NumberOfCompletedPackets (handle_of p) 1)] else [])).
Proof. exact history_sco_echo. Qed.
Print Assumptions C90_voice_returned.

Theorem C90_mode_read : forall W inner exact c w h t p s' l,
  ran W inner exact c (start W c w) h t -> command W inner exact c t p = Done W s' l -> opcode p = 0x1801 ->
  answers l <> [] -> ~ In (Event (CommandComplete 1 0x1801 [1])) l ->
  l = [Event (CommandComplete 1 0x1801 [0; last_loopback h 0])].
Proof. exact read_mode. Qed.
Print Assumptions C90_mode_read.

Theorem C90_loopback_witness : ran unit quiet true usual (start unit usual tt) (log_of mirror) (last_of mirror) /\ map fst (log_of mirror) = mirror /\
  last_loopback (log_of mirror) 0 = 1 /\ sound true (packet 0x0c1a [3]) /\ ~ In (opcode (packet 0x0c1a [3])) never_looped /\
  acl_frame [0x23; 0x21; 2; 0; 7; 8] /\ sco_frame [0x45; 0x03; 1; 9] /\ no_reserved [0x45; 0x03; 1; 9] /\
  map snd (skipn 2 (log_of mirror)) =
    [[Event (LoopbackCommand (packet 0x0c1a [3]))];
     [AclToHost [0x23; 0x21; 2; 0; 7; 8]; Event (NumberOfCompletedPackets 0x123 1)];
     [ScoToHost [0x45; 0x03; 1; 9]]] /\
  kept unit (last_of mirror) ScanEnable = [0].
Proof. exact mirror_runs. Qed.
Print Assumptions C90_loopback_witness.

Theorem C90_long_command_refuted : ran unit quiet true usual (start unit usual tt) (log_of loop_in) (last_of loop_in) /\
  last_loopback (log_of loop_in) 0 = 1 /\
  let p := packet 0x2037 (repeat 0 255) in
  sound true p /\ command unit quiet true usual (last_of loop_in) p = Done unit (last_of loop_in) [Event (LoopbackCommand p)] /\
  lenN p = 258.
Proof. exact too_long. Qed.
Print Assumptions C90_long_command_refuted.

Theorem C90_leaving_announces_refuted : exists s', mode unit (last_of loop_in) = 1 /\ mode unit s' = 0 /\
  command unit quiet true usual (last_of loop_in) (packet 0x1802 [0]) =
  Done unit s' [Event (ConnectionComplete 0 0x123 1); Event (ConnectionComplete 0 0x345 0); Event (CommandComplete 1 0x1802 [0])].
Proof. exact leave_announces. Qed.
Print Assumptions C90_leaving_announces_refuted.

Theorem C91_read_back : forall W inner exact c w x h t p s' l,
  ran W inner exact c (start W c w) h t -> writes_in_range c x h ->
  command W inner exact c t p = Done W s' l -> opcode p = reader x ->
  answers l <> [] -> ~ In (Event (CommandComplete 1 (reader x) [1])) l ->
  l = [Event (CommandComplete 1 (reader x) (0 :: last_value x h (fresh c x)))].
Proof. exact history_read. Qed.
Print Assumptions C91_read_back.

Theorem C91_write_answered : forall W inner exact c s x p,
  operational c s -> sound exact p -> opcode p = writer x -> supported c (writer x) = true ->
  inner (writer x) (parameters p) (world W s) <> None -> in_range c x (parameters p) ->
  (allowed x (parameters p) ->
     exists s', command W inner exact c s p = Done W s' [Event (CommandComplete 1 (writer x) [0])]) /\
  (~ allowed x (parameters p) ->
     command W inner exact c s p = Done W s [Event (CommandComplete 1 (writer x) [0x12])]).
Proof. exact write_answer. Qed.
Print Assumptions C91_write_answered.

Theorem C91_history_witness : ran unit quiet true usual (start unit usual tt) (log_of settings) (last_of settings) /\
  writes_in_range usual DataLength (log_of settings) /\
  last_value PageTimeout (log_of settings) (fresh usual PageTimeout) = [0x34; 0x12] /\
  last_value InquiryCodes (log_of settings) (fresh usual InquiryCodes) = [2; 0x33; 0x8b; 0x9e; 0x00; 0x8b; 0x9e] /\
  last_value DataLength (log_of settings) (fresh usual DataLength) = [0xfb; 0x00; 0x90; 0x42] /\
  last_value DataLength (log_of (firstn 4 settings)) (fresh usual DataLength) = [0x1b; 0x00; 0x48; 0x01] /\
  exists s', command unit quiet true usual (last_of settings) (packet 0x2023 []) =
    Done unit s' [Event (CommandComplete 1 0x2023 [0; 0xfb; 0x00; 0x90; 0x42])].
Proof. exact settings_run. Qed.
Print Assumptions C91_history_witness.

Theorem C91_write_witness : supported usual (writer DataLength) = true /\ quiet (writer DataLength) [0xfb; 0; 0x90; 0x42] tt <> None /\
  sound true (packet (writer DataLength) [0xfb; 0; 0x90; 0x42]) /\
  in_range usual DataLength (parameters (packet (writer DataLength) [0xfb; 0; 0x90; 0x42])) /\
  allowed DataLength (parameters (packet (writer DataLength) [0xfb; 0; 0x90; 0x42])) /\
  in_range usual DataLength (parameters (packet (writer DataLength) [0xfc; 0; 0x90; 0x42])) /\
  ~ allowed DataLength (parameters (packet (writer DataLength) [0xfc; 0; 0x90; 0x42])).
Proof. exact write_case. Qed.
Print Assumptions C91_write_witness.

Theorem C91_deaf_settings_refuted : forall W inner exact c s p s' l v,
  command W inner exact c s p = Done W s' l -> In (opcode p, v) deaf ->
  answers l <> [] -> ~ In (Event (CommandComplete 1 (opcode p) [1])) l ->
  l = [Event (CommandComplete 1 (opcode p) (0 :: v))].
Proof. exact deaf_read. Qed.
Print Assumptions C91_deaf_settings_refuted.

Theorem C91_inquiry_mode_refuted : exists s',
  command unit quiet true usual (start unit usual tt) (packet 0x0c45 [2]) = Done unit s' [Event (CommandComplete 1 0x0c45 [0])] /\
  command unit quiet true usual s' (packet 0x0c44 []) = Done unit s' [Event (CommandComplete 1 0x0c44 [0; 0])].
Proof. exact inquiry_mode_lost. Qed.
Print Assumptions C91_inquiry_mode_refuted.

Theorem C92_data_routed : forall W inner exact c w h t p,
  ran W inner exact c (start W c w) h t -> last_loopback h 0 <> 1 -> acl_frame p ->
  step W inner exact c t (AclData p) = Done W t
    [if handle_of p <? 0x100 then AclToBredr p
     else if (0x200 <=? handle_of p) && (handle_of p <? 0x300) then AclToLe p
     else Event (NumberOfCompletedPackets (handle_of p) 1)].
Proof. exact history_acl_routed. Qed.
Print Assumptions C92_data_routed.

Theorem C92_voice_routed : forall W inner exact c w h t p,
  ran W inner exact c (start W c w) h t -> last_loopback h 0 <> 1 -> sco_frame p ->
  step W inner exact c t (ScoData p) = Done W t [ScoToBredr p].
Proof. exact history_sco_routed. Qed.
Print Assumptions C92_voice_routed.

Theorem C92_data_witness : acl_frame [0x05; 0x20; 1; 0; 9] /\ acl_frame [0x05; 0x22; 1; 0; 9] /\ acl_frame [0x05; 0x2e; 1; 0; 9] /\
  let s := start unit usual tt in
  step unit quiet true usual s (AclData [0x05; 0x20; 1; 0; 9]) = Done unit s [AclToBredr [0x05; 0x20; 1; 0; 9]] /\
  step unit quiet true usual s (AclData [0x05; 0x22; 1; 0; 9]) = Done unit s [AclToLe [0x05; 0x22; 1; 0; 9]] /\
  step unit quiet true usual s (AclData [0x05; 0x2e; 1; 0; 9]) = Done unit s [Event (NumberOfCompletedPackets 0xe05 1)].
Proof. exact routes. Qed.
Print Assumptions C92_data_witness.
