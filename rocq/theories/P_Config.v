(** Property C108: a controller has the features, commands and quirks its configuration asks for. *)
From Verif Require Import Prelude HciTables Hci HciSpec HciProofs HciWitness Config ConfigSpec ConfigProofs ConfigWitness.
Open Scope N_scope.

Theorem C108_feature_selected : forall c o b k, choice c o = Some b -> In k (bits_of o) -> N.testbit (le_features (configure c)) k = b.
Proof. exact feature_selected. Qed.
Print Assumptions C108_feature_selected.

Theorem C108_feature_kept : forall c k, (forall o, choice c o <> None -> ~ In k (bits_of o)) ->
  N.testbit (le_features (configure c)) k = N.testbit (le_features (configure (preset_alone c))) k.
Proof. exact feature_kept. Qed.
Print Assumptions C108_feature_kept.

Theorem C108_preset_features : forall c k, (forall o, choice c o <> None -> ~ In k (bits_of o)) ->
  (N.testbit (le_features (configure c)) k = true <-> In k (preset_bits (given_preset c))).
Proof. exact feature_of_preset. Qed.
Print Assumptions C108_preset_features.

Theorem C108_features_witness : choice frugal ExtendedAdvertising = Some false /\ choice frugal PowerControl = Some true /\
  choice frugal Privacy = None /\
  N.testbit (le_features (configure frugal)) 12 = false /\ N.testbit (le_features (configure (preset_alone frugal))) 12 = true /\
  N.testbit (le_features (configure frugal)) 33 = true /\
  (forall o, choice frugal o <> None -> ~ In 6 (bits_of o)) /\ N.testbit (le_features (configure frugal)) 6 = true /\
  supported_phys (configure frugal) = 3.
Proof. exact frugal_features. Qed.
Print Assumptions C108_features_witness.

Theorem C108_default_features : le_features (configure empty_configuration) = fold_left N.lor (map (fun k => 2 ^ k) [0; 1; 2; 3; 4; 5; 6; 7; 8; 11; 12; 13; 28; 29; 33; 37; 46]) 0 /\
  (forall o k, In k (bits_of o) -> N.testbit (le_features (configure empty_configuration)) k = true) /\
  hci_version (sizes (configure empty_configuration)) = 12 /\
  random_address_quirk (configure empty_configuration) = false /\ hardware_error_quirk (configure empty_configuration) = false.
Proof. exact default_values. Qed.
Print Assumptions C108_default_features.

Theorem C108_command_selected : forall c nm h o b op, choice c o = Some b -> In op (commands_of o) ->
  (forall o', choice c o' <> None -> In op (commands_of o') -> rank o' <= rank o) ->
  supported (hci c nm h) op = b.
Proof. exact governed. Qed.
Print Assumptions C108_command_selected.

Theorem C108_command_kept : forall c nm h nm' h' op, (forall o, choice c o <> None -> ~ In op (commands_of o)) ->
  supported (hci c nm h) op = supported (hci (preset_alone c) nm' h') op.
Proof. exact ungoverned. Qed.
Print Assumptions C108_command_kept.

Theorem C108_shared_only : forall o o' op, In op (commands_of o) -> In op (commands_of o') -> o <> o' -> In op shared.
Proof. exact only_shared. Qed.
Print Assumptions C108_shared_only.

Theorem C108_exclusive_command : forall c nm h o b op, choice c o = Some b -> In op (commands_of o) -> ~ In op shared ->
  supported (hci c nm h) op = b.
Proof. exact governed_alone. Qed.
Print Assumptions C108_exclusive_command.

Theorem C108_turned_off : forall W inner exact c nm h o s p, choice c o = Some false -> In (opcode p) (commands_of o) -> ~ In (opcode p) shared ->
  operational (hci c nm h) s -> sound exact p ->
  command W inner exact (hci c nm h) s p = Done W s [Event (CommandComplete 1 (opcode p) [1])].
Proof. exact turned_off. Qed.
Print Assumptions C108_turned_off.

Theorem C108_turned_on_partial : forall W inner exact c nm h o s p, choice c o = Some true -> In (opcode p) (commands_of o) -> ~ In (opcode p) shared ->
  ~ In (opcode p) promised_in_vain ->
  strict (hci c nm h) = true -> tolerant (hci c nm h) = true -> operational (hci c nm h) s -> sound exact p ->
  inner (opcode p) (parameters p) (world W s) <> None ->
  alive W (command W inner exact (hci c nm h) s p).
Proof. exact turned_on. Qed.
Print Assumptions C108_turned_on_partial.

Theorem C108_commands_witness : In 0x2039 (commands_of ExtendedAdvertising) /\ ~ In 0x2039 shared /\
  operational (hci frugal (repeat 65 248) true) (start unit (hci frugal (repeat 65 248) true) tt) /\ sound true (packet 0x2039 [0; 0]) /\
  command unit quiet true (hci frugal (repeat 65 248) true) (start unit (hci frugal (repeat 65 248) true) tt) (packet 0x2039 [0; 0]) = Done unit (start unit (hci frugal (repeat 65 248) true) tt) [Event (CommandComplete 1 0x2039 [1])] /\
  In 0x2076 (commands_of PowerControl) /\ ~ In 0x2076 shared /\ ~ In 0x2076 promised_in_vain /\
  sound true (packet 0x2076 [0; 2; 1]) /\ strict (hci frugal (repeat 65 248) true) = true /\
  command unit quiet true (hci frugal (repeat 65 248) true) (start unit (hci frugal (repeat 65 248) true) tt) (packet 0x2076 [0; 2; 1]) = Done unit (start unit (hci frugal (repeat 65 248) true) tt) [Event (CommandComplete 1 0x2076 [0])] /\
  supported (hci frugal (repeat 65 248) true) 0x2076 = true /\ supported (hci frugal (repeat 65 248) true) 0x203f = true /\
  (forall o, choice frugal o <> None -> ~ In 0x203f (commands_of o)).
Proof. exact frugal_commands. Qed.
Print Assumptions C108_commands_witness.

Theorem C108_shared_refuted : choice open_advertiser ExtendedAdvertising = Some true /\ In 0x2033 (commands_of ExtendedAdvertising) /\
  N.testbit (le_features (configure open_advertiser)) 12 = true /\
  supported (hci open_advertiser (repeat 65 248) true) 0x2033 = false /\
  sound true (packet 0x2033 [0; 1; 0]) /\
  command unit quiet true (hci open_advertiser (repeat 65 248) true) (start unit (hci open_advertiser (repeat 65 248) true) tt) (packet 0x2033 [0; 1; 0]) = Done unit (start unit (hci open_advertiser (repeat 65 248) true) tt) [Event (CommandComplete 1 0x2033 [1])].
Proof. exact shared_lost. Qed.
Print Assumptions C108_shared_refuted.

Theorem C108_promised_in_vain_refuted : forall W inner exact c nm h o s p, choice c o = Some true -> In (opcode p) (commands_of o) -> In (opcode p) promised_in_vain ->
  (forall o', choice c o' <> None -> In (opcode p) (commands_of o') -> rank o' <= rank o) ->
  operational (hci c nm h) s -> sound exact p ->
  command W inner exact (hci c nm h) s p =
    if given (given_strict c) true then Abort W [] else Done W s [Event (CommandComplete 1 (opcode p) [1])].
Proof. exact in_vain. Qed.
Print Assumptions C108_promised_in_vain_refuted.

Theorem C108_in_vain_witness : choice ranger ChannelSounding = Some true /\ In 0x2096 (commands_of ChannelSounding) /\ In 0x2096 promised_in_vain /\
  (forall o, choice ranger o <> None -> In 0x2096 (commands_of o) -> rank o <= rank ChannelSounding) /\
  operational (hci ranger (repeat 65 248) true) (start unit (hci ranger (repeat 65 248) true) tt) /\ sound true (packet 0x2096 []) /\
  command unit quiet true (hci ranger (repeat 65 248) true) (start unit (hci ranger (repeat 65 248) true) tt) (packet 0x2096 []) = Abort unit [].
Proof. exact sounding_aborts. Qed.
Print Assumptions C108_in_vain_witness.

Theorem C108_defaults_restated_partial : forall c nm h nm' h' op, given_preset c = None -> (forall o, choice c o <> Some false) -> ~ In op shared ->
  supported (hci c nm h) op = supported (hci empty_configuration nm' h') op.
Proof. exact restated. Qed.
Print Assumptions C108_defaults_restated_partial.

Theorem C108_restated_witness : given_preset repeater = None /\ (forall o, choice repeater o <> Some false) /\ ~ In 0x2039 shared /\
  supported (hci repeater (repeat 65 248) true) 0x2039 = true.
Proof. exact restated_case. Qed.
Print Assumptions C108_restated_witness.

Theorem C108_defaults_restated_refuted : choice repeater ExtendedAdvertising = Some true /\
  le_features (configure repeater) = le_features (configure empty_configuration) /\
  sound true (packet 0x2033 [0; 1; 0]) /\
  command unit quiet true (hci empty_configuration (repeat 65 248) true) (start unit (hci empty_configuration (repeat 65 248) true) tt) (packet 0x2033 [0; 1; 0]) = Done unit (start unit (hci empty_configuration (repeat 65 248) true) tt) [Event (CommandComplete 1 0x2033 [1])] /\
  command unit quiet true (hci repeater (repeat 65 248) true) (start unit (hci repeater (repeat 65 248) true) tt) (packet 0x2033 [0; 1; 0]) = Abort unit [].
Proof. exact restated_aborts. Qed.
Print Assumptions C108_defaults_restated_refuted.

Theorem C108_alive_iff : forall W inner exact c nm h s p,   given (given_strict c) true = true -> h = true -> operational (hci c nm h) s -> sound exact p ->
  inner (opcode p) (parameters p) (world W s) <> None ->
  alive W (command W inner exact (hci c nm h) s p) <->
  supported (hci c nm h) (opcode p) = false \/
  ~ In (opcode p) unimplemented /\ ~ deadly exact (hci c nm h) (opcode p) (parameters p).
Proof. exact configured_alive. Qed.
Print Assumptions C108_alive_iff.

Theorem C108_preset_in_vain : forall c p nm h op, given_features c = None -> given (given_preset c) DEFAULT = p ->
  In op (preset_in_vain p) <-> supported (hci c nm h) op = true /\ In op unimplemented.
Proof. exact preset_vain. Qed.
Print Assumptions C108_preset_in_vain.

Theorem C108_preset_aborts_refuted : let c := {| given_preset := Some LAIRD_BL654; given_features := None; given_quirks := None; given_strict := None; given_vendor := None |} in
  In 0x2014 (preset_in_vain LAIRD_BL654) /\ sound true (packet 0x2014 [255; 255; 255; 255; 31]) /\
  command unit quiet true (hci c (repeat 65 248) true) (start unit (hci c (repeat 65 248) true) tt) (packet 0x2014 [255; 255; 255; 255; 31]) = Abort unit [].
Proof. exact laird_aborts. Qed.
Print Assumptions C108_preset_aborts_refuted.

Theorem C108_flags : forall c nm h,   strict (hci c nm h) = given (given_strict c) true /\
  error_before_reset (hci c nm h) = given (quirk_of c hardware_error_before_reset) false /\
  random_address_quirk (configure c) = given (quirk_of c has_default_random_address) false /\
  has_csr (hci c nm h) = given (vendor_of c csr_command) true /\
  has_capabilities (hci c nm h) = given (vendor_of c android) true /\
  has_apcf (hci c nm h) = given (vendor_of c android) true.
Proof. exact flags. Qed.
Print Assumptions C108_flags.

Theorem C108_sizes : forall c c', given_preset c = given_preset c' ->
  sizes (configure c) = sizes (configure c') /\ lmp_features (configure c) = lmp_features (configure c').
Proof. exact only_preset. Qed.
Print Assumptions C108_sizes.

Theorem C108_phys : forall c,   (choice c Phy2M <> None -> choice c PhyCoded <> None ->
   supported_phys (configure c) = 1 + (if given (choice c Phy2M) true then 2 else 0) + (if given (choice c PhyCoded) true then 4 else 0)).
Proof. exact phys. Qed.
Print Assumptions C108_phys.

Theorem C108_csr_off : forall W inner exact c nm h s p, vendor_of c csr_command = Some false -> opcode p = 0xfc00 -> operational (hci c nm h) s -> sound exact p ->
  command W inner exact (hci c nm h) s p = Done W s [Event (CommandComplete 1 0xfc00 [1])].
Proof. exact csr_off. Qed.
Print Assumptions C108_csr_off.

Theorem C108_android_off_partial : forall W inner exact c nm h s p, vendor_of c android = Some false ->
  (opcode p = 0xfd53 /\ parameters p = []) \/ (opcode p = 0xfd57 /\ parameters p <> []) ->
  operational (hci c nm h) s -> sound exact p ->
  command W inner exact (hci c nm h) s p = Done W s [Event (CommandComplete 1 (opcode p) [1])].
Proof. exact android_off. Qed.
Print Assumptions C108_android_off_partial.

Theorem C108_android_refuted : let c := {| given_preset := None; given_features := None; given_quirks := None; given_strict := None;
              given_vendor := Some {| csr_command := None; android := Some false |} |} in
  vendor_of c android = Some false /\ sound true (packet 0xfd5b []) /\
  command unit quiet true (hci c (repeat 65 248) true) (start unit (hci c (repeat 65 248) true) tt) (packet 0xfd5b []) = Done unit (start unit (hci c (repeat 65 248) true) tt) [Event (CommandComplete 1 0xfd5b [0])].
Proof. exact android_debug. Qed.
Print Assumptions C108_android_refuted.

Theorem C108_error_before_reset : forall W inner exact c nm h s p, sound exact p -> mode W s <> 1 -> was_reset W s = false -> opcode p <> RESET ->
  quirk_of c hardware_error_before_reset = Some true ->
  command W inner exact (hci c nm h) s p = Done W s [Event (HardwareError 0x42)].
Proof. exact error_quirk. Qed.
Print Assumptions C108_error_before_reset.

Theorem C108_quirks_witness : quirk_of quirky hardware_error_before_reset = Some true /\ vendor_of quirky csr_command = Some false /\
  vendor_of quirky android = Some false /\ was_reset unit (start unit (hci quirky (repeat 65 248) true) tt) = false /\ mode unit (start unit (hci quirky (repeat 65 248) true) tt) <> 1 /\
  sound true (packet 0x1009 []) /\
  command unit quiet true (hci quirky (repeat 65 248) true) (start unit (hci quirky (repeat 65 248) true) tt) (packet 0x1009 []) = Done unit (start unit (hci quirky (repeat 65 248) true) tt) [Event (HardwareError 0x42)] /\
  (exists s, command unit quiet true (hci quirky (repeat 65 248) true) (start unit (hci quirky (repeat 65 248) true) tt) (packet 0x0c03 []) = Done unit s [Event (CommandComplete 1 0x0c03 [0])] /\
    operational (hci quirky (repeat 65 248) true) s /\
    command unit quiet true (hci quirky (repeat 65 248) true) s (packet 0xfc00 [0xc2; 0; 0]) = Done unit s [Event (CommandComplete 1 0xfc00 [1])] /\
    command unit quiet true (hci quirky (repeat 65 248) true) s (packet 0xfd53 []) = Done unit s [Event (CommandComplete 1 0xfd53 [1])]).
Proof. exact quirky_case. Qed.
Print Assumptions C108_quirks_witness.

Theorem C108_random_address_partial : forall c, forall h, (forall s, In s h -> s <> Reset /\ forall a, s <> SetRandom true a) ->
  random_address c h = if given (quirk_of c has_default_random_address) false then [0xba; 0xdb; 0xad; 0xba; 0xdb; 0xad] else [0; 0; 0; 0; 0; 0].
Proof. exact address_kept. Qed.
Print Assumptions C108_random_address_partial.

Theorem C108_random_address_refuted : quirk_of quirky has_default_random_address = Some true /\
  random_address quirky [] = [0xba; 0xdb; 0xad; 0xba; 0xdb; 0xad] /\
  random_address quirky [Reset] = [0; 0; 0; 0; 0; 0] /\
  random_address empty_configuration [Reconfigure quirky] = [0; 0; 0; 0; 0; 0].
Proof. exact random_lost. Qed.
Print Assumptions C108_random_address_refuted.
