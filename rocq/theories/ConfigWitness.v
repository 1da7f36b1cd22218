(** Concrete configurations. *)
From Verif Require Import Prelude HciTables Hci HciSpec HciProofs HciWitness Config ConfigSpec ConfigProofs.
Open Scope N_scope.

Definition no_features : features :=
  {| le_extended_advertising := None; le_periodic_advertising := None; ll_privacy := None; le_2m_phy := None;
     le_coded_phy := None; le_connected_isochronous_stream := None; le_connection_subrating := None;
     le_channel_sounding := None; le_power_control_request := None |}.

Definition with_features (p : option preset) (f : features) : controller :=
  {| given_preset := p; given_features := Some f; given_quirks := None; given_strict := None; given_vendor := None |}.

(** extended advertising and subrating off, coded PHY off *)
Definition frugal : controller := with_features (Some LAIRD_BL654)
  {| le_extended_advertising := Some false; le_periodic_advertising := None; ll_privacy := None; le_2m_phy := Some true;
     le_coded_phy := Some false; le_connected_isochronous_stream := None; le_connection_subrating := Some false;
     le_channel_sounding := None; le_power_control_request := Some true |}.

(** extended advertising on, privacy off *)
Definition open_advertiser : controller := with_features None
  {| le_extended_advertising := Some true; le_periodic_advertising := None; ll_privacy := Some false; le_2m_phy := None;
     le_coded_phy := None; le_connected_isochronous_stream := None; le_connection_subrating := None;
     le_channel_sounding := None; le_power_control_request := None |}.

(** extended advertising on, as by default *)
Definition repeater : controller := with_features None
  {| le_extended_advertising := Some true; le_periodic_advertising := None; ll_privacy := None; le_2m_phy := None;
     le_coded_phy := None; le_connected_isochronous_stream := None; le_connection_subrating := None;
     le_channel_sounding := None; le_power_control_request := None |}.

(** channel sounding on *)
Definition ranger : controller := with_features (Some CSR_RCK_PTS_DONGLE)
  {| le_extended_advertising := None; le_periodic_advertising := None; ll_privacy := None; le_2m_phy := None;
     le_coded_phy := None; le_connected_isochronous_stream := None; le_connection_subrating := None;
     le_channel_sounding := Some true; le_power_control_request := None |}.

Definition quirky : controller :=
  {| given_preset := None; given_features := None;
     given_quirks := Some {| send_acl_data_before_connection_complete := None; has_default_random_address := Some true;
                             hardware_error_before_reset := Some true |};
     given_strict := Some false; given_vendor := Some {| csr_command := Some false; android := Some false |} |}.

Local Notation made c := (hci c (repeat 65 248) true).
Local Notation begin c := (start unit (made c) tt).
Local Notation run c p := (command unit quiet true (made c) (begin c) p).

Local Ltac framed := unfold sound, well_framed; repeat split; vm_compute; first [discriminate | reflexivity | intros; reflexivity].

Lemma frugal_features :
  choice frugal ExtendedAdvertising = Some false /\ choice frugal PowerControl = Some true /\
  choice frugal Privacy = None /\
  N.testbit (le_features (configure frugal)) 12 = false /\ N.testbit (le_features (configure (preset_alone frugal))) 12 = true /\
  N.testbit (le_features (configure frugal)) 33 = true /\
  (forall o, choice frugal o <> None -> ~ In 6 (bits_of o)) /\ N.testbit (le_features (configure frugal)) 6 = true /\
  supported_phys (configure frugal) = 3.
Proof.
  repeat split; try (vm_compute; reflexivity).
  intros [] H; cbn; intros [F | F]; try discriminate; try contradiction; try (destruct F; fail);
    try (destruct F as [F | []]; discriminate); now destruct H.
Qed.

Lemma frugal_commands :
  In 0x2039 (commands_of ExtendedAdvertising) /\ ~ In 0x2039 shared /\
  operational (made frugal) (begin frugal) /\ sound true (packet 0x2039 [0; 0]) /\
  run frugal (packet 0x2039 [0; 0]) = Done unit (begin frugal) [Event (CommandComplete 1 0x2039 [1])] /\
  In 0x2076 (commands_of PowerControl) /\ ~ In 0x2076 shared /\ ~ In 0x2076 promised_in_vain /\
  sound true (packet 0x2076 [0; 2; 1]) /\ strict (made frugal) = true /\
  run frugal (packet 0x2076 [0; 2; 1]) = Done unit (begin frugal) [Event (CommandComplete 1 0x2076 [0])] /\
  supported (made frugal) 0x2076 = true /\ supported (made frugal) 0x203f = true /\
  (forall o, choice frugal o <> None -> ~ In 0x203f (commands_of o)).
Proof.
  repeat split; try (vm_compute; reflexivity); try (cbn; tauto);
    try (cbn; intros F; repeat (destruct F as [F | F]; [discriminate F |]); exact F).
  - cbn; discriminate.
  - framed.
  - framed.
  - intros [] H; cbn; intros F; repeat (destruct F as [F | F]; [discriminate F |]); try exact F. now destruct H.
Qed.

(** Extended advertising is on, and the command that comes with it is refused. *)
Lemma shared_lost :
  choice open_advertiser ExtendedAdvertising = Some true /\ In 0x2033 (commands_of ExtendedAdvertising) /\
  N.testbit (le_features (configure open_advertiser)) 12 = true /\
  supported (made open_advertiser) 0x2033 = false /\
  sound true (packet 0x2033 [0; 1; 0]) /\
  run open_advertiser (packet 0x2033 [0; 1; 0]) = Done unit (begin open_advertiser) [Event (CommandComplete 1 0x2033 [1])].
Proof. repeat split; try (vm_compute; reflexivity); try framed; cbn; tauto. Qed.

(** Writing down a default adds a command that takes the controller down. *)
Lemma restated_aborts :
  choice repeater ExtendedAdvertising = Some true /\
  le_features (configure repeater) = le_features (configure empty_configuration) /\
  sound true (packet 0x2033 [0; 1; 0]) /\
  run empty_configuration (packet 0x2033 [0; 1; 0]) = Done unit (begin empty_configuration) [Event (CommandComplete 1 0x2033 [1])] /\
  run repeater (packet 0x2033 [0; 1; 0]) = Abort unit [].
Proof. repeat split; try (vm_compute; reflexivity); framed. Qed.

Lemma restated_case : given_preset repeater = None /\ (forall o, choice repeater o <> Some false) /\ ~ In 0x2039 shared /\
  supported (made repeater) 0x2039 = true.
Proof.
  repeat split; try (vm_compute; reflexivity).
  - intros []; vm_compute; discriminate.
  - cbn. intros F. repeat (destruct F as [F | F]; [discriminate F |]). exact F.
Qed.

Lemma sounding_aborts :
  choice ranger ChannelSounding = Some true /\ In 0x2096 (commands_of ChannelSounding) /\ In 0x2096 promised_in_vain /\
  (forall o, choice ranger o <> None -> In 0x2096 (commands_of o) -> rank o <= rank ChannelSounding) /\
  operational (made ranger) (begin ranger) /\ sound true (packet 0x2096 []) /\
  run ranger (packet 0x2096 []) = Abort unit [].
Proof.
  repeat split; try (vm_compute; reflexivity); try (cbn; tauto).
  - intros []; cbn; intros H; try (now destruct H). lia.
  - cbn; discriminate.
  - framed.
Qed.

Lemma laird_aborts :
  let c := {| given_preset := Some LAIRD_BL654; given_features := None; given_quirks := None; given_strict := None; given_vendor := None |} in
  In 0x2014 (preset_in_vain LAIRD_BL654) /\ sound true (packet 0x2014 [255; 255; 255; 255; 31]) /\
  run c (packet 0x2014 [255; 255; 255; 255; 31]) = Abort unit [].
Proof. cbv zeta. repeat split; try (vm_compute; reflexivity); [| framed]. vm_compute. tauto. Qed.

Lemma quirky_case :
  quirk_of quirky hardware_error_before_reset = Some true /\ vendor_of quirky csr_command = Some false /\
  vendor_of quirky android = Some false /\ was_reset unit (begin quirky) = false /\ mode unit (begin quirky) <> 1 /\
  sound true (packet 0x1009 []) /\
  run quirky (packet 0x1009 []) = Done unit (begin quirky) [Event (HardwareError 0x42)] /\
  (exists s, run quirky (packet 0x0c03 []) = Done unit s [Event (CommandComplete 1 0x0c03 [0])] /\
    operational (made quirky) s /\
    command unit quiet true (made quirky) s (packet 0xfc00 [0xc2; 0; 0]) = Done unit s [Event (CommandComplete 1 0xfc00 [1])] /\
    command unit quiet true (made quirky) s (packet 0xfd53 []) = Done unit s [Event (CommandComplete 1 0xfd53 [1])]).
Proof.
  repeat split; try (vm_compute; reflexivity); [discriminate | framed |].
  eexists. split; [vm_compute; reflexivity |]. split; [split; [discriminate | right; reflexivity] |].
  split; vm_compute; reflexivity.
Qed.

(** A vendor command of Android is executed although Android is off. *)
Lemma android_debug :
  let c := {| given_preset := None; given_features := None; given_quirks := None; given_strict := None;
              given_vendor := Some {| csr_command := None; android := Some false |} |} in
  vendor_of c android = Some false /\ sound true (packet 0xfd5b []) /\
  run c (packet 0xfd5b []) = Done unit (begin c) [Event (CommandComplete 1 0xfd5b [0])].
Proof. cbv zeta. repeat split; try (vm_compute; reflexivity); framed. Qed.

(** The default random address does not survive the first HCI Reset, and a new
    configuration does not bring it. *)
Lemma random_lost :
  quirk_of quirky has_default_random_address = Some true /\
  random_address quirky [] = [0xba; 0xdb; 0xad; 0xba; 0xdb; 0xad] /\
  random_address quirky [Reset] = [0; 0; 0; 0; 0; 0] /\
  random_address empty_configuration [Reconfigure quirky] = [0; 0; 0; 0; 0; 0].
Proof. repeat split; try (vm_compute; reflexivity); framed. Qed.

Lemma default_values :
  le_features (configure empty_configuration) = fold_left N.lor (map (fun k => 2 ^ k) [0; 1; 2; 3; 4; 5; 6; 7; 8; 11; 12; 13; 28; 29; 33; 37; 46]) 0 /\
  (forall o k, In k (bits_of o) -> N.testbit (le_features (configure empty_configuration)) k = true) /\
  hci_version (sizes (configure empty_configuration)) = 12 /\
  random_address_quirk (configure empty_configuration) = false /\ hardware_error_quirk (configure empty_configuration) = false.
Proof.
  repeat split; try (vm_compute; reflexivity).
  intros o k I. destruct o; cbn in I; repeat (destruct I as [<- | I]; [vm_compute; reflexivity |]); destruct I.
Qed.
