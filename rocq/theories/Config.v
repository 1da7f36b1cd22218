(** Model of the configuration of a controller.
    Source: model/controller/controller_properties.cc (CP below),
    model/controller/controller_properties.h (CPH), proto/rootcanal/configuration.proto
    (PROTO) and packets/hci_packets.pdl (PDL). Not modelled: the two consistency checks
    at the end of the constructor (CP:2010-2020), which only write to the log, and the
    quirk that the constructor ignores (CP:1996, PROTO:46-48). *)
From Verif Require Import Prelude HciTables Hci.
Open Scope N_scope.

(** ** The messages of PROTO; [None] is a field that is not given *)

(** PROTO:20-29. A value outside of the enumeration reads as a missing field. *)
Inductive preset := DEFAULT | LAIRD_BL654 | CSR_RCK_PTS_DONGLE | INTEL_BE200.

(** PROTO:31-43 *)
Record features := {
  le_extended_advertising : option bool;
  le_periodic_advertising : option bool;
  ll_privacy : option bool;
  le_2m_phy : option bool;
  le_coded_phy : option bool;
  le_connected_isochronous_stream : option bool;
  le_connection_subrating : option bool;
  le_channel_sounding : option bool;
  le_power_control_request : option bool
}.

(** PROTO:45-53 *)
Record quirks := {
  send_acl_data_before_connection_complete : option bool;
  has_default_random_address : option bool;
  hardware_error_before_reset : option bool
}.

(** PROTO:55-63 *)
Record vendor := { csr_command : option bool; android : option bool }.

(** PROTO:65-81 *)
Record controller := {
  given_preset : option preset;
  given_features : option features;
  given_quirks : option quirks;
  given_strict : option bool;
  given_vendor : option vendor
}.

(** ** The tables *)

(** enum LLFeaturesBits, PDL:3182-3242, as positions *)
Definition LE_ENCRYPTION : N := 0. (* PDL:3184 *)
Definition CONNECTION_PARAMETERS_REQUEST_PROCEDURE : N := 1. (* PDL:3185 *)
Definition EXTENDED_REJECT_INDICATION : N := 2. (* PDL:3186 *)
Definition PERIPHERAL_INITIATED_FEATURES_EXCHANGE : N := 3. (* PDL:3187 *)
Definition LE_PING : N := 4. (* PDL:3188 *)
Definition LE_DATA_PACKET_LENGTH_EXTENSION : N := 5. (* PDL:3189 *)
Definition LL_PRIVACY : N := 6. (* PDL:3190 *)
Definition EXTENDED_SCANNER_FILTER_POLICIES : N := 7. (* PDL:3191 *)
Definition LE_2M_PHY : N := 8. (* PDL:3194 *)
Definition STABLE_MODULATION_INDEX_TRANSMITTER : N := 9. (* PDL:3195 *)
Definition STABLE_MODULATION_INDEX_RECEIVER : N := 10. (* PDL:3196 *)
Definition LE_CODED_PHY : N := 11. (* PDL:3197 *)
Definition LE_EXTENDED_ADVERTISING : N := 12. (* PDL:3198 *)
Definition LE_PERIODIC_ADVERTISING : N := 13. (* PDL:3199 *)
Definition CHANNEL_SELECTION_ALGORITHM_2 : N := 14. (* PDL:3200 *)
Definition LE_POWER_CLASS_1 : N := 15. (* PDL:3201 *)
Definition MINIMUM_NUMBER_OF_USED_CHANNELS_PROCEDURE : N := 16. (* PDL:3204 *)
Definition CONNECTION_CTE_REQUEST : N := 17. (* PDL:3205 *)
Definition CONNECTION_CTE_RESPONSE : N := 18. (* PDL:3206 *)
Definition CONNECTIONLESS_CTE_TRANSMITTER : N := 19. (* PDL:3207 *)
Definition CONNECTIONLESS_CTE_RECEIVER : N := 20. (* PDL:3208 *)
Definition ANTENNA_SWITCHING_DURING_CTE_TRANSMISSION : N := 21. (* PDL:3209 *)
Definition ANTENNA_SWITCHING_DURING_CTE_RECEPTION : N := 22. (* PDL:3210 *)
Definition RECEIVING_CONSTANT_TONE_EXTENSIONS : N := 23. (* PDL:3211 *)
Definition PERIODIC_ADVERTISING_SYNC_TRANSFER_SENDER : N := 24. (* PDL:3214 *)
Definition PERIODIC_ADVERTISING_SYNC_TRANSFER_RECIPIENT : N := 25. (* PDL:3215 *)
Definition SLEEP_CLOCK_ACCURACY_UPDATES : N := 26. (* PDL:3216 *)
Definition REMOTE_PUBLIC_KEY_VALIDATION : N := 27. (* PDL:3217 *)
Definition CONNECTED_ISOCHRONOUS_STREAM_CENTRAL : N := 28. (* PDL:3218 *)
Definition CONNECTED_ISOCHRONOUS_STREAM_PERIPHERAL : N := 29. (* PDL:3219 *)
Definition ISOCHRONOUS_BROADCASTER : N := 30. (* PDL:3220 *)
Definition SYNCHRONIZED_RECEIVER : N := 31. (* PDL:3221 *)
Definition CONNECTED_ISOCHRONOUS_STREAM_HOST_SUPPORT : N := 32. (* PDL:3224 *)
Definition LE_POWER_CONTROL_REQUEST : N := 33. (* PDL:3225 *)
Definition LE_POWER_CONTROL_REQUEST_BIS : N := 34. (* PDL:3226 *)
Definition LE_PATH_LOSS_MONITORING : N := 35. (* PDL:3227 *)
Definition PERIODIC_ADVERTISING_ADI_SUPPORT : N := 36. (* PDL:3228 *)
Definition CONNECTION_SUBRATING : N := 37. (* PDL:3229 *)
Definition CONNECTION_SUBRATING_HOST_SUPPORT : N := 38. (* PDL:3230 *)
Definition CHANNEL_CLASSIFICATION : N := 39. (* PDL:3231 *)
Definition ADVERTISING_CODING_SELECTION : N := 40. (* PDL:3234 *)
Definition ADVERTISING_CODING_SELECTION_HOST_SUPPORT : N := 41. (* PDL:3235 *)
Definition DECISION_BASED_ADVERTISING_FILTERING : N := 42. (* PDL:3236 *)
Definition PERIODIC_ADVERTISING_WITH_RESPONSES_ADVERTISER : N := 43. (* PDL:3237 *)
Definition PERIODIC_ADVERTISING_WITH_RESPONSES_SCANNER : N := 44. (* PDL:3238 *)
Definition UNSEGMENTED_FRAMED_MODE : N := 45. (* PDL:3239 *)
Definition CHANNEL_SOUNDING : N := 46. (* PDL:3240 *)
Definition CHANNEL_SOUNDING_HOST_SUPPORT : N := 47. (* PDL:3241 *)

(** LlFeatures, CP:103-131 *)
Definition ll_features : N := fold_left (fun value feature => N.lor value (2 ^ feature))
  [LE_ENCRYPTION; CONNECTION_PARAMETERS_REQUEST_PROCEDURE; EXTENDED_REJECT_INDICATION; PERIPHERAL_INITIATED_FEATURES_EXCHANGE; LE_PING; LE_DATA_PACKET_LENGTH_EXTENSION; LL_PRIVACY; EXTENDED_SCANNER_FILTER_POLICIES; LE_2M_PHY; LE_CODED_PHY; LE_EXTENDED_ADVERTISING; LE_PERIODIC_ADVERTISING; CONNECTED_ISOCHRONOUS_STREAM_CENTRAL; CONNECTED_ISOCHRONOUS_STREAM_PERIPHERAL; LE_POWER_CONTROL_REQUEST; CONNECTION_SUBRATING; CHANNEL_SOUNDING] 0.

(** CP:1714-1729 *)
Definition le_extended_advertising_commands : list N := [
  371 (* LE_CLEAR_ADVERTISING_SETS, PDL:677 *);
  377 (* LE_EXTENDED_CREATE_CONNECTION_V1, PDL:683 *);
  366 (* LE_READ_MAXIMUM_ADVERTISING_DATA_LENGTH, PDL:674 *);
  367 (* LE_READ_NUMBER_OF_SUPPORTED_ADVERTISING_SETS, PDL:675 *);
  357 (* LE_RECEIVER_TEST_V2, PDL:667 *);
  370 (* LE_REMOVE_ADVERTISING_SET, PDL:676 *);
  361 (* LE_SET_ADVERTISING_SET_RANDOM_ADDRESS, PDL:669 *);
  456 (* LE_SET_DATA_RELATED_ADDRESS_CHANGES, PDL:746 *);
  363 (* LE_SET_EXTENDED_ADVERTISING_DATA, PDL:671 *);
  365 (* LE_SET_EXTENDED_ADVERTISING_ENABLE, PDL:673 *);
  362 (* LE_SET_EXTENDED_ADVERTISING_PARAMETERS_V1, PDL:670 *);
  376 (* LE_SET_EXTENDED_SCAN_ENABLE, PDL:682 *);
  375 (* LE_SET_EXTENDED_SCAN_PARAMETERS, PDL:681 *);
  364 (* LE_SET_EXTENDED_SCAN_RESPONSE_DATA, PDL:672 *)
].

(** CP:1732-1745 *)
Definition le_periodic_advertising_commands : list N := [
  383 (* LE_ADD_DEVICE_TO_PERIODIC_ADVERTISER_LIST, PDL:687 *);
  385 (* LE_CLEAR_PERIODIC_ADVERTISER_LIST, PDL:689 *);
  381 (* LE_PERIODIC_ADVERTISING_CREATE_SYNC_CANCEL, PDL:685 *);
  380 (* LE_PERIODIC_ADVERTISING_CREATE_SYNC, PDL:684 *);
  382 (* LE_PERIODIC_ADVERTISING_TERMINATE_SYNC, PDL:686 *);
  386 (* LE_READ_PERIODIC_ADVERTISER_LIST_SIZE, PDL:690 *);
  357 (* LE_RECEIVER_TEST_V2, PDL:667 *);
  384 (* LE_REMOVE_DEVICE_FROM_PERIODIC_ADVERTISER_LIST, PDL:688 *);
  456 (* LE_SET_DATA_RELATED_ADDRESS_CHANGES, PDL:746 *);
  373 (* LE_SET_PERIODIC_ADVERTISING_DATA, PDL:679 *);
  374 (* LE_SET_PERIODIC_ADVERTISING_ENABLE, PDL:680 *);
  372 (* LE_SET_PERIODIC_ADVERTISING_PARAMETERS_V1, PDL:678 *)
].

(** CP:1748-1759 *)
Definition ll_privacy_commands : list N := [
  343 (* LE_ADD_DEVICE_TO_RESOLVING_LIST, PDL:655 *);
  345 (* LE_CLEAR_RESOLVING_LIST, PDL:657 *);
  350 (* LE_READ_LOCAL_RESOLVABLE_ADDRESS, PDL:660 *);
  347 (* LE_READ_PEER_RESOLVABLE_ADDRESS, PDL:659 *);
  346 (* LE_READ_RESOLVING_LIST_SIZE, PDL:658 *);
  357 (* LE_RECEIVER_TEST_V2, PDL:667 *);
  344 (* LE_REMOVE_DEVICE_FROM_RESOLVING_LIST, PDL:656 *);
  351 (* LE_SET_ADDRESS_RESOLUTION_ENABLE, PDL:661 *);
  392 (* LE_SET_PRIVACY_MODE, PDL:694 *);
  352 (* LE_SET_RESOLVABLE_PRIVATE_ADDRESS_TIMEOUT, PDL:662 *)
].

(** CP:1763-1769 *)
Definition connected_isochronous_stream_commands : list N := [
  417 (* LE_SET_CIG_PARAMETERS, PDL:715 *);
  420 (* LE_SET_CIG_PARAMETERS_TEST, PDL:716 *);
  421 (* LE_CREATE_CIS, PDL:717 *);
  422 (* LE_REMOVE_CIG, PDL:718 *);
  423 (* LE_ACCEPT_CIS_REQUEST, PDL:719 *);
  424 (* LE_REJECT_CIS_REQUEST, PDL:720 *);
  433 (* LE_SETUP_ISO_DATA_PATH, PDL:727 *);
  434 (* LE_REMOVE_ISO_DATA_PATH, PDL:728 *);
  432 (* LE_REQUEST_PEER_SCA, PDL:726 *)
].

(** CP:1773-1776 *)
Definition connection_subrating_commands : list N := [
  460 (* LE_SET_DEFAULT_SUBRATE, PDL:748 *);
  461 (* LE_SUBRATE_REQUEST, PDL:749 *)
].

(** CP:1779-1794 *)
Definition channel_sounding_commands : list N := [
  205 (* LE_CS_READ_LOCAL_SUPPORTED_CAPABILITIES, PDL:567 *);
  206 (* LE_CS_READ_REMOTE_SUPPORTED_CAPABILITIES, PDL:568 *);
  207 (* LE_CS_WRITE_CACHED_REMOTE_SUPPORTED_CAPABILITIES, PDL:569 *);
  241 (* LE_CS_SECURITY_ENABLE, PDL:577 *);
  247 (* LE_CS_SET_DEFAULT_SETTINGS, PDL:580 *);
  122 (* LE_CS_READ_REMOTE_FAE_TABLE, PDL:515 *);
  123 (* LE_CS_WRITE_CACHED_REMOTE_FAE_TABLE, PDL:516 *);
  166 (* LE_CS_CREATE_CONFIG, PDL:542 *);
  167 (* LE_CS_REMOVE_CONFIG, PDL:543 *);
  290 (* LE_CS_SET_CHANNEL_CLASSIFICATION, PDL:612 *);
  291 (* LE_CS_SET_PROCEDURE_PARAMETERS, PDL:613 *);
  292 (* LE_CS_PROCEDURE_ENABLE, PDL:614 *);
  233 (* LE_CS_TEST, PDL:574 *);
  234 (* LE_CS_TEST_END, PDL:575 *)
].

(** CP:1797-1801 *)
Definition le_power_control_request_commands : list N := [
  443 (* LE_ENHANCED_READ_TRANSMIT_POWER_LEVEL, PDL:735 *);
  444 (* LE_READ_REMOTE_TRANSMIT_POWER_LEVEL, PDL:736 *);
  447 (* LE_SET_TRANSMIT_POWER_REPORTING_ENABLE, PDL:739 *)
].

(** ** The properties *)

(** The sizes and numbers of CPH:122-180 that a preset may change, and the transports. *)
Record figures := {
  br_supported : bool;
  le_supported : bool;
  hci_version : N;
  hci_subversion : N;
  lmp_version : N;
  lmp_subversion : N;
  company_identifier : N;
  acl_data_packet_length : N;
  sco_data_packet_length : N;
  total_num_acl_data_packets : N;
  total_num_sco_data_packets : N;
  le_acl_data_packet_length : N;
  iso_data_packet_length : N;
  total_num_le_acl_data_packets : N;
  total_num_iso_data_packets : N;
  num_supported_iac : N;
  le_filter_accept_list_size : N;
  le_resolving_list_size : N;
  le_supported_states : N;
  le_max_advertising_data_length : N;
  le_num_supported_advertising_sets : N;
  le_periodic_advertiser_list_size : N
}.

(** CPH:83-200; the members that no configuration changes are left out. *)
Record properties := {
  random_address_quirk : bool;  (** quirks.has_default_random_address *)
  hardware_error_quirk : bool;  (** quirks.hardware_error_before_reset *)
  strict_mode : bool;           (** strict *)
  supported_commands : list N;
  vendor_capabilities : bool;   (** supports_le_get_vendor_capabilities_command *)
  vendor_csr : bool;            (** supports_csr_vendor_command *)
  vendor_apcf : bool;           (** supports_le_apcf_vendor_command *)
  lmp_features : list N;
  le_features : N;
  sizes : figures
}.

(** CP:31-101 and the member initialisers of CPH:122-180 *)
Definition default_lmp_features : list N := [0x871bffdbfe8ffeff; 0; 0x300].
Definition default_sizes : figures :=
  {|
    br_supported := true;
    le_supported := true;
    hci_version := 12;
    hci_subversion := 0;
    lmp_version := 12;
    lmp_subversion := 0;
    company_identifier := 0xe0;
    acl_data_packet_length := 1023;
    sco_data_packet_length := 255;
    total_num_acl_data_packets := 10;
    total_num_sco_data_packets := 10;
    le_acl_data_packet_length := 27;
    iso_data_packet_length := 1021;
    total_num_le_acl_data_packets := 20;
    total_num_iso_data_packets := 12;
    num_supported_iac := 4;
    le_filter_accept_list_size := 16;
    le_resolving_list_size := 16;
    le_supported_states := 0x3ffffffffff;
    le_max_advertising_data_length := 512;
    le_num_supported_advertising_sets := 16;
    le_periodic_advertiser_list_size := 8
  |}.

(** CP:1836-1864 *)
Definition laird_commands : list N := [
  0x20; 0x00; 0x80; 0x00; 0x00; 0xc0; 0x00; 0x0c; 0x00; 0x00; 0x04; 0x00; 0x00;
  0x00; 0x28; 0x22; 0x00; 0x00; 0x00; 0x00; 0x00; 0x00; 0x04; 0x00; 0x00; 0xf7;
  0xff; 0xff; 0x7f; 0x00; 0x00; 0x00; 0x30; 0xf0; 0xff; 0xff; 0xff; 0xff; 0xff;
  0x1f; 0xe0; 0xf7; 0xff; 0xff; 0xff; 0xc1; 0xe3; 0x03; 0x00; 0x00; 0x00; 0x00;
  0x00; 0x00; 0x00; 0x00; 0x00; 0x00; 0x00; 0x00; 0x00; 0x00; 0x00; 0x00].
Definition laird_lmp_features : list N := [0x6000000000; 0x0; 0x0].
Definition laird_le_features : N := 0x19beff017fff.
Definition laird_sizes : figures :=
  {|
    br_supported := false;
    le_supported := true;
    hci_version := 13;
    hci_subversion := 0x5ad2;
    lmp_version := 13;
    lmp_subversion := 0x5ad2;
    company_identifier := 0x7e8;
    acl_data_packet_length := 1023;
    sco_data_packet_length := 255;
    total_num_acl_data_packets := 10;
    total_num_sco_data_packets := 10;
    le_acl_data_packet_length := 512;
    iso_data_packet_length := 512;
    total_num_le_acl_data_packets := 4;
    total_num_iso_data_packets := 5;
    num_supported_iac := 4;
    le_filter_accept_list_size := 4;
    le_resolving_list_size := 4;
    le_supported_states := 0x3ffffffffff;
    le_max_advertising_data_length := 256;
    le_num_supported_advertising_sets := 4;
    le_periodic_advertiser_list_size := 4
  |}.

(** CP:1866-1894 *)
Definition csr_rck_commands : list N := [
  0xff; 0xff; 0xff; 0x03; 0xfe; 0xff; 0xff; 0xff; 0xff; 0xff; 0xff; 0xff; 0xf3;
  0x0f; 0xe8; 0xfe; 0x3f; 0xf7; 0x83; 0xff; 0x1c; 0x00; 0x04; 0x00; 0x61; 0xf7;
  0xff; 0xff; 0x7f; 0x00; 0xc0; 0xff; 0xff; 0x30; 0x00; 0x00; 0x00; 0x00; 0x00;
  0x00; 0x00; 0x00; 0x00; 0x00; 0x00; 0x00; 0x00; 0x00; 0x00; 0x00; 0x00; 0x00;
  0x00; 0x00; 0x00; 0x00; 0x00; 0x00; 0x00; 0x00; 0x00; 0x00; 0x00; 0x00].
Definition csr_rck_lmp_features : list N := [0x875b1fd87e8fffff; 0x0; 0x30f].
Definition csr_rck_le_features : N := 0x1f.
Definition csr_rck_sizes : figures :=
  {|
    br_supported := true;
    le_supported := true;
    hci_version := 8;
    hci_subversion := 0x30e8;
    lmp_version := 8;
    lmp_subversion := 0x30e8;
    company_identifier := 0xa;
    acl_data_packet_length := 310;
    sco_data_packet_length := 64;
    total_num_acl_data_packets := 10;
    total_num_sco_data_packets := 8;
    le_acl_data_packet_length := 0;
    iso_data_packet_length := 1021;
    total_num_le_acl_data_packets := 0;
    total_num_iso_data_packets := 12;
    num_supported_iac := 2;
    le_filter_accept_list_size := 25;
    le_resolving_list_size := 16;
    le_supported_states := 0x3ffffffffff;
    le_max_advertising_data_length := 512;
    le_num_supported_advertising_sets := 16;
    le_periodic_advertiser_list_size := 8
  |}.

(** CP:1896-1928 *)
Definition intel_commands : list N := [
  0xbf; 0xff; 0xfb; 0x03; 0xcc; 0xff; 0x0f; 0xff; 0xbf; 0xff; 0xfc; 0x1f; 0xf2;
  0x0f; 0xe8; 0xfe; 0x3f; 0xf7; 0x8f; 0xff; 0x1c; 0x00; 0x04; 0x00; 0x61; 0xf7;
  0xff; 0xff; 0x7f; 0x38; 0x00; 0x00; 0xfe; 0xf0; 0xff; 0xff; 0xff; 0xe3; 0x80;
  0x07; 0x00; 0xe8; 0x1f; 0xfc; 0xff; 0xff; 0x03; 0x00; 0x00; 0x00; 0x00; 0x00;
  0x00; 0x00; 0x00; 0x00; 0x00; 0x00; 0x00; 0x00; 0x00; 0x00; 0x00; 0x00].
Definition intel_lmp_features : list N := [0x877bffdbfe0ffebf; 0x0; 0x300].
Definition intel_le_features : N := 0x80059ff.
Definition intel_sizes : figures :=
  {|
    br_supported := true;
    le_supported := true;
    hci_version := 13;
    hci_subversion := 0x4363;
    lmp_version := 13;
    lmp_subversion := 0x4363;
    company_identifier := 0x2;
    acl_data_packet_length := 1021;
    sco_data_packet_length := 96;
    total_num_acl_data_packets := 4;
    total_num_sco_data_packets := 6;
    le_acl_data_packet_length := 251;
    iso_data_packet_length := 1021;
    total_num_le_acl_data_packets := 3;
    total_num_iso_data_packets := 12;
    num_supported_iac := 2;
    le_filter_accept_list_size := 25;
    le_resolving_list_size := 25;
    le_supported_states := 0x3ffffffffff;
    le_max_advertising_data_length := 160;
    le_num_supported_advertising_sets := 12;
    le_periodic_advertiser_list_size := 12
  |}.

(** The members as they are before the body of the constructor: CP:1823-1827, CPH:39-48,
    CPH:108-110. *)
Definition initial (c : controller) : properties := {|
  random_address_quirk := false;
  hardware_error_quirk := false;
  strict_mode := match given_strict c with None => true | Some b => b end;
  supported_commands := mask_of advertised;
  vendor_capabilities := true;
  vendor_csr := true;
  vendor_apcf := true;
  lmp_features := default_lmp_features;
  le_features := ll_features;
  sizes := default_sizes
|}.

Definition with_preset (p : properties) (csr : bool) (commands lmp : list N) (le : N) (f : figures) : properties := {|
  random_address_quirk := random_address_quirk p;
  hardware_error_quirk := hardware_error_quirk p;
  strict_mode := strict_mode p;
  supported_commands := commands;
  vendor_capabilities := vendor_capabilities p;
  vendor_csr := csr;
  vendor_apcf := vendor_apcf p;
  lmp_features := lmp;
  le_features := le;
  sizes := f
|}.

(** CP:1830-1934 *)
Definition apply_preset (o : option preset) (p : properties) : properties :=
  match o with
  | None | Some DEFAULT => p
  | Some LAIRD_BL654 =>
      with_preset p (vendor_csr p) laird_commands laird_lmp_features laird_le_features laird_sizes
  | Some CSR_RCK_PTS_DONGLE =>
      with_preset p true csr_rck_commands csr_rck_lmp_features csr_rck_le_features csr_rck_sizes
  | Some INTEL_BE200 =>
      with_preset p true intel_commands intel_lmp_features intel_le_features intel_sizes
  end.

(** SetLLFeatureBit, CP:1803-1809 *)
Definition set_feature (le bit : N) (set : bool) : N :=
  if set then N.lor le (2 ^ bit) else N.ldiff le (2 ^ bit).

Fixpoint update (l : list N) (i : nat) (f : N -> N) : list N :=
  match l, i with
  | [], _ => []
  | x :: l', O => f x :: l'
  | x :: l', S i' => x :: update l' i' f
  end.

(** The body of the loop of SetSupportedCommandBits, CP:1814-1819: the result is cut to
    an octet. The model leaves the array alone when the octet is outside of it, which no
    table does. *)
Definition set_command (mask : list N) (set : bool) (index : N) : list N :=
  update mask (N.to_nat (index / 10))
    (fun x => (if set then N.lor x (2 ^ (index mod 10)) else N.ldiff x (2 ^ (index mod 10))) mod 256).

(** SetSupportedCommandBits, CP:1811-1821 *)
Definition set_commands (mask l : list N) (set : bool) : list N :=
  fold_left (fun m i => set_command m set i) l mask.

Definition with_bits (p : properties) (commands : list N) (le : N) : properties := {|
  random_address_quirk := random_address_quirk p;
  hardware_error_quirk := hardware_error_quirk p;
  strict_mode := strict_mode p;
  supported_commands := commands;
  vendor_capabilities := vendor_capabilities p;
  vendor_csr := vendor_csr p;
  vendor_apcf := vendor_apcf p;
  lmp_features := lmp_features p;
  le_features := le;
  sizes := sizes p
|}.

(** One of the conditional blocks of CP:1939-1985: the bits, then the commands. *)
Definition select (o : option bool) (bits commands : list N) (p : properties) : properties :=
  match o with
  | None => p
  | Some b =>
      with_bits p (set_commands (supported_commands p) commands b)
        (fold_left (fun le bit => set_feature le bit b) bits (le_features p))
  end.

(** CP:1935-1986 *)
Definition apply_features (o : option features) (p : properties) : properties :=
  match o with
  | None => p
  | Some f =>
      let p := select (le_extended_advertising f) [LE_EXTENDED_ADVERTISING] le_extended_advertising_commands p in
      let p := select (le_periodic_advertising f) [LE_PERIODIC_ADVERTISING] le_periodic_advertising_commands p in
      let p := select (ll_privacy f) [LL_PRIVACY] ll_privacy_commands p in
      let p := select (le_2m_phy f) [LE_2M_PHY] [] p in
      let p := select (le_coded_phy f) [LE_CODED_PHY] [] p in
      let p := select (le_connected_isochronous_stream f)
        [CONNECTED_ISOCHRONOUS_STREAM_CENTRAL; CONNECTED_ISOCHRONOUS_STREAM_PERIPHERAL]
        connected_isochronous_stream_commands p in
      let p := select (le_connection_subrating f) [CONNECTION_SUBRATING] connection_subrating_commands p in
      let p := select (le_channel_sounding f) [CHANNEL_SOUNDING] channel_sounding_commands p in
      select (le_power_control_request f) [LE_POWER_CONTROL_REQUEST] le_power_control_request_commands p
  end.

Definition given {A} (o : option A) (default : A) : A :=
  match o with Some a => a | None => default end.

(** CP:1988-1997 *)
Definition apply_quirks (o : option quirks) (p : properties) : properties :=
  match o with
  | None => p
  | Some q => {|
      random_address_quirk := given (has_default_random_address q) (random_address_quirk p);
      hardware_error_quirk := given (hardware_error_before_reset q) (hardware_error_quirk p);
      strict_mode := strict_mode p;
      supported_commands := supported_commands p;
      vendor_capabilities := vendor_capabilities p;
      vendor_csr := vendor_csr p;
      vendor_apcf := vendor_apcf p;
      lmp_features := lmp_features p;
      le_features := le_features p;
      sizes := sizes p
    |}
  end.

(** CP:1999-2008 *)
Definition apply_vendor (o : option vendor) (p : properties) : properties :=
  match o with
  | None => p
  | Some v => {|
      random_address_quirk := random_address_quirk p;
      hardware_error_quirk := hardware_error_quirk p;
      strict_mode := strict_mode p;
      supported_commands := supported_commands p;
      vendor_capabilities := given (android v) (vendor_capabilities p);
      vendor_csr := given (csr_command v) (vendor_csr p);
      vendor_apcf := given (android v) (vendor_apcf p);
      lmp_features := lmp_features p;
      le_features := le_features p;
      sizes := sizes p
    |}
  end.

(** ControllerProperties::ControllerProperties, CP:1823-2020 *)
Definition configure (c : controller) : properties :=
  apply_vendor (given_vendor c)
    (apply_quirks (given_quirks c)
      (apply_features (given_features c)
        (apply_preset (given_preset c) (initial c)))).

(** SupportsLLFeature and LeSupportedPhys, CPH:188-211 *)
Definition supports_feature (p : properties) (bit : N) : bool := N.testbit (le_features p) bit.
Definition supported_phys (p : properties) : N :=
  N.lor (N.lor 1 (if supports_feature p LE_2M_PHY then 2 else 0)) (if supports_feature p LE_CODED_PHY then 4 else 0).

(** The controller of Hci.v with these properties (dual_mode_controller.cc:106-107, dual_mode_controller.h:586-590); the
    local name and the handler of invalid packets are given by the device. *)
Definition hci (c : controller) (local_name : list N) (handler : bool) : config :=
  let p := configure c in
  {| strict := strict_mode p;
     commands := supported_commands p;
     error_before_reset := hardware_error_quirk p;
     has_csr := vendor_csr p;
     has_capabilities := vendor_capabilities p;
     has_apcf := vendor_apcf p;
     codes := num_supported_iac (sizes p);
     name := local_name;
     tolerant := handler |}.

(** ** The random address *)

Definition empty_address : list N := [0; 0; 0; 0; 0; 0].
(** le_controller.cc:3979, first octet of the constructor first *)
Definition default_random_address : list N := [0xba; 0xdb; 0xad; 0xba; 0xdb; 0xad].

(** The steps that matter to the random address: HCI Reset (le_controller.cc:6577-6594),
    LE Set Random Address while the host may use it or not (le_controller.cc:353-375), and
    a new configuration (DualModeController::SetProperties, dual_mode_controller.cc:68-71). *)
Inductive address_step :=
| Reset
| SetRandom (allowed : bool) (a : list N)
| Reconfigure (c : controller).

(** LeController::LeController, le_controller.cc:3974-3980 *)
Definition created_address (p : properties) : list N :=
  if random_address_quirk p then default_random_address else empty_address.

Definition address_after (a : list N) (s : address_step) : list N :=
  match s with
  | Reset => empty_address
  | SetRandom true b => if list_eqb b empty_address then a else b
  | SetRandom false _ => a
  | Reconfigure _ => a
  end.
