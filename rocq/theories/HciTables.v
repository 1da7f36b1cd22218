(** The command tables of the HCI front end, transcribed row by row from
    model/controller/dual_mode_controller.cc (DM below),
    model/controller/controller_properties.cc (CP below) and
    packets/hci_packets.pdl (PDL below). Each row names the source line. *)
From Verif Require Import Prelude.
Open Scope N_scope.

(** How the parameters of a command are laid out in PDL. *)
Inductive item :=
| Fix (n : N)  (** [n] bytes *)
| Cnt (n : N)  (** a count byte, then that many elements of [n] bytes *)
| Siz          (** a size byte, then that many bytes *)
| Wide         (** a two byte size, then that many bytes *)
| Pad (n : N)  (** a size byte, then an array padded to [n] bytes *)
| All (n : N)  (** what is left, in elements of [n] bytes *)
| Any.         (** what is left *)

(** The settings that one command writes and another reads. *)
Inductive setting :=
| PageTimeout | AcceptTimeout | ClassOfDevice | VoiceSetting | AuthenticationEnable | ScanEnable
| LocalName | InquiryCodes | LinkPolicy | FlowControl | DataLength.

(** What a handler does once its parameters are parsed. *)
Inductive kind :=
| Complete        (** calls the BR/EDR or LE controller, sends a Command Complete *)
| Status          (** calls the BR/EDR or LE controller, sends a Command Status *)
| Constant (l : list N) (** Command Complete with success and these bytes *)
| Refused         (** always answers Unknown HCI Command *)
| ToManager       (** passed to the link manager *)
| ToLayer         (** passed to the link layer *)
| Gets (s : setting) | Sets (s : setting)
| Disconnects | Refreshes | Flushes | AsksClock | MakesKey | Filters | SetsLoop | GetsLoop | Resets
| GetsFeatures | GetsCommands | Injects | Apcf | Csr | IntelRead | IntelWrite | Capabilities.

(** GetOpCodeToIndex, DM:3575-4011: operation code, and the position of its bit in the
    Supported Commands mask as ten times the octet plus the bit (enums OpCode and
    OpCodeIndex of PDL). *)
Definition known : list (N * N) := [
  (0x0401, 0) (* INQUIRY, DM:3575, PDL:433 *);
  (0x0402, 1) (* INQUIRY_CANCEL, DM:3576, PDL:434 *);
  (0x0403, 2) (* PERIODIC_INQUIRY_MODE, DM:3577, PDL:435 *);
  (0x0404, 3) (* EXIT_PERIODIC_INQUIRY_MODE, DM:3578, PDL:436 *);
  (0x0405, 4) (* CREATE_CONNECTION, DM:3579, PDL:437 *);
  (0x0406, 5) (* DISCONNECT, DM:3580, PDL:438 *);
  (0x0407, 6) (* ADD_SCO_CONNECTION, DM:3581, PDL:439 *);
  (0x0408, 7) (* CREATE_CONNECTION_CANCEL, DM:3582, PDL:440 *);
  (0x0409, 10) (* ACCEPT_CONNECTION_REQUEST, DM:3583, PDL:441 *);
  (0x040a, 11) (* REJECT_CONNECTION_REQUEST, DM:3584, PDL:442 *);
  (0x040b, 12) (* LINK_KEY_REQUEST_REPLY, DM:3585, PDL:443 *);
  (0x040c, 13) (* LINK_KEY_REQUEST_NEGATIVE_REPLY, DM:3586, PDL:444 *);
  (0x040d, 14) (* PIN_CODE_REQUEST_REPLY, DM:3587, PDL:445 *);
  (0x040e, 15) (* PIN_CODE_REQUEST_NEGATIVE_REPLY, DM:3588, PDL:446 *);
  (0x040f, 16) (* CHANGE_CONNECTION_PACKET_TYPE, DM:3589, PDL:447 *);
  (0x0411, 17) (* AUTHENTICATION_REQUESTED, DM:3590, PDL:448 *);
  (0x0413, 20) (* SET_CONNECTION_ENCRYPTION, DM:3591, PDL:449 *);
  (0x0415, 21) (* CHANGE_CONNECTION_LINK_KEY, DM:3592, PDL:450 *);
  (0x0417, 22) (* CENTRAL_LINK_KEY, DM:3593, PDL:451 *);
  (0x0419, 23) (* REMOTE_NAME_REQUEST, DM:3594, PDL:452 *);
  (0x041a, 24) (* REMOTE_NAME_REQUEST_CANCEL, DM:3595, PDL:453 *);
  (0x041b, 25) (* READ_REMOTE_SUPPORTED_FEATURES, DM:3596, PDL:454 *);
  (0x041c, 26) (* READ_REMOTE_EXTENDED_FEATURES, DM:3597, PDL:455 *);
  (0x041d, 27) (* READ_REMOTE_VERSION_INFORMATION, DM:3598, PDL:456 *);
  (0x041f, 30) (* READ_CLOCK_OFFSET, DM:3599, PDL:457 *);
  (0x0420, 31) (* READ_LMP_HANDLE, DM:3600, PDL:458 *);
  (0x0428, 163) (* SETUP_SYNCHRONOUS_CONNECTION, DM:3601, PDL:539 *);
  (0x0429, 164) (* ACCEPT_SYNCHRONOUS_CONNECTION, DM:3602, PDL:540 *);
  (0x042a, 165) (* REJECT_SYNCHRONOUS_CONNECTION, DM:3603, PDL:541 *);
  (0x042b, 187) (* IO_CAPABILITY_REQUEST_REPLY, DM:3604, PDL:555 *);
  (0x042c, 190) (* USER_CONFIRMATION_REQUEST_REPLY, DM:3605, PDL:556 *);
  (0x042d, 191) (* USER_CONFIRMATION_REQUEST_NEGATIVE_REPLY, DM:3606, PDL:557 *);
  (0x042e, 192) (* USER_PASSKEY_REQUEST_REPLY, DM:3608, PDL:558 *);
  (0x042f, 193) (* USER_PASSKEY_REQUEST_NEGATIVE_REPLY, DM:3609, PDL:559 *);
  (0x0430, 194) (* REMOTE_OOB_DATA_REQUEST_REPLY, DM:3611, PDL:560 *);
  (0x0433, 197) (* REMOTE_OOB_DATA_REQUEST_NEGATIVE_REPLY, DM:3612, PDL:563 *);
  (0x0434, 203) (* IO_CAPABILITY_REQUEST_NEGATIVE_REPLY, DM:3614, PDL:565 *);
  (0x043d, 293) (* ENHANCED_SETUP_SYNCHRONOUS_CONNECTION, DM:3616, PDL:615 *);
  (0x043e, 294) (* ENHANCED_ACCEPT_SYNCHRONOUS_CONNECTION, DM:3618, PDL:616 *);
  (0x043f, 306) (* TRUNCATED_PAGE, DM:3620, PDL:626 *);
  (0x0440, 307) (* TRUNCATED_PAGE_CANCEL, DM:3621, PDL:627 *);
  (0x0441, 310) (* SET_CONNECTIONLESS_PERIPHERAL_BROADCAST, DM:3622, PDL:628 *);
  (0x0442, 311) (* SET_CONNECTIONLESS_PERIPHERAL_BROADCAST_RECEIVE, DM:3624, PDL:629 *);
  (0x0443, 312) (* START_SYNCHRONIZATION_TRAIN, DM:3626, PDL:630 *);
  (0x0444, 313) (* RECEIVE_SYNCHRONIZATION_TRAIN, DM:3627, PDL:631 *);
  (0x0445, 321) (* REMOTE_OOB_EXTENDED_DATA_REQUEST_REPLY, DM:3628, PDL:637 *);
  (0x0801, 41) (* HOLD_MODE, DM:3632, PDL:459 *);
  (0x0803, 42) (* SNIFF_MODE, DM:3633, PDL:460 *);
  (0x0804, 43) (* EXIT_SNIFF_MODE, DM:3634, PDL:461 *);
  (0x0807, 46) (* QOS_SETUP, DM:3635, PDL:462 *);
  (0x0809, 47) (* ROLE_DISCOVERY, DM:3636, PDL:463 *);
  (0x080b, 50) (* SWITCH_ROLE, DM:3637, PDL:464 *);
  (0x080c, 51) (* READ_LINK_POLICY_SETTINGS, DM:3638, PDL:465 *);
  (0x080d, 52) (* WRITE_LINK_POLICY_SETTINGS, DM:3639, PDL:466 *);
  (0x080e, 53) (* READ_DEFAULT_LINK_POLICY_SETTINGS, DM:3640, PDL:467 *);
  (0x080f, 54) (* WRITE_DEFAULT_LINK_POLICY_SETTINGS, DM:3642, PDL:468 *);
  (0x0810, 55) (* FLOW_SPECIFICATION, DM:3644, PDL:469 *);
  (0x0811, 174) (* SNIFF_SUBRATING, DM:3645, PDL:547 *);
  (0x0c01, 56) (* SET_EVENT_MASK, DM:3648, PDL:470 *);
  (0x0c03, 57) (* RESET, DM:3649, PDL:471 *);
  (0x0c05, 60) (* SET_EVENT_FILTER, DM:3650, PDL:472 *);
  (0x0c08, 61) (* FLUSH, DM:3651, PDL:473 *);
  (0x0c09, 62) (* READ_PIN_TYPE, DM:3652, PDL:474 *);
  (0x0c0a, 63) (* WRITE_PIN_TYPE, DM:3653, PDL:475 *);
  (0x0c0d, 65) (* READ_STORED_LINK_KEY, DM:3654, PDL:476 *);
  (0x0c11, 66) (* WRITE_STORED_LINK_KEY, DM:3655, PDL:477 *);
  (0x0c12, 67) (* DELETE_STORED_LINK_KEY, DM:3656, PDL:478 *);
  (0x0c13, 70) (* WRITE_LOCAL_NAME, DM:3657, PDL:479 *);
  (0x0c14, 71) (* READ_LOCAL_NAME, DM:3658, PDL:480 *);
  (0x0c15, 72) (* READ_CONNECTION_ACCEPT_TIMEOUT, DM:3659, PDL:481 *);
  (0x0c16, 73) (* WRITE_CONNECTION_ACCEPT_TIMEOUT, DM:3660, PDL:482 *);
  (0x0c17, 74) (* READ_PAGE_TIMEOUT, DM:3661, PDL:483 *);
  (0x0c18, 75) (* WRITE_PAGE_TIMEOUT, DM:3662, PDL:484 *);
  (0x0c19, 76) (* READ_SCAN_ENABLE, DM:3663, PDL:485 *);
  (0x0c1a, 77) (* WRITE_SCAN_ENABLE, DM:3664, PDL:486 *);
  (0x0c1b, 80) (* READ_PAGE_SCAN_ACTIVITY, DM:3665, PDL:487 *);
  (0x0c1c, 81) (* WRITE_PAGE_SCAN_ACTIVITY, DM:3666, PDL:488 *);
  (0x0c1d, 82) (* READ_INQUIRY_SCAN_ACTIVITY, DM:3667, PDL:489 *);
  (0x0c1e, 83) (* WRITE_INQUIRY_SCAN_ACTIVITY, DM:3668, PDL:490 *);
  (0x0c1f, 84) (* READ_AUTHENTICATION_ENABLE, DM:3669, PDL:491 *);
  (0x0c20, 85) (* WRITE_AUTHENTICATION_ENABLE, DM:3670, PDL:492 *);
  (0x0c23, 90) (* READ_CLASS_OF_DEVICE, DM:3671, PDL:493 *);
  (0x0c24, 91) (* WRITE_CLASS_OF_DEVICE, DM:3672, PDL:494 *);
  (0x0c25, 92) (* READ_VOICE_SETTING, DM:3673, PDL:495 *);
  (0x0c26, 93) (* WRITE_VOICE_SETTING, DM:3674, PDL:496 *);
  (0x0c27, 94) (* READ_AUTOMATIC_FLUSH_TIMEOUT, DM:3675, PDL:497 *);
  (0x0c28, 95) (* WRITE_AUTOMATIC_FLUSH_TIMEOUT, DM:3676, PDL:498 *);
  (0x0c29, 96) (* READ_NUM_BROADCAST_RETRANSMITS, DM:3677, PDL:499 *);
  (0x0c2a, 97) (* WRITE_NUM_BROADCAST_RETRANSMITS, DM:3678, PDL:500 *);
  (0x0c2b, 100) (* READ_HOLD_MODE_ACTIVITY, DM:3679, PDL:501 *);
  (0x0c2c, 101) (* WRITE_HOLD_MODE_ACTIVITY, DM:3680, PDL:502 *);
  (0x0c2d, 102) (* READ_TRANSMIT_POWER_LEVEL, DM:3681, PDL:503 *);
  (0x0c2e, 103) (* READ_SYNCHRONOUS_FLOW_CONTROL_ENABLE, DM:3682, PDL:504 *);
  (0x0c2f, 104) (* WRITE_SYNCHRONOUS_FLOW_CONTROL_ENABLE, DM:3684, PDL:505 *);
  (0x0c31, 105) (* SET_CONTROLLER_TO_HOST_FLOW_CONTROL, DM:3686, PDL:506 *);
  (0x0c33, 106) (* HOST_BUFFER_SIZE, DM:3688, PDL:507 *);
  (0x0c35, 107) (* HOST_NUMBER_OF_COMPLETED_PACKETS, DM:3689, PDL:508 *);
  (0x0c36, 110) (* READ_LINK_SUPERVISION_TIMEOUT, DM:3690, PDL:509 *);
  (0x0c37, 111) (* WRITE_LINK_SUPERVISION_TIMEOUT, DM:3691, PDL:510 *);
  (0x0c38, 112) (* READ_NUMBER_OF_SUPPORTED_IAC, DM:3692, PDL:511 *);
  (0x0c39, 113) (* READ_CURRENT_IAC_LAP, DM:3693, PDL:512 *);
  (0x0c3a, 114) (* WRITE_CURRENT_IAC_LAP, DM:3694, PDL:513 *);
  (0x0c3f, 121) (* SET_AFH_HOST_CHANNEL_CLASSIFICATION, DM:3695, PDL:514 *);
  (0x0c42, 124) (* READ_INQUIRY_SCAN_TYPE, DM:3697, PDL:517 *);
  (0x0c43, 125) (* WRITE_INQUIRY_SCAN_TYPE, DM:3698, PDL:518 *);
  (0x0c44, 126) (* READ_INQUIRY_MODE, DM:3699, PDL:519 *);
  (0x0c45, 127) (* WRITE_INQUIRY_MODE, DM:3700, PDL:520 *);
  (0x0c46, 130) (* READ_PAGE_SCAN_TYPE, DM:3701, PDL:521 *);
  (0x0c47, 131) (* WRITE_PAGE_SCAN_TYPE, DM:3702, PDL:522 *);
  (0x0c48, 132) (* READ_AFH_CHANNEL_ASSESSMENT_MODE, DM:3703, PDL:523 *);
  (0x0c49, 133) (* WRITE_AFH_CHANNEL_ASSESSMENT_MODE, DM:3704, PDL:524 *);
  (0x0c51, 170) (* READ_EXTENDED_INQUIRY_RESPONSE, DM:3706, PDL:544 *);
  (0x0c52, 171) (* WRITE_EXTENDED_INQUIRY_RESPONSE, DM:3707, PDL:545 *);
  (0x0c53, 172) (* REFRESH_ENCRYPTION_KEY, DM:3708, PDL:546 *);
  (0x0c55, 175) (* READ_SIMPLE_PAIRING_MODE, DM:3709, PDL:548 *);
  (0x0c56, 176) (* WRITE_SIMPLE_PAIRING_MODE, DM:3710, PDL:549 *);
  (0x0c57, 177) (* READ_LOCAL_OOB_DATA, DM:3711, PDL:550 *);
  (0x0c58, 180) (* READ_INQUIRY_RESPONSE_TRANSMIT_POWER_LEVEL, DM:3712, PDL:551 *);
  (0x0c59, 181) (* WRITE_INQUIRY_TRANSMIT_POWER_LEVEL, DM:3714, PDL:552 *);
  (0x0c5a, 182) (* READ_DEFAULT_ERRONEOUS_DATA_REPORTING, DM:3716, PDL:553 *);
  (0x0c5b, 183) (* WRITE_DEFAULT_ERRONEOUS_DATA_REPORTING, DM:3718, PDL:554 *);
  (0x0c5f, 196) (* ENHANCED_FLUSH, DM:3720, PDL:562 *);
  (0x0c60, 202) (* SEND_KEYPRESS_NOTIFICATION, DM:3721, PDL:564 *);
  (0x0c63, 222) (* SET_EVENT_MASK_PAGE_2, DM:3722, PDL:570 *);
  (0x0c66, 230) (* READ_FLOW_CONTROL_MODE, DM:3723, PDL:571 *);
  (0x0c67, 231) (* WRITE_FLOW_CONTROL_MODE, DM:3724, PDL:572 *);
  (0x0c68, 240) (* READ_ENHANCED_TRANSMIT_POWER_LEVEL, DM:3725, PDL:576 *);
  (0x0c6c, 245) (* READ_LE_HOST_SUPPORT, DM:3727, PDL:578 *);
  (0x0c6d, 246) (* WRITE_LE_HOST_SUPPORT, DM:3728, PDL:579 *);
  (0x0c6e, 296) (* SET_MWS_CHANNEL_PARAMETERS, DM:3729, PDL:618 *);
  (0x0c6f, 297) (* SET_EXTERNAL_FRAME_CONFIGURATION, DM:3730, PDL:619 *);
  (0x0c70, 300) (* SET_MWS_SIGNALING, DM:3731, PDL:620 *);
  (0x0c71, 301) (* SET_MWS_TRANSPORT_LAYER, DM:3732, PDL:621 *);
  (0x0c72, 302) (* SET_MWS_SCAN_FREQUENCY_TABLE, DM:3733, PDL:622 *);
  (0x0c73, 304) (* SET_MWS_PATTERN_CONFIGURATION, DM:3734, PDL:624 *);
  (0x0c74, 314) (* SET_RESERVED_LT_ADDR, DM:3735, PDL:632 *);
  (0x0c75, 315) (* DELETE_RESERVED_LT_ADDR, DM:3736, PDL:633 *);
  (0x0c76, 316) (* SET_CONNECTIONLESS_PERIPHERAL_BROADCAST_DATA, DM:3737, PDL:634 *);
  (0x0c77, 317) (* READ_SYNCHRONIZATION_TRAIN_PARAMETERS, DM:3739, PDL:635 *);
  (0x0c78, 320) (* WRITE_SYNCHRONIZATION_TRAIN_PARAMETERS, DM:3741, PDL:636 *);
  (0x0c79, 322) (* READ_SECURE_CONNECTIONS_HOST_SUPPORT, DM:3743, PDL:638 *);
  (0x0c7a, 323) (* WRITE_SECURE_CONNECTIONS_HOST_SUPPORT, DM:3745, PDL:639 *);
  (0x0c7b, 324) (* READ_AUTHENTICATED_PAYLOAD_TIMEOUT, DM:3747, PDL:640 *);
  (0x0c7c, 325) (* WRITE_AUTHENTICATED_PAYLOAD_TIMEOUT, DM:3749, PDL:641 *);
  (0x0c7d, 326) (* READ_LOCAL_OOB_EXTENDED_DATA, DM:3751, PDL:642 *);
  (0x0c7e, 330) (* READ_EXTENDED_PAGE_TIMEOUT, DM:3752, PDL:644 *);
  (0x0c7f, 331) (* WRITE_EXTENDED_PAGE_TIMEOUT, DM:3753, PDL:645 *);
  (0x0c80, 332) (* READ_EXTENDED_INQUIRY_LENGTH, DM:3754, PDL:646 *);
  (0x0c81, 333) (* WRITE_EXTENDED_INQUIRY_LENGTH, DM:3755, PDL:647 *);
  (0x0c82, 451) (* SET_ECOSYSTEM_BASE_INTERVAL, DM:3756, PDL:741 *);
  (0x0c83, 455) (* CONFIGURE_DATA_PATH, DM:3757, PDL:745 *);
  (0x0c84, 457) (* SET_MIN_ENCRYPTION_KEY_SIZE, DM:3758, PDL:747 *);
  (0x1001, 143) (* READ_LOCAL_VERSION_INFORMATION, DM:3761, PDL:525 *);
  (0x1003, 145) (* READ_LOCAL_SUPPORTED_FEATURES, DM:3762, PDL:526 *);
  (0x1004, 146) (* READ_LOCAL_EXTENDED_FEATURES, DM:3763, PDL:527 *);
  (0x1005, 147) (* READ_BUFFER_SIZE, DM:3764, PDL:528 *);
  (0x1009, 151) (* READ_BD_ADDR, DM:3765, PDL:529 *);
  (0x100a, 232) (* READ_DATA_BLOCK_SIZE, DM:3766, PDL:573 *);
  (0x100b, 295) (* READ_LOCAL_SUPPORTED_CODECS_V1, DM:3767, PDL:617 *);
  (0x100c, 413) (* READ_LOCAL_SIMPLE_PAIRING_OPTIONS, DM:3768, PDL:711 *);
  (0x100d, 452) (* READ_LOCAL_SUPPORTED_CODECS_V2, DM:3770, PDL:742 *);
  (0x100e, 453) (* READ_LOCAL_SUPPORTED_CODEC_CAPABILITIES, DM:3771, PDL:743 *);
  (0x100f, 454) (* READ_LOCAL_SUPPORTED_CONTROLLER_DELAY, DM:3773, PDL:744 *);
  (0x1401, 152) (* READ_FAILED_CONTACT_COUNTER, DM:3777, PDL:530 *);
  (0x1402, 153) (* RESET_FAILED_CONTACT_COUNTER, DM:3778, PDL:531 *);
  (0x1403, 154) (* READ_LINK_QUALITY, DM:3779, PDL:532 *);
  (0x1405, 155) (* READ_RSSI, DM:3780, PDL:533 *);
  (0x1406, 156) (* READ_AFH_CHANNEL_MAP, DM:3781, PDL:534 *);
  (0x1407, 157) (* READ_CLOCK, DM:3782, PDL:535 *);
  (0x1408, 204) (* READ_ENCRYPTION_KEY_SIZE, DM:3783, PDL:566 *);
  (0x140c, 303) (* GET_MWS_TRANSPORT_LAYER_CONFIGURATION, DM:3784, PDL:623 *);
  (0x140d, 305) (* SET_TRIGGERED_CLOCK_CAPTURE, DM:3786, PDL:625 *);
  (0x1801, 160) (* READ_LOOPBACK_MODE, DM:3789, PDL:536 *);
  (0x1802, 161) (* WRITE_LOOPBACK_MODE, DM:3790, PDL:537 *);
  (0x1803, 162) (* ENABLE_IMPLEMENTATION_UNDER_TEST_MODE, DM:3791, PDL:538 *);
  (0x1804, 195) (* WRITE_SIMPLE_PAIRING_DEBUG_MODE, DM:3793, PDL:561 *);
  (0x180a, 327) (* WRITE_SECURE_CONNECTIONS_TEST_MODE, DM:3794, PDL:643 *);
  (0x2001, 250) (* LE_SET_EVENT_MASK, DM:3798, PDL:581 *);
  (0x2002, 251) (* LE_READ_BUFFER_SIZE_V1, DM:3799, PDL:582 *);
  (0x2003, 252) (* LE_READ_LOCAL_SUPPORTED_FEATURES_PAGE_0, DM:3800, PDL:583 *);
  (0x2005, 254) (* LE_SET_RANDOM_ADDRESS, DM:3802, PDL:584 *);
  (0x2006, 255) (* LE_SET_ADVERTISING_PARAMETERS, DM:3803, PDL:585 *);
  (0x2007, 256) (* LE_READ_ADVERTISING_PHYSICAL_CHANNEL_TX_POWER, DM:3804, PDL:586 *);
  (0x2008, 257) (* LE_SET_ADVERTISING_DATA, DM:3806, PDL:587 *);
  (0x2009, 260) (* LE_SET_SCAN_RESPONSE_DATA, DM:3807, PDL:588 *);
  (0x200a, 261) (* LE_SET_ADVERTISING_ENABLE, DM:3808, PDL:589 *);
  (0x200b, 262) (* LE_SET_SCAN_PARAMETERS, DM:3809, PDL:590 *);
  (0x200c, 263) (* LE_SET_SCAN_ENABLE, DM:3810, PDL:591 *);
  (0x200d, 264) (* LE_CREATE_CONNECTION, DM:3811, PDL:592 *);
  (0x200e, 265) (* LE_CREATE_CONNECTION_CANCEL, DM:3812, PDL:593 *);
  (0x200f, 266) (* LE_READ_FILTER_ACCEPT_LIST_SIZE, DM:3813, PDL:594 *);
  (0x2010, 267) (* LE_CLEAR_FILTER_ACCEPT_LIST, DM:3814, PDL:595 *);
  (0x2011, 270) (* LE_ADD_DEVICE_TO_FILTER_ACCEPT_LIST, DM:3815, PDL:596 *);
  (0x2012, 271) (* LE_REMOVE_DEVICE_FROM_FILTER_ACCEPT_LIST, DM:3817, PDL:597 *);
  (0x2013, 272) (* LE_CONNECTION_UPDATE, DM:3819, PDL:598 *);
  (0x2014, 273) (* LE_SET_HOST_CHANNEL_CLASSIFICATION, DM:3820, PDL:599 *);
  (0x2015, 274) (* LE_READ_CHANNEL_MAP, DM:3822, PDL:600 *);
  (0x2016, 275) (* LE_READ_REMOTE_FEATURES_PAGE_0, DM:3823, PDL:601 *);
  (0x2017, 276) (* LE_ENCRYPT, DM:3824, PDL:602 *);
  (0x2018, 277) (* LE_RAND, DM:3825, PDL:603 *);
  (0x2019, 280) (* LE_START_ENCRYPTION, DM:3826, PDL:604 *);
  (0x201a, 281) (* LE_LONG_TERM_KEY_REQUEST_REPLY, DM:3827, PDL:605 *);
  (0x201b, 282) (* LE_LONG_TERM_KEY_REQUEST_NEGATIVE_REPLY, DM:3828, PDL:606 *);
  (0x201c, 283) (* LE_READ_SUPPORTED_STATES, DM:3830, PDL:607 *);
  (0x201d, 284) (* LE_RECEIVER_TEST_V1, DM:3831, PDL:608 *);
  (0x201e, 285) (* LE_TRANSMITTER_TEST_V1, DM:3832, PDL:609 *);
  (0x201f, 286) (* LE_TEST_END, DM:3833, PDL:610 *);
  (0x2020, 334) (* LE_REMOTE_CONNECTION_PARAMETER_REQUEST_REPLY, DM:3834, PDL:648 *);
  (0x2021, 335) (* LE_REMOTE_CONNECTION_PARAMETER_REQUEST_NEGATIVE_REPLY, DM:3836, PDL:649 *);
  (0x2022, 336) (* LE_SET_DATA_LENGTH, DM:3838, PDL:650 *);
  (0x2023, 337) (* LE_READ_SUGGESTED_DEFAULT_DATA_LENGTH, DM:3839, PDL:651 *);
  (0x2024, 340) (* LE_WRITE_SUGGESTED_DEFAULT_DATA_LENGTH, DM:3841, PDL:652 *);
  (0x2025, 341) (* LE_READ_LOCAL_P_256_PUBLIC_KEY, DM:3843, PDL:653 *);
  (0x2026, 342) (* LE_GENERATE_DHKEY_V1, DM:3844, PDL:654 *);
  (0x2027, 343) (* LE_ADD_DEVICE_TO_RESOLVING_LIST, DM:3845, PDL:655 *);
  (0x2028, 344) (* LE_REMOVE_DEVICE_FROM_RESOLVING_LIST, DM:3846, PDL:656 *);
  (0x2029, 345) (* LE_CLEAR_RESOLVING_LIST, DM:3848, PDL:657 *);
  (0x202a, 346) (* LE_READ_RESOLVING_LIST_SIZE, DM:3849, PDL:658 *);
  (0x202b, 347) (* LE_READ_PEER_RESOLVABLE_ADDRESS, DM:3850, PDL:659 *);
  (0x202c, 350) (* LE_READ_LOCAL_RESOLVABLE_ADDRESS, DM:3851, PDL:660 *);
  (0x202d, 351) (* LE_SET_ADDRESS_RESOLUTION_ENABLE, DM:3852, PDL:661 *);
  (0x202e, 352) (* LE_SET_RESOLVABLE_PRIVATE_ADDRESS_TIMEOUT, DM:3853, PDL:662 *);
  (0x202f, 353) (* LE_READ_MAXIMUM_DATA_LENGTH, DM:3855, PDL:663 *);
  (0x2030, 354) (* LE_READ_PHY, DM:3856, PDL:664 *);
  (0x2031, 355) (* LE_SET_DEFAULT_PHY, DM:3857, PDL:665 *);
  (0x2032, 356) (* LE_SET_PHY, DM:3858, PDL:666 *);
  (0x2033, 357) (* LE_RECEIVER_TEST_V2, DM:3859, PDL:667 *);
  (0x2034, 360) (* LE_TRANSMITTER_TEST_V2, DM:3860, PDL:668 *);
  (0x2035, 361) (* LE_SET_ADVERTISING_SET_RANDOM_ADDRESS, DM:3861, PDL:669 *);
  (0x2036, 362) (* LE_SET_EXTENDED_ADVERTISING_PARAMETERS_V1, DM:3863, PDL:670 *);
  (0x2037, 363) (* LE_SET_EXTENDED_ADVERTISING_DATA, DM:3865, PDL:671 *);
  (0x2038, 364) (* LE_SET_EXTENDED_SCAN_RESPONSE_DATA, DM:3866, PDL:672 *);
  (0x2039, 365) (* LE_SET_EXTENDED_ADVERTISING_ENABLE, DM:3868, PDL:673 *);
  (0x203a, 366) (* LE_READ_MAXIMUM_ADVERTISING_DATA_LENGTH, DM:3870, PDL:674 *);
  (0x203b, 367) (* LE_READ_NUMBER_OF_SUPPORTED_ADVERTISING_SETS, DM:3872, PDL:675 *);
  (0x203c, 370) (* LE_REMOVE_ADVERTISING_SET, DM:3874, PDL:676 *);
  (0x203d, 371) (* LE_CLEAR_ADVERTISING_SETS, DM:3875, PDL:677 *);
  (0x203e, 372) (* LE_SET_PERIODIC_ADVERTISING_PARAMETERS_V1, DM:3876, PDL:678 *);
  (0x203f, 373) (* LE_SET_PERIODIC_ADVERTISING_DATA, DM:3878, PDL:679 *);
  (0x2040, 374) (* LE_SET_PERIODIC_ADVERTISING_ENABLE, DM:3879, PDL:680 *);
  (0x2041, 375) (* LE_SET_EXTENDED_SCAN_PARAMETERS, DM:3881, PDL:681 *);
  (0x2042, 376) (* LE_SET_EXTENDED_SCAN_ENABLE, DM:3882, PDL:682 *);
  (0x2043, 377) (* LE_EXTENDED_CREATE_CONNECTION_V1, DM:3883, PDL:683 *);
  (0x2044, 380) (* LE_PERIODIC_ADVERTISING_CREATE_SYNC, DM:3884, PDL:684 *);
  (0x2045, 381) (* LE_PERIODIC_ADVERTISING_CREATE_SYNC_CANCEL, DM:3886, PDL:685 *);
  (0x2046, 382) (* LE_PERIODIC_ADVERTISING_TERMINATE_SYNC, DM:3888, PDL:686 *);
  (0x2047, 383) (* LE_ADD_DEVICE_TO_PERIODIC_ADVERTISER_LIST, DM:3890, PDL:687 *);
  (0x2048, 384) (* LE_REMOVE_DEVICE_FROM_PERIODIC_ADVERTISER_LIST, DM:3892, PDL:688 *);
  (0x2049, 385) (* LE_CLEAR_PERIODIC_ADVERTISER_LIST, DM:3894, PDL:689 *);
  (0x204a, 386) (* LE_READ_PERIODIC_ADVERTISER_LIST_SIZE, DM:3896, PDL:690 *);
  (0x204b, 387) (* LE_READ_TRANSMIT_POWER, DM:3898, PDL:691 *);
  (0x204c, 390) (* LE_READ_RF_PATH_COMPENSATION_POWER, DM:3899, PDL:692 *);
  (0x204d, 391) (* LE_WRITE_RF_PATH_COMPENSATION_POWER, DM:3901, PDL:693 *);
  (0x204e, 392) (* LE_SET_PRIVACY_MODE, DM:3903, PDL:694 *);
  (0x204f, 393) (* LE_RECEIVER_TEST_V3, DM:3904, PDL:695 *);
  (0x2050, 394) (* LE_TRANSMITTER_TEST_V3, DM:3905, PDL:696 *);
  (0x2051, 395) (* LE_SET_CONNECTIONLESS_CTE_TRANSMIT_PARAMETERS, DM:3906, PDL:697 *);
  (0x2052, 396) (* LE_SET_CONNECTIONLESS_CTE_TRANSMIT_ENABLE, DM:3908, PDL:698 *);
  (0x2053, 397) (* LE_SET_CONNECTIONLESS_IQ_SAMPLING_ENABLE, DM:3910, PDL:699 *);
  (0x2054, 400) (* LE_SET_CONNECTION_CTE_RECEIVE_PARAMETERS, DM:3912, PDL:700 *);
  (0x2055, 401) (* LE_SET_CONNECTION_CTE_TRANSMIT_PARAMETERS, DM:3914, PDL:701 *);
  (0x2056, 402) (* LE_CONNECTION_CTE_REQUEST_ENABLE, DM:3916, PDL:702 *);
  (0x2057, 403) (* LE_CONNECTION_CTE_RESPONSE_ENABLE, DM:3917, PDL:703 *);
  (0x2058, 404) (* LE_READ_ANTENNA_INFORMATION, DM:3919, PDL:704 *);
  (0x2059, 405) (* LE_SET_PERIODIC_ADVERTISING_RECEIVE_ENABLE, DM:3920, PDL:705 *);
  (0x205a, 406) (* LE_PERIODIC_ADVERTISING_SYNC_TRANSFER, DM:3922, PDL:706 *);
  (0x205b, 407) (* LE_PERIODIC_ADVERTISING_SET_INFO_TRANSFER, DM:3924, PDL:707 *);
  (0x205c, 410) (* LE_SET_PERIODIC_ADVERTISING_SYNC_TRANSFER_PARAMETERS, DM:3926, PDL:708 *);
  (0x205d, 411) (* LE_SET_DEFAULT_PERIODIC_ADVERTISING_SYNC_TRANSFER_PARAMETERS, DM:3928, PDL:709 *);
  (0x205e, 412) (* LE_GENERATE_DHKEY_V2, DM:3930, PDL:710 *);
  (0x205f, 414) (* LE_MODIFY_SLEEP_CLOCK_ACCURACY, DM:3931, PDL:712 *);
  (0x2060, 415) (* LE_READ_BUFFER_SIZE_V2, DM:3932, PDL:713 *);
  (0x2061, 416) (* LE_READ_ISO_TX_SYNC, DM:3933, PDL:714 *);
  (0x2062, 417) (* LE_SET_CIG_PARAMETERS, DM:3934, PDL:715 *);
  (0x2063, 420) (* LE_SET_CIG_PARAMETERS_TEST, DM:3935, PDL:716 *);
  (0x2064, 421) (* LE_CREATE_CIS, DM:3936, PDL:717 *);
  (0x2065, 422) (* LE_REMOVE_CIG, DM:3937, PDL:718 *);
  (0x2066, 423) (* LE_ACCEPT_CIS_REQUEST, DM:3938, PDL:719 *);
  (0x2067, 424) (* LE_REJECT_CIS_REQUEST, DM:3939, PDL:720 *);
  (0x2068, 425) (* LE_CREATE_BIG, DM:3940, PDL:721 *);
  (0x2069, 426) (* LE_CREATE_BIG_TEST, DM:3941, PDL:722 *);
  (0x206a, 427) (* LE_TERMINATE_BIG, DM:3942, PDL:723 *);
  (0x206b, 430) (* LE_BIG_CREATE_SYNC, DM:3943, PDL:724 *);
  (0x206c, 431) (* LE_BIG_TERMINATE_SYNC, DM:3944, PDL:725 *);
  (0x206d, 432) (* LE_REQUEST_PEER_SCA, DM:3945, PDL:726 *);
  (0x206e, 433) (* LE_SETUP_ISO_DATA_PATH, DM:3946, PDL:727 *);
  (0x206f, 434) (* LE_REMOVE_ISO_DATA_PATH, DM:3947, PDL:728 *);
  (0x2070, 435) (* LE_ISO_TRANSMIT_TEST, DM:3948, PDL:729 *);
  (0x2071, 436) (* LE_ISO_RECEIVE_TEST, DM:3949, PDL:730 *);
  (0x2072, 437) (* LE_ISO_READ_TEST_COUNTERS, DM:3950, PDL:731 *);
  (0x2073, 440) (* LE_ISO_TEST_END, DM:3951, PDL:732 *);
  (0x2074, 441) (* LE_SET_HOST_FEATURE_V1, DM:3952, PDL:733 *);
  (0x2075, 442) (* LE_READ_ISO_LINK_QUALITY, DM:3953, PDL:734 *);
  (0x2076, 443) (* LE_ENHANCED_READ_TRANSMIT_POWER_LEVEL, DM:3954, PDL:735 *);
  (0x2077, 444) (* LE_READ_REMOTE_TRANSMIT_POWER_LEVEL, DM:3956, PDL:736 *);
  (0x2078, 445) (* LE_SET_PATH_LOSS_REPORTING_PARAMETERS, DM:3958, PDL:737 *);
  (0x2079, 446) (* LE_SET_PATH_LOSS_REPORTING_ENABLE, DM:3960, PDL:738 *);
  (0x207a, 447) (* LE_SET_TRANSMIT_POWER_REPORTING_ENABLE, DM:3962, PDL:739 *);
  (0x207b, 450) (* LE_TRANSMITTER_TEST_V4, DM:3964, PDL:740 *);
  (0x207c, 456) (* LE_SET_DATA_RELATED_ADDRESS_CHANGES, DM:3965, PDL:746 *);
  (0x207d, 460) (* LE_SET_DEFAULT_SUBRATE, DM:3967, PDL:748 *);
  (0x207e, 461) (* LE_SUBRATE_REQUEST, DM:3968, PDL:749 *);
  (0x207f, 462) (* LE_SET_EXTENDED_ADVERTISING_PARAMETERS_V2, DM:3969, PDL:750 *);
  (0x2080, 463) (* LE_SET_DECISION_DATA, DM:3971, PDL:751 *);
  (0x2081, 464) (* LE_SET_DECISION_INSTRUCTIONS, DM:3972, PDL:752 *);
  (0x2082, 465) (* LE_SET_PERIODIC_ADVERTISING_SUBEVENT_DATA, DM:3973, PDL:753 *);
  (0x2083, 466) (* LE_SET_PERIODIC_ADVERTISING_RESPONSE_DATA, DM:3975, PDL:754 *);
  (0x2084, 467) (* LE_SET_PERIODIC_SYNC_SUBEVENT, DM:3977, PDL:755 *);
  (0x2085, 470) (* LE_EXTENDED_CREATE_CONNECTION_V2, DM:3978, PDL:756 *);
  (0x2086, 471) (* LE_SET_PERIODIC_ADVERTISING_PARAMETERS_V2, DM:3979, PDL:757 *);
  (0x2087, 472) (* LE_READ_ALL_LOCAL_SUPPORTED_FEATURES, DM:3981, PDL:758 *);
  (0x2088, 473) (* LE_READ_ALL_REMOTE_FEATURES, DM:3983, PDL:759 *);
  (0x2089, 205) (* LE_CS_READ_LOCAL_SUPPORTED_CAPABILITIES, DM:3984, PDL:567 *);
  (0x208a, 206) (* LE_CS_READ_REMOTE_SUPPORTED_CAPABILITIES, DM:3986, PDL:568 *);
  (0x208b, 207) (* LE_CS_WRITE_CACHED_REMOTE_SUPPORTED_CAPABILITIES, DM:3988, PDL:569 *);
  (0x208c, 241) (* LE_CS_SECURITY_ENABLE, DM:3990, PDL:577 *);
  (0x208d, 247) (* LE_CS_SET_DEFAULT_SETTINGS, DM:3991, PDL:580 *);
  (0x208e, 122) (* LE_CS_READ_REMOTE_FAE_TABLE, DM:3992, PDL:515 *);
  (0x208f, 123) (* LE_CS_WRITE_CACHED_REMOTE_FAE_TABLE, DM:3993, PDL:516 *);
  (0x2090, 166) (* LE_CS_CREATE_CONFIG, DM:3995, PDL:542 *);
  (0x2091, 167) (* LE_CS_REMOVE_CONFIG, DM:3996, PDL:543 *);
  (0x2092, 290) (* LE_CS_SET_CHANNEL_CLASSIFICATION, DM:3997, PDL:612 *);
  (0x2093, 291) (* LE_CS_SET_PROCEDURE_PARAMETERS, DM:3998, PDL:613 *);
  (0x2094, 292) (* LE_CS_PROCEDURE_ENABLE, DM:3999, PDL:614 *);
  (0x2095, 233) (* LE_CS_TEST, DM:4000, PDL:574 *);
  (0x2096, 234) (* LE_CS_TEST_END, DM:4001, PDL:575 *);
  (0x2098, 475) (* LE_ADD_DEVICE_TO_MONITORED_ADVERTISERS_LIST, DM:4002, PDL:761 *);
  (0x2099, 476) (* LE_REMOVE_DEVICE_FROM_MONITORED_ADVERTISERS_LIST, DM:4004, PDL:762 *);
  (0x209a, 477) (* LE_CLEAR_MONITORED_ADVERTISERS_LIST, DM:4006, PDL:763 *);
  (0x209b, 480) (* LE_READ_MONITORED_ADVERTISERS_LIST_SIZE, DM:4008, PDL:764 *);
  (0x209c, 287) (* LE_ENABLE_MONITORING_ADVERTISERS, DM:4010, PDL:611 *);
  (0x209d, 481) (* LE_FRAME_SPACE_UPDATE, DM:4011, PDL:765 *)
].

(** A handler: the operation code its packet view requires, the layout of the
    parameters, the operation code of the answer it builds, what it does. *)
Record row := { view : N; layout : list item; reply : N; does : kind }.

(** GetHciCommandHandlers, DM:4024-4544; the second line number is that of the handler. *)
Definition handlers : list (N * row) := [
  (0x0401, {| view := 0x0401; layout := [Fix 5]; reply := 0x0401; does := Status |}) (* INQUIRY, DM:4024, DM:1436 *);
  (0x0402, {| view := 0x0402; layout := []; reply := 0x0402; does := Complete |}) (* INQUIRY_CANCEL, DM:4025, DM:1452 *);
  (0x0405, {| view := 0x0405; layout := [Fix 13]; reply := 0x0405; does := Status |}) (* CREATE_CONNECTION, DM:4030, DM:2077 *);
  (0x0406, {| view := 0x0406; layout := [Fix 3]; reply := 0x0406; does := Disconnects |}) (* DISCONNECT, DM:4031, DM:2115 *);
  (0x0407, {| view := 0x0407; layout := [Fix 4]; reply := 0x0407; does := Status |}) (* ADD_SCO_CONNECTION, DM:4032, DM:567 *);
  (0x0408, {| view := 0x0408; layout := [Fix 6]; reply := 0x0408; does := Complete |}) (* CREATE_CONNECTION_CANCEL, DM:4033, DM:2101 *);
  (0x0409, {| view := 0x0409; layout := [Fix 7]; reply := 0x0409; does := Status |}) (* ACCEPT_CONNECTION_REQUEST, DM:4034, DM:1462 *);
  (0x040a, {| view := 0x040a; layout := [Fix 7]; reply := 0x040a; does := Status |}) (* REJECT_CONNECTION_REQUEST, DM:4035, DM:1478 *);
  (0x040b, {| view := 0x040b; layout := []; reply := 0x040b; does := ToManager |}) (* LINK_KEY_REQUEST_REPLY, DM:4036, DM:125 *);
  (0x040c, {| view := 0x040c; layout := []; reply := 0x040c; does := ToManager |}) (* LINK_KEY_REQUEST_NEGATIVE_REPLY, DM:4037, DM:125 *);
  (0x040d, {| view := 0x040d; layout := []; reply := 0x040d; does := ToManager |}) (* PIN_CODE_REQUEST_REPLY, DM:4038, DM:125 *);
  (0x040e, {| view := 0x040e; layout := []; reply := 0x040e; does := ToManager |}) (* PIN_CODE_REQUEST_NEGATIVE_REPLY, DM:4039, DM:125 *);
  (0x040f, {| view := 0x040f; layout := [Fix 4]; reply := 0x040f; does := Status |}) (* CHANGE_CONNECTION_PACKET_TYPE, DM:4040, DM:779 *);
  (0x0411, {| view := 0x0411; layout := []; reply := 0x0411; does := ToManager |}) (* AUTHENTICATION_REQUESTED, DM:4041, DM:125 *);
  (0x0413, {| view := 0x0413; layout := []; reply := 0x0413; does := ToManager |}) (* SET_CONNECTION_ENCRYPTION, DM:4042, DM:125 *);
  (0x0415, {| view := 0x0415; layout := [Fix 2]; reply := 0x0415; does := Status |}) (* CHANGE_CONNECTION_LINK_KEY, DM:4043, DM:905 *);
  (0x0417, {| view := 0x0417; layout := [Fix 1]; reply := 0x0417; does := Status |}) (* CENTRAL_LINK_KEY, DM:4044, DM:919 *);
  (0x0419, {| view := 0x0419; layout := [Fix 10]; reply := 0x0419; does := Status |}) (* REMOTE_NAME_REQUEST, DM:4045, DM:1503 *);
  (0x041b, {| view := 0x041b; layout := [Fix 2]; reply := 0x041b; does := Status |}) (* READ_REMOTE_SUPPORTED_FEATURES, DM:4048, DM:540 *);
  (0x041c, {| view := 0x041c; layout := [Fix 3]; reply := 0x041c; does := Status |}) (* READ_REMOTE_EXTENDED_FEATURES, DM:4050, DM:512 *);
  (0x041d, {| view := 0x041d; layout := [Fix 2]; reply := 0x041d; does := Status |}) (* READ_REMOTE_VERSION_INFORMATION, DM:4051, DM:438 *);
  (0x041f, {| view := 0x041f; layout := [Fix 2]; reply := 0x041f; does := Status |}) (* READ_CLOCK_OFFSET, DM:4053, DM:553 *);
  (0x0428, {| view := 0x0428; layout := [Fix 17]; reply := 0x0428; does := Status |}) (* SETUP_SYNCHRONOUS_CONNECTION, DM:4055, DM:581 *);
  (0x0429, {| view := 0x0429; layout := [Fix 21]; reply := 0x0429; does := Status |}) (* ACCEPT_SYNCHRONOUS_CONNECTION, DM:4056, DM:600 *);
  (0x042a, {| view := 0x042a; layout := [Fix 7]; reply := 0x042a; does := Status |}) (* REJECT_SYNCHRONOUS_CONNECTION, DM:4057, DM:669 *);
  (0x042b, {| view := 0x042b; layout := []; reply := 0x042b; does := ToManager |}) (* IO_CAPABILITY_REQUEST_REPLY, DM:4058, DM:125 *);
  (0x042c, {| view := 0x042c; layout := []; reply := 0x042c; does := ToManager |}) (* USER_CONFIRMATION_REQUEST_REPLY, DM:4059, DM:125 *);
  (0x042d, {| view := 0x042d; layout := []; reply := 0x042d; does := ToManager |}) (* USER_CONFIRMATION_REQUEST_NEGATIVE_REPLY, DM:4060, DM:125 *);
  (0x042e, {| view := 0x042e; layout := []; reply := 0x042e; does := ToManager |}) (* USER_PASSKEY_REQUEST_REPLY, DM:4061, DM:125 *);
  (0x042f, {| view := 0x042f; layout := []; reply := 0x042f; does := ToManager |}) (* USER_PASSKEY_REQUEST_NEGATIVE_REPLY, DM:4062, DM:125 *);
  (0x0430, {| view := 0x0430; layout := []; reply := 0x0430; does := ToManager |}) (* REMOTE_OOB_DATA_REQUEST_REPLY, DM:4063, DM:125 *);
  (0x0433, {| view := 0x0433; layout := []; reply := 0x0433; does := ToManager |}) (* REMOTE_OOB_DATA_REQUEST_NEGATIVE_REPLY, DM:4064, DM:125 *);
  (0x0434, {| view := 0x0434; layout := []; reply := 0x0434; does := ToManager |}) (* IO_CAPABILITY_REQUEST_NEGATIVE_REPLY, DM:4065, DM:125 *);
  (0x043d, {| view := 0x043d; layout := [Fix 59]; reply := 0x043d; does := Status |}) (* ENHANCED_SETUP_SYNCHRONOUS_CONNECTION, DM:4066, DM:619 *);
  (0x043e, {| view := 0x043e; layout := [Fix 63]; reply := 0x043e; does := Status |}) (* ENHANCED_ACCEPT_SYNCHRONOUS_CONNECTION, DM:4068, DM:644 *);
  (0x0445, {| view := 0x0445; layout := []; reply := 0x0445; does := ToManager |}) (* REMOTE_OOB_EXTENDED_DATA_REQUEST_REPLY, DM:4081, DM:125 *);
  (0x0801, {| view := 0x0801; layout := [Fix 6]; reply := 0x0801; does := Status |}) (* HOLD_MODE, DM:4084, DM:1002 *);
  (0x0803, {| view := 0x0803; layout := [Fix 10]; reply := 0x0803; does := Status |}) (* SNIFF_MODE, DM:4085, DM:1017 *);
  (0x0804, {| view := 0x0804; layout := [Fix 2]; reply := 0x0804; does := Status |}) (* EXIT_SNIFF_MODE, DM:4086, DM:1035 *);
  (0x0807, {| view := 0x0807; layout := [Fix 20]; reply := 0x0807; does := Status |}) (* QOS_SETUP, DM:4087, DM:1047 *);
  (0x0809, {| view := 0x0809; layout := [Fix 2]; reply := 0x0809; does := Complete |}) (* ROLE_DISCOVERY, DM:4088, DM:1066 *);
  (0x080b, {| view := 0x080b; layout := [Fix 7]; reply := 0x080b; does := Status |}) (* SWITCH_ROLE, DM:4089, DM:527 *);
  (0x080c, {| view := 0x080c; layout := [Fix 2]; reply := 0x080c; does := Complete |}) (* READ_LINK_POLICY_SETTINGS, DM:4090, DM:1142 *);
  (0x080d, {| view := 0x080d; layout := [Fix 4]; reply := 0x080d; does := Complete |}) (* WRITE_LINK_POLICY_SETTINGS, DM:4091, DM:1157 *);
  (0x080e, {| view := 0x080e; layout := []; reply := 0x080e; does := Gets LinkPolicy |}) (* READ_DEFAULT_LINK_POLICY_SETTINGS, DM:4092, DM:1081 *);
  (0x080f, {| view := 0x080f; layout := [Fix 2]; reply := 0x080f; does := Sets LinkPolicy |}) (* WRITE_DEFAULT_LINK_POLICY_SETTINGS, DM:4094, DM:1093 *);
  (0x0810, {| view := 0x0810; layout := [Fix 21]; reply := 0x0810; does := Status |}) (* FLOW_SPECIFICATION, DM:4096, DM:1121 *);
  (0x0811, {| view := 0x0811; layout := [Fix 8]; reply := 0x0811; does := Complete |}) (* SNIFF_SUBRATING, DM:4097, DM:1106 *);
  (0x0c01, {| view := 0x0c01; layout := [Fix 8]; reply := 0x0c01; does := Complete |}) (* SET_EVENT_MASK, DM:4100, DM:823 *);
  (0x0c03, {| view := 0x0c03; layout := []; reply := 0x0c03; does := Resets |}) (* RESET, DM:4101, DM:319 *);
  (0x0c05, {| view := 0x0c05; layout := [Fix 1; Any]; reply := 0x0c05; does := Filters |}) (* SET_EVENT_FILTER, DM:4102, DM:1421 *);
  (0x0c12, {| view := 0x0c12; layout := [Fix 7]; reply := 0x0c12; does := Complete |}) (* DELETE_STORED_LINK_KEY, DM:4110, DM:1493 *);
  (0x0c13, {| view := 0x0c13; layout := [Fix 248]; reply := 0x0c13; does := Sets LocalName |}) (* WRITE_LOCAL_NAME, DM:4111, DM:1198 *);
  (0x0c14, {| view := 0x0c14; layout := []; reply := 0x0c14; does := Gets LocalName |}) (* READ_LOCAL_NAME, DM:4112, DM:1188 *);
  (0x0c15, {| view := 0x0c15; layout := []; reply := 0x0c15; does := Gets AcceptTimeout |}) (* READ_CONNECTION_ACCEPT_TIMEOUT, DM:4113, DM:3455 *);
  (0x0c16, {| view := 0x0c16; layout := [Fix 2]; reply := 0x0c16; does := Sets AcceptTimeout |}) (* WRITE_CONNECTION_ACCEPT_TIMEOUT, DM:4115, DM:3465 *);
  (0x0c17, {| view := 0x0c17; layout := []; reply := 0x0c17; does := Gets PageTimeout |}) (* READ_PAGE_TIMEOUT, DM:4117, DM:979 *);
  (0x0c18, {| view := 0x0c18; layout := [Fix 2]; reply := 0x0c18; does := Sets PageTimeout |}) (* WRITE_PAGE_TIMEOUT, DM:4118, DM:990 *);
  (0x0c19, {| view := 0x0c19; layout := []; reply := 0x0c19; does := Gets ScanEnable |}) (* READ_SCAN_ENABLE, DM:4119, DM:1335 *);
  (0x0c1a, {| view := 0x0c1a; layout := [Fix 1]; reply := 0x0c1a; does := Sets ScanEnable |}) (* WRITE_SCAN_ENABLE, DM:4120, DM:1348 *);
  (0x0c1b, {| view := 0x0c1b; layout := []; reply := 0x0c1b; does := Constant [0; 16; 18; 0] |}) (* READ_PAGE_SCAN_ACTIVITY, DM:4121, DM:1291 *);
  (0x0c1c, {| view := 0x0c1c; layout := [Fix 4]; reply := 0x0c1c; does := Complete |}) (* WRITE_PAGE_SCAN_ACTIVITY, DM:4122, DM:1303 *);
  (0x0c1d, {| view := 0x0c1d; layout := []; reply := 0x0c1d; does := Constant [0; 16; 18; 0] |}) (* READ_INQUIRY_SCAN_ACTIVITY, DM:4123, DM:1313 *);
  (0x0c1e, {| view := 0x0c1e; layout := [Fix 4]; reply := 0x0c1e; does := Complete |}) (* WRITE_INQUIRY_SCAN_ACTIVITY, DM:4124, DM:1325 *);
  (0x0c1f, {| view := 0x0c1f; layout := []; reply := 0x0c1f; does := Gets AuthenticationEnable |}) (* READ_AUTHENTICATION_ENABLE, DM:4125, DM:945 *);
  (0x0c20, {| view := 0x0c20; layout := [Fix 1]; reply := 0x0c20; does := Sets AuthenticationEnable |}) (* WRITE_AUTHENTICATION_ENABLE, DM:4126, DM:932 *);
  (0x0c23, {| view := 0x0c23; layout := []; reply := 0x0c23; does := Gets ClassOfDevice |}) (* READ_CLASS_OF_DEVICE, DM:4127, DM:957 *);
  (0x0c24, {| view := 0x0c24; layout := [Fix 3]; reply := 0x0c24; does := Sets ClassOfDevice |}) (* WRITE_CLASS_OF_DEVICE, DM:4128, DM:967 *);
  (0x0c25, {| view := 0x0c25; layout := []; reply := 0x0c25; does := Gets VoiceSetting |}) (* READ_VOICE_SETTING, DM:4129, DM:1237 *);
  (0x0c26, {| view := 0x0c26; layout := [Fix 2]; reply := 0x0c26; does := Sets VoiceSetting |}) (* WRITE_VOICE_SETTING, DM:4130, DM:1247 *);
  (0x0c2d, {| view := 0x0c2d; layout := [Fix 3]; reply := 0x0c2d; does := Complete |}) (* READ_TRANSMIT_POWER_LEVEL, DM:4143, DM:1361 *);
  (0x0c2e, {| view := 0x0c2e; layout := []; reply := 0x0c2e; does := Gets FlowControl |}) (* READ_SYNCHRONOUS_FLOW_CONTROL_ENABLE, DM:4144, DM:1394 *);
  (0x0c2f, {| view := 0x0c2f; layout := [Fix 1]; reply := 0x0c2f; does := Sets FlowControl |}) (* WRITE_SYNCHRONOUS_FLOW_CONTROL_ENABLE, DM:4146, DM:1408 *);
  (0x0c33, {| view := 0x0c33; layout := [Fix 7]; reply := 0x0c33; does := Complete |}) (* HOST_BUFFER_SIZE, DM:4150, DM:411 *);
  (0x0c37, {| view := 0x0c37; layout := [Fix 4]; reply := 0x0c37; does := Complete |}) (* WRITE_LINK_SUPERVISION_TIMEOUT, DM:4155, DM:1173 *);
  (0x0c38, {| view := 0x0c38; layout := []; reply := 0x0c38; does := Complete |}) (* READ_NUMBER_OF_SUPPORTED_IAC, DM:4157, DM:1260 *);
  (0x0c39, {| view := 0x0c39; layout := []; reply := 0x0c39; does := Gets InquiryCodes |}) (* READ_CURRENT_IAC_LAP, DM:4158, DM:1270 *);
  (0x0c3a, {| view := 0x0c3a; layout := [Cnt 3]; reply := 0x0c3a; does := Sets InquiryCodes |}) (* WRITE_CURRENT_IAC_LAP, DM:4159, DM:1280 *);
  (0x0c42, {| view := 0x0c42; layout := []; reply := 0x0c42; does := Constant [0] |}) (* READ_INQUIRY_SCAN_TYPE, DM:4162, DM:882 *);
  (0x0c43, {| view := 0x0c43; layout := [Fix 1]; reply := 0x0c43; does := Complete |}) (* WRITE_INQUIRY_SCAN_TYPE, DM:4163, DM:893 *);
  (0x0c44, {| view := 0x0c44; layout := []; reply := 0x0c44; does := Constant [0] |}) (* READ_INQUIRY_MODE, DM:4164, DM:836 *);
  (0x0c45, {| view := 0x0c45; layout := [Fix 1]; reply := 0x0c45; does := Complete |}) (* WRITE_INQUIRY_MODE, DM:4165, DM:847 *);
  (0x0c46, {| view := 0x0c46; layout := []; reply := 0x0c46; does := Constant [0] |}) (* READ_PAGE_SCAN_TYPE, DM:4166, DM:859 *);
  (0x0c47, {| view := 0x0c47; layout := [Fix 1]; reply := 0x0c47; does := Complete |}) (* WRITE_PAGE_SCAN_TYPE, DM:4167, DM:870 *);
  (0x0c52, {| view := 0x0c52; layout := [Fix 241]; reply := 0x0c52; does := Complete |}) (* WRITE_EXTENDED_INQUIRY_RESPONSE, DM:4174, DM:1209 *);
  (0x0c53, {| view := 0x0c53; layout := [Fix 2]; reply := 0x0c53; does := Refreshes |}) (* REFRESH_ENCRYPTION_KEY, DM:4176, DM:1222 *);
  (0x0c56, {| view := 0x0c56; layout := [Fix 1]; reply := 0x0c56; does := Complete |}) (* WRITE_SIMPLE_PAIRING_MODE, DM:4179, DM:765 *);
  (0x0c57, {| view := 0x0c57; layout := []; reply := 0x0c57; does := Complete |}) (* READ_LOCAL_OOB_DATA, DM:4180, DM:727 *);
  (0x0c58, {| view := 0x0c58; layout := []; reply := 0x0c58; does := Complete |}) (* READ_INQUIRY_RESPONSE_TRANSMIT_POWER_LEVEL, DM:4181, DM:684 *);
  (0x0c5f, {| view := 0x0c5f; layout := [Fix 3]; reply := 0x0c5f; does := Flushes |}) (* ENHANCED_FLUSH, DM:4189, DM:695 *);
  (0x0c60, {| view := 0x0c60; layout := []; reply := 0x0c60; does := ToManager |}) (* SEND_KEYPRESS_NOTIFICATION, DM:4190, DM:125 *);
  (0x0c63, {| view := 0x0c63; layout := [Fix 8]; reply := 0x0c63; does := Complete |}) (* SET_EVENT_MASK_PAGE_2, DM:4191, DM:714 *);
  (0x0c68, {| view := 0x0c68; layout := [Fix 3]; reply := 0x0c68; does := Complete |}) (* READ_ENHANCED_TRANSMIT_POWER_LEVEL, DM:4196, DM:1377 *);
  (0x0c6d, {| view := 0x0c6d; layout := [Fix 2]; reply := 0x0c6d; does := Complete |}) (* WRITE_LE_HOST_SUPPORT, DM:4200, DM:795 *);
  (0x0c7a, {| view := 0x0c7a; layout := [Fix 1]; reply := 0x0c7a; does := Complete |}) (* WRITE_SECURE_CONNECTIONS_HOST_SUPPORT, DM:4224, DM:809 *);
  (0x0c7d, {| view := 0x0c7d; layout := []; reply := 0x0c7d; does := Complete |}) (* READ_LOCAL_OOB_EXTENDED_DATA, DM:4230, DM:739 *);
  (0x0c84, {| view := 0x0c84; layout := [Fix 1]; reply := 0x0c84; does := Complete |}) (* SET_MIN_ENCRYPTION_KEY_SIZE, DM:4242, DM:753 *);
  (0x1001, {| view := 0x1001; layout := []; reply := 0x1001; does := Complete |}) (* READ_LOCAL_VERSION_INFORMATION, DM:4245, DM:421 *);
  (0x1002, {| view := 0x1002; layout := []; reply := 0x1002; does := GetsCommands |}) (* READ_LOCAL_SUPPORTED_COMMANDS, DM:4247, DM:467 *);
  (0x1003, {| view := 0x1003; layout := []; reply := 0x1003; does := Complete |}) (* READ_LOCAL_SUPPORTED_FEATURES, DM:4248, DM:477 *);
  (0x1004, {| view := 0x1004; layout := [Fix 1]; reply := 0x1004; does := GetsFeatures |}) (* READ_LOCAL_EXTENDED_FEATURES, DM:4249, DM:498 *);
  (0x1005, {| view := 0x1005; layout := []; reply := 0x1005; does := Complete |}) (* READ_BUFFER_SIZE, DM:4250, DM:333 *);
  (0x1009, {| view := 0x1009; layout := []; reply := 0x1009; does := Complete |}) (* READ_BD_ADDR, DM:4251, DM:457 *);
  (0x100b, {| view := 0x100b; layout := []; reply := 0x100b; does := Complete |}) (* READ_LOCAL_SUPPORTED_CODECS_V1, DM:4254, DM:487 *);
  (0x1401, {| view := 0x1401; layout := [Fix 2]; reply := 0x1401; does := Complete |}) (* READ_FAILED_CONTACT_COUNTER, DM:4265, DM:345 *);
  (0x1402, {| view := 0x1401; layout := [Fix 2]; reply := 0x1402; does := Complete |}) (* RESET_FAILED_CONTACT_COUNTER, DM:4266, DM:362 *);
  (0x1405, {| view := 0x1405; layout := [Fix 2]; reply := 0x1405; does := Complete |}) (* READ_RSSI, DM:4268, DM:378 *);
  (0x1408, {| view := 0x1408; layout := [Fix 2]; reply := 0x1408; does := Complete |}) (* READ_ENCRYPTION_KEY_SIZE, DM:4272, DM:397 *);
  (0x1801, {| view := 0x1801; layout := []; reply := 0x1801; does := GetsLoop |}) (* READ_LOOPBACK_MODE, DM:4279, DM:3477 *);
  (0x1802, {| view := 0x1802; layout := [Fix 1]; reply := 0x1802; does := SetsLoop |}) (* WRITE_LOOPBACK_MODE, DM:4280, DM:3487 *);
  (0x2001, {| view := 0x2001; layout := [Fix 8]; reply := 0x2001; does := Complete |}) (* LE_SET_EVENT_MASK, DM:4289, DM:1518 *);
  (0x2002, {| view := 0x2002; layout := []; reply := 0x2002; does := Complete |}) (* LE_READ_BUFFER_SIZE_V1, DM:4290, DM:1576 *);
  (0x2003, {| view := 0x2003; layout := []; reply := 0x2003; does := Complete |}) (* LE_READ_LOCAL_SUPPORTED_FEATURES_PAGE_0, DM:4291, DM:1911 *);
  (0x2005, {| view := 0x2005; layout := [Fix 6]; reply := 0x2005; does := Complete |}) (* LE_SET_RANDOM_ADDRESS, DM:4293, DM:1922 *);
  (0x2006, {| view := 0x2006; layout := [Fix 15]; reply := 0x2006; does := Complete |}) (* LE_SET_ADVERTISING_PARAMETERS, DM:4294, DM:1934 *);
  (0x2007, {| view := 0x2007; layout := []; reply := 0x2007; does := Complete |}) (* LE_READ_ADVERTISING_PHYSICAL_CHANNEL_TX_POWER, DM:4295, DM:1949 *);
  (0x2008, {| view := 0x2008; layout := [Pad 31]; reply := 0x2008; does := Complete |}) (* LE_SET_ADVERTISING_DATA, DM:4297, DM:1960 *);
  (0x2009, {| view := 0x2009; layout := [Pad 31]; reply := 0x2009; does := Complete |}) (* LE_SET_SCAN_RESPONSE_DATA, DM:4298, DM:1971 *);
  (0x200a, {| view := 0x200a; layout := [Fix 1]; reply := 0x200a; does := Complete |}) (* LE_SET_ADVERTISING_ENABLE, DM:4299, DM:1982 *);
  (0x200b, {| view := 0x200b; layout := [Fix 7]; reply := 0x200b; does := Complete |}) (* LE_SET_SCAN_PARAMETERS, DM:4300, DM:1996 *);
  (0x200c, {| view := 0x200c; layout := [Fix 2]; reply := 0x200c; does := Complete |}) (* LE_SET_SCAN_ENABLE, DM:4301, DM:2010 *);
  (0x200d, {| view := 0x200d; layout := [Fix 25]; reply := 0x200d; does := Status |}) (* LE_CREATE_CONNECTION, DM:4302, DM:2024 *);
  (0x200e, {| view := 0x200e; layout := []; reply := 0x200e; does := Complete |}) (* LE_CREATE_CONNECTION_CANCEL, DM:4303, DM:2051 *);
  (0x200f, {| view := 0x200f; layout := []; reply := 0x200f; does := Complete |}) (* LE_READ_FILTER_ACCEPT_LIST_SIZE, DM:4304, DM:2137 *);
  (0x2010, {| view := 0x2010; layout := []; reply := 0x2010; does := Complete |}) (* LE_CLEAR_FILTER_ACCEPT_LIST, DM:4306, DM:2147 *);
  (0x2011, {| view := 0x2011; layout := [Fix 7]; reply := 0x2011; does := Complete |}) (* LE_ADD_DEVICE_TO_FILTER_ACCEPT_LIST, DM:4307, DM:2158 *);
  (0x2012, {| view := 0x2012; layout := [Fix 7]; reply := 0x2012; does := Complete |}) (* LE_REMOVE_DEVICE_FROM_FILTER_ACCEPT_LIST, DM:4309, DM:2173 *);
  (0x2013, {| view := 0x2013; layout := [Fix 14]; reply := 0x2013; does := Status |}) (* LE_CONNECTION_UPDATE, DM:4311, DM:2062 *);
  (0x2016, {| view := 0x2016; layout := [Fix 2]; reply := 0x2016; does := Status |}) (* LE_READ_REMOTE_FEATURES_PAGE_0, DM:4315, DM:2679 *);
  (0x2017, {| view := 0x2017; layout := [Fix 32]; reply := 0x2017; does := Complete |}) (* LE_ENCRYPT, DM:4316, DM:2693 *);
  (0x2018, {| view := 0x2018; layout := []; reply := 0x2018; does := Complete |}) (* LE_RAND, DM:4317, DM:2706 *);
  (0x2019, {| view := 0x2019; layout := [Fix 28]; reply := 0x2019; does := Status |}) (* LE_START_ENCRYPTION, DM:4318, DM:3412 *);
  (0x201a, {| view := 0x201a; layout := [Fix 18]; reply := 0x201a; does := Complete |}) (* LE_LONG_TERM_KEY_REQUEST_REPLY, DM:4319, DM:3426 *);
  (0x201b, {| view := 0x201b; layout := [Fix 2]; reply := 0x201b; does := Complete |}) (* LE_LONG_TERM_KEY_REQUEST_NEGATIVE_REPLY, DM:4320, DM:3441 *);
  (0x201c, {| view := 0x201c; layout := []; reply := 0x201c; does := Complete |}) (* LE_READ_SUPPORTED_STATES, DM:4322, DM:2716 *);
  (0x2020, {| view := 0x2020; layout := [Fix 14]; reply := 0x2020; does := Complete |}) (* LE_REMOTE_CONNECTION_PARAMETER_REQUEST_REPLY, DM:4327, DM:2726 *);
  (0x2021, {| view := 0x2021; layout := [Fix 3]; reply := 0x2021; does := Complete |}) (* LE_REMOTE_CONNECTION_PARAMETER_REQUEST_NEGATIVE_REPLY, DM:4329, DM:2741 *);
  (0x2022, {| view := 0x2022; layout := [Fix 6]; reply := 0x2022; does := Complete |}) (* LE_SET_DATA_LENGTH, DM:4331, DM:2300 *);
  (0x2023, {| view := 0x2023; layout := []; reply := 0x2023; does := Gets DataLength |}) (* LE_READ_SUGGESTED_DEFAULT_DATA_LENGTH, DM:4332, DM:2313 *);
  (0x2024, {| view := 0x2024; layout := [Fix 4]; reply := 0x2024; does := Sets DataLength |}) (* LE_WRITE_SUGGESTED_DEFAULT_DATA_LENGTH, DM:4334, DM:2324 *);
  (0x2025, {| view := 0x2025; layout := []; reply := 0x2025; does := MakesKey |}) (* LE_READ_LOCAL_P_256_PUBLIC_KEY, DM:4336, DM:2408 *);
  (0x2027, {| view := 0x2027; layout := [Fix 39]; reply := 0x2027; does := Complete |}) (* LE_ADD_DEVICE_TO_RESOLVING_LIST, DM:4339, DM:2425 *);
  (0x2028, {| view := 0x2028; layout := [Fix 7]; reply := 0x2028; does := Complete |}) (* LE_REMOVE_DEVICE_FROM_RESOLVING_LIST, DM:4341, DM:2441 *);
  (0x2029, {| view := 0x2029; layout := []; reply := 0x2029; does := Complete |}) (* LE_CLEAR_RESOLVING_LIST, DM:4343, DM:2188 *);
  (0x202a, {| view := 0x202a; layout := []; reply := 0x202a; does := Complete |}) (* LE_READ_RESOLVING_LIST_SIZE, DM:4344, DM:2199 *);
  (0x202b, {| view := 0x202b; layout := [Fix 7]; reply := 0x202b; does := Complete |}) (* LE_READ_PEER_RESOLVABLE_ADDRESS, DM:4345, DM:2209 *);
  (0x202c, {| view := 0x202c; layout := [Fix 7]; reply := 0x202c; does := Complete |}) (* LE_READ_LOCAL_RESOLVABLE_ADDRESS, DM:4347, DM:2226 *);
  (0x202d, {| view := 0x202d; layout := [Fix 1]; reply := 0x202d; does := Complete |}) (* LE_SET_ADDRESS_RESOLUTION_ENABLE, DM:4349, DM:1885 *);
  (0x202e, {| view := 0x202e; layout := [Fix 2]; reply := 0x202e; does := Complete |}) (* LE_SET_RESOLVABLE_PRIVATE_ADDRESS_TIMEOUT, DM:4351, DM:1899 *);
  (0x202f, {| view := 0x202f; layout := []; reply := 0x202f; does := Complete |}) (* LE_READ_MAXIMUM_DATA_LENGTH, DM:4353, DM:2243 *);
  (0x2030, {| view := 0x2030; layout := [Fix 2]; reply := 0x2030; does := Complete |}) (* LE_READ_PHY, DM:4354, DM:2258 *);
  (0x2031, {| view := 0x2031; layout := [Fix 3]; reply := 0x2031; does := Complete |}) (* LE_SET_DEFAULT_PHY, DM:4355, DM:2273 *);
  (0x2032, {| view := 0x2032; layout := [Fix 7]; reply := 0x2032; does := Status |}) (* LE_SET_PHY, DM:4356, DM:2286 *);
  (0x2035, {| view := 0x2035; layout := [Fix 7]; reply := 0x2035; does := Complete |}) (* LE_SET_ADVERTISING_SET_RANDOM_ADDRESS, DM:4360, DM:3287 *);
  (0x2036, {| view := 0x2036; layout := [Fix 25]; reply := 0x2036; does := Complete |}) (* LE_SET_EXTENDED_ADVERTISING_PARAMETERS_V1, DM:4362, DM:3301 *);
  (0x2037, {| view := 0x2037; layout := [Fix 3; Siz]; reply := 0x2037; does := Complete |}) (* LE_SET_EXTENDED_ADVERTISING_DATA, DM:4364, DM:3324 *);
  (0x2038, {| view := 0x2038; layout := [Fix 3; Siz]; reply := 0x2038; does := Complete |}) (* LE_SET_EXTENDED_SCAN_RESPONSE_DATA, DM:4366, DM:3338 *);
  (0x2039, {| view := 0x2039; layout := [Fix 1; Cnt 4]; reply := 0x2039; does := Complete |}) (* LE_SET_EXTENDED_ADVERTISING_ENABLE, DM:4368, DM:3352 *);
  (0x203a, {| view := 0x203a; layout := []; reply := 0x203a; does := Complete |}) (* LE_READ_MAXIMUM_ADVERTISING_DATA_LENGTH, DM:4370, DM:3369 *);
  (0x203b, {| view := 0x203b; layout := []; reply := 0x203b; does := Complete |}) (* LE_READ_NUMBER_OF_SUPPORTED_ADVERTISING_SETS, DM:4372, DM:3379 *);
  (0x203c, {| view := 0x203c; layout := [Fix 1]; reply := 0x203c; does := Complete |}) (* LE_REMOVE_ADVERTISING_SET, DM:4374, DM:3389 *);
  (0x203d, {| view := 0x203d; layout := []; reply := 0x203d; does := Complete |}) (* LE_CLEAR_ADVERTISING_SETS, DM:4375, DM:3401 *);
  (0x203e, {| view := 0x203e; layout := [Fix 7]; reply := 0x203e; does := Complete |}) (* LE_SET_PERIODIC_ADVERTISING_PARAMETERS_V1, DM:4376, DM:2456 *);
  (0x203f, {| view := 0x203f; layout := [Fix 2; Siz]; reply := 0x203f; does := Complete |}) (* LE_SET_PERIODIC_ADVERTISING_DATA, DM:4378, DM:2470 *);
  (0x2040, {| view := 0x2040; layout := [Fix 2]; reply := 0x2040; does := Complete |}) (* LE_SET_PERIODIC_ADVERTISING_ENABLE, DM:4380, DM:2484 *);
  (0x2041, {| view := 0x2041; layout := [Fix 3; All 5]; reply := 0x2041; does := Complete |}) (* LE_SET_EXTENDED_SCAN_PARAMETERS, DM:4382, DM:2593 *);
  (0x2042, {| view := 0x2042; layout := [Fix 6]; reply := 0x2042; does := Complete |}) (* LE_SET_EXTENDED_SCAN_ENABLE, DM:4384, DM:2606 *);
  (0x2043, {| view := 0x2043; layout := [Fix 10; All 16]; reply := 0x2043; does := Status |}) (* LE_EXTENDED_CREATE_CONNECTION_V1, DM:4385, DM:2620 *);
  (0x2044, {| view := 0x2044; layout := [Fix 14]; reply := 0x2044; does := Status |}) (* LE_PERIODIC_ADVERTISING_CREATE_SYNC, DM:4387, DM:2499 *);
  (0x2045, {| view := 0x2045; layout := []; reply := 0x2045; does := Complete |}) (* LE_PERIODIC_ADVERTISING_CREATE_SYNC_CANCEL, DM:4389, DM:2516 *);
  (0x2046, {| view := 0x2046; layout := [Fix 2]; reply := 0x2046; does := Complete |}) (* LE_PERIODIC_ADVERTISING_TERMINATE_SYNC, DM:4391, DM:2527 *);
  (0x2047, {| view := 0x2047; layout := [Fix 8]; reply := 0x2047; does := Complete |}) (* LE_ADD_DEVICE_TO_PERIODIC_ADVERTISER_LIST, DM:4393, DM:2540 *);
  (0x2048, {| view := 0x2048; layout := [Fix 8]; reply := 0x2048; does := Complete |}) (* LE_REMOVE_DEVICE_FROM_PERIODIC_ADVERTISER_LIST, DM:4395, DM:2556 *);
  (0x2049, {| view := 0x2049; layout := []; reply := 0x2049; does := Complete |}) (* LE_CLEAR_PERIODIC_ADVERTISER_LIST, DM:4397, DM:2572 *);
  (0x204a, {| view := 0x204a; layout := []; reply := 0x204a; does := Complete |}) (* LE_READ_PERIODIC_ADVERTISER_LIST_SIZE, DM:4399, DM:2583 *);
  (0x204b, {| view := 0x204b; layout := []; reply := 0x204b; does := Complete |}) (* LE_READ_TRANSMIT_POWER, DM:4401, DM:2653 *);
  (0x204e, {| view := 0x204e; layout := [Fix 8]; reply := 0x204e; does := Complete |}) (* LE_SET_PRIVACY_MODE, DM:4407, DM:2663 *);
  (0x2060, {| view := 0x2060; layout := []; reply := 0x2060; does := Complete |}) (* LE_READ_BUFFER_SIZE_V2, DM:4441, DM:1590 *);
  (0x2062, {| view := 0x2062; layout := []; reply := 0x2062; does := ToLayer |}) (* LE_SET_CIG_PARAMETERS, DM:4443, DM:130 *);
  (0x2063, {| view := 0x2063; layout := []; reply := 0x2063; does := ToLayer |}) (* LE_SET_CIG_PARAMETERS_TEST, DM:4444, DM:130 *);
  (0x2064, {| view := 0x2064; layout := []; reply := 0x2064; does := ToLayer |}) (* LE_CREATE_CIS, DM:4445, DM:130 *);
  (0x2065, {| view := 0x2065; layout := []; reply := 0x2065; does := ToLayer |}) (* LE_REMOVE_CIG, DM:4446, DM:130 *);
  (0x2066, {| view := 0x2066; layout := []; reply := 0x2066; does := ToLayer |}) (* LE_ACCEPT_CIS_REQUEST, DM:4447, DM:130 *);
  (0x2067, {| view := 0x2067; layout := []; reply := 0x2067; does := ToLayer |}) (* LE_REJECT_CIS_REQUEST, DM:4448, DM:130 *);
  (0x2068, {| view := 0x2068; layout := []; reply := 0x2068; does := ToLayer |}) (* LE_CREATE_BIG, DM:4449, DM:130 *);
  (0x206a, {| view := 0x206a; layout := []; reply := 0x206a; does := ToLayer |}) (* LE_TERMINATE_BIG, DM:4451, DM:130 *);
  (0x206d, {| view := 0x206d; layout := [Fix 2]; reply := 0x206d; does := AsksClock |}) (* LE_REQUEST_PEER_SCA, DM:4454, DM:1530 *);
  (0x206e, {| view := 0x206e; layout := []; reply := 0x206e; does := ToLayer |}) (* LE_SETUP_ISO_DATA_PATH, DM:4455, DM:130 *);
  (0x206f, {| view := 0x206f; layout := []; reply := 0x206f; does := ToLayer |}) (* LE_REMOVE_ISO_DATA_PATH, DM:4456, DM:130 *);
  (0x2074, {| view := 0x2074; layout := [Fix 2]; reply := 0x2074; does := Complete |}) (* LE_SET_HOST_FEATURE_V1, DM:4463, DM:1561 *);
  (0x2076, {| view := 0x2076; layout := [Fix 3]; reply := 0x2076; does := Complete |}) (* LE_ENHANCED_READ_TRANSMIT_POWER_LEVEL, DM:4466, DM:1607 *);
  (0x2077, {| view := 0x2077; layout := [Fix 3]; reply := 0x2077; does := Status |}) (* LE_READ_REMOTE_TRANSMIT_POWER_LEVEL, DM:4468, DM:1626 *);
  (0x207a, {| view := 0x207a; layout := [Fix 4]; reply := 0x207a; does := Complete |}) (* LE_SET_TRANSMIT_POWER_REPORTING_ENABLE, DM:4475, DM:1641 *);
  (0x207d, {| view := 0x207d; layout := [Fix 10]; reply := 0x207d; does := Complete |}) (* LE_SET_DEFAULT_SUBRATE, DM:4481, DM:1657 *);
  (0x207e, {| view := 0x207e; layout := [Fix 12]; reply := 0x207e; does := Status |}) (* LE_SUBRATE_REQUEST, DM:4482, DM:1670 *);
  (0x2089, {| view := 0x2089; layout := []; reply := 0x2089; does := Complete |}) (* LE_CS_READ_LOCAL_SUPPORTED_CAPABILITIES, DM:4502, DM:1684 *);
  (0x208a, {| view := 0x208a; layout := [Fix 2]; reply := 0x208a; does := Status |}) (* LE_CS_READ_REMOTE_SUPPORTED_CAPABILITIES, DM:4504, DM:1714 *);
  (0x208b, {| view := 0x208b; layout := [Fix 30]; reply := 0x208b; does := Complete |}) (* LE_CS_WRITE_CACHED_REMOTE_SUPPORTED_CAPABILITIES, DM:4506, DM:1727 *);
  (0x208c, {| view := 0x208c; layout := [Fix 2]; reply := 0x208c; does := Status |}) (* LE_CS_SECURITY_ENABLE, DM:4508, DM:1840 *);
  (0x208d, {| view := 0x208d; layout := [Fix 5]; reply := 0x208d; does := Complete |}) (* LE_CS_SET_DEFAULT_SETTINGS, DM:4509, DM:1753 *);
  (0x208e, {| view := 0x208e; layout := [Fix 2]; reply := 0x208e; does := Status |}) (* LE_CS_READ_REMOTE_FAE_TABLE, DM:4510, DM:1769 *);
  (0x208f, {| view := 0x208f; layout := [Fix 74]; reply := 0x208f; does := Complete |}) (* LE_CS_WRITE_CACHED_REMOTE_FAE_TABLE, DM:4511, DM:1782 *);
  (0x2090, {| view := 0x2090; layout := [Fix 28]; reply := 0x2090; does := Status |}) (* LE_CS_CREATE_CONFIG, DM:4513, DM:1796 *);
  (0x2091, {| view := 0x2091; layout := [Fix 3]; reply := 0x2091; does := Status |}) (* LE_CS_REMOVE_CONFIG, DM:4514, DM:1816 *);
  (0x2092, {| view := 0x2092; layout := [Fix 10]; reply := 0x2092; does := Complete |}) (* LE_CS_SET_CHANNEL_CLASSIFICATION, DM:4515, DM:1828 *);
  (0x2093, {| view := 0x2093; layout := [Fix 23]; reply := 0x2093; does := Complete |}) (* LE_CS_SET_PROCEDURE_PARAMETERS, DM:4517, DM:1852 *);
  (0x2094, {| view := 0x2094; layout := [Fix 4]; reply := 0x2094; does := Status |}) (* LE_CS_PROCEDURE_ENABLE, DM:4518, DM:1872 *);
  (0xfc00, {| view := 0xfc00; layout := []; reply := 0xfc00; does := Csr |}) (* CSR_OPCODE, DM:4534, DM:3126 *);
  (0xfc01, {| view := 0xfc01; layout := [Fix 1; Any]; reply := 0xfc01; does := Injects |}) (* ROOTCANAL_OPCODE, DM:4535, DM:2756 *);
  (0xfd53, {| view := 0xfd53; layout := []; reply := 0xfd53; does := Capabilities |}) (* LE_GET_VENDOR_CAPABILITIES, DM:4536, DM:2803 *);
  (0xfd56, {| view := 0xfd56; layout := [Fix 1; Any]; reply := 0xfd56; does := Refused |}) (* LE_BATCH_SCAN, DM:4537, DM:2840 *);
  (0xfd57, {| view := 0xfd57; layout := [Fix 1; Any]; reply := 0xfd57; does := Apcf |}) (* LE_APCF, DM:4538, DM:2846 *);
  (0xfd59, {| view := 0xfd59; layout := []; reply := 0xfd59; does := Refused |}) (* LE_GET_CONTROLLER_ACTIVITY_ENERGY_INFO, DM:4539, DM:3101 *);
  (0xfd5a, {| view := 0xfd5a; layout := [Fix 11]; reply := 0xfd5a; does := Refused |}) (* LE_EX_SET_SCAN_PARAMETERS, DM:4541, DM:3107 *);
  (0xfd5b, {| view := 0xfd5b; layout := []; reply := 0xfd5b; does := Complete |}) (* GET_CONTROLLER_DEBUG_INFO, DM:4542, DM:3113 *);
  (0xfc8c, {| view := 0xfc8c; layout := []; reply := 0xfc8c; does := IntelRead |}) (* INTEL_DDC_CONFIG_READ, DM:4543, DM:3510 *);
  (0xfc8b, {| view := 0xfc8b; layout := []; reply := 0xfc8b; does := IntelWrite |}) (* INTEL_DDC_CONFIG_WRITE, DM:4544, DM:3534 *)
].

(** The list of SupportedCommands(), CP:135-463. *)
Definition advertised : list N := [
  0 (* INQUIRY, CP:135 *);
  1 (* INQUIRY_CANCEL, CP:136 *);
  4 (* CREATE_CONNECTION, CP:139 *);
  5 (* DISCONNECT, CP:140 *);
  6 (* ADD_SCO_CONNECTION, CP:141 *);
  7 (* CREATE_CONNECTION_CANCEL, CP:142 *);
  10 (* ACCEPT_CONNECTION_REQUEST, CP:143 *);
  11 (* REJECT_CONNECTION_REQUEST, CP:144 *);
  12 (* LINK_KEY_REQUEST_REPLY, CP:145 *);
  13 (* LINK_KEY_REQUEST_NEGATIVE_REPLY, CP:146 *);
  14 (* PIN_CODE_REQUEST_REPLY, CP:147 *);
  15 (* PIN_CODE_REQUEST_NEGATIVE_REPLY, CP:148 *);
  16 (* CHANGE_CONNECTION_PACKET_TYPE, CP:149 *);
  17 (* AUTHENTICATION_REQUESTED, CP:150 *);
  20 (* SET_CONNECTION_ENCRYPTION, CP:151 *);
  21 (* CHANGE_CONNECTION_LINK_KEY, CP:152 *);
  22 (* CENTRAL_LINK_KEY, CP:153 *);
  23 (* REMOTE_NAME_REQUEST, CP:154 *);
  25 (* READ_REMOTE_SUPPORTED_FEATURES, CP:156 *);
  26 (* READ_REMOTE_EXTENDED_FEATURES, CP:157 *);
  27 (* READ_REMOTE_VERSION_INFORMATION, CP:158 *);
  30 (* READ_CLOCK_OFFSET, CP:159 *);
  31 (* READ_LMP_HANDLE, CP:160 *);
  163 (* SETUP_SYNCHRONOUS_CONNECTION, CP:161 *);
  164 (* ACCEPT_SYNCHRONOUS_CONNECTION, CP:162 *);
  165 (* REJECT_SYNCHRONOUS_CONNECTION, CP:163 *);
  187 (* IO_CAPABILITY_REQUEST_REPLY, CP:164 *);
  190 (* USER_CONFIRMATION_REQUEST_REPLY, CP:165 *);
  191 (* USER_CONFIRMATION_REQUEST_NEGATIVE_REPLY, CP:166 *);
  192 (* USER_PASSKEY_REQUEST_REPLY, CP:167 *);
  193 (* USER_PASSKEY_REQUEST_NEGATIVE_REPLY, CP:168 *);
  194 (* REMOTE_OOB_DATA_REQUEST_REPLY, CP:169 *);
  197 (* REMOTE_OOB_DATA_REQUEST_NEGATIVE_REPLY, CP:170 *);
  203 (* IO_CAPABILITY_REQUEST_NEGATIVE_REPLY, CP:171 *);
  293 (* ENHANCED_SETUP_SYNCHRONOUS_CONNECTION, CP:172 *);
  294 (* ENHANCED_ACCEPT_SYNCHRONOUS_CONNECTION, CP:173 *);
  321 (* REMOTE_OOB_EXTENDED_DATA_REQUEST_REPLY, CP:180 *);
  41 (* HOLD_MODE, CP:183 *);
  42 (* SNIFF_MODE, CP:184 *);
  43 (* EXIT_SNIFF_MODE, CP:185 *);
  46 (* QOS_SETUP, CP:186 *);
  47 (* ROLE_DISCOVERY, CP:187 *);
  50 (* SWITCH_ROLE, CP:188 *);
  51 (* READ_LINK_POLICY_SETTINGS, CP:189 *);
  52 (* WRITE_LINK_POLICY_SETTINGS, CP:190 *);
  53 (* READ_DEFAULT_LINK_POLICY_SETTINGS, CP:191 *);
  54 (* WRITE_DEFAULT_LINK_POLICY_SETTINGS, CP:192 *);
  55 (* FLOW_SPECIFICATION, CP:193 *);
  174 (* SNIFF_SUBRATING, CP:194 *);
  56 (* SET_EVENT_MASK, CP:197 *);
  57 (* RESET, CP:198 *);
  60 (* SET_EVENT_FILTER, CP:199 *);
  61 (* FLUSH, CP:200 *);
  67 (* DELETE_STORED_LINK_KEY, CP:205 *);
  70 (* WRITE_LOCAL_NAME, CP:206 *);
  71 (* READ_LOCAL_NAME, CP:207 *);
  72 (* READ_CONNECTION_ACCEPT_TIMEOUT, CP:208 *);
  73 (* WRITE_CONNECTION_ACCEPT_TIMEOUT, CP:209 *);
  74 (* READ_PAGE_TIMEOUT, CP:210 *);
  75 (* WRITE_PAGE_TIMEOUT, CP:211 *);
  76 (* READ_SCAN_ENABLE, CP:212 *);
  77 (* WRITE_SCAN_ENABLE, CP:213 *);
  80 (* READ_PAGE_SCAN_ACTIVITY, CP:214 *);
  81 (* WRITE_PAGE_SCAN_ACTIVITY, CP:215 *);
  82 (* READ_INQUIRY_SCAN_ACTIVITY, CP:216 *);
  83 (* WRITE_INQUIRY_SCAN_ACTIVITY, CP:217 *);
  84 (* READ_AUTHENTICATION_ENABLE, CP:218 *);
  85 (* WRITE_AUTHENTICATION_ENABLE, CP:219 *);
  90 (* READ_CLASS_OF_DEVICE, CP:220 *);
  91 (* WRITE_CLASS_OF_DEVICE, CP:221 *);
  92 (* READ_VOICE_SETTING, CP:222 *);
  93 (* WRITE_VOICE_SETTING, CP:223 *);
  94 (* READ_AUTOMATIC_FLUSH_TIMEOUT, CP:224 *);
  95 (* WRITE_AUTOMATIC_FLUSH_TIMEOUT, CP:225 *);
  100 (* READ_HOLD_MODE_ACTIVITY, CP:228 *);
  101 (* WRITE_HOLD_MODE_ACTIVITY, CP:229 *);
  102 (* READ_TRANSMIT_POWER_LEVEL, CP:230 *);
  103 (* READ_SYNCHRONOUS_FLOW_CONTROL_ENABLE, CP:231 *);
  104 (* WRITE_SYNCHRONOUS_FLOW_CONTROL_ENABLE, CP:232 *);
  105 (* SET_CONTROLLER_TO_HOST_FLOW_CONTROL, CP:233 *);
  106 (* HOST_BUFFER_SIZE, CP:234 *);
  107 (* HOST_NUMBER_OF_COMPLETED_PACKETS, CP:235 *);
  110 (* READ_LINK_SUPERVISION_TIMEOUT, CP:236 *);
  111 (* WRITE_LINK_SUPERVISION_TIMEOUT, CP:237 *);
  112 (* READ_NUMBER_OF_SUPPORTED_IAC, CP:238 *);
  113 (* READ_CURRENT_IAC_LAP, CP:239 *);
  114 (* WRITE_CURRENT_IAC_LAP, CP:240 *);
  121 (* SET_AFH_HOST_CHANNEL_CLASSIFICATION, CP:241 *);
  124 (* READ_INQUIRY_SCAN_TYPE, CP:242 *);
  125 (* WRITE_INQUIRY_SCAN_TYPE, CP:243 *);
  126 (* READ_INQUIRY_MODE, CP:244 *);
  127 (* WRITE_INQUIRY_MODE, CP:245 *);
  130 (* READ_PAGE_SCAN_TYPE, CP:246 *);
  131 (* WRITE_PAGE_SCAN_TYPE, CP:247 *);
  132 (* READ_AFH_CHANNEL_ASSESSMENT_MODE, CP:248 *);
  133 (* WRITE_AFH_CHANNEL_ASSESSMENT_MODE, CP:249 *);
  170 (* READ_EXTENDED_INQUIRY_RESPONSE, CP:250 *);
  171 (* WRITE_EXTENDED_INQUIRY_RESPONSE, CP:251 *);
  172 (* REFRESH_ENCRYPTION_KEY, CP:252 *);
  175 (* READ_SIMPLE_PAIRING_MODE, CP:253 *);
  176 (* WRITE_SIMPLE_PAIRING_MODE, CP:254 *);
  177 (* READ_LOCAL_OOB_DATA, CP:255 *);
  180 (* READ_INQUIRY_RESPONSE_TRANSMIT_POWER_LEVEL, CP:256 *);
  181 (* WRITE_INQUIRY_TRANSMIT_POWER_LEVEL, CP:257 *);
  196 (* ENHANCED_FLUSH, CP:260 *);
  202 (* SEND_KEYPRESS_NOTIFICATION, CP:261 *);
  222 (* SET_EVENT_MASK_PAGE_2, CP:262 *);
  240 (* READ_ENHANCED_TRANSMIT_POWER_LEVEL, CP:265 *);
  245 (* READ_LE_HOST_SUPPORT, CP:266 *);
  246 (* WRITE_LE_HOST_SUPPORT, CP:267 *);
  322 (* READ_SECURE_CONNECTIONS_HOST_SUPPORT, CP:279 *);
  323 (* WRITE_SECURE_CONNECTIONS_HOST_SUPPORT, CP:280 *);
  324 (* READ_AUTHENTICATED_PAYLOAD_TIMEOUT, CP:281 *);
  325 (* WRITE_AUTHENTICATED_PAYLOAD_TIMEOUT, CP:282 *);
  326 (* READ_LOCAL_OOB_EXTENDED_DATA, CP:283 *);
  143 (* READ_LOCAL_VERSION_INFORMATION, CP:293 *);
  145 (* READ_LOCAL_SUPPORTED_FEATURES, CP:294 *);
  146 (* READ_LOCAL_EXTENDED_FEATURES, CP:295 *);
  147 (* READ_BUFFER_SIZE, CP:296 *);
  151 (* READ_BD_ADDR, CP:297 *);
  295 (* READ_LOCAL_SUPPORTED_CODECS_V1, CP:299 *);
  152 (* READ_FAILED_CONTACT_COUNTER, CP:306 *);
  153 (* RESET_FAILED_CONTACT_COUNTER, CP:307 *);
  155 (* READ_RSSI, CP:309 *);
  156 (* READ_AFH_CHANNEL_MAP, CP:310 *);
  204 (* READ_ENCRYPTION_KEY_SIZE, CP:312 *);
  160 (* READ_LOOPBACK_MODE, CP:317 *);
  161 (* WRITE_LOOPBACK_MODE, CP:318 *);
  162 (* ENABLE_IMPLEMENTATION_UNDER_TEST_MODE, CP:319 *);
  195 (* WRITE_SIMPLE_PAIRING_DEBUG_MODE, CP:320 *);
  327 (* WRITE_SECURE_CONNECTIONS_TEST_MODE, CP:321 *);
  250 (* LE_SET_EVENT_MASK, CP:324 *);
  251 (* LE_READ_BUFFER_SIZE_V1, CP:325 *);
  252 (* LE_READ_LOCAL_SUPPORTED_FEATURES_PAGE_0, CP:326 *);
  254 (* LE_SET_RANDOM_ADDRESS, CP:327 *);
  255 (* LE_SET_ADVERTISING_PARAMETERS, CP:328 *);
  256 (* LE_READ_ADVERTISING_PHYSICAL_CHANNEL_TX_POWER, CP:329 *);
  257 (* LE_SET_ADVERTISING_DATA, CP:330 *);
  260 (* LE_SET_SCAN_RESPONSE_DATA, CP:331 *);
  261 (* LE_SET_ADVERTISING_ENABLE, CP:332 *);
  262 (* LE_SET_SCAN_PARAMETERS, CP:333 *);
  263 (* LE_SET_SCAN_ENABLE, CP:334 *);
  264 (* LE_CREATE_CONNECTION, CP:335 *);
  265 (* LE_CREATE_CONNECTION_CANCEL, CP:336 *);
  266 (* LE_READ_FILTER_ACCEPT_LIST_SIZE, CP:337 *);
  267 (* LE_CLEAR_FILTER_ACCEPT_LIST, CP:338 *);
  270 (* LE_ADD_DEVICE_TO_FILTER_ACCEPT_LIST, CP:339 *);
  271 (* LE_REMOVE_DEVICE_FROM_FILTER_ACCEPT_LIST, CP:340 *);
  272 (* LE_CONNECTION_UPDATE, CP:341 *);
  273 (* LE_SET_HOST_CHANNEL_CLASSIFICATION, CP:342 *);
  274 (* LE_READ_CHANNEL_MAP, CP:343 *);
  275 (* LE_READ_REMOTE_FEATURES_PAGE_0, CP:344 *);
  276 (* LE_ENCRYPT, CP:345 *);
  277 (* LE_RAND, CP:346 *);
  280 (* LE_START_ENCRYPTION, CP:347 *);
  281 (* LE_LONG_TERM_KEY_REQUEST_REPLY, CP:348 *);
  282 (* LE_LONG_TERM_KEY_REQUEST_NEGATIVE_REPLY, CP:349 *);
  283 (* LE_READ_SUPPORTED_STATES, CP:350 *);
  284 (* LE_RECEIVER_TEST_V1, CP:351 *);
  285 (* LE_TRANSMITTER_TEST_V1, CP:352 *);
  286 (* LE_TEST_END, CP:353 *);
  334 (* LE_REMOTE_CONNECTION_PARAMETER_REQUEST_REPLY, CP:354 *);
  335 (* LE_REMOTE_CONNECTION_PARAMETER_REQUEST_NEGATIVE_REPLY, CP:355 *);
  336 (* LE_SET_DATA_LENGTH, CP:356 *);
  337 (* LE_READ_SUGGESTED_DEFAULT_DATA_LENGTH, CP:357 *);
  340 (* LE_WRITE_SUGGESTED_DEFAULT_DATA_LENGTH, CP:358 *);
  341 (* LE_READ_LOCAL_P_256_PUBLIC_KEY, CP:359 *);
  343 (* LE_ADD_DEVICE_TO_RESOLVING_LIST, CP:361 *);
  344 (* LE_REMOVE_DEVICE_FROM_RESOLVING_LIST, CP:362 *);
  345 (* LE_CLEAR_RESOLVING_LIST, CP:363 *);
  346 (* LE_READ_RESOLVING_LIST_SIZE, CP:364 *);
  347 (* LE_READ_PEER_RESOLVABLE_ADDRESS, CP:365 *);
  350 (* LE_READ_LOCAL_RESOLVABLE_ADDRESS, CP:366 *);
  351 (* LE_SET_ADDRESS_RESOLUTION_ENABLE, CP:367 *);
  352 (* LE_SET_RESOLVABLE_PRIVATE_ADDRESS_TIMEOUT, CP:368 *);
  353 (* LE_READ_MAXIMUM_DATA_LENGTH, CP:369 *);
  354 (* LE_READ_PHY, CP:370 *);
  355 (* LE_SET_DEFAULT_PHY, CP:371 *);
  356 (* LE_SET_PHY, CP:372 *);
  361 (* LE_SET_ADVERTISING_SET_RANDOM_ADDRESS, CP:375 *);
  362 (* LE_SET_EXTENDED_ADVERTISING_PARAMETERS_V1, CP:376 *);
  363 (* LE_SET_EXTENDED_ADVERTISING_DATA, CP:377 *);
  364 (* LE_SET_EXTENDED_SCAN_RESPONSE_DATA, CP:378 *);
  365 (* LE_SET_EXTENDED_ADVERTISING_ENABLE, CP:379 *);
  366 (* LE_READ_MAXIMUM_ADVERTISING_DATA_LENGTH, CP:380 *);
  367 (* LE_READ_NUMBER_OF_SUPPORTED_ADVERTISING_SETS, CP:381 *);
  370 (* LE_REMOVE_ADVERTISING_SET, CP:382 *);
  371 (* LE_CLEAR_ADVERTISING_SETS, CP:383 *);
  372 (* LE_SET_PERIODIC_ADVERTISING_PARAMETERS_V1, CP:384 *);
  373 (* LE_SET_PERIODIC_ADVERTISING_DATA, CP:385 *);
  374 (* LE_SET_PERIODIC_ADVERTISING_ENABLE, CP:386 *);
  375 (* LE_SET_EXTENDED_SCAN_PARAMETERS, CP:387 *);
  376 (* LE_SET_EXTENDED_SCAN_ENABLE, CP:388 *);
  377 (* LE_EXTENDED_CREATE_CONNECTION_V1, CP:389 *);
  380 (* LE_PERIODIC_ADVERTISING_CREATE_SYNC, CP:390 *);
  381 (* LE_PERIODIC_ADVERTISING_CREATE_SYNC_CANCEL, CP:391 *);
  382 (* LE_PERIODIC_ADVERTISING_TERMINATE_SYNC, CP:392 *);
  383 (* LE_ADD_DEVICE_TO_PERIODIC_ADVERTISER_LIST, CP:393 *);
  384 (* LE_REMOVE_DEVICE_FROM_PERIODIC_ADVERTISER_LIST, CP:394 *);
  385 (* LE_CLEAR_PERIODIC_ADVERTISER_LIST, CP:395 *);
  386 (* LE_READ_PERIODIC_ADVERTISER_LIST_SIZE, CP:396 *);
  387 (* LE_READ_TRANSMIT_POWER, CP:397 *);
  390 (* LE_READ_RF_PATH_COMPENSATION_POWER, CP:398 *);
  391 (* LE_WRITE_RF_PATH_COMPENSATION_POWER, CP:400 *);
  392 (* LE_SET_PRIVACY_MODE, CP:401 *);
  415 (* LE_READ_BUFFER_SIZE_V2, CP:419 *);
  417 (* LE_SET_CIG_PARAMETERS, CP:421 *);
  420 (* LE_SET_CIG_PARAMETERS_TEST, CP:422 *);
  421 (* LE_CREATE_CIS, CP:423 *);
  422 (* LE_REMOVE_CIG, CP:424 *);
  423 (* LE_ACCEPT_CIS_REQUEST, CP:425 *);
  424 (* LE_REJECT_CIS_REQUEST, CP:426 *);
  432 (* LE_REQUEST_PEER_SCA, CP:432 *);
  433 (* LE_SETUP_ISO_DATA_PATH, CP:433 *);
  434 (* LE_REMOVE_ISO_DATA_PATH, CP:434 *);
  441 (* LE_SET_HOST_FEATURE_V1, CP:439 *);
  443 (* LE_ENHANCED_READ_TRANSMIT_POWER_LEVEL, CP:441 *);
  444 (* LE_READ_REMOTE_TRANSMIT_POWER_LEVEL, CP:442 *);
  447 (* LE_SET_TRANSMIT_POWER_REPORTING_ENABLE, CP:445 *);
  450 (* LE_TRANSMITTER_TEST_V4, CP:446 *);
  460 (* LE_SET_DEFAULT_SUBRATE, CP:448 *);
  461 (* LE_SUBRATE_REQUEST, CP:449 *);
  205 (* LE_CS_READ_LOCAL_SUPPORTED_CAPABILITIES, CP:450 *);
  206 (* LE_CS_READ_REMOTE_SUPPORTED_CAPABILITIES, CP:451 *);
  207 (* LE_CS_WRITE_CACHED_REMOTE_SUPPORTED_CAPABILITIES, CP:452 *);
  241 (* LE_CS_SECURITY_ENABLE, CP:453 *);
  247 (* LE_CS_SET_DEFAULT_SETTINGS, CP:454 *);
  122 (* LE_CS_READ_REMOTE_FAE_TABLE, CP:455 *);
  123 (* LE_CS_WRITE_CACHED_REMOTE_FAE_TABLE, CP:456 *);
  166 (* LE_CS_CREATE_CONFIG, CP:457 *);
  167 (* LE_CS_REMOVE_CONFIG, CP:458 *);
  290 (* LE_CS_SET_CHANNEL_CLASSIFICATION, CP:459 *);
  291 (* LE_CS_SET_PROCEDURE_PARAMETERS, CP:460 *);
  292 (* LE_CS_PROCEDURE_ENABLE, CP:461 *);
  233 (* LE_CS_TEST, CP:462 *);
  234 (* LE_CS_TEST_END, CP:463 *)
].
