(** State of the LE controller: the records of model/controller/le_controller.h
    and model/controller/le_advertiser.h, the packets it puts on the air and the
    events it sends to the host. Each record comes with one update function per
    field, [with_f v r], which stands for the assignment [r.f = v].
    Times are in microseconds; intervals are in slots of 625 microseconds
    (le_advertiser.h:30-31). Enumeration parameters hold declared values only. *)
From Verif Require Import Prelude Address Rpa Table.
Open Scope N_scope.

(** packets/hci_packets.pdl ErrorCode, the values returned by the commands below *)
Inductive status :=
| SUCCESS
| UNKNOWN_CONNECTION           (* 0x02 *)
| MEMORY_CAPACITY_EXCEEDED     (* 0x07 *)
| CONNECTION_ALREADY_EXISTS    (* 0x0b *)
| COMMAND_DISALLOWED           (* 0x0c *)
| UNSUPPORTED_PARAMETER        (* 0x11 UNSUPPORTED_FEATURE_OR_PARAMETER_VALUE *)
| INVALID_PARAMETERS           (* 0x12 INVALID_HCI_COMMAND_PARAMETERS *)
| ADVERTISING_TIMEOUT          (* 0x3c *)
| UNKNOWN_ADVERTISING_ID       (* 0x42 UNKNOWN_ADVERTISING_IDENTIFIER *)
| OPERATION_CANCELLED          (* 0x44 OPERATION_CANCELLED_BY_HOST *)
| CONNECTION_FAILED            (* 0x3e CONNECTION_FAILED_ESTABLISHMENT *)
| PACKET_TOO_LONG.             (* 0x45 *)

(** packets/hci_packets.pdl:3269-3274 AdvertisingFilterPolicy *)
Inductive adv_policy := ALL_DEVICES | LISTED_SCAN | LISTED_CONNECT | LISTED_SCAN_AND_CONNECT.
(** packets/hci_packets.pdl:3281-3287 AdvertisingType *)
Inductive adv_type := ADV_IND | ADV_DIRECT_IND_HIGH | ADV_SCAN_IND | ADV_NONCONN_IND | ADV_DIRECT_IND_LOW.
(** packets/hci_packets.pdl:3296-3301 OwnAddressType *)
Inductive own_type := OWN_PUBLIC | OWN_RANDOM | OWN_RPA_OR_PUBLIC | OWN_RPA_OR_RANDOM.
(** packets/hci_packets.pdl:3355-3358 LeScanType *)
Inductive scan_kind := PASSIVE | ACTIVE.
(** packets/hci_packets.pdl:3360-3365 LeScanningFilterPolicy *)
Inductive scan_policy := ACCEPT_ALL | ACCEPT_LIST_ONLY | CHECK_IDENTITY | ACCEPT_LIST_AND_IDENTITY.
(** packets/hci_packets.pdl:3396-3401 InitiatorFilterPolicy *)
Inductive init_policy := USE_PEER_ADDRESS | USE_ACCEPT_LIST | USE_DECISION_PDUS | USE_LIST_AND_DECISION.
(** packets/hci_packets.pdl:3451-3455 FilterAcceptListAddressType *)
Inductive accept_type := ACCEPT_PUBLIC | ACCEPT_RANDOM | ACCEPT_ANONYMOUS.
(** packets/hci_packets.pdl:3914-3917 PrimaryPhyType *)
Inductive primary_phy := PRIMARY_1M | PRIMARY_CODED.
(** packets/hci_packets.pdl:3919-3924 SecondaryPhyType *)
Inductive secondary_phy := SECONDARY_NONE | SECONDARY_1M | SECONDARY_2M | SECONDARY_CODED.
(** packets/hci_packets.pdl:3991-3997 Operation *)
Inductive operation := INTERMEDIATE | FIRST | LAST | COMPLETE | UNCHANGED.
(** packets/hci_packets.pdl:4193-4197 FilterDuplicates *)
Inductive duplicates := DUP_DISABLED | DUP_ENABLED | DUP_RESET_EACH_PERIOD.
(** packets/link_layer_packets.pdl:157-162 LegacyAdvertisingType *)
Inductive legacy_pdu := PDU_IND | PDU_DIRECT | PDU_SCAN | PDU_NONCONN.

(** packets/hci_packets.pdl:3900-3910 AdvertisingEventProperties *)
Record adv_props := Props {
  connectable : bool;
  scannable : bool;
  directed : bool;
  high_duty : bool;
  legacy_pdus : bool;
  anonymous : bool;
  tx_power : bool
}.
Definition with_connectable (v : bool) (r : adv_props) : adv_props :=
  Props v (scannable r) (directed r) (high_duty r) (legacy_pdus r) (anonymous r) (tx_power r).
Definition with_scannable (v : bool) (r : adv_props) : adv_props :=
  Props (connectable r) v (directed r) (high_duty r) (legacy_pdus r) (anonymous r) (tx_power r).
Definition with_directed (v : bool) (r : adv_props) : adv_props :=
  Props (connectable r) (scannable r) v (high_duty r) (legacy_pdus r) (anonymous r) (tx_power r).
Definition with_high_duty (v : bool) (r : adv_props) : adv_props :=
  Props (connectable r) (scannable r) (directed r) v (legacy_pdus r) (anonymous r) (tx_power r).
Definition with_legacy_pdus (v : bool) (r : adv_props) : adv_props :=
  Props (connectable r) (scannable r) (directed r) (high_duty r) v (anonymous r) (tx_power r).
Definition with_anonymous (v : bool) (r : adv_props) : adv_props :=
  Props (connectable r) (scannable r) (directed r) (high_duty r) (legacy_pdus r) v (tx_power r).
Definition with_tx_power (v : bool) (r : adv_props) : adv_props :=
  Props (connectable r) (scannable r) (directed r) (high_duty r) (legacy_pdus r) (anonymous r) v.


(** le_advertiser.h:122-140: one of the data buffers of an advertising set, with
    its partial_..._data flag *)
Record buffer := Buffer {
  bytes : list N;
  partial : bool
}.
Definition with_bytes (v : list N) (r : buffer) : buffer :=
  Buffer v (partial r).
Definition with_partial (v : bool) (r : buffer) : buffer :=
  Buffer (bytes r) v.


(** le_advertiser.h:103-178 ExtendedAdvertiser with its base class (le_advertiser.h:39-61).
    Not modelled: secondary_max_skip, which nothing reads, and
    constant_tone_extensions, which nothing sets. *)
Record adv_set := AdvSet {
  set_handle : N;
  props : adv_props;
  interval : N; (* slots *)
  channel_map : N;
  own : own_type;
  peer_kind : peer_type;
  peer : list N;
  set_random : option (list N);
  policy : adv_policy;
  power : N;
  primary : primary_phy;
  secondary : secondary_phy;
  sid : N;
  scan_notify : bool;
  adv_data : buffer;
  scan_data : buffer;
  periodic_on : bool; (* periodic_advertising_enable *)
  periodic_latch : bool; (* periodic_advertising_enable_latch *)
  periodic_interval : N; (* slots *)
  periodic_data : buffer;
  next_periodic : N;
  max_events : N;
  num_events : N;
  enabled : bool;
  adv_address : address_with_type;
  target : address_with_type;
  next_event : N;
  timeout : option N
}.
Definition with_set_handle (v : N) (r : adv_set) : adv_set :=
  AdvSet v (props r) (interval r) (channel_map r) (own r) (peer_kind r) (peer r) (set_random r) (policy r) (power r) (primary r) (secondary r) (sid r) (scan_notify r) (adv_data r) (scan_data r) (periodic_on r) (periodic_latch r) (periodic_interval r) (periodic_data r) (next_periodic r) (max_events r) (num_events r) (enabled r) (adv_address r) (target r) (next_event r) (timeout r).
Definition with_props (v : adv_props) (r : adv_set) : adv_set :=
  AdvSet (set_handle r) v (interval r) (channel_map r) (own r) (peer_kind r) (peer r) (set_random r) (policy r) (power r) (primary r) (secondary r) (sid r) (scan_notify r) (adv_data r) (scan_data r) (periodic_on r) (periodic_latch r) (periodic_interval r) (periodic_data r) (next_periodic r) (max_events r) (num_events r) (enabled r) (adv_address r) (target r) (next_event r) (timeout r).
Definition with_interval (v : N) (r : adv_set) : adv_set :=
  AdvSet (set_handle r) (props r) v (channel_map r) (own r) (peer_kind r) (peer r) (set_random r) (policy r) (power r) (primary r) (secondary r) (sid r) (scan_notify r) (adv_data r) (scan_data r) (periodic_on r) (periodic_latch r) (periodic_interval r) (periodic_data r) (next_periodic r) (max_events r) (num_events r) (enabled r) (adv_address r) (target r) (next_event r) (timeout r).
Definition with_channel_map (v : N) (r : adv_set) : adv_set :=
  AdvSet (set_handle r) (props r) (interval r) v (own r) (peer_kind r) (peer r) (set_random r) (policy r) (power r) (primary r) (secondary r) (sid r) (scan_notify r) (adv_data r) (scan_data r) (periodic_on r) (periodic_latch r) (periodic_interval r) (periodic_data r) (next_periodic r) (max_events r) (num_events r) (enabled r) (adv_address r) (target r) (next_event r) (timeout r).
Definition with_own (v : own_type) (r : adv_set) : adv_set :=
  AdvSet (set_handle r) (props r) (interval r) (channel_map r) v (peer_kind r) (peer r) (set_random r) (policy r) (power r) (primary r) (secondary r) (sid r) (scan_notify r) (adv_data r) (scan_data r) (periodic_on r) (periodic_latch r) (periodic_interval r) (periodic_data r) (next_periodic r) (max_events r) (num_events r) (enabled r) (adv_address r) (target r) (next_event r) (timeout r).
Definition with_peer_kind (v : peer_type) (r : adv_set) : adv_set :=
  AdvSet (set_handle r) (props r) (interval r) (channel_map r) (own r) v (peer r) (set_random r) (policy r) (power r) (primary r) (secondary r) (sid r) (scan_notify r) (adv_data r) (scan_data r) (periodic_on r) (periodic_latch r) (periodic_interval r) (periodic_data r) (next_periodic r) (max_events r) (num_events r) (enabled r) (adv_address r) (target r) (next_event r) (timeout r).
Definition with_peer (v : list N) (r : adv_set) : adv_set :=
  AdvSet (set_handle r) (props r) (interval r) (channel_map r) (own r) (peer_kind r) v (set_random r) (policy r) (power r) (primary r) (secondary r) (sid r) (scan_notify r) (adv_data r) (scan_data r) (periodic_on r) (periodic_latch r) (periodic_interval r) (periodic_data r) (next_periodic r) (max_events r) (num_events r) (enabled r) (adv_address r) (target r) (next_event r) (timeout r).
Definition with_set_random (v : option (list N)) (r : adv_set) : adv_set :=
  AdvSet (set_handle r) (props r) (interval r) (channel_map r) (own r) (peer_kind r) (peer r) v (policy r) (power r) (primary r) (secondary r) (sid r) (scan_notify r) (adv_data r) (scan_data r) (periodic_on r) (periodic_latch r) (periodic_interval r) (periodic_data r) (next_periodic r) (max_events r) (num_events r) (enabled r) (adv_address r) (target r) (next_event r) (timeout r).
Definition with_policy (v : adv_policy) (r : adv_set) : adv_set :=
  AdvSet (set_handle r) (props r) (interval r) (channel_map r) (own r) (peer_kind r) (peer r) (set_random r) v (power r) (primary r) (secondary r) (sid r) (scan_notify r) (adv_data r) (scan_data r) (periodic_on r) (periodic_latch r) (periodic_interval r) (periodic_data r) (next_periodic r) (max_events r) (num_events r) (enabled r) (adv_address r) (target r) (next_event r) (timeout r).
Definition with_power (v : N) (r : adv_set) : adv_set :=
  AdvSet (set_handle r) (props r) (interval r) (channel_map r) (own r) (peer_kind r) (peer r) (set_random r) (policy r) v (primary r) (secondary r) (sid r) (scan_notify r) (adv_data r) (scan_data r) (periodic_on r) (periodic_latch r) (periodic_interval r) (periodic_data r) (next_periodic r) (max_events r) (num_events r) (enabled r) (adv_address r) (target r) (next_event r) (timeout r).
Definition with_primary (v : primary_phy) (r : adv_set) : adv_set :=
  AdvSet (set_handle r) (props r) (interval r) (channel_map r) (own r) (peer_kind r) (peer r) (set_random r) (policy r) (power r) v (secondary r) (sid r) (scan_notify r) (adv_data r) (scan_data r) (periodic_on r) (periodic_latch r) (periodic_interval r) (periodic_data r) (next_periodic r) (max_events r) (num_events r) (enabled r) (adv_address r) (target r) (next_event r) (timeout r).
Definition with_secondary (v : secondary_phy) (r : adv_set) : adv_set :=
  AdvSet (set_handle r) (props r) (interval r) (channel_map r) (own r) (peer_kind r) (peer r) (set_random r) (policy r) (power r) (primary r) v (sid r) (scan_notify r) (adv_data r) (scan_data r) (periodic_on r) (periodic_latch r) (periodic_interval r) (periodic_data r) (next_periodic r) (max_events r) (num_events r) (enabled r) (adv_address r) (target r) (next_event r) (timeout r).
Definition with_sid (v : N) (r : adv_set) : adv_set :=
  AdvSet (set_handle r) (props r) (interval r) (channel_map r) (own r) (peer_kind r) (peer r) (set_random r) (policy r) (power r) (primary r) (secondary r) v (scan_notify r) (adv_data r) (scan_data r) (periodic_on r) (periodic_latch r) (periodic_interval r) (periodic_data r) (next_periodic r) (max_events r) (num_events r) (enabled r) (adv_address r) (target r) (next_event r) (timeout r).
Definition with_scan_notify (v : bool) (r : adv_set) : adv_set :=
  AdvSet (set_handle r) (props r) (interval r) (channel_map r) (own r) (peer_kind r) (peer r) (set_random r) (policy r) (power r) (primary r) (secondary r) (sid r) v (adv_data r) (scan_data r) (periodic_on r) (periodic_latch r) (periodic_interval r) (periodic_data r) (next_periodic r) (max_events r) (num_events r) (enabled r) (adv_address r) (target r) (next_event r) (timeout r).
Definition with_adv_data (v : buffer) (r : adv_set) : adv_set :=
  AdvSet (set_handle r) (props r) (interval r) (channel_map r) (own r) (peer_kind r) (peer r) (set_random r) (policy r) (power r) (primary r) (secondary r) (sid r) (scan_notify r) v (scan_data r) (periodic_on r) (periodic_latch r) (periodic_interval r) (periodic_data r) (next_periodic r) (max_events r) (num_events r) (enabled r) (adv_address r) (target r) (next_event r) (timeout r).
Definition with_scan_data (v : buffer) (r : adv_set) : adv_set :=
  AdvSet (set_handle r) (props r) (interval r) (channel_map r) (own r) (peer_kind r) (peer r) (set_random r) (policy r) (power r) (primary r) (secondary r) (sid r) (scan_notify r) (adv_data r) v (periodic_on r) (periodic_latch r) (periodic_interval r) (periodic_data r) (next_periodic r) (max_events r) (num_events r) (enabled r) (adv_address r) (target r) (next_event r) (timeout r).
Definition with_periodic_on (v : bool) (r : adv_set) : adv_set :=
  AdvSet (set_handle r) (props r) (interval r) (channel_map r) (own r) (peer_kind r) (peer r) (set_random r) (policy r) (power r) (primary r) (secondary r) (sid r) (scan_notify r) (adv_data r) (scan_data r) v (periodic_latch r) (periodic_interval r) (periodic_data r) (next_periodic r) (max_events r) (num_events r) (enabled r) (adv_address r) (target r) (next_event r) (timeout r).
Definition with_periodic_latch (v : bool) (r : adv_set) : adv_set :=
  AdvSet (set_handle r) (props r) (interval r) (channel_map r) (own r) (peer_kind r) (peer r) (set_random r) (policy r) (power r) (primary r) (secondary r) (sid r) (scan_notify r) (adv_data r) (scan_data r) (periodic_on r) v (periodic_interval r) (periodic_data r) (next_periodic r) (max_events r) (num_events r) (enabled r) (adv_address r) (target r) (next_event r) (timeout r).
Definition with_periodic_interval (v : N) (r : adv_set) : adv_set :=
  AdvSet (set_handle r) (props r) (interval r) (channel_map r) (own r) (peer_kind r) (peer r) (set_random r) (policy r) (power r) (primary r) (secondary r) (sid r) (scan_notify r) (adv_data r) (scan_data r) (periodic_on r) (periodic_latch r) v (periodic_data r) (next_periodic r) (max_events r) (num_events r) (enabled r) (adv_address r) (target r) (next_event r) (timeout r).
Definition with_periodic_data (v : buffer) (r : adv_set) : adv_set :=
  AdvSet (set_handle r) (props r) (interval r) (channel_map r) (own r) (peer_kind r) (peer r) (set_random r) (policy r) (power r) (primary r) (secondary r) (sid r) (scan_notify r) (adv_data r) (scan_data r) (periodic_on r) (periodic_latch r) (periodic_interval r) v (next_periodic r) (max_events r) (num_events r) (enabled r) (adv_address r) (target r) (next_event r) (timeout r).
Definition with_next_periodic (v : N) (r : adv_set) : adv_set :=
  AdvSet (set_handle r) (props r) (interval r) (channel_map r) (own r) (peer_kind r) (peer r) (set_random r) (policy r) (power r) (primary r) (secondary r) (sid r) (scan_notify r) (adv_data r) (scan_data r) (periodic_on r) (periodic_latch r) (periodic_interval r) (periodic_data r) v (max_events r) (num_events r) (enabled r) (adv_address r) (target r) (next_event r) (timeout r).
Definition with_max_events (v : N) (r : adv_set) : adv_set :=
  AdvSet (set_handle r) (props r) (interval r) (channel_map r) (own r) (peer_kind r) (peer r) (set_random r) (policy r) (power r) (primary r) (secondary r) (sid r) (scan_notify r) (adv_data r) (scan_data r) (periodic_on r) (periodic_latch r) (periodic_interval r) (periodic_data r) (next_periodic r) v (num_events r) (enabled r) (adv_address r) (target r) (next_event r) (timeout r).
Definition with_num_events (v : N) (r : adv_set) : adv_set :=
  AdvSet (set_handle r) (props r) (interval r) (channel_map r) (own r) (peer_kind r) (peer r) (set_random r) (policy r) (power r) (primary r) (secondary r) (sid r) (scan_notify r) (adv_data r) (scan_data r) (periodic_on r) (periodic_latch r) (periodic_interval r) (periodic_data r) (next_periodic r) (max_events r) v (enabled r) (adv_address r) (target r) (next_event r) (timeout r).
Definition with_enabled (v : bool) (r : adv_set) : adv_set :=
  AdvSet (set_handle r) (props r) (interval r) (channel_map r) (own r) (peer_kind r) (peer r) (set_random r) (policy r) (power r) (primary r) (secondary r) (sid r) (scan_notify r) (adv_data r) (scan_data r) (periodic_on r) (periodic_latch r) (periodic_interval r) (periodic_data r) (next_periodic r) (max_events r) (num_events r) v (adv_address r) (target r) (next_event r) (timeout r).
Definition with_adv_address (v : address_with_type) (r : adv_set) : adv_set :=
  AdvSet (set_handle r) (props r) (interval r) (channel_map r) (own r) (peer_kind r) (peer r) (set_random r) (policy r) (power r) (primary r) (secondary r) (sid r) (scan_notify r) (adv_data r) (scan_data r) (periodic_on r) (periodic_latch r) (periodic_interval r) (periodic_data r) (next_periodic r) (max_events r) (num_events r) (enabled r) v (target r) (next_event r) (timeout r).
Definition with_target (v : address_with_type) (r : adv_set) : adv_set :=
  AdvSet (set_handle r) (props r) (interval r) (channel_map r) (own r) (peer_kind r) (peer r) (set_random r) (policy r) (power r) (primary r) (secondary r) (sid r) (scan_notify r) (adv_data r) (scan_data r) (periodic_on r) (periodic_latch r) (periodic_interval r) (periodic_data r) (next_periodic r) (max_events r) (num_events r) (enabled r) (adv_address r) v (next_event r) (timeout r).
Definition with_next_event (v : N) (r : adv_set) : adv_set :=
  AdvSet (set_handle r) (props r) (interval r) (channel_map r) (own r) (peer_kind r) (peer r) (set_random r) (policy r) (power r) (primary r) (secondary r) (sid r) (scan_notify r) (adv_data r) (scan_data r) (periodic_on r) (periodic_latch r) (periodic_interval r) (periodic_data r) (next_periodic r) (max_events r) (num_events r) (enabled r) (adv_address r) (target r) v (timeout r).
Definition with_timeout (v : option N) (r : adv_set) : adv_set :=
  AdvSet (set_handle r) (props r) (interval r) (channel_map r) (own r) (peer_kind r) (peer r) (set_random r) (policy r) (power r) (primary r) (secondary r) (sid r) (scan_notify r) (adv_data r) (scan_data r) (periodic_on r) (periodic_latch r) (periodic_interval r) (periodic_data r) (next_periodic r) (max_events r) (num_events r) (enabled r) (adv_address r) (target r) (next_event r) v.


(** le_advertiser.h:65-98 LegacyAdvertiser with its base class *)
Record legacy_adv := LegacyAdv {
  l_interval : N;
  l_type : adv_type;
  l_own : own_type;
  l_peer_kind : peer_type;
  l_peer : list N;
  l_map : N;
  l_policy : adv_policy;
  l_data : list N;
  l_scan_data : list N;
  l_enabled : bool;
  l_address : address_with_type;
  l_target : address_with_type;
  l_next : N;
  l_timeout : option N
}.
Definition with_l_interval (v : N) (r : legacy_adv) : legacy_adv :=
  LegacyAdv v (l_type r) (l_own r) (l_peer_kind r) (l_peer r) (l_map r) (l_policy r) (l_data r) (l_scan_data r) (l_enabled r) (l_address r) (l_target r) (l_next r) (l_timeout r).
Definition with_l_type (v : adv_type) (r : legacy_adv) : legacy_adv :=
  LegacyAdv (l_interval r) v (l_own r) (l_peer_kind r) (l_peer r) (l_map r) (l_policy r) (l_data r) (l_scan_data r) (l_enabled r) (l_address r) (l_target r) (l_next r) (l_timeout r).
Definition with_l_own (v : own_type) (r : legacy_adv) : legacy_adv :=
  LegacyAdv (l_interval r) (l_type r) v (l_peer_kind r) (l_peer r) (l_map r) (l_policy r) (l_data r) (l_scan_data r) (l_enabled r) (l_address r) (l_target r) (l_next r) (l_timeout r).
Definition with_l_peer_kind (v : peer_type) (r : legacy_adv) : legacy_adv :=
  LegacyAdv (l_interval r) (l_type r) (l_own r) v (l_peer r) (l_map r) (l_policy r) (l_data r) (l_scan_data r) (l_enabled r) (l_address r) (l_target r) (l_next r) (l_timeout r).
Definition with_l_peer (v : list N) (r : legacy_adv) : legacy_adv :=
  LegacyAdv (l_interval r) (l_type r) (l_own r) (l_peer_kind r) v (l_map r) (l_policy r) (l_data r) (l_scan_data r) (l_enabled r) (l_address r) (l_target r) (l_next r) (l_timeout r).
Definition with_l_map (v : N) (r : legacy_adv) : legacy_adv :=
  LegacyAdv (l_interval r) (l_type r) (l_own r) (l_peer_kind r) (l_peer r) v (l_policy r) (l_data r) (l_scan_data r) (l_enabled r) (l_address r) (l_target r) (l_next r) (l_timeout r).
Definition with_l_policy (v : adv_policy) (r : legacy_adv) : legacy_adv :=
  LegacyAdv (l_interval r) (l_type r) (l_own r) (l_peer_kind r) (l_peer r) (l_map r) v (l_data r) (l_scan_data r) (l_enabled r) (l_address r) (l_target r) (l_next r) (l_timeout r).
Definition with_l_data (v : list N) (r : legacy_adv) : legacy_adv :=
  LegacyAdv (l_interval r) (l_type r) (l_own r) (l_peer_kind r) (l_peer r) (l_map r) (l_policy r) v (l_scan_data r) (l_enabled r) (l_address r) (l_target r) (l_next r) (l_timeout r).
Definition with_l_scan_data (v : list N) (r : legacy_adv) : legacy_adv :=
  LegacyAdv (l_interval r) (l_type r) (l_own r) (l_peer_kind r) (l_peer r) (l_map r) (l_policy r) (l_data r) v (l_enabled r) (l_address r) (l_target r) (l_next r) (l_timeout r).
Definition with_l_enabled (v : bool) (r : legacy_adv) : legacy_adv :=
  LegacyAdv (l_interval r) (l_type r) (l_own r) (l_peer_kind r) (l_peer r) (l_map r) (l_policy r) (l_data r) (l_scan_data r) v (l_address r) (l_target r) (l_next r) (l_timeout r).
Definition with_l_address (v : address_with_type) (r : legacy_adv) : legacy_adv :=
  LegacyAdv (l_interval r) (l_type r) (l_own r) (l_peer_kind r) (l_peer r) (l_map r) (l_policy r) (l_data r) (l_scan_data r) (l_enabled r) v (l_target r) (l_next r) (l_timeout r).
Definition with_l_target (v : address_with_type) (r : legacy_adv) : legacy_adv :=
  LegacyAdv (l_interval r) (l_type r) (l_own r) (l_peer_kind r) (l_peer r) (l_map r) (l_policy r) (l_data r) (l_scan_data r) (l_enabled r) (l_address r) v (l_next r) (l_timeout r).
Definition with_l_next (v : N) (r : legacy_adv) : legacy_adv :=
  LegacyAdv (l_interval r) (l_type r) (l_own r) (l_peer_kind r) (l_peer r) (l_map r) (l_policy r) (l_data r) (l_scan_data r) (l_enabled r) (l_address r) (l_target r) v (l_timeout r).
Definition with_l_timeout (v : option N) (r : legacy_adv) : legacy_adv :=
  LegacyAdv (l_interval r) (l_type r) (l_own r) (l_peer_kind r) (l_peer r) (l_map r) (l_policy r) (l_data r) (l_scan_data r) (l_enabled r) (l_address r) (l_target r) (l_next r) v.


(** Packets sent to other devices: packets/link_layer_packets.pdl:164-233. Source
    and destination address are the address parts of the first two fields. *)
Inductive air :=
| AirLegacy (adv tgt : address_with_type) (t : legacy_pdu) (data : list N)
| AirExtended (adv tgt : address_with_type) (conn scan dir : bool) (sid power prim sec pinterval : N)
    (data : list N)
| AirPeriodic (adv : address_with_type) (sid power pinterval : N) (data : list N)
| AirScan (scanner adv : address_with_type)
| AirScanResponse (adv : address_with_type) (dst : list N) (data : list N)
| AirConnect (initiator adv : address_with_type) (interval latency supervision : N)
| AirConnectComplete (initiator adv : address_with_type) (interval latency supervision : N)
| AirDisconnect (src dst : list N) (reason : N).

(** le_controller.h:854-859 *)
Record scan_phy := ScanPhy {
  sp_enabled : bool;
  sp_kind : scan_kind;
  sp_interval : N;
  sp_window : N
}.
Definition with_sp_enabled (v : bool) (r : scan_phy) : scan_phy :=
  ScanPhy v (sp_kind r) (sp_interval r) (sp_window r).
Definition with_sp_kind (v : scan_kind) (r : scan_phy) : scan_phy :=
  ScanPhy (sp_enabled r) v (sp_interval r) (sp_window r).
Definition with_sp_interval (v : N) (r : scan_phy) : scan_phy :=
  ScanPhy (sp_enabled r) (sp_kind r) v (sp_window r).
Definition with_sp_window (v : N) (r : scan_phy) : scan_phy :=
  ScanPhy (sp_enabled r) (sp_kind r) (sp_interval r) v.


(** le_controller.h:865-871 *)
Record scan_request := ScanRequest {
  sr_connectable : bool;
  sr_extended : bool;
  sr_primary : N;
  sr_secondary : N;
  sr_timeout : N
}.
Definition with_sr_connectable (v : bool) (r : scan_request) : scan_request :=
  ScanRequest v (sr_extended r) (sr_primary r) (sr_secondary r) (sr_timeout r).
Definition with_sr_extended (v : bool) (r : scan_request) : scan_request :=
  ScanRequest (sr_connectable r) v (sr_primary r) (sr_secondary r) (sr_timeout r).
Definition with_sr_primary (v : N) (r : scan_request) : scan_request :=
  ScanRequest (sr_connectable r) (sr_extended r) v (sr_secondary r) (sr_timeout r).
Definition with_sr_secondary (v : N) (r : scan_request) : scan_request :=
  ScanRequest (sr_connectable r) (sr_extended r) (sr_primary r) v (sr_timeout r).
Definition with_sr_timeout (v : N) (r : scan_request) : scan_request :=
  ScanRequest (sr_connectable r) (sr_extended r) (sr_primary r) (sr_secondary r) v.


(** le_controller.h:845-891 Scanner; pending_scan_requests is an association list *)
Record scanner := Scanner {
  scan_enabled : bool;
  scan_period : N;
  scan_duration : N;
  scan_dups : duplicates;
  scan_own : own_type;
  scan_filter : scan_policy;
  scan_1m : scan_phy;
  scan_coded : scan_phy;
  scan_pending : list (address_with_type * scan_request);
  scan_timeout : option N;
  scan_period_timeout : option N;
  scan_history : list air
}.
Definition with_scan_enabled (v : bool) (r : scanner) : scanner :=
  Scanner v (scan_period r) (scan_duration r) (scan_dups r) (scan_own r) (scan_filter r) (scan_1m r) (scan_coded r) (scan_pending r) (scan_timeout r) (scan_period_timeout r) (scan_history r).
Definition with_scan_period (v : N) (r : scanner) : scanner :=
  Scanner (scan_enabled r) v (scan_duration r) (scan_dups r) (scan_own r) (scan_filter r) (scan_1m r) (scan_coded r) (scan_pending r) (scan_timeout r) (scan_period_timeout r) (scan_history r).
Definition with_scan_duration (v : N) (r : scanner) : scanner :=
  Scanner (scan_enabled r) (scan_period r) v (scan_dups r) (scan_own r) (scan_filter r) (scan_1m r) (scan_coded r) (scan_pending r) (scan_timeout r) (scan_period_timeout r) (scan_history r).
Definition with_scan_dups (v : duplicates) (r : scanner) : scanner :=
  Scanner (scan_enabled r) (scan_period r) (scan_duration r) v (scan_own r) (scan_filter r) (scan_1m r) (scan_coded r) (scan_pending r) (scan_timeout r) (scan_period_timeout r) (scan_history r).
Definition with_scan_own (v : own_type) (r : scanner) : scanner :=
  Scanner (scan_enabled r) (scan_period r) (scan_duration r) (scan_dups r) v (scan_filter r) (scan_1m r) (scan_coded r) (scan_pending r) (scan_timeout r) (scan_period_timeout r) (scan_history r).
Definition with_scan_filter (v : scan_policy) (r : scanner) : scanner :=
  Scanner (scan_enabled r) (scan_period r) (scan_duration r) (scan_dups r) (scan_own r) v (scan_1m r) (scan_coded r) (scan_pending r) (scan_timeout r) (scan_period_timeout r) (scan_history r).
Definition with_scan_1m (v : scan_phy) (r : scanner) : scanner :=
  Scanner (scan_enabled r) (scan_period r) (scan_duration r) (scan_dups r) (scan_own r) (scan_filter r) v (scan_coded r) (scan_pending r) (scan_timeout r) (scan_period_timeout r) (scan_history r).
Definition with_scan_coded (v : scan_phy) (r : scanner) : scanner :=
  Scanner (scan_enabled r) (scan_period r) (scan_duration r) (scan_dups r) (scan_own r) (scan_filter r) (scan_1m r) v (scan_pending r) (scan_timeout r) (scan_period_timeout r) (scan_history r).
Definition with_scan_pending (v : list (address_with_type * scan_request)) (r : scanner) : scanner :=
  Scanner (scan_enabled r) (scan_period r) (scan_duration r) (scan_dups r) (scan_own r) (scan_filter r) (scan_1m r) (scan_coded r) v (scan_timeout r) (scan_period_timeout r) (scan_history r).
Definition with_scan_timeout (v : option N) (r : scanner) : scanner :=
  Scanner (scan_enabled r) (scan_period r) (scan_duration r) (scan_dups r) (scan_own r) (scan_filter r) (scan_1m r) (scan_coded r) (scan_pending r) v (scan_period_timeout r) (scan_history r).
Definition with_scan_period_timeout (v : option N) (r : scanner) : scanner :=
  Scanner (scan_enabled r) (scan_period r) (scan_duration r) (scan_dups r) (scan_own r) (scan_filter r) (scan_1m r) (scan_coded r) (scan_pending r) (scan_timeout r) v (scan_history r).
Definition with_scan_history (v : list air) (r : scanner) : scanner :=
  Scanner (scan_enabled r) (scan_period r) (scan_duration r) (scan_dups r) (scan_own r) (scan_filter r) (scan_1m r) (scan_coded r) (scan_pending r) (scan_timeout r) (scan_period_timeout r) v.


(** le_controller.h:908-918 *)
Record init_phy := InitPhy {
  ip_enabled : bool;
  ip_scan_interval : N;
  ip_scan_window : N;
  ip_interval_min : N;
  ip_interval_max : N;
  ip_latency : N;
  ip_supervision : N;
  ip_min_ce : N;
  ip_max_ce : N
}.
Definition with_ip_enabled (v : bool) (r : init_phy) : init_phy :=
  InitPhy v (ip_scan_interval r) (ip_scan_window r) (ip_interval_min r) (ip_interval_max r) (ip_latency r) (ip_supervision r) (ip_min_ce r) (ip_max_ce r).
Definition with_ip_scan_interval (v : N) (r : init_phy) : init_phy :=
  InitPhy (ip_enabled r) v (ip_scan_window r) (ip_interval_min r) (ip_interval_max r) (ip_latency r) (ip_supervision r) (ip_min_ce r) (ip_max_ce r).
Definition with_ip_scan_window (v : N) (r : init_phy) : init_phy :=
  InitPhy (ip_enabled r) (ip_scan_interval r) v (ip_interval_min r) (ip_interval_max r) (ip_latency r) (ip_supervision r) (ip_min_ce r) (ip_max_ce r).
Definition with_ip_interval_min (v : N) (r : init_phy) : init_phy :=
  InitPhy (ip_enabled r) (ip_scan_interval r) (ip_scan_window r) v (ip_interval_max r) (ip_latency r) (ip_supervision r) (ip_min_ce r) (ip_max_ce r).
Definition with_ip_interval_max (v : N) (r : init_phy) : init_phy :=
  InitPhy (ip_enabled r) (ip_scan_interval r) (ip_scan_window r) (ip_interval_min r) v (ip_latency r) (ip_supervision r) (ip_min_ce r) (ip_max_ce r).
Definition with_ip_latency (v : N) (r : init_phy) : init_phy :=
  InitPhy (ip_enabled r) (ip_scan_interval r) (ip_scan_window r) (ip_interval_min r) (ip_interval_max r) v (ip_supervision r) (ip_min_ce r) (ip_max_ce r).
Definition with_ip_supervision (v : N) (r : init_phy) : init_phy :=
  InitPhy (ip_enabled r) (ip_scan_interval r) (ip_scan_window r) (ip_interval_min r) (ip_interval_max r) (ip_latency r) v (ip_min_ce r) (ip_max_ce r).
Definition with_ip_min_ce (v : N) (r : init_phy) : init_phy :=
  InitPhy (ip_enabled r) (ip_scan_interval r) (ip_scan_window r) (ip_interval_min r) (ip_interval_max r) (ip_latency r) (ip_supervision r) v (ip_max_ce r).
Definition with_ip_max_ce (v : N) (r : init_phy) : init_phy :=
  InitPhy (ip_enabled r) (ip_scan_interval r) (ip_scan_window r) (ip_interval_min r) (ip_interval_max r) (ip_latency r) (ip_supervision r) (ip_min_ce r) v.


(** le_controller.h:902-930 Initiator *)
Record initiator := Initiator {
  init_enabled : bool;
  init_filter : init_policy;
  init_peer : address_with_type;
  init_own : own_type;
  init_1m : init_phy;
  init_2m : init_phy;
  init_coded : init_phy;
  init_address : list N;
  init_pending : option address_with_type
}.
Definition with_init_enabled (v : bool) (r : initiator) : initiator :=
  Initiator v (init_filter r) (init_peer r) (init_own r) (init_1m r) (init_2m r) (init_coded r) (init_address r) (init_pending r).
Definition with_init_filter (v : init_policy) (r : initiator) : initiator :=
  Initiator (init_enabled r) v (init_peer r) (init_own r) (init_1m r) (init_2m r) (init_coded r) (init_address r) (init_pending r).
Definition with_init_peer (v : address_with_type) (r : initiator) : initiator :=
  Initiator (init_enabled r) (init_filter r) v (init_own r) (init_1m r) (init_2m r) (init_coded r) (init_address r) (init_pending r).
Definition with_init_own (v : own_type) (r : initiator) : initiator :=
  Initiator (init_enabled r) (init_filter r) (init_peer r) v (init_1m r) (init_2m r) (init_coded r) (init_address r) (init_pending r).
Definition with_init_1m (v : init_phy) (r : initiator) : initiator :=
  Initiator (init_enabled r) (init_filter r) (init_peer r) (init_own r) v (init_2m r) (init_coded r) (init_address r) (init_pending r).
Definition with_init_2m (v : init_phy) (r : initiator) : initiator :=
  Initiator (init_enabled r) (init_filter r) (init_peer r) (init_own r) (init_1m r) v (init_coded r) (init_address r) (init_pending r).
Definition with_init_coded (v : init_phy) (r : initiator) : initiator :=
  Initiator (init_enabled r) (init_filter r) (init_peer r) (init_own r) (init_1m r) (init_2m r) v (init_address r) (init_pending r).
Definition with_init_address (v : list N) (r : initiator) : initiator :=
  Initiator (init_enabled r) (init_filter r) (init_peer r) (init_own r) (init_1m r) (init_2m r) (init_coded r) v (init_pending r).
Definition with_init_pending (v : option address_with_type) (r : initiator) : initiator :=
  Initiator (init_enabled r) (init_filter r) (init_peer r) (init_own r) (init_1m r) (init_2m r) (init_coded r) (init_address r) v.


(** le_controller.h:938-944 Synchronizing; options is use_periodic_advertiser_list,
    disable_reporting, enable_duplicate_filtering *)
Record synchronizing := Synchronizing {
  sy_use_list : bool;
  sy_kind : peer_type;
  sy_address : list N;
  sy_sid : N;
  sy_timeout : N
}.
Definition with_sy_use_list (v : bool) (r : synchronizing) : synchronizing :=
  Synchronizing v (sy_kind r) (sy_address r) (sy_sid r) (sy_timeout r).
Definition with_sy_kind (v : peer_type) (r : synchronizing) : synchronizing :=
  Synchronizing (sy_use_list r) v (sy_address r) (sy_sid r) (sy_timeout r).
Definition with_sy_address (v : list N) (r : synchronizing) : synchronizing :=
  Synchronizing (sy_use_list r) (sy_kind r) v (sy_sid r) (sy_timeout r).
Definition with_sy_sid (v : N) (r : synchronizing) : synchronizing :=
  Synchronizing (sy_use_list r) (sy_kind r) (sy_address r) v (sy_timeout r).
Definition with_sy_timeout (v : N) (r : synchronizing) : synchronizing :=
  Synchronizing (sy_use_list r) (sy_kind r) (sy_address r) (sy_sid r) v.


(** le_controller.h:946-953 Synchronized *)
Record synchronized := Synchronized {
  sd_kind : peer_type;
  sd_address : list N;
  sd_sid : N;
  sd_sync_timeout : N;
  sd_timeout : N
}.
Definition with_sd_kind (v : peer_type) (r : synchronized) : synchronized :=
  Synchronized v (sd_address r) (sd_sid r) (sd_sync_timeout r) (sd_timeout r).
Definition with_sd_address (v : list N) (r : synchronized) : synchronized :=
  Synchronized (sd_kind r) v (sd_sid r) (sd_sync_timeout r) (sd_timeout r).
Definition with_sd_sid (v : N) (r : synchronized) : synchronized :=
  Synchronized (sd_kind r) (sd_address r) v (sd_sync_timeout r) (sd_timeout r).
Definition with_sd_sync_timeout (v : N) (r : synchronized) : synchronized :=
  Synchronized (sd_kind r) (sd_address r) (sd_sid r) v (sd_timeout r).
Definition with_sd_timeout (v : N) (r : synchronized) : synchronized :=
  Synchronized (sd_kind r) (sd_address r) (sd_sid r) (sd_sync_timeout r) v.


(** model/controller/le_acl_connection.h:73-90: the part of an LE connection used
    here; the handle is the key of the table *)
Record le_conn := LeConn {
  c_peer : address_with_type;
  c_own : address_with_type;
  c_resolved : address_with_type;
  c_central : bool;
  c_interval : N;
  c_latency : N;
  c_supervision : N
}.
Definition with_c_peer (v : address_with_type) (r : le_conn) : le_conn :=
  LeConn v (c_own r) (c_resolved r) (c_central r) (c_interval r) (c_latency r) (c_supervision r).
Definition with_c_own (v : address_with_type) (r : le_conn) : le_conn :=
  LeConn (c_peer r) v (c_resolved r) (c_central r) (c_interval r) (c_latency r) (c_supervision r).
Definition with_c_resolved (v : address_with_type) (r : le_conn) : le_conn :=
  LeConn (c_peer r) (c_own r) v (c_central r) (c_interval r) (c_latency r) (c_supervision r).
Definition with_c_central (v : bool) (r : le_conn) : le_conn :=
  LeConn (c_peer r) (c_own r) (c_resolved r) v (c_interval r) (c_latency r) (c_supervision r).
Definition with_c_interval (v : N) (r : le_conn) : le_conn :=
  LeConn (c_peer r) (c_own r) (c_resolved r) (c_central r) v (c_latency r) (c_supervision r).
Definition with_c_latency (v : N) (r : le_conn) : le_conn :=
  LeConn (c_peer r) (c_own r) (c_resolved r) (c_central r) (c_interval r) v (c_supervision r).
Definition with_c_supervision (v : N) (r : le_conn) : le_conn :=
  LeConn (c_peer r) (c_own r) (c_resolved r) (c_central r) (c_interval r) (c_latency r) v.


(** le_controller.h:720-961: the state of the LE controller used by the commands
    and procedures modelled here. [rand_pos] counts the values drawn from
    std::rand. *)
Record le := Le {
  public_address : list N;
  random_address : list N;
  legacy_used : bool;
  extended_used : bool;
  legacy : legacy_adv;
  sets : table adv_set;
  accept : list (accept_type * list N);
  resolving : list resolving_entry;
  resolving_on : bool;
  padv : list (peer_type * list N * N);
  scan : scanner;
  init : initiator;
  syncing : option synchronizing;
  synced : table synchronized;
  conns : table le_conn;
  last_handle : N;
  event_mask : N;
  event_mask_2 : N;
  le_mask : N;
  rand_pos : N
}.
Definition with_public_address (v : list N) (r : le) : le :=
  Le v (random_address r) (legacy_used r) (extended_used r) (legacy r) (sets r) (accept r) (resolving r) (resolving_on r) (padv r) (scan r) (init r) (syncing r) (synced r) (conns r) (last_handle r) (event_mask r) (event_mask_2 r) (le_mask r) (rand_pos r).
Definition with_random_address (v : list N) (r : le) : le :=
  Le (public_address r) v (legacy_used r) (extended_used r) (legacy r) (sets r) (accept r) (resolving r) (resolving_on r) (padv r) (scan r) (init r) (syncing r) (synced r) (conns r) (last_handle r) (event_mask r) (event_mask_2 r) (le_mask r) (rand_pos r).
Definition with_legacy_used (v : bool) (r : le) : le :=
  Le (public_address r) (random_address r) v (extended_used r) (legacy r) (sets r) (accept r) (resolving r) (resolving_on r) (padv r) (scan r) (init r) (syncing r) (synced r) (conns r) (last_handle r) (event_mask r) (event_mask_2 r) (le_mask r) (rand_pos r).
Definition with_extended_used (v : bool) (r : le) : le :=
  Le (public_address r) (random_address r) (legacy_used r) v (legacy r) (sets r) (accept r) (resolving r) (resolving_on r) (padv r) (scan r) (init r) (syncing r) (synced r) (conns r) (last_handle r) (event_mask r) (event_mask_2 r) (le_mask r) (rand_pos r).
Definition with_legacy (v : legacy_adv) (r : le) : le :=
  Le (public_address r) (random_address r) (legacy_used r) (extended_used r) v (sets r) (accept r) (resolving r) (resolving_on r) (padv r) (scan r) (init r) (syncing r) (synced r) (conns r) (last_handle r) (event_mask r) (event_mask_2 r) (le_mask r) (rand_pos r).
Definition with_sets (v : table adv_set) (r : le) : le :=
  Le (public_address r) (random_address r) (legacy_used r) (extended_used r) (legacy r) v (accept r) (resolving r) (resolving_on r) (padv r) (scan r) (init r) (syncing r) (synced r) (conns r) (last_handle r) (event_mask r) (event_mask_2 r) (le_mask r) (rand_pos r).
Definition with_accept (v : list (accept_type * list N)) (r : le) : le :=
  Le (public_address r) (random_address r) (legacy_used r) (extended_used r) (legacy r) (sets r) v (resolving r) (resolving_on r) (padv r) (scan r) (init r) (syncing r) (synced r) (conns r) (last_handle r) (event_mask r) (event_mask_2 r) (le_mask r) (rand_pos r).
Definition with_resolving (v : list resolving_entry) (r : le) : le :=
  Le (public_address r) (random_address r) (legacy_used r) (extended_used r) (legacy r) (sets r) (accept r) v (resolving_on r) (padv r) (scan r) (init r) (syncing r) (synced r) (conns r) (last_handle r) (event_mask r) (event_mask_2 r) (le_mask r) (rand_pos r).
Definition with_resolving_on (v : bool) (r : le) : le :=
  Le (public_address r) (random_address r) (legacy_used r) (extended_used r) (legacy r) (sets r) (accept r) (resolving r) v (padv r) (scan r) (init r) (syncing r) (synced r) (conns r) (last_handle r) (event_mask r) (event_mask_2 r) (le_mask r) (rand_pos r).
Definition with_padv (v : list (peer_type * list N * N)) (r : le) : le :=
  Le (public_address r) (random_address r) (legacy_used r) (extended_used r) (legacy r) (sets r) (accept r) (resolving r) (resolving_on r) v (scan r) (init r) (syncing r) (synced r) (conns r) (last_handle r) (event_mask r) (event_mask_2 r) (le_mask r) (rand_pos r).
Definition with_scan (v : scanner) (r : le) : le :=
  Le (public_address r) (random_address r) (legacy_used r) (extended_used r) (legacy r) (sets r) (accept r) (resolving r) (resolving_on r) (padv r) v (init r) (syncing r) (synced r) (conns r) (last_handle r) (event_mask r) (event_mask_2 r) (le_mask r) (rand_pos r).
Definition with_init (v : initiator) (r : le) : le :=
  Le (public_address r) (random_address r) (legacy_used r) (extended_used r) (legacy r) (sets r) (accept r) (resolving r) (resolving_on r) (padv r) (scan r) v (syncing r) (synced r) (conns r) (last_handle r) (event_mask r) (event_mask_2 r) (le_mask r) (rand_pos r).
Definition with_syncing (v : option synchronizing) (r : le) : le :=
  Le (public_address r) (random_address r) (legacy_used r) (extended_used r) (legacy r) (sets r) (accept r) (resolving r) (resolving_on r) (padv r) (scan r) (init r) v (synced r) (conns r) (last_handle r) (event_mask r) (event_mask_2 r) (le_mask r) (rand_pos r).
Definition with_synced (v : table synchronized) (r : le) : le :=
  Le (public_address r) (random_address r) (legacy_used r) (extended_used r) (legacy r) (sets r) (accept r) (resolving r) (resolving_on r) (padv r) (scan r) (init r) (syncing r) v (conns r) (last_handle r) (event_mask r) (event_mask_2 r) (le_mask r) (rand_pos r).
Definition with_conns (v : table le_conn) (r : le) : le :=
  Le (public_address r) (random_address r) (legacy_used r) (extended_used r) (legacy r) (sets r) (accept r) (resolving r) (resolving_on r) (padv r) (scan r) (init r) (syncing r) (synced r) v (last_handle r) (event_mask r) (event_mask_2 r) (le_mask r) (rand_pos r).
Definition with_last_handle (v : N) (r : le) : le :=
  Le (public_address r) (random_address r) (legacy_used r) (extended_used r) (legacy r) (sets r) (accept r) (resolving r) (resolving_on r) (padv r) (scan r) (init r) (syncing r) (synced r) (conns r) v (event_mask r) (event_mask_2 r) (le_mask r) (rand_pos r).
Definition with_event_mask (v : N) (r : le) : le :=
  Le (public_address r) (random_address r) (legacy_used r) (extended_used r) (legacy r) (sets r) (accept r) (resolving r) (resolving_on r) (padv r) (scan r) (init r) (syncing r) (synced r) (conns r) (last_handle r) v (event_mask_2 r) (le_mask r) (rand_pos r).
Definition with_event_mask_2 (v : N) (r : le) : le :=
  Le (public_address r) (random_address r) (legacy_used r) (extended_used r) (legacy r) (sets r) (accept r) (resolving r) (resolving_on r) (padv r) (scan r) (init r) (syncing r) (synced r) (conns r) (last_handle r) (event_mask r) v (le_mask r) (rand_pos r).
Definition with_le_mask (v : N) (r : le) : le :=
  Le (public_address r) (random_address r) (legacy_used r) (extended_used r) (legacy r) (sets r) (accept r) (resolving r) (resolving_on r) (padv r) (scan r) (init r) (syncing r) (synced r) (conns r) (last_handle r) (event_mask r) (event_mask_2 r) v (rand_pos r).
Definition with_rand_pos (v : N) (r : le) : le :=
  Le (public_address r) (random_address r) (legacy_used r) (extended_used r) (legacy r) (sets r) (accept r) (resolving r) (resolving_on r) (padv r) (scan r) (init r) (syncing r) (synced r) (conns r) (last_handle r) (event_mask r) (event_mask_2 r) (le_mask r) v.


(** config/controller properties used below (model/controller/controller_properties.h) *)
Record config := Config {
  cfg_num_sets : N; (* le_num_supported_advertising_sets *)
  cfg_max_data : N; (* le_max_advertising_data_length *)
  cfg_accept_size : N; (* le_filter_accept_list_size *)
  cfg_resolving_size : N; (* le_resolving_list_size *)
  cfg_padv_size : N; (* le_periodic_advertiser_list_size *)
  cfg_phys : N; (* LeSupportedPhys() *)
  cfg_2m : bool; (* SupportsLLFeature(LE_2M_PHY) *)
  cfg_coded : bool; (* SupportsLLFeature(LE_CODED_PHY) *)
  cfg_receive_enable : bool; (* SupportsCommand(LE_SET_PERIODIC_ADVERTISING_RECEIVE_ENABLE) *)
  cfg_adi : bool (* SupportsLLFeature(PERIODIC_ADVERTISING_ADI_SUPPORT) *)
}.
Definition with_cfg_num_sets (v : N) (r : config) : config :=
  Config v (cfg_max_data r) (cfg_accept_size r) (cfg_resolving_size r) (cfg_padv_size r) (cfg_phys r) (cfg_2m r) (cfg_coded r) (cfg_receive_enable r) (cfg_adi r).
Definition with_cfg_max_data (v : N) (r : config) : config :=
  Config (cfg_num_sets r) v (cfg_accept_size r) (cfg_resolving_size r) (cfg_padv_size r) (cfg_phys r) (cfg_2m r) (cfg_coded r) (cfg_receive_enable r) (cfg_adi r).
Definition with_cfg_accept_size (v : N) (r : config) : config :=
  Config (cfg_num_sets r) (cfg_max_data r) v (cfg_resolving_size r) (cfg_padv_size r) (cfg_phys r) (cfg_2m r) (cfg_coded r) (cfg_receive_enable r) (cfg_adi r).
Definition with_cfg_resolving_size (v : N) (r : config) : config :=
  Config (cfg_num_sets r) (cfg_max_data r) (cfg_accept_size r) v (cfg_padv_size r) (cfg_phys r) (cfg_2m r) (cfg_coded r) (cfg_receive_enable r) (cfg_adi r).
Definition with_cfg_padv_size (v : N) (r : config) : config :=
  Config (cfg_num_sets r) (cfg_max_data r) (cfg_accept_size r) (cfg_resolving_size r) v (cfg_phys r) (cfg_2m r) (cfg_coded r) (cfg_receive_enable r) (cfg_adi r).
Definition with_cfg_phys (v : N) (r : config) : config :=
  Config (cfg_num_sets r) (cfg_max_data r) (cfg_accept_size r) (cfg_resolving_size r) (cfg_padv_size r) v (cfg_2m r) (cfg_coded r) (cfg_receive_enable r) (cfg_adi r).
Definition with_cfg_2m (v : bool) (r : config) : config :=
  Config (cfg_num_sets r) (cfg_max_data r) (cfg_accept_size r) (cfg_resolving_size r) (cfg_padv_size r) (cfg_phys r) v (cfg_coded r) (cfg_receive_enable r) (cfg_adi r).
Definition with_cfg_coded (v : bool) (r : config) : config :=
  Config (cfg_num_sets r) (cfg_max_data r) (cfg_accept_size r) (cfg_resolving_size r) (cfg_padv_size r) (cfg_phys r) (cfg_2m r) v (cfg_receive_enable r) (cfg_adi r).
Definition with_cfg_receive_enable (v : bool) (r : config) : config :=
  Config (cfg_num_sets r) (cfg_max_data r) (cfg_accept_size r) (cfg_resolving_size r) (cfg_padv_size r) (cfg_phys r) (cfg_2m r) (cfg_coded r) v (cfg_adi r).
Definition with_cfg_adi (v : bool) (r : config) : config :=
  Config (cfg_num_sets r) (cfg_max_data r) (cfg_accept_size r) (cfg_resolving_size r) (cfg_padv_size r) (cfg_phys r) (cfg_2m r) (cfg_coded r) (cfg_receive_enable r) v.


(** include/hci/address.h: Address::kEmpty *)
Definition empty_address : list N := [0; 0; 0; 0; 0; 0].
(** le_advertiser.h:55-56 *)
Definition no_address : address_with_type := AWT empty_address PUBLIC_DEVICE.

(** le_advertiser.h:103-178: the members' default initialisers *)
Definition new_set (h : N) : adv_set :=
  AdvSet h (Props false false false false false false false) 0 0 OWN_PUBLIC PEER_PUBLIC empty_address
    None ALL_DEVICES 0 PRIMARY_1M SECONDARY_NONE 0 false (Buffer [] false) (Buffer [] false)
    false false 0 (Buffer [] false) 0 0 0 false no_address no_address 0 None.

(** le_advertiser.h:88-97 *)
Definition new_legacy : legacy_adv :=
  LegacyAdv 2048 ADV_IND OWN_PUBLIC PEER_PUBLIC empty_address 7 ALL_DEVICES [] [] false
    no_address no_address 0 None.

(** le_controller.h:897 Scanner scanner_{} *)
Definition new_scan_phy : scan_phy := ScanPhy false PASSIVE 0 0.
Definition new_scanner : scanner :=
  Scanner false 0 0 DUP_DISABLED OWN_PUBLIC ACCEPT_ALL new_scan_phy new_scan_phy [] None None [].

(** le_controller.h:936 Initiator initiator_{} *)
Definition new_init_phy : init_phy := InitPhy false 0 0 0 0 0 0 0 0.
Definition new_initiator : initiator :=
  Initiator false USE_PEER_ADDRESS no_address OWN_PUBLIC new_init_phy new_init_phy new_init_phy
    empty_address None.

(** le_controller.h:720-961: the state after power-on. The event masks are
    0x00001fffffffffff, 0 and 0x1f (le_controller.h:750-752). *)
Definition new_le (addr : list N) : le :=
  Le addr empty_address false false new_legacy [] [] [] false [] new_scanner new_initiator None [] []
    512 35184372088831 0 31 0.

(** HCI events sent by the procedures modelled here; only the fields these
    procedures choose are kept. *)
Inductive event :=
| EvConnectionComplete (st : status) (handle : N) (central : bool) (peer : address_with_type)
    (interval latency supervision : N)
| EvEnhancedConnectionComplete (st : status) (handle : N) (central : bool) (peer : address_with_type)
    (local_rpa peer_rpa : list N) (interval latency supervision : N)
| EvSetTerminated (st : status) (adv_handle conn_handle num : N)
| EvReport (adv : address_with_type) (t : N) (data : list N)
| EvDirectedReport (adv : address_with_type) (direct : list N)
| EvExtendedReport (conn scan dir response legacy : bool) (more : bool) (adv : address_with_type)
    (sid : N) (data : list N)
| EvScanTimeout
| EvScanRequestReceived (adv_handle : N) (scanner : address_with_type)
| EvSyncEstablished (st : status) (handle sid : N) (adv : address_with_type) (pinterval : N)
| EvPeriodicReport (handle : N) (more : bool) (data : list N)
| EvChannelSelection (handle : N)
| EvDisconnection (handle : N) (reason : N).

(** What one step makes visible outside the controller *)
Inductive output := Sent (p : air) | Notified (e : event).
