(** Model of the BR/EDR controller:
    model/controller/bredr_controller.{h,cc}, with the connection tables of
    model/controller/acl_connection_handler.{h,cc}, acl_connection.{h,cc} and the link
    slots of rust/src/lmp/manager.rs:249-287.
    Simplifications:
    - the clock (std::chrono::steady_clock) is read once per step, in microseconds;
      a task scheduled while the pending tasks run is left for the next tick (the code
      compares its time, read later, with the time read when the run started);
    - task identifiers are not reused (the 32 bits counter and its wrap-around are the
      subject of Scheduler.v);
    - the LMP procedures, and the commands forwarded to them, are not part of this model:
      the link manager is reduced to the peers of its links;
    - transmission powers, logs, and the commands of 849-891, 1037-1068 and 1153-1255 are
      left out: the former only return an error, the latter only read or write settings
      nothing below looks at. *)
From Verif Require Import Prelude Table Sco.
From Verif Require Handles.
Import Handles(get_unused_handle, kAclRangeStart, kAclRangeEnd, kScoRangeStart, kScoRangeEnd).
Open Scope N_scope.

Definition addr := list N.
(** Address::kEmpty (hci/address.h) *)
Definition empty_address : addr := [0; 0; 0; 0; 0; 0].
Definition status := N.
(** packets/hci_packets.pdl:919-968 *)
Definition SUCCESS : status := 0.
Definition UNKNOWN_CONNECTION : status := 0x02.
Definition PAGE_TIMEOUT : status := 0x04.
Definition CONNECTION_TIMEOUT : status := 0x08.
Definition SYNCHRONOUS_LIMIT : status := 0x0a.
Definition ALREADY_EXISTS : status := 0x0b.
Definition DISALLOWED : status := 0x0c.
Definition INVALID_PARAMETERS : status := 0x12.
Definition REMOTE_USER_TERMINATED : status := 0x13.
Definition LOCAL_HOST_TERMINATED : status := 0x16.
Definition SCO_INTERVAL_REJECTED : status := 0x1c.
Definition INVALID_LMP : status := 0x1e.
Definition ROLE_NOT_ALLOWED : status := 0x21.
Definition ROLE_SWITCH_FAILED : status := 0x35.
Definition STATUS_UNKNOWN : status := 0xff.

Inductive role := CENTRAL | PERIPHERAL.
Definition other (r : role) : role := match r with CENTRAL => PERIPHERAL | PERIPHERAL => CENTRAL end.
Definition role_eqb (a b : role) : bool := match a, b with CENTRAL, CENTRAL | PERIPHERAL, PERIPHERAL => true | _, _ => false end.

(** packets/link_layer_packets.pdl:87-380, the packets of the BR/EDR link layer;
    an answer to an inquiry carries its signal strength and extended data according to its type *)
Inductive body :=
| Acl (boundary broadcast : N) (data : list N)
| Voice (data : list N)
| Bye (reason : N)
| InquiryPacket (mode lap : N)
| InquiryAnswer (mode repetition class offset rssi : N) (eir : list N)
| Page (class allow_role_switch : N)
| PageResponse (try_role_switch : bool)
| PageReject (reason : N)
| NameRequest
| NameResponse (name : list N)
| FeaturesRequest
| FeaturesResponse (f : N)
| LmpFeaturesRequest
| LmpFeaturesResponse (f : N)
| ExtendedFeaturesRequest (page : N)
| ExtendedFeaturesResponse (st page last f : N)
| VersionRequest
| VersionResponse (version subversion manufacturer : N)
| ClockRequest
| ClockResponse (offset : N)
| ScoRequest (p : params) (class : N)
| ScoResponse (st : N) (l : link)
| ScoBye (reason : N)
| PingRequest
| PingResponse
| SwitchRequest
| SwitchResponse (st : N).

(** packets/link_layer_packets.pdl:76-82 *)
Record air := Air { source : addr; destination : addr; content : body }.

(** LinkType and ConnectionRequestLinkType (packets/hci_packets.pdl) *)
Inductive link_type := LINK_SCO | LINK_ACL | LINK_ESCO.

(** The HCI events sent by the BR/EDR controller *)
Inductive event :=
| InquiryComplete (st : status)
| InquiryResult (mode : N) (a : addr) (repetition class offset rssi : N) (eir : list N)
| ConnectionComplete (st : status) (h : N) (a : addr) (t : link_type)
| ConnectionRequest (a : addr) (class : N) (t : link_type)
| DisconnectionComplete (st : status) (h : N) (reason : status)
| RemoteNameComplete (st : status) (a : addr) (name : list N)
| SupportedFeaturesComplete (st : status) (h f : N)
| VersionComplete (st : status) (h version manufacturer subversion : N)
| QosComplete (st : status) (h service rate bandwidth latency variation : N)
| RoleChange (st : status) (a : addr) (r : role)
| CompletedPackets (h n : N)
| ClockOffsetComplete (st : status) (h offset : N)
| PacketTypeChanged (st : status) (h t : N)
| ExtendedFeaturesComplete (st : status) (h page last f : N)
| SynchronousComplete (st : status) (h : N) (a : addr) (t : link_type) (interval window rx tx mode : N)
| HostFeaturesNotification (a : addr) (f : N).

(** What leaves the controller: packets to the radio, events and data to the host, and
    the role returned by HCI Role Discovery *)
Inductive output :=
| Sent (p : air)
| Event (e : event)
| AclToHost (h boundary broadcast : N) (data : list N)
| ScoToHost (h : N) (data : list N)
| RoleIs (r : role).

(** The callbacks given to the scheduler *)
Inductive job :=
| Transmit (p : air)                 (* 1333-1339 *)
| Tell (e : event)                   (* the events scheduled by commands *)
| TellPacketType (h t : N)           (* 363-369 *)
| RejectPage (a : addr) (reason : N) (* 350-351 *)
| CheckLink (h : N)                  (* 2293-2302 *)
| Stream (h : N).                    (* 2323-2326 *)

(** bredr_controller.h (Task): the queue is a std::set ordered by time, then identifier *)
Record task := Task { due : N; ident : N; what_to_do : job }.

(** acl_connection.h:30-75 *)
Record acl_link := AclLink {
  acl_peer : addr;
  acl_role : role;
  acl_policy : N;
  last_heard : N (* last_packet_timestamp_ *)
}.
Definition with_acl_peer (v : addr) (r : acl_link) : acl_link :=
  AclLink v (acl_role r) (acl_policy r) (last_heard r).
Definition with_acl_role (v : role) (r : acl_link) : acl_link :=
  AclLink (acl_peer r) v (acl_policy r) (last_heard r).
Definition with_acl_policy (v : N) (r : acl_link) : acl_link :=
  AclLink (acl_peer r) (acl_role r) v (last_heard r).
Definition with_last_heard (v : N) (r : acl_link) : acl_link :=
  AclLink (acl_peer r) (acl_role r) (acl_policy r) v.


(** sco_connection.h:84-142 *)
Record sco_link := ScoLink {
  sco_peer : addr;
  sco_params : params;
  sco_negotiated : link;
  sco_now : Sco.sco_state;
  sco_spoofed : bool;
  sco_legacy : bool;
  sco_stream : option N
}.
Definition with_sco_peer (v : addr) (r : sco_link) : sco_link :=
  ScoLink v (sco_params r) (sco_negotiated r) (sco_now r) (sco_spoofed r) (sco_legacy r) (sco_stream r).
Definition with_sco_params (v : params) (r : sco_link) : sco_link :=
  ScoLink (sco_peer r) v (sco_negotiated r) (sco_now r) (sco_spoofed r) (sco_legacy r) (sco_stream r).
Definition with_sco_negotiated (v : link) (r : sco_link) : sco_link :=
  ScoLink (sco_peer r) (sco_params r) v (sco_now r) (sco_spoofed r) (sco_legacy r) (sco_stream r).
Definition with_sco_now (v : Sco.sco_state) (r : sco_link) : sco_link :=
  ScoLink (sco_peer r) (sco_params r) (sco_negotiated r) v (sco_spoofed r) (sco_legacy r) (sco_stream r).
Definition with_sco_spoofed (v : bool) (r : sco_link) : sco_link :=
  ScoLink (sco_peer r) (sco_params r) (sco_negotiated r) (sco_now r) v (sco_legacy r) (sco_stream r).
Definition with_sco_legacy (v : bool) (r : sco_link) : sco_link :=
  ScoLink (sco_peer r) (sco_params r) (sco_negotiated r) (sco_now r) (sco_spoofed r) v (sco_stream r).
Definition with_sco_stream (v : option N) (r : sco_link) : sco_link :=
  ScoLink (sco_peer r) (sco_params r) (sco_negotiated r) (sco_now r) (sco_spoofed r) (sco_legacy r) v.


(** bredr_controller.h (PageState) *)
Record page_state := PageState { page_peer : addr; page_allow : N; page_next : N; page_deadline : N }.
(** bredr_controller.h (PageScanState); authentication_required is never read *)
Record scan_state := ScanState { scan_peer : addr; scan_allow : N }.
(** bredr_controller.h (InquiryState) *)
Record inquiry_state := InquiryState { inquiry_lap : N; inquiry_limit : N; inquiry_next : N; inquiry_deadline : N }.

(** The properties of the controller read by the code below *)
Record config := Config {
  lmp_features : list N; (* std::array<uint64_t, 3> *)
  lmp_version : N; lmp_subversion : N; company : N;
  num_iac : N }.

(** bredr_controller.h:360-560, the state of the controller *)
Record bredr := Bredr {
  address : addr;
  acls : table acl_link;
  last_acl : N;
  scos : table sco_link;
  last_sco : N;
  page : option page_state;
  page_scan : option scan_state;
  inquiry : option inquiry_state;
  page_scan_enable : bool;
  inquiry_scan_enable : bool;
  page_timeout : N; (* in slots of 625 us *)
  default_policy : N;
  mask : N; (* event_mask_ *)
  iac : list N;
  class : N;
  name : list N;
  eir : list N;
  inquiry_mode : N;
  host_features : N;
  voice : N;
  links : list addr; (* the peers known to the link manager *)
  queue : list task;
  next_id : N
}.
Definition with_address (v : addr) (r : bredr) : bredr :=
  Bredr v (acls r) (last_acl r) (scos r) (last_sco r) (page r) (page_scan r) (inquiry r) (page_scan_enable r) (inquiry_scan_enable r) (page_timeout r) (default_policy r) (mask r) (iac r) (class r) (name r) (eir r) (inquiry_mode r) (host_features r) (voice r) (links r) (queue r) (next_id r).
Definition with_acls (v : table acl_link) (r : bredr) : bredr :=
  Bredr (address r) v (last_acl r) (scos r) (last_sco r) (page r) (page_scan r) (inquiry r) (page_scan_enable r) (inquiry_scan_enable r) (page_timeout r) (default_policy r) (mask r) (iac r) (class r) (name r) (eir r) (inquiry_mode r) (host_features r) (voice r) (links r) (queue r) (next_id r).
Definition with_last_acl (v : N) (r : bredr) : bredr :=
  Bredr (address r) (acls r) v (scos r) (last_sco r) (page r) (page_scan r) (inquiry r) (page_scan_enable r) (inquiry_scan_enable r) (page_timeout r) (default_policy r) (mask r) (iac r) (class r) (name r) (eir r) (inquiry_mode r) (host_features r) (voice r) (links r) (queue r) (next_id r).
Definition with_scos (v : table sco_link) (r : bredr) : bredr :=
  Bredr (address r) (acls r) (last_acl r) v (last_sco r) (page r) (page_scan r) (inquiry r) (page_scan_enable r) (inquiry_scan_enable r) (page_timeout r) (default_policy r) (mask r) (iac r) (class r) (name r) (eir r) (inquiry_mode r) (host_features r) (voice r) (links r) (queue r) (next_id r).
Definition with_last_sco (v : N) (r : bredr) : bredr :=
  Bredr (address r) (acls r) (last_acl r) (scos r) v (page r) (page_scan r) (inquiry r) (page_scan_enable r) (inquiry_scan_enable r) (page_timeout r) (default_policy r) (mask r) (iac r) (class r) (name r) (eir r) (inquiry_mode r) (host_features r) (voice r) (links r) (queue r) (next_id r).
Definition with_page (v : option page_state) (r : bredr) : bredr :=
  Bredr (address r) (acls r) (last_acl r) (scos r) (last_sco r) v (page_scan r) (inquiry r) (page_scan_enable r) (inquiry_scan_enable r) (page_timeout r) (default_policy r) (mask r) (iac r) (class r) (name r) (eir r) (inquiry_mode r) (host_features r) (voice r) (links r) (queue r) (next_id r).
Definition with_page_scan (v : option scan_state) (r : bredr) : bredr :=
  Bredr (address r) (acls r) (last_acl r) (scos r) (last_sco r) (page r) v (inquiry r) (page_scan_enable r) (inquiry_scan_enable r) (page_timeout r) (default_policy r) (mask r) (iac r) (class r) (name r) (eir r) (inquiry_mode r) (host_features r) (voice r) (links r) (queue r) (next_id r).
Definition with_inquiry (v : option inquiry_state) (r : bredr) : bredr :=
  Bredr (address r) (acls r) (last_acl r) (scos r) (last_sco r) (page r) (page_scan r) v (page_scan_enable r) (inquiry_scan_enable r) (page_timeout r) (default_policy r) (mask r) (iac r) (class r) (name r) (eir r) (inquiry_mode r) (host_features r) (voice r) (links r) (queue r) (next_id r).
Definition with_page_scan_enable (v : bool) (r : bredr) : bredr :=
  Bredr (address r) (acls r) (last_acl r) (scos r) (last_sco r) (page r) (page_scan r) (inquiry r) v (inquiry_scan_enable r) (page_timeout r) (default_policy r) (mask r) (iac r) (class r) (name r) (eir r) (inquiry_mode r) (host_features r) (voice r) (links r) (queue r) (next_id r).
Definition with_inquiry_scan_enable (v : bool) (r : bredr) : bredr :=
  Bredr (address r) (acls r) (last_acl r) (scos r) (last_sco r) (page r) (page_scan r) (inquiry r) (page_scan_enable r) v (page_timeout r) (default_policy r) (mask r) (iac r) (class r) (name r) (eir r) (inquiry_mode r) (host_features r) (voice r) (links r) (queue r) (next_id r).
Definition with_page_timeout (v : N) (r : bredr) : bredr :=
  Bredr (address r) (acls r) (last_acl r) (scos r) (last_sco r) (page r) (page_scan r) (inquiry r) (page_scan_enable r) (inquiry_scan_enable r) v (default_policy r) (mask r) (iac r) (class r) (name r) (eir r) (inquiry_mode r) (host_features r) (voice r) (links r) (queue r) (next_id r).
Definition with_default_policy (v : N) (r : bredr) : bredr :=
  Bredr (address r) (acls r) (last_acl r) (scos r) (last_sco r) (page r) (page_scan r) (inquiry r) (page_scan_enable r) (inquiry_scan_enable r) (page_timeout r) v (mask r) (iac r) (class r) (name r) (eir r) (inquiry_mode r) (host_features r) (voice r) (links r) (queue r) (next_id r).
Definition with_mask (v : N) (r : bredr) : bredr :=
  Bredr (address r) (acls r) (last_acl r) (scos r) (last_sco r) (page r) (page_scan r) (inquiry r) (page_scan_enable r) (inquiry_scan_enable r) (page_timeout r) (default_policy r) v (iac r) (class r) (name r) (eir r) (inquiry_mode r) (host_features r) (voice r) (links r) (queue r) (next_id r).
Definition with_iac (v : list N) (r : bredr) : bredr :=
  Bredr (address r) (acls r) (last_acl r) (scos r) (last_sco r) (page r) (page_scan r) (inquiry r) (page_scan_enable r) (inquiry_scan_enable r) (page_timeout r) (default_policy r) (mask r) v (class r) (name r) (eir r) (inquiry_mode r) (host_features r) (voice r) (links r) (queue r) (next_id r).
Definition with_class (v : N) (r : bredr) : bredr :=
  Bredr (address r) (acls r) (last_acl r) (scos r) (last_sco r) (page r) (page_scan r) (inquiry r) (page_scan_enable r) (inquiry_scan_enable r) (page_timeout r) (default_policy r) (mask r) (iac r) v (name r) (eir r) (inquiry_mode r) (host_features r) (voice r) (links r) (queue r) (next_id r).
Definition with_name (v : list N) (r : bredr) : bredr :=
  Bredr (address r) (acls r) (last_acl r) (scos r) (last_sco r) (page r) (page_scan r) (inquiry r) (page_scan_enable r) (inquiry_scan_enable r) (page_timeout r) (default_policy r) (mask r) (iac r) (class r) v (eir r) (inquiry_mode r) (host_features r) (voice r) (links r) (queue r) (next_id r).
Definition with_eir (v : list N) (r : bredr) : bredr :=
  Bredr (address r) (acls r) (last_acl r) (scos r) (last_sco r) (page r) (page_scan r) (inquiry r) (page_scan_enable r) (inquiry_scan_enable r) (page_timeout r) (default_policy r) (mask r) (iac r) (class r) (name r) v (inquiry_mode r) (host_features r) (voice r) (links r) (queue r) (next_id r).
Definition with_inquiry_mode (v : N) (r : bredr) : bredr :=
  Bredr (address r) (acls r) (last_acl r) (scos r) (last_sco r) (page r) (page_scan r) (inquiry r) (page_scan_enable r) (inquiry_scan_enable r) (page_timeout r) (default_policy r) (mask r) (iac r) (class r) (name r) (eir r) v (host_features r) (voice r) (links r) (queue r) (next_id r).
Definition with_host_features (v : N) (r : bredr) : bredr :=
  Bredr (address r) (acls r) (last_acl r) (scos r) (last_sco r) (page r) (page_scan r) (inquiry r) (page_scan_enable r) (inquiry_scan_enable r) (page_timeout r) (default_policy r) (mask r) (iac r) (class r) (name r) (eir r) (inquiry_mode r) v (voice r) (links r) (queue r) (next_id r).
Definition with_voice (v : N) (r : bredr) : bredr :=
  Bredr (address r) (acls r) (last_acl r) (scos r) (last_sco r) (page r) (page_scan r) (inquiry r) (page_scan_enable r) (inquiry_scan_enable r) (page_timeout r) (default_policy r) (mask r) (iac r) (class r) (name r) (eir r) (inquiry_mode r) (host_features r) v (links r) (queue r) (next_id r).
Definition with_links (v : list addr) (r : bredr) : bredr :=
  Bredr (address r) (acls r) (last_acl r) (scos r) (last_sco r) (page r) (page_scan r) (inquiry r) (page_scan_enable r) (inquiry_scan_enable r) (page_timeout r) (default_policy r) (mask r) (iac r) (class r) (name r) (eir r) (inquiry_mode r) (host_features r) (voice r) v (queue r) (next_id r).
Definition with_queue (v : list task) (r : bredr) : bredr :=
  Bredr (address r) (acls r) (last_acl r) (scos r) (last_sco r) (page r) (page_scan r) (inquiry r) (page_scan_enable r) (inquiry_scan_enable r) (page_timeout r) (default_policy r) (mask r) (iac r) (class r) (name r) (eir r) (inquiry_mode r) (host_features r) (voice r) (links r) v (next_id r).
Definition with_next_id (v : N) (r : bredr) : bredr :=
  Bredr (address r) (acls r) (last_acl r) (scos r) (last_sco r) (page r) (page_scan r) (inquiry r) (page_scan_enable r) (inquiry_scan_enable r) (page_timeout r) (default_policy r) (mask r) (iac r) (class r) (name r) (eir r) (inquiry_mode r) (host_features r) (voice r) (links r) (queue r) v.


(** bredr_controller.h:360-560 and bredr_controller.cc:1267-1329: the state after construction *)
Definition new_bredr (a : addr) : bredr :=
  Bredr a [] kAclRangeStart [] kScoRangeStart None None None false false 0x2000 0 0x1fffffffffff [0x33] 0
    (repeat 0 248) (repeat 0 240) 0 0 0x60 [] [] 1.

(** ASSERT and FATAL abort the process; [OutOfBounds] is a read past the end of an array;
    [Hang] is a call that never returns *)
Inductive result (A : Type) := Ok (a : A) | Abort | OutOfBounds | Hang.
Arguments Ok {A}. Arguments Abort {A}. Arguments OutOfBounds {A}. Arguments Hang {A}.
Definition bind {A B} (r : result A) (k : A -> result B) : result B :=
  match r with Ok a => k a | Abort => Abort | OutOfBounds => OutOfBounds | Hang => Hang end.

(** bredr_controller.cc:64-75; every code below is at most 64 *)
Definition unmasked (s : bredr) (code : N) : bool := N.testbit (mask s) (code - 1).

(** * The scheduler *)

(** std::set<Task>::insert, bredr_controller.h (Task::operator<) *)
Definition before (a b : task) : bool := (due a <? due b) || ((due a =? due b) && (ident a <? ident b)).
Fixpoint insert (t : task) (q : list task) : list task :=
  match q with
  | [] => [t]
  | u :: q => if before t u then t :: u :: q else u :: insert t q
  end.

(** 2339-2343 *)
Definition schedule (at_time : N) (j : job) (s : bredr) : bredr :=
  with_next_id (next_id s + 1) (with_queue (insert (Task at_time (next_id s) j) (queue s)) s).
(** 2354-2362 *)
Fixpoint remove_task (i : N) (q : list task) : list task :=
  match q with
  | [] => []
  | t :: q => if ident t =? i then q else t :: remove_task i q
  end.
Definition cancel (i : N) (s : bredr) : bredr := with_queue (remove_task i (queue s)) s.

(** 1333-1339 *)
Definition transmit (now : N) (p : air) (s : bredr) : bredr := schedule now (Transmit p) s.
Definition tell (now : N) (e : event) (s : bredr) : bredr := schedule now (Tell e) s.
Definition to_peer (s : bredr) (a : addr) (b : body) : air := Air (address s) a b.

(** 2122-2130; DISCONNECTION_COMPLETE is 0x05 *)
Definition tell_disconnection (now : N) (h : N) (reason : status) (s : bredr) : bredr :=
  if unmasked s 0x05 then tell now (DisconnectionComplete SUCCESS h reason) s else s.

(** * The connection tables *)

Section WithController.
(** The order in which an iteration over the unordered map of synchronous connections
    visits them *)
Variable order : table sco_link -> table sco_link.
Variable cfg : config.

(** acl_connection_handler.cc:122-130 (GetAclConnectionHandle); the peers are different
    (BredrInv.v), so the order of the iteration does not matter *)
Definition acl_of (a : addr) (s : bredr) : option (N * acl_link) :=
  find (fun e => list_eqb (acl_peer (snd e)) a) (acls s).
Definition has_acl_with (a : addr) (s : bredr) : bool := match acl_of a s with Some _ => true | None => false end.

(** acl_connection_handler.cc:142-151 (GetScoConnectionHandle), and the same loop in
    184-290 *)
Definition sco_of (a : addr) (s : bredr) : option (N * sco_link) :=
  find (fun e => list_eqb (sco_peer (snd e)) a) (order (scos s)).

(** 184-194 *)
Definition is_pending (c : sco_link) : bool :=
  match sco_now c with PENDING | SENT_ESCO_CONNECTION_REQUEST | SENT_SCO_CONNECTION_REQUEST => true | _ => false end.
Definition has_pending_sco (a : addr) (s : bredr) : bool :=
  match sco_of a s with Some (_, c) => is_pending c | None => false end.

(** acl_connection_handler.cc:83-89 and acl_connection.cc:24-32 *)
Definition create_acl (now : N) (a : addr) (r : role) (policy : N) (s : bredr) : result (N * bredr) :=
  match get_unused_handle (acls s) kAclRangeStart kAclRangeEnd (last_acl s) with
  | None => Hang
  | Some (h, l) => Ok (h, with_last_acl l (with_acls (put (acls s) h (AclLink a r policy now)) s))
  end.

(** sco_connection.h:45-52, the default values *)
Definition no_link : link := Link 0 0 0 0 0 false.

(** acl_connection_handler.cc:174-181 (CreateScoConnection) *)
Definition create_sco (a : addr) (p : params) (st : Sco.sco_state) (spoofed legacy : bool) (s : bredr) : result (N * bredr) :=
  match get_unused_handle (scos s) kScoRangeStart kScoRangeEnd (last_sco s) with
  | None => Hang
  | Some (h, l) => Ok (h, with_last_sco l (with_scos (put (scos s) h (ScoLink a p no_link st spoofed legacy None)) s))
  end.

(** sco_connection.cc:299-304 (StopStream) *)
Definition stop_stream (c : sco_link) (s : bredr) : bredr :=
  match sco_stream c with Some i => cancel i s | None => s end.

(** acl_connection_handler.cc:104-109: the synchronous part of Disconnect *)
Definition close_sco (h : N) (s : bredr) : bredr :=
  match lookup (scos s) h with
  | Some c => let s := stop_stream c s in with_scos (erase (scos s) h) s
  | None => s
  end.

(** acl_connection_handler.cc:110-117: the caller has to have removed the synchronous
    connections *)
Definition close_acl (h : N) (s : bredr) : result bredr :=
  match lookup (acls s) h with
  | Some c =>
      match sco_of (acl_peer c) s with
      | Some _ => Abort
      | None => Ok (with_acls (erase (acls s) h) s)
      end
  | None => Ok s
  end.

(** rust/src/lmp/manager.rs:103 (MAX_PEER_NUMBER) and 255-287. A slot is free when its
    address is empty, so that an empty address is found in any free slot. *)
Definition MAX_PEER_NUMBER : N := 7.
Definition add_link (a : addr) (s : bredr) : result bredr :=
  if MAX_PEER_NUMBER <=? lenN (links s) then Abort
  else if list_eqb a empty_address then Ok s
  else Ok (with_links (links s ++ [a]) s).
Fixpoint remove_first (a : addr) (l : list addr) : list addr :=
  match l with
  | [] => []
  | b :: l => if list_eqb b a then l else b :: remove_first a l
  end.
Definition remove_link (a : addr) (s : bredr) : result bredr :=
  if list_eqb a empty_address then (if MAX_PEER_NUMBER <=? lenN (links s) then Abort else Ok s)
  else if existsb (list_eqb a) (links s) then Ok (with_links (remove_first a (links s)) s)
  else Abort.

(** 2311-2327 (StartScoStream); the identifier of the task *)
Definition start_stream (now : N) (h : N) (s : bredr) : N * bredr := (next_id s, schedule now (Stream h) s).

(** sco_connection.cc:292-297 (StartStream), on the connection of handle [h]; the stream
    is started for the first connection found with the same peer (2312) *)
Definition open_stream (now : N) (h : N) (s : bredr) : result bredr :=
  match lookup (scos s) h with
  | None => Ok s
  | Some c =>
      match sco_stream c with
      | Some _ => Abort
      | None =>
          if sco_spoofed c then
            match sco_of (sco_peer c) s with
            | None => Abort
            | Some (h', _) =>
                let (i, s) := start_stream now h' s in
                Ok (with_scos (put (scos s) h (with_sco_stream (Some i) c)) s)
            end
          else Ok s
      end
  end.

(** acl_connection_handler.cc:232-248 (AcceptPendingScoConnection, the acceptor), for the
    connection found; [None] when the negotiation failed *)
Definition accept_negotiated (now : N) (h : N) (c : sco_link) (p : params) (s : bredr) : result (option link * bredr) :=
  match negotiate (sco_now c) (sco_params c) p with
  | None => Ok (None, with_scos (put (scos s) h (with_sco_now CLOSED c)) s)
  | Some l =>
      let s := with_scos (put (scos s) h (with_sco_now OPENED (with_sco_negotiated l c))) s in
      bind (open_stream now h s) (fun s => Ok (Some l, s))
  end.

(** acl_connection_handler.cc:217-229 (AcceptPendingScoConnection, the initiator) *)
Definition accept_given (now : N) (h : N) (c : sco_link) (l : link) (s : bredr) : result bredr :=
  let s := with_scos (put (scos s) h (with_sco_now OPENED (with_sco_negotiated l c))) s in
  open_stream now h s.

(** acl_connection_handler.cc:208-215 (CancelPendingScoConnection): the first connection
    found with the peer. The destructor of a connection (sco_connection.cc:31) asserts that
    its stream is stopped: a connection that waits for an answer has none (BredrFail.v), the
    other caller makes the check. *)
Definition cancel_sco (a : addr) (s : bredr) : bredr :=
  match sco_of a s with Some (h, _) => with_scos (erase (scos s) h) s | None => s end.

(** * Link supervision *)

(** acl_connection.cc:28-32: three seconds *)
Definition kTimeout : N := 3000000.

(** 154-194 (Disconnect) *)
Definition disconnect (now : N) (h : N) (host_reason reason : status) (s : bredr) : result (status * bredr) :=
  match lookup (scos s) h with
  | Some c =>
      let s := transmit now (to_peer s (sco_peer c) (ScoBye host_reason)) s in
      let s := close_sco h s in
      Ok (SUCCESS, tell_disconnection now h reason s)
  | None =>
      match lookup (acls s) h with
      | Some c =>
          let a := acl_peer c in
          let s := match sco_of a s with
                   | Some (sh, _) =>
                       let s := transmit now (to_peer s a (ScoBye host_reason)) s in
                       let s := close_sco sh s in
                       tell_disconnection now sh reason s
                   | None => s
                   end in
          let s := transmit now (to_peer s a (Bye host_reason)) s in
          bind (close_acl h s) (fun s =>
          let s := tell_disconnection now h reason s in
          bind (remove_link a s) (fun s => Ok (SUCCESS, s)))
      | None => Ok (UNKNOWN_CONNECTION, s)
      end
  end.

(** std::chrono::duration_cast<milliseconds> of a duration that is not negative *)
Definition whole_ms (t : N) : N := t / 1000 * 1000.

(** 2280-2302 (CheckExpiringConnection); HasExpired and IsNearExpiring are
    acl_connection.cc:52-68 *)
Definition check_link (now : N) (h : N) (s : bredr) : result bredr :=
  match lookup (acls s) h with
  | None => Ok s
  | Some c =>
      if last_heard c + kTimeout <? now then
        bind (disconnect now h CONNECTION_TIMEOUT CONNECTION_TIMEOUT s) (fun '(_, s) => Ok s)
      else if last_heard c + kTimeout / 2 <? now then
        let s := transmit now (to_peer s (acl_peer c) PingRequest) s in
        Ok (schedule (now + whole_ms (last_heard c + kTimeout - now)) (CheckLink h) s)
      else Ok (schedule (now + whole_ms (last_heard c + kTimeout / 2 - now)) (CheckLink h) s)
  end.

(** * Commands *)

(** ScoCodingFormat (packets/hci_packets.pdl) *)
Record coding := Coding { format : N; company_id : N; vendor_codec : N }.
Definition coding_eqb (a b : coding) : bool :=
  (format a =? format b) && (company_id a =? company_id b) && (vendor_codec a =? vendor_codec b).
(** ScoCodingFormatValues::TRANSPARENT *)
Definition transparent (c : coding) : bool := format c =? 3.
(** The parameters of the enhanced commands that are looked at *)
Record enhanced := Enhanced {
  e_transmit : coding; e_receive : coding; e_input : coding; e_output : coding;
  input_bandwidth : N; output_bandwidth : N; input_path : N; output_path : N }.

Inductive command :=
| Inquire (lap length responses : N)
| InquiryCancel
| CreateConnection (a : addr) (allow_role_switch : N)
| CreateConnectionCancel (a : addr)
| Disconnect (h reason : N)
| AcceptConnection (a : addr) (try_role_switch : bool)
| RejectConnection (a : addr) (reason : N)
| ChangePacketType (h t : N)
| RemoteName (a : addr)
| ReadSupportedFeatures (h : N)
| ReadExtendedFeatures (h n : N)
| ReadVersion (h : N)
| ReadClockOffset (h : N)
| AddSco (h packet_types : N)
| SetupSync (h : N) (p : params)
| AcceptSync (a : addr) (p : params)
| RejectSync (a : addr) (reason : N)
| EnhancedSetup (h : N) (p : params) (e : enhanced)
| EnhancedAccept (a : addr) (p : params) (e : enhanced)
| QosSetup (h service rate bandwidth latency variation : N)
| RoleDiscovery (h : N)
| SwitchRole (a : addr) (r : role)
| WriteLinkPolicy (h n : N)
| WriteDefaultPolicy (n : N)
| Reset
| WriteScanEnable (inquiry page : bool)
| WriteName (n : list N)
| WriteEir (d : list N)
| WritePageTimeout (n : N)
| WriteIac (l : list N)
| WriteInquiryMode (n : N)
| WriteClass (n : N)
| WriteVoice (n : N)
| WriteHostFeatures (n : N) (* 1220-1255: the commands that enable host features *)
| SetEventMask (n : N).

(** 57-60 *)
Definition kPageInterval : N := 1000000.
Definition kInquiryInterval : N := 2000000.

(** 82-101 *)
Definition start_inquiry (now lap len num : N) (s : bredr) : status * bredr :=
  if (0xff <? num) || (len <? 1) || (0x30 <? len) then (INVALID_PARAMETERS, s)
  else
    match inquiry s with
    | Some _ => (DISALLOWED, s)
    | None => (SUCCESS, with_inquiry (Some (InquiryState lap num (now + kInquiryInterval) (now + len * 1280000))) s)
    end.

(** 104-112 *)
Definition cancel_inquiry (s : bredr) : status * bredr :=
  match inquiry s with
  | None => (DISALLOWED, s)
  | Some _ => (SUCCESS, with_inquiry None s)
  end.

Definition paging (a : addr) (s : bredr) : bool :=
  match page s with Some p => list_eqb (page_peer p) a | None => false end.
Definition paged_by (a : addr) (s : bredr) : bool :=
  match page_scan s with Some p => list_eqb (scan_peer p) a | None => false end.

(** 115-149; slots are 625 us (le_advertiser.h:32) *)
Definition create_connection (now : N) (a : addr) (allow : N) (s : bredr) : status * bredr :=
  match page s with
  | Some _ => (DISALLOWED, s)
  | None =>
      if has_acl_with a s then (ALREADY_EXISTS, s)
      else if paged_by a s then (ALREADY_EXISTS, s)
      else (SUCCESS, with_page (Some (PageState a allow (now + kPageInterval) (now + page_timeout s * 625))) s)
  end.

(** 197-223; CONNECTION_COMPLETE is 0x03 *)
Definition cancel_connection (now : N) (a : addr) (s : bredr) : status * bredr :=
  if paging a s then
    let s := if unmasked s 0x03 then tell now (ConnectionComplete UNKNOWN_CONNECTION 0 a LINK_ACL) s else s in
    (SUCCESS, with_page None s)
  else (UNKNOWN_CONNECTION, s).

(** 315-333 and 547-563: the answer to the peer *)
Definition sco_answer (now : N) (a : addr) (st : status) (l : link) (s : bredr) : bredr :=
  transmit now (to_peer s a (ScoResponse st l)) s.

(** HCI Synchronous Connection Complete with the parameters of a link: 552-562, 1862-1871 *)
Definition sync_complete (st : status) (h : N) (a : addr) (l : link) : event :=
  SynchronousComplete st h a (if extended l then LINK_ESCO else LINK_SCO)
    (if extended l then transmission_interval l else 0) (if extended l then retransmission_window l else 0)
    (if extended l then rx_packet_length l else 0) (if extended l then tx_packet_length l else 0) (air_mode l).

(** 226-341; ROLE_CHANGE is 0x12 *)
Definition accept_connection (now : N) (a : addr) (try : bool) (s : bredr) : result (status * bredr) :=
  if paged_by a s then
    if has_acl_with a s then Ok (SUCCESS, s)
    else
      let allow := match page_scan s with Some p => scan_allow p | None => 0 end in
      let r := if try && negb (allow =? 0) then CENTRAL else PERIPHERAL in
      bind (create_acl now a r (default_policy s) s) (fun '(h, s) =>
      bind (check_link now h s) (fun s =>
      let s := if role_eqb r CENTRAL && unmasked s 0x12 then tell now (RoleChange SUCCESS a r) s else s in
      bind (add_link a s) (fun s =>
      let s := if unmasked s 0x03 then tell now (ConnectionComplete SUCCESS h a LINK_ACL) s else s in
      let s := transmit now (to_peer s a (PageResponse try)) s in
      let s := if paging a s then with_page None s else s in
      Ok (SUCCESS, with_page_scan None s))))
  else
    match sco_of a s with
    | Some (h, c) =>
        if is_pending c then
          bind (accept_negotiated now h c (sco_params c) s) (fun '(ol, s) =>
          let s := match ol with Some _ => s | None => cancel_sco a s end in
          let st := match ol with Some _ => SUCCESS | None => SCO_INTERVAL_REJECTED end in
          let l := match ol with Some l => l | None => no_link end in
          let h := match ol with Some _ => h | None => 0 end in
          let s := sco_answer now a st l s in
          let s := if unmasked s 0x03 then tell now (ConnectionComplete st h a LINK_SCO) s else s in
          Ok (SUCCESS, s))
        else Ok (UNKNOWN_CONNECTION, s)
    | None => Ok (UNKNOWN_CONNECTION, s)
    end.

(** 344-353 *)
Definition reject_connection (now : N) (a : addr) (reason : N) (s : bredr) : status * bredr :=
  if paged_by a s then (SUCCESS, schedule now (RejectPage a reason) s) else (UNKNOWN_CONNECTION, s).

(** 357-371 *)
Definition change_packet_type (now h t : N) (s : bredr) : status * bredr :=
  if has (acls s) h then (SUCCESS, schedule now (TellPacketType h t) s) else (UNKNOWN_CONNECTION, s).

(** 384-391 *)
Definition remote_name (now : N) (a : addr) (s : bredr) : status * bredr :=
  let s := transmit now (to_peer s a LmpFeaturesRequest) s in
  (SUCCESS, transmit now (to_peer s a NameRequest) s).

(** 394-440: the requests sent to the peer of a link *)
Definition ask_peer (now h : N) (b : body) (s : bredr) : status * bredr :=
  match lookup (acls s) h with
  | None => (UNKNOWN_CONNECTION, s)
  | Some c => (SUCCESS, transmit now (to_peer s (acl_peer c) b) s)
  end.

(** 445-479 and 482-514 *)
Definition setup_sync (now h : N) (p : params) (spoofed legacy : bool) (s : bredr) : result (status * bredr) :=
  match lookup (acls s) h with
  | None => Ok (UNKNOWN_CONNECTION, s)
  | Some c =>
      let a := acl_peer c in
      if has_pending_sco a s then Ok (DISALLOWED, s)
      else
        bind (create_sco a p PENDING spoofed legacy s) (fun '(_, s) =>
        Ok (SUCCESS, transmit now (to_peer s a (ScoRequest p (class s))) s))
  end.

(** 458-470 *)
Definition legacy_params (packet_types : N) : params :=
  Params 8000 8000 0xffff 0x60 0 (N.lor (N.land (N.shiftr packet_types 5) 7) 0x3c0).

(** 517-566 *)
Definition accept_sync (now : N) (a : addr) (p : params) (s : bredr) : result (status * bredr) :=
  match sco_of a s with
  | Some (h, c) =>
      if is_pending c then
        bind (accept_negotiated now h c p s) (fun '(ol, s) =>
        let s := match ol with Some _ => s | None => cancel_sco a s end in
        let st := match ol with Some _ => SUCCESS | None => STATUS_UNKNOWN end in
        let l := match ol with Some l => l | None => no_link end in
        let h := match ol with Some _ => h | None => 0 end in
        let s := sco_answer now a st l s in
        Ok (SUCCESS, tell now (sync_complete st h a l) s))
      else Ok (DISALLOWED, s)
  | None => Ok (DISALLOWED, s)
  end.

(** 569-593; ScoAirMode::TRANSPARENT is 3 *)
Definition reject_sync (now : N) (a : addr) (reason : N) (s : bredr) : status * bredr :=
  let reason := if reason =? SUCCESS then REMOTE_USER_TERMINATED else reason in
  if has_pending_sco a s then
    let s := cancel_sco a s in
    let s := sco_answer now a (reason mod 256) no_link s in
    (SUCCESS, tell now (SynchronousComplete (reason mod 256) 0 a LINK_ESCO 0 0 0 0 3) s)
  else (DISALLOWED, s).

(** 613-712 and 739-840: the checks of the enhanced commands *)
Definition enhanced_ok (p : params) (e : enhanced) : bool :=
  coding_eqb (e_transmit e) (e_receive e) &&
  negb (negb (input_bandwidth e =? output_bandwidth e) && negb (input_bandwidth e =? 0) && negb (output_bandwidth e =? 0)) &&
  coding_eqb (e_input e) (e_output e) &&
  negb (transparent (e_transmit e) && transparent (e_input e) && negb (transmit_bandwidth p =? input_bandwidth e)) &&
  Bool.eqb (transparent (e_transmit e)) (transparent (e_input e)) &&
  negb (transparent (e_receive e) && transparent (e_output e) && negb (receive_bandwidth p =? output_bandwidth e)) &&
  Bool.eqb (transparent (e_receive e)) (transparent (e_output e)).
(** 649-660; ScoDataPath::HCI is 0 *)
Definition is_spoofed (e : enhanced) : bool := negb (input_path e =? 0) || negb (output_path e =? 0).
(** 714-719, 842-845: the voice setting is the one of the controller *)
Definition with_voice_of (s : bredr) (p : params) : params :=
  Params (transmit_bandwidth p) (receive_bandwidth p) (max_latency p) (voice s) (retransmission_effort p) (packet_type p).

(** 893-936; QOS_SETUP_COMPLETE is 0x0d *)
Definition preferred (v default : N) : N := if (v =? 0) || (v =? 0xffffffff) then default else v.
Definition qos_setup (now h service rate bandwidth latency variation : N) (s : bredr) : status * bredr :=
  if negb (has (acls s) h) then (UNKNOWN_CONNECTION, s)
  else if 2 <? service then (INVALID_PARAMETERS, s)
  else (SUCCESS,
    if unmasked s 0x0d
    then tell now (QosComplete SUCCESS h service (preferred rate 100000) (preferred bandwidth 200000)
                     (preferred latency 50000) (preferred variation 10000)) s
    else s).

(** 949-991; no command puts a connection in sniff mode *)
Definition switch_role (now : N) (a : addr) (r : role) (s : bredr) : status * bredr :=
  match acl_of a s with
  | None => (UNKNOWN_CONNECTION, s)
  | Some (_, c) =>
      match sco_of a s with
      | Some _ => (DISALLOWED, s)
      | None =>
          (SUCCESS,
           if negb (role_eqb r (acl_role c)) then transmit now (to_peer s a SwitchRequest) s
           else if unmasked s 0x12 then tell now (RoleChange ROLE_SWITCH_FAILED a r) s
           else s)
      end
  end.

(** 1005-1017 *)
Definition write_link_policy (h n : N) (s : bredr) : status * bredr :=
  match lookup (acls s) h with
  | None => (UNKNOWN_CONNECTION, s)
  | Some c =>
      if 7 <? n then (INVALID_PARAMETERS, s)
      else (SUCCESS, with_acls (put (acls s) h (with_acl_policy n c)) s)
  end.

(** 2212-2223 (DisconnectAll); the order of the packets is not specified *)
Definition disconnect_all (now : N) (reason : N) (s : bredr) : bredr :=
  let s := fold_left (fun s e => transmit now (to_peer s (sco_peer (snd e)) (ScoBye reason)) s) (order (scos s)) s in
  fold_left (fun s e => transmit now (to_peer s (acl_peer (snd e)) (Bye reason)) s) (acls s) s.

(** 1075-1121; acl_connection_handler.cc:56-70 stops the streams. The task queue is left
    as it is. *)
Definition reset (now : N) (s : bredr) : bredr :=
  let s := disconnect_all now REMOTE_USER_TERMINATED s in
  let s := fold_left (fun s e => stop_stream (snd e) s) (scos s) s in
  with_next_id (next_id s) (with_queue (queue s) (new_bredr (address s))).

Definition quiet (r : status * bredr) : result (status * bredr * list output) := Ok (fst r, snd r, []).

(** dual_mode_controller.cc calls the functions above, then sends the status *)
Definition run_command (now : N) (s : bredr) (c : command) : result (status * bredr * list output) :=
  match c with
  | Inquire lap len num => quiet (start_inquiry now lap len num s)
  | InquiryCancel => quiet (cancel_inquiry s)
  | CreateConnection a allow => quiet (create_connection now a allow s)
  | CreateConnectionCancel a => quiet (cancel_connection now a s)
  | Disconnect h reason =>
      (* dual_mode_controller.cc:2126-2134; controller_reason defaults to
         CONNECTION_TERMINATED_BY_LOCAL_HOST (bredr_controller.h) *)
      bind (disconnect now h reason LOCAL_HOST_TERMINATED s) quiet
  | AcceptConnection a try => bind (accept_connection now a try s) quiet
  | RejectConnection a reason => quiet (reject_connection now a reason s)
  | ChangePacketType h t => quiet (change_packet_type now h t s)
  | RemoteName a => quiet (remote_name now a s)
  | ReadSupportedFeatures h => quiet (ask_peer now h FeaturesRequest s)
  | ReadExtendedFeatures h n => quiet (ask_peer now h (ExtendedFeaturesRequest n) s)
  | ReadVersion h => quiet (ask_peer now h VersionRequest s)
  | ReadClockOffset h => quiet (ask_peer now h ClockRequest s)
  | AddSco h t => bind (setup_sync now h (legacy_params t) false true s) quiet
  | SetupSync h p => bind (setup_sync now h p false false s) quiet
  | AcceptSync a p => bind (accept_sync now a p s) quiet
  | RejectSync a reason => quiet (reject_sync now a reason s)
  | EnhancedSetup h p e =>
      if enhanced_ok p e then bind (setup_sync now h (with_voice_of s p) (is_spoofed e) false s) quiet
      else Ok (INVALID_PARAMETERS, s, [])
  | EnhancedAccept a p e =>
      if enhanced_ok p e then bind (accept_sync now a (with_voice_of s p) s) quiet
      else Ok (INVALID_PARAMETERS, s, [])
  | QosSetup h service rate bandwidth latency variation => quiet (qos_setup now h service rate bandwidth latency variation s)
  | RoleDiscovery h =>
      (* 939-946 *)
      match lookup (acls s) h with
      | None => Ok (UNKNOWN_CONNECTION, s, [])
      | Some c => Ok (SUCCESS, s, [RoleIs (acl_role c)])
      end
  | SwitchRole a r => quiet (switch_role now a r s)
  | WriteLinkPolicy h n => quiet (write_link_policy h n s)
  | WriteDefaultPolicy n =>
      (* 1027-1034 *)
      if 7 <? n then Ok (INVALID_PARAMETERS, s, []) else Ok (SUCCESS, with_default_policy n s, [])
  | Reset => Ok (SUCCESS, reset now s, [])
  | WriteScanEnable i p => Ok (SUCCESS, with_page_scan_enable p (with_inquiry_scan_enable i s), []) (* 1139-1144 *)
  | WriteName n => Ok (SUCCESS, with_name n s, []) (* 1125-1127 *)
  | WriteEir d => Ok (SUCCESS, with_eir d s, []) (* 1147-1150 *)
  | WritePageTimeout n => Ok (SUCCESS, with_page_timeout n s, []) (* 2278 *)
  | WriteIac l => Ok (SUCCESS, with_iac (firstn (N.to_nat (num_iac cfg)) l) s, []) (* 2101-2109 *)
  | WriteInquiryMode n => Ok (SUCCESS, with_inquiry_mode n s, []) (* 2251-2253 *)
  | WriteClass n => Ok (SUCCESS, with_class n s, [])
  | WriteVoice n => Ok (SUCCESS, with_voice n s, [])
  | WriteHostFeatures n => Ok (SUCCESS, with_host_features n s, [])
  | SetEventMask n => Ok (SUCCESS, with_mask n s, [])
  end.

(** * Data from the host *)

(** 1915-1947; BroadcastFlag::POINT_TO_POINT is 0 *)
Definition handle_acl (now h boundary broadcast : N) (data : list N) (s : bredr) : result bredr :=
  if negb (broadcast =? 0) then Abort
  else
    let s := match lookup (acls s) h with
             | Some c => transmit now (to_peer s (acl_peer c) (Acl boundary broadcast data)) s
             | None => s
             end in
    Ok (tell now (CompletedPackets h 1) s).

(** 1341-1357 (SendScoToRemote) *)
Definition send_sco (now h : N) (data : list N) (s : bredr) : bredr :=
  match lookup (scos s) h with
  | None => s
  | Some c => transmit now (to_peer s (sco_peer c) (Voice data)) s
  end.

(** * Packets from the radio *)

Definition said (s : bredr) (code : N) (e : event) : list output := if unmasked s code then [Event e] else [].

(** 303-307 of bredr_controller.h (GetLmpFeatures) *)
Definition get_features (s : bredr) (n : N) : option N :=
  if n =? 1 then Some (host_features s) else nth_error (lmp_features cfg) (N.to_nat n).

(** 1577-1589: the features are read even when the page does not exist *)
Definition receive_extended_request (now : N) (p : air) (n : N) (s : bredr) : result bredr :=
  let st := if lenN (lmp_features cfg) <=? n then INVALID_LMP else SUCCESS in
  match get_features s n with
  | None => OutOfBounds
  | Some f =>
      Ok (transmit now (Air (destination p) (source p) (ExtendedFeaturesResponse st n (lenN (lmp_features cfg) - 1) f)) s)
  end.

(** 1469-1498 *)
Definition receive_acl (a : addr) (boundary broadcast : N) (data : list N) (s : bredr) : list output :=
  let boundary := if boundary =? 0 then 2 else boundary in
  match acl_of a s with
  | None => []
  | Some (h, _) => [AclToHost h boundary broadcast data]
  end.

(** 1500-1518 *)
Definition receive_voice (a : addr) (data : list N) (s : bredr) : list output :=
  match sco_of a s with None => [] | Some (h, _) => [ScoToHost h data] end.

(** 1561-1575, 1591-1606, 1615-1633, 1640-1654: answers about a link *)
Definition receive_about (a : addr) (code : N) (e : N -> event) (s : bredr) : list output :=
  match acl_of a s with None => [] | Some (h, _) => said s code (e h) end.

(** 1656-1676 *)
Definition receive_bye (now : N) (a : addr) (reason : N) (s : bredr) : result bredr :=
  match acl_of a s with
  | None => Ok s
  | Some (h, _) =>
      bind (close_acl h s) (fun s =>
      bind (remove_link a s) (fun s => Ok (tell_disconnection now h reason s)))
  end.

(** 1678-1718; InquiryType STANDARD, RSSI and EXTENDED are 0, 1 and 2 *)
Definition receive_inquiry (now : N) (a : addr) (mode lap rssi : N) (s : bredr) : bredr :=
  if negb (inquiry_scan_enable s) then s
  else if negb (existsb (N.eqb lap) (iac s)) then s
  else if mode =? 0 then transmit now (to_peer s a (InquiryAnswer 0 0 (class s) 0 0 [])) s
  else if mode =? 1 then transmit now (to_peer s a (InquiryAnswer 1 0 (class s) 0 rssi [])) s
  else if mode =? 2 then transmit now (to_peer s a (InquiryAnswer 2 0 (class s) 0 rssi (eir s))) s
  else s.

(** 1720-1782; INQUIRY_RESULT is 0x02 and INQUIRY_RESULT_WITH_RSSI 0x22; the event
    with extended data does not depend on the mask *)
Definition receive_inquiry_answer (a : addr) (mode rep cls off rssi : N) (d : list N) (s : bredr) : list output :=
  if mode =? 0 then said s 0x02 (InquiryResult 0 a rep cls off 0 [])
  else if mode =? 1 then said s 0x22 (InquiryResult 1 a rep cls off rssi [])
  else if mode =? 2 then [Event (InquiryResult 2 a rep cls off rssi d)]
  else [].

(** 1784-1822 *)
Definition receive_sco_request (now : N) (a : addr) (p : params) (cls : N) (s : bredr) : result (bredr * list output) :=
  if has_pending_sco a s then Ok (sco_answer now a SYNCHRONOUS_LIMIT no_link s, [])
  else
    let ext := is_extended p in
    bind (create_sco a p (if ext then SENT_ESCO_CONNECTION_REQUEST else SENT_SCO_CONNECTION_REQUEST) false false s) (fun '(_, s) =>
    Ok (s, [Event (ConnectionRequest a cls (if ext then LINK_ESCO else LINK_SCO))])).

(** ScoConnectionParameters with its default values (sco_connection.h:54-60): what is
    returned when no connection is found (acl_connection_handler.cc:250-259) *)
Definition no_params : params := Params 0 0 0 0 0 0.
Definition params_of (a : addr) (s : bredr) : params :=
  match sco_of a s with Some (_, c) => sco_params c | None => no_params end.

(** 1824-1884 *)
Definition receive_sco_response (now : N) (a : addr) (st : N) (l : link) (s : bredr) : result (bredr * list output) :=
  match sco_of a s with
  | None => Ok (s, [])
  | Some (h, c) =>
      let legacy := sco_legacy c in
      if st =? SUCCESS then
        bind (accept_given now h c l s) (fun s =>
        Ok (s, [Event (if legacy then ConnectionComplete SUCCESS h a LINK_SCO else sync_complete SUCCESS h a l)]))
      else
        match sco_stream c with
        | Some _ => Abort (* the destructor, sco_connection.cc:31 *)
        | None =>
            let s := cancel_sco a s in
            Ok (s, [Event (if legacy then ConnectionComplete st 0 a LINK_SCO
                           else SynchronousComplete st 0 a (if is_extended (params_of a s) then LINK_ESCO else LINK_SCO) 0 0 0 0 3)])
        end
  end.

(** 1886-1902 *)
Definition receive_sco_bye (now : N) (a : addr) (reason : N) (s : bredr) : bredr :=
  match sco_of a s with
  | None => s
  | Some (h, _) => tell_disconnection now h reason (close_sco h s)
  end.

(** 1949-1994; CONNECTION_REQUEST is 0x04 *)
Definition receive_page (now : N) (a : addr) (cls allow : N) (s : bredr) : bredr * list output :=
  if negb (page_scan_enable s) then (s, [])
  else if negb (unmasked s 0x04) then (transmit now (to_peer s a (PageReject CONNECTION_TIMEOUT)) s, [])
  else if has_acl_with a s then (s, [])
  else
    match page_scan s with
    | Some _ => (s, [])
    | None => (with_page_scan (Some (ScanState a allow)) s, [Event (ConnectionRequest a cls LINK_ACL)])
    end.

(** 1996-2016 *)
Definition receive_page_reject (a : addr) (reason : N) (s : bredr) : bredr * list output :=
  if paging a s
  then (with_page None s, said s 0x03 (ConnectionComplete reason 0 a LINK_ACL))
  else (s, []).

(** 2018-2058 *)
Definition receive_page_response (now : N) (a : addr) (try : bool) (s : bredr) : result (bredr * list output) :=
  if paging a s then
    let allow := match page s with Some p => page_allow p | None => 0 end in
    let r := if negb (allow =? 0) && try then PERIPHERAL else CENTRAL in
    bind (create_acl now a r (default_policy s) s) (fun '(h, s) =>
    bind (check_link now h s) (fun s =>
    let s := with_page None s in
    bind (add_link a s) (fun s =>
    Ok (s, (if role_eqb r PERIPHERAL then said s 0x12 (RoleChange SUCCESS a r) else []) ++
           said s 0x03 (ConnectionComplete SUCCESS h a LINK_ACL)))))
  else Ok (s, []).

(** 2137-2172 *)
Definition receive_switch_request (now : N) (a : addr) (s : bredr) : bredr :=
  match acl_of a s with
  | None => s
  | Some (h, c) =>
      if N.testbit (acl_policy c) 0 then
        let s := transmit now (to_peer s a (SwitchResponse SUCCESS)) s in
        let r := other (acl_role c) in
        let s := with_acls (put (acls s) h (with_acl_role r c)) s in
        if unmasked s 0x12 then tell now (RoleChange SUCCESS a r) s else s
      else transmit now (to_peer s a (SwitchResponse ROLE_NOT_ALLOWED)) s
  end.

(** 2174-2199 *)
Definition receive_switch_response (now : N) (a : addr) (st : N) (s : bredr) : bredr :=
  match acl_of a s with
  | None => s
  | Some (h, c) =>
      let r := if st =? SUCCESS then other (acl_role c) else acl_role c in
      let s := with_acls (put (acls s) h (with_acl_role r c)) s in
      if unmasked s 0x12 then tell now (RoleChange st a r) s else s
  end.

(** 1370-1377: the link is alive *)
Definition heard_from (now : N) (a : addr) (s : bredr) : bredr :=
  match acl_of a s with
  | Some (h, c) => with_acls (put (acls s) h (with_last_heard now c)) s
  | None => s
  end.

Definition silent (s : bredr) : result (bredr * list output) := Ok (s, []).
Definition answering (r : result bredr) : result (bredr * list output) := bind r silent.

(** 1379-1467, and the handlers that fit in a line: 1520-1559, 1608-1613, 1635-1638, 2304-2309 *)
Definition dispatch (now rssi : N) (p : air) (s : bredr) : result (bredr * list output) :=
  let a := source p in
  let back b := silent (transmit now (Air (destination p) a b) s) in
  match content p with
  | Acl pb bc d => Ok (s, receive_acl a pb bc d s)
  | Voice d => Ok (s, receive_voice a d s)
  | Bye reason => answering (receive_bye now a reason s)
  | InquiryPacket mode lap => silent (receive_inquiry now a mode lap rssi s)
  | InquiryAnswer mode rep cls off r d => Ok (s, receive_inquiry_answer a mode rep cls off r d s)
  | Page cls allow => Ok (receive_page now a cls allow s)
  | PageResponse try => receive_page_response now a try s
  | PageReject reason => Ok (receive_page_reject a reason s)
  | NameRequest => back (NameResponse (name s))
  | NameResponse n => Ok (s, said s 0x07 (RemoteNameComplete SUCCESS a n))
  | FeaturesRequest => back (FeaturesResponse (nth 0 (lmp_features cfg) 0))
  | FeaturesResponse f => Ok (s, receive_about a 0x0b (fun h => SupportedFeaturesComplete SUCCESS h f) s)
  | LmpFeaturesRequest => back (LmpFeaturesResponse (host_features s))
  | LmpFeaturesResponse f => Ok (s, said s 0x3d (HostFeaturesNotification a f))
  | ExtendedFeaturesRequest n => answering (receive_extended_request now p n s)
  | ExtendedFeaturesResponse st n l f => Ok (s, receive_about a 0x23 (fun h => ExtendedFeaturesComplete st h n l f) s)
  | VersionRequest => (* the packet has 8 bits for the subversion, link_layer_packets.pdl:282 *)
      back (VersionResponse (lmp_version cfg) (lmp_subversion cfg mod 256) (company cfg))
  | VersionResponse v sub m => Ok (s, receive_about a 0x0c (fun h => VersionComplete SUCCESS h v m sub) s)
  | ClockRequest => back (ClockResponse 0)
  | ClockResponse off => Ok (s, receive_about a 0x1c (fun h => ClockOffsetComplete SUCCESS h off) s)
  | ScoRequest q cls => receive_sco_request now a q cls s
  | ScoResponse st l => receive_sco_response now a st l s
  | ScoBye reason => silent (receive_sco_bye now a reason s)
  | PingRequest => back PingResponse
  | PingResponse => silent s
  | SwitchRequest => silent (receive_switch_request now a s)
  | SwitchResponse st => silent (receive_switch_response now a st s)
  end.

(** 1359-1377 *)
Definition for_me (p : air) (s : bredr) : bool :=
  list_eqb (destination p) empty_address || list_eqb (destination p) (address s).
Definition receive (now rssi : N) (p : air) (s : bredr) : result (bredr * list output) :=
  if for_me p s then dispatch now rssi p (heard_from now (source p) s) else Ok (s, []).

(** * The tick *)

(** 2111-2120 *)
Definition reject_page (now : N) (a : addr) (reason : N) (s : bredr) : bredr * list output :=
  (transmit now (to_peer s a (PageReject reason)) s, said s 0x03 (ConnectionComplete reason 0xeff a LINK_ACL)).

(** CONNECTION_PACKET_TYPE_CHANGED is 0x1d *)
Definition run_job (now : N) (t : task) (s : bredr) : result (bredr * list output) :=
  match what_to_do t with
  | Transmit p => Ok (s, [Sent p])
  | Tell e => Ok (s, [Event e])
  | TellPacketType h n => Ok (s, said s 0x1d (PacketTypeChanged SUCCESS h n))
  | RejectPage a reason => Ok (reject_page now a reason s)
  | CheckLink h => answering (check_link now h s)
  | Stream h =>
      (* 2323-2326, and 2378-2381: the task is inserted again after it has run *)
      let s := send_sco now h [0; 0; 0; 0; 0] s in
      silent (with_queue (insert (Task (now + 20000) (ident t) (Stream h)) (queue s)) s)
  end.

(** 2364-2384; [limit] is the first identifier given after the run started *)
Fixpoint run_tasks (now limit : N) (fuel : nat) (s : bredr) : result (bredr * list output) :=
  match fuel with
  | O => Ok (s, [])
  | S fuel =>
      match queue s with
      | [] => Ok (s, [])
      | t :: q =>
          if (due t <=? now) && (ident t <? limit) then
            bind (run_job now t (with_queue q s)) (fun '(s, out) =>
            bind (run_tasks now limit fuel s) (fun '(s, out') => Ok (s, out ++ out')))
          else Ok (s, [])
      end
  end.

(** 2226-2249 *)
Definition do_paging (now : N) (s : bredr) : bredr * list output :=
  match page s with
  | None => (s, [])
  | Some p =>
      if page_deadline p <=? now then
        (with_page None s, [Event (ConnectionComplete PAGE_TIMEOUT 0 (page_peer p) LINK_ACL)])
      else if (page_next p <=? now) && negb (paged_by (page_peer p) s) then
        let s := transmit now (to_peer s (page_peer p) (Page (class s) (page_allow p))) s in
        (with_page (Some (PageState (page_peer p) (page_allow p) (now + kPageInterval) (page_deadline p))) s, [])
      else (s, [])
  end.

(** 2256-2276; INQUIRY_COMPLETE is 0x01 *)
Definition do_inquiry (now : N) (s : bredr) : bredr * list output :=
  match inquiry s with
  | None => (s, [])
  | Some i =>
      if inquiry_deadline i <=? now then (with_inquiry None s, said s 0x01 (InquiryComplete SUCCESS))
      else if inquiry_next i <=? now then
        let s := transmit now (to_peer s empty_address (InquiryPacket (inquiry_mode s) (inquiry_lap i))) s in
        (with_inquiry (Some (InquiryState (inquiry_lap i) (inquiry_limit i) (now + kInquiryInterval) (inquiry_deadline i))) s, [])
      else (s, [])
  end.

(** 2060-2065 *)
Definition tick (now : N) (s : bredr) : result (bredr * list output) :=
  bind (run_tasks now (next_id s) (List.length (queue s)) s) (fun '(s, o1) =>
  let (s, o2) := do_paging now s in
  let (s, o3) := do_inquiry now s in
  Ok (s, o1 ++ o2 ++ o3)).

(** * The controller *)

Inductive op :=
| Command (c : command)
| AclFromHost (h boundary broadcast : N) (data : list N)
| ScoFromHost (h : N) (data : list N)
| Receive (rssi : N) (p : air)
| Tick.

(** The status is the one returned to the host, for commands *)
Definition step (now : N) (s : bredr) (o : op) : result (bredr * option status * list output) :=
  match o with
  | Command c => bind (run_command now s c) (fun '(st, s, out) => Ok (s, Some st, out))
  | AclFromHost h pb bc d => bind (handle_acl now h pb bc d s) (fun s => Ok (s, None, []))
  | ScoFromHost h d => Ok (send_sco now h d s, None, [])
  | Receive rssi p => bind (receive now rssi p s) (fun '(s, out) => Ok (s, None, out))
  | Tick => bind (tick now s) (fun '(s, out) => Ok (s, None, out))
  end.

(** One step of a history, and histories: the latest step comes first *)
Record entry := Entry { at_time : N; what : op; status_of : option status; sent : list output }.

Inductive history : list entry -> bredr -> Prop :=
| power_on : forall a, history [] (new_bredr a)
| next_step : forall h s now o s' st out,
    history h s -> step now s o = Ok (s', st, out) -> history (Entry now o st out :: h) s'.

(** The history of a list of steps; [None] as soon as one does not return *)
Fixpoint play (h : list entry) (s : bredr) (ops : list (N * op)) : option (list entry * bredr) :=
  match ops with
  | [] => Some (h, s)
  | (now, o) :: ops =>
      match step now s o with
      | Ok (s, st, out) => play (Entry now o st out :: h) s ops
      | _ => None
      end
  end.

Lemma play_history : forall ops h s h' s', history h s -> play h s ops = Some (h', s') -> history h' s'.
Proof.
  induction ops as [|[now o] ops IH]; cbn [play]; intros h s h' s' H P.
  - now injection P as <- <-.
  - destruct (step now s o) as [[[s1 st] out]| | |] eqn:E; try discriminate.
    eapply IH; [|exact P]. eapply next_step; eassumption.
Qed.
End WithController.
