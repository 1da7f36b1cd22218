(** Isochronous streams: the state machine of rust/src/llcp/iso.rs, reached from
    rust/src/llcp/manager.rs. One IsoManager holds the connected isochronous
    groups (CIG) and streams (CIS) configured by its host, the streams requested
    by peers, and the broadcast groups (BIG).

    Simplifications. HashMaps are association lists. Where the code takes the
    first match of a HashMap iteration, whose order is unspecified, the packet
    carries a number [pick] that selects one of the matches, and every theorem
    holds for every [pick]. Enumeration parameters of host commands hold
    declared values; fields have the widths of the packet definitions
    (IsoSpec.v states them). Log output is omitted. unwrap() of None, panic!(),
    unreachable!(), unimplemented!(), an integer division by zero, an
    allocation with no handle left, a packet that cannot be encoded and a C++
    ASSERT on a refused call all give [Panic]. [checked] tells whether the
    library is compiled with overflow checks: an overflow is then a panic,
    and wraps around otherwise. *)
From Verif Require Import Prelude Table.
Open Scope N_scope.

(** packets/hci_packets.pdl:919-969 ErrorCode *)
Definition SUCCESS : N := 0x00.
Definition UNKNOWN_CONNECTION : N := 0x02.
Definition CONNECTION_ALREADY_EXISTS : N := 0x0b.
Definition COMMAND_DISALLOWED : N := 0x0c.
Definition UNSUPPORTED_PARAMETER : N := 0x11.
Definition INVALID_PARAMETERS : N := 0x12.
Definition REMOTE_USER_TERMINATED : N := 0x13.
Definition LOCAL_HOST_TERMINATED : N := 0x16.
Definition UNKNOWN_ADVERTISING : N := 0x42.
Definition declared_error (e : N) : bool :=
  (e <=? 0x23) || mem e [0x25; 0x2f; 0x35; 0x38; 0x3a; 0x3c; 0x3e; 0x42; 0x43; 0x44; 0x45; 0x48; 0xff].

Inductive role := CENTRAL | PERIPHERAL.
Definition role_eqb (a b : role) : bool :=
  match a, b with CENTRAL, CENTRAL | PERIPHERAL, PERIPHERAL => true | _, _ => false end.

(** iso.rs:67-79 CigConfig; [cp] is central to peripheral, [pc] the converse *)
Record cig := Cig {
  iso_interval : N; (* slots of 1.25 ms *)
  sdu_cp : N; (* SDU intervals in microseconds *)
  sdu_pc : N;
  ft_cp : N;
  ft_pc : N;
  framed : bool;
  configurable : bool
}.
Definition with_iso_interval (v : N) (r : cig) : cig :=
  Cig v (sdu_cp r) (sdu_pc r) (ft_cp r) (ft_pc r) (framed r) (configurable r).
Definition with_sdu_cp (v : N) (r : cig) : cig :=
  Cig (iso_interval r) v (sdu_pc r) (ft_cp r) (ft_pc r) (framed r) (configurable r).
Definition with_sdu_pc (v : N) (r : cig) : cig :=
  Cig (iso_interval r) (sdu_cp r) v (ft_cp r) (ft_pc r) (framed r) (configurable r).
Definition with_ft_cp (v : N) (r : cig) : cig :=
  Cig (iso_interval r) (sdu_cp r) (sdu_pc r) v (ft_pc r) (framed r) (configurable r).
Definition with_ft_pc (v : N) (r : cig) : cig :=
  Cig (iso_interval r) (sdu_cp r) (sdu_pc r) (ft_cp r) v (framed r) (configurable r).
Definition with_framed (v : bool) (r : cig) : cig :=
  Cig (iso_interval r) (sdu_cp r) (sdu_pc r) (ft_cp r) (ft_pc r) v (configurable r).
Definition with_configurable (v : bool) (r : cig) : cig :=
  Cig (iso_interval r) (sdu_cp r) (sdu_pc r) (ft_cp r) (ft_pc r) (framed r) v.


(** iso.rs:99-113 CisConfig *)
Record config := Config {
  max_sdu_cp : N;
  max_sdu_pc : N;
  phy_cp : N;
  phy_pc : N;
  set_nse : option N;
  set_bn_cp : option N;
  set_bn_pc : option N;
  set_pdu_cp : option N;
  set_pdu_pc : option N
}.
Definition with_max_sdu_cp (v : N) (r : config) : config :=
  Config v (max_sdu_pc r) (phy_cp r) (phy_pc r) (set_nse r) (set_bn_cp r) (set_bn_pc r) (set_pdu_cp r) (set_pdu_pc r).
Definition with_max_sdu_pc (v : N) (r : config) : config :=
  Config (max_sdu_cp r) v (phy_cp r) (phy_pc r) (set_nse r) (set_bn_cp r) (set_bn_pc r) (set_pdu_cp r) (set_pdu_pc r).
Definition with_phy_cp (v : N) (r : config) : config :=
  Config (max_sdu_cp r) (max_sdu_pc r) v (phy_pc r) (set_nse r) (set_bn_cp r) (set_bn_pc r) (set_pdu_cp r) (set_pdu_pc r).
Definition with_phy_pc (v : N) (r : config) : config :=
  Config (max_sdu_cp r) (max_sdu_pc r) (phy_cp r) v (set_nse r) (set_bn_cp r) (set_bn_pc r) (set_pdu_cp r) (set_pdu_pc r).
Definition with_set_nse (v : option N) (r : config) : config :=
  Config (max_sdu_cp r) (max_sdu_pc r) (phy_cp r) (phy_pc r) v (set_bn_cp r) (set_bn_pc r) (set_pdu_cp r) (set_pdu_pc r).
Definition with_set_bn_cp (v : option N) (r : config) : config :=
  Config (max_sdu_cp r) (max_sdu_pc r) (phy_cp r) (phy_pc r) (set_nse r) v (set_bn_pc r) (set_pdu_cp r) (set_pdu_pc r).
Definition with_set_bn_pc (v : option N) (r : config) : config :=
  Config (max_sdu_cp r) (max_sdu_pc r) (phy_cp r) (phy_pc r) (set_nse r) (set_bn_cp r) v (set_pdu_cp r) (set_pdu_pc r).
Definition with_set_pdu_cp (v : option N) (r : config) : config :=
  Config (max_sdu_cp r) (max_sdu_pc r) (phy_cp r) (phy_pc r) (set_nse r) (set_bn_cp r) (set_bn_pc r) v (set_pdu_pc r).
Definition with_set_pdu_pc (v : option N) (r : config) : config :=
  Config (max_sdu_cp r) (max_sdu_pc r) (phy_cp r) (phy_pc r) (set_nse r) (set_bn_cp r) (set_bn_pc r) (set_pdu_cp r) v.


(** iso.rs:145-167 CisParameters *)
Record params := Params {
  cig_delay : N;
  cis_delay : N;
  p_phy_cp : N;
  p_phy_pc : N;
  p_nse : N;
  p_bn_cp : N;
  p_bn_pc : N;
  p_ft_cp : N;
  p_ft_pc : N;
  p_pdu_cp : N;
  p_pdu_pc : N;
  p_sdu_cp : N;
  p_sdu_pc : N;
  p_int_cp : N;
  p_int_pc : N;
  p_iso : N;
  p_sub : N;
  p_framed : bool
}.
Definition with_cig_delay (v : N) (r : params) : params :=
  Params v (cis_delay r) (p_phy_cp r) (p_phy_pc r) (p_nse r) (p_bn_cp r) (p_bn_pc r) (p_ft_cp r) (p_ft_pc r) (p_pdu_cp r) (p_pdu_pc r) (p_sdu_cp r) (p_sdu_pc r) (p_int_cp r) (p_int_pc r) (p_iso r) (p_sub r) (p_framed r).
Definition with_cis_delay (v : N) (r : params) : params :=
  Params (cig_delay r) v (p_phy_cp r) (p_phy_pc r) (p_nse r) (p_bn_cp r) (p_bn_pc r) (p_ft_cp r) (p_ft_pc r) (p_pdu_cp r) (p_pdu_pc r) (p_sdu_cp r) (p_sdu_pc r) (p_int_cp r) (p_int_pc r) (p_iso r) (p_sub r) (p_framed r).
Definition with_p_phy_cp (v : N) (r : params) : params :=
  Params (cig_delay r) (cis_delay r) v (p_phy_pc r) (p_nse r) (p_bn_cp r) (p_bn_pc r) (p_ft_cp r) (p_ft_pc r) (p_pdu_cp r) (p_pdu_pc r) (p_sdu_cp r) (p_sdu_pc r) (p_int_cp r) (p_int_pc r) (p_iso r) (p_sub r) (p_framed r).
Definition with_p_phy_pc (v : N) (r : params) : params :=
  Params (cig_delay r) (cis_delay r) (p_phy_cp r) v (p_nse r) (p_bn_cp r) (p_bn_pc r) (p_ft_cp r) (p_ft_pc r) (p_pdu_cp r) (p_pdu_pc r) (p_sdu_cp r) (p_sdu_pc r) (p_int_cp r) (p_int_pc r) (p_iso r) (p_sub r) (p_framed r).
Definition with_p_nse (v : N) (r : params) : params :=
  Params (cig_delay r) (cis_delay r) (p_phy_cp r) (p_phy_pc r) v (p_bn_cp r) (p_bn_pc r) (p_ft_cp r) (p_ft_pc r) (p_pdu_cp r) (p_pdu_pc r) (p_sdu_cp r) (p_sdu_pc r) (p_int_cp r) (p_int_pc r) (p_iso r) (p_sub r) (p_framed r).
Definition with_p_bn_cp (v : N) (r : params) : params :=
  Params (cig_delay r) (cis_delay r) (p_phy_cp r) (p_phy_pc r) (p_nse r) v (p_bn_pc r) (p_ft_cp r) (p_ft_pc r) (p_pdu_cp r) (p_pdu_pc r) (p_sdu_cp r) (p_sdu_pc r) (p_int_cp r) (p_int_pc r) (p_iso r) (p_sub r) (p_framed r).
Definition with_p_bn_pc (v : N) (r : params) : params :=
  Params (cig_delay r) (cis_delay r) (p_phy_cp r) (p_phy_pc r) (p_nse r) (p_bn_cp r) v (p_ft_cp r) (p_ft_pc r) (p_pdu_cp r) (p_pdu_pc r) (p_sdu_cp r) (p_sdu_pc r) (p_int_cp r) (p_int_pc r) (p_iso r) (p_sub r) (p_framed r).
Definition with_p_ft_cp (v : N) (r : params) : params :=
  Params (cig_delay r) (cis_delay r) (p_phy_cp r) (p_phy_pc r) (p_nse r) (p_bn_cp r) (p_bn_pc r) v (p_ft_pc r) (p_pdu_cp r) (p_pdu_pc r) (p_sdu_cp r) (p_sdu_pc r) (p_int_cp r) (p_int_pc r) (p_iso r) (p_sub r) (p_framed r).
Definition with_p_ft_pc (v : N) (r : params) : params :=
  Params (cig_delay r) (cis_delay r) (p_phy_cp r) (p_phy_pc r) (p_nse r) (p_bn_cp r) (p_bn_pc r) (p_ft_cp r) v (p_pdu_cp r) (p_pdu_pc r) (p_sdu_cp r) (p_sdu_pc r) (p_int_cp r) (p_int_pc r) (p_iso r) (p_sub r) (p_framed r).
Definition with_p_pdu_cp (v : N) (r : params) : params :=
  Params (cig_delay r) (cis_delay r) (p_phy_cp r) (p_phy_pc r) (p_nse r) (p_bn_cp r) (p_bn_pc r) (p_ft_cp r) (p_ft_pc r) v (p_pdu_pc r) (p_sdu_cp r) (p_sdu_pc r) (p_int_cp r) (p_int_pc r) (p_iso r) (p_sub r) (p_framed r).
Definition with_p_pdu_pc (v : N) (r : params) : params :=
  Params (cig_delay r) (cis_delay r) (p_phy_cp r) (p_phy_pc r) (p_nse r) (p_bn_cp r) (p_bn_pc r) (p_ft_cp r) (p_ft_pc r) (p_pdu_cp r) v (p_sdu_cp r) (p_sdu_pc r) (p_int_cp r) (p_int_pc r) (p_iso r) (p_sub r) (p_framed r).
Definition with_p_sdu_cp (v : N) (r : params) : params :=
  Params (cig_delay r) (cis_delay r) (p_phy_cp r) (p_phy_pc r) (p_nse r) (p_bn_cp r) (p_bn_pc r) (p_ft_cp r) (p_ft_pc r) (p_pdu_cp r) (p_pdu_pc r) v (p_sdu_pc r) (p_int_cp r) (p_int_pc r) (p_iso r) (p_sub r) (p_framed r).
Definition with_p_sdu_pc (v : N) (r : params) : params :=
  Params (cig_delay r) (cis_delay r) (p_phy_cp r) (p_phy_pc r) (p_nse r) (p_bn_cp r) (p_bn_pc r) (p_ft_cp r) (p_ft_pc r) (p_pdu_cp r) (p_pdu_pc r) (p_sdu_cp r) v (p_int_cp r) (p_int_pc r) (p_iso r) (p_sub r) (p_framed r).
Definition with_p_int_cp (v : N) (r : params) : params :=
  Params (cig_delay r) (cis_delay r) (p_phy_cp r) (p_phy_pc r) (p_nse r) (p_bn_cp r) (p_bn_pc r) (p_ft_cp r) (p_ft_pc r) (p_pdu_cp r) (p_pdu_pc r) (p_sdu_cp r) (p_sdu_pc r) v (p_int_pc r) (p_iso r) (p_sub r) (p_framed r).
Definition with_p_int_pc (v : N) (r : params) : params :=
  Params (cig_delay r) (cis_delay r) (p_phy_cp r) (p_phy_pc r) (p_nse r) (p_bn_cp r) (p_bn_pc r) (p_ft_cp r) (p_ft_pc r) (p_pdu_cp r) (p_pdu_pc r) (p_sdu_cp r) (p_sdu_pc r) (p_int_cp r) v (p_iso r) (p_sub r) (p_framed r).
Definition with_p_iso (v : N) (r : params) : params :=
  Params (cig_delay r) (cis_delay r) (p_phy_cp r) (p_phy_pc r) (p_nse r) (p_bn_cp r) (p_bn_pc r) (p_ft_cp r) (p_ft_pc r) (p_pdu_cp r) (p_pdu_pc r) (p_sdu_cp r) (p_sdu_pc r) (p_int_cp r) (p_int_pc r) v (p_sub r) (p_framed r).
Definition with_p_sub (v : N) (r : params) : params :=
  Params (cig_delay r) (cis_delay r) (p_phy_cp r) (p_phy_pc r) (p_nse r) (p_bn_cp r) (p_bn_pc r) (p_ft_cp r) (p_ft_pc r) (p_pdu_cp r) (p_pdu_pc r) (p_sdu_cp r) (p_sdu_pc r) (p_int_cp r) (p_int_pc r) (p_iso r) v (p_framed r).
Definition with_p_framed (v : bool) (r : params) : params :=
  Params (cig_delay r) (cis_delay r) (p_phy_cp r) (p_phy_pc r) (p_nse r) (p_bn_cp r) (p_bn_pc r) (p_ft_cp r) (p_ft_pc r) (p_pdu_cp r) (p_pdu_pc r) (p_sdu_cp r) (p_sdu_pc r) (p_int_cp r) (p_int_pc r) (p_iso r) (p_sub r) v.


(** iso.rs:136-143 CisState *)
Inductive phase := Configuration | PendingRsp | PendingAccept | PendingInd | Connected.
Definition phase_eqb (a b : phase) : bool :=
  match a, b with
  | Configuration, Configuration | PendingRsp, PendingRsp | PendingAccept, PendingAccept
  | PendingInd, PendingInd | Connected, Connected => true
  | _, _ => false
  end.

(** iso.rs:275-287 Cis; a data path is set or not *)
Record cis := Cis {
  c_cig : N;
  c_cis : N;
  c_role : role;
  c_handle : N;
  c_acl : option N;
  c_phase : phase;
  c_params : option params;
  path_cp : bool;
  path_pc : bool
}.
Definition with_c_cig (v : N) (r : cis) : cis :=
  Cis v (c_cis r) (c_role r) (c_handle r) (c_acl r) (c_phase r) (c_params r) (path_cp r) (path_pc r).
Definition with_c_cis (v : N) (r : cis) : cis :=
  Cis (c_cig r) v (c_role r) (c_handle r) (c_acl r) (c_phase r) (c_params r) (path_cp r) (path_pc r).
Definition with_c_role (v : role) (r : cis) : cis :=
  Cis (c_cig r) (c_cis r) v (c_handle r) (c_acl r) (c_phase r) (c_params r) (path_cp r) (path_pc r).
Definition with_c_handle (v : N) (r : cis) : cis :=
  Cis (c_cig r) (c_cis r) (c_role r) v (c_acl r) (c_phase r) (c_params r) (path_cp r) (path_pc r).
Definition with_c_acl (v : option N) (r : cis) : cis :=
  Cis (c_cig r) (c_cis r) (c_role r) (c_handle r) v (c_phase r) (c_params r) (path_cp r) (path_pc r).
Definition with_c_phase (v : phase) (r : cis) : cis :=
  Cis (c_cig r) (c_cis r) (c_role r) (c_handle r) (c_acl r) v (c_params r) (path_cp r) (path_pc r).
Definition with_c_params (v : option params) (r : cis) : cis :=
  Cis (c_cig r) (c_cis r) (c_role r) (c_handle r) (c_acl r) (c_phase r) v (path_cp r) (path_pc r).
Definition with_path_cp (v : bool) (r : cis) : cis :=
  Cis (c_cig r) (c_cis r) (c_role r) (c_handle r) (c_acl r) (c_phase r) (c_params r) v (path_pc r).
Definition with_path_pc (v : bool) (r : cis) : cis :=
  Cis (c_cig r) (c_cis r) (c_role r) (c_handle r) (c_acl r) (c_phase r) (c_params r) (path_cp r) v.


(** iso.rs:81-97 BigConfig; the fields that are stored and never read are omitted *)
Record big := Big {
  big_adv : N;
  big_count : N
}.
Definition with_big_adv (v : N) (r : big) : big :=
  Big v (big_count r).
Definition with_big_count (v : N) (r : big) : big :=
  Big (big_adv r) v.


(** iso.rs:115-125 Bis *)
Record bis := Bis {
  b_big : N;
  b_id : N;
  b_role : role;
  b_path : bool
}.
Definition with_b_big (v : N) (r : bis) : bis :=
  Bis v (b_id r) (b_role r) (b_path r).
Definition with_b_id (v : N) (r : bis) : bis :=
  Bis (b_big r) v (b_role r) (b_path r).
Definition with_b_role (v : role) (r : bis) : bis :=
  Bis (b_big r) (b_id r) v (b_path r).
Definition with_b_path (v : bool) (r : bis) : bis :=
  Bis (b_big r) (b_id r) (b_role r) v.


(** iso.rs:127-134 CisRequest *)
Record request := Request {
  r_cig : N;
  r_cis : N;
  r_acl : N;
  r_handle : N
}.
Definition with_r_cig (v : N) (r : request) : request :=
  Request v (r_cis r) (r_acl r) (r_handle r).
Definition with_r_cis (v : N) (r : request) : request :=
  Request (r_cig r) v (r_acl r) (r_handle r).
Definition with_r_acl (v : N) (r : request) : request :=
  Request (r_cig r) (r_cis r) v (r_handle r).
Definition with_r_handle (v : N) (r : request) : request :=
  Request (r_cig r) (r_cis r) (r_acl r) v.


(** iso.rs:298-321 IsoManager, with the links of manager.rs:22-31, which have the
    same keys as acl_connections. [queue] lists the pending requests in the order
    in which they are popped, the reverse of the vector. *)
Record state := State {
  cigs : table cig;
  bigs : table big;
  configs : table config; (* by [key cig cis] *)
  biss : table bis;
  acls : table role;
  conns : table cis;
  queue : list request
}.
Definition with_cigs (v : table cig) (r : state) : state :=
  State v (bigs r) (configs r) (biss r) (acls r) (conns r) (queue r).
Definition with_bigs (v : table big) (r : state) : state :=
  State (cigs r) v (configs r) (biss r) (acls r) (conns r) (queue r).
Definition with_configs (v : table config) (r : state) : state :=
  State (cigs r) (bigs r) v (biss r) (acls r) (conns r) (queue r).
Definition with_biss (v : table bis) (r : state) : state :=
  State (cigs r) (bigs r) (configs r) v (acls r) (conns r) (queue r).
Definition with_acls (v : table role) (r : state) : state :=
  State (cigs r) (bigs r) (configs r) (biss r) v (conns r) (queue r).
Definition with_conns (v : table cis) (r : state) : state :=
  State (cigs r) (bigs r) (configs r) (biss r) (acls r) v (queue r).
Definition with_queue (v : list request) (r : state) : state :=
  State (cigs r) (bigs r) (configs r) (biss r) (acls r) (conns r) v.


(** iso.rs:324-335 IsoManager::new *)
Definition initial : state := State [] [] [] [] [] [] [].

(** the pair (cig_id, cis_id) of two bytes as one key *)
Definition key (g c : N) : N := g * 256 + c.

(** rust/llcp_packets.pdl LL_CIS_REQ, LL_CIS_RSP, LL_CIS_IND, LL_CIS_TERMINATE_IND,
    LL_REJECT_EXT_IND; the constant fields that are never read are omitted. The
    parameters of LL_CIS_REQ do not include the two delays, here zero. *)
Inductive packet :=
| CisReq (g c : N) (p : params)
| CisRsp
| CisInd (cig_sync cis_sync : N)
| CisTerminate (g c error : N)
| RejectExt (opcode error : N)
| OtherLlcp.

Definition CIS_REQ_OPCODE : N := 0x1f.

(** packets/hci_packets.pdl:6155-6177 LE CIS Established [v1], the parameters after
    the status and the handle *)
Record report := Report {
  e_cig_delay : N;
  e_cis_delay : N;
  e_latency_cp : N;
  e_latency_pc : N;
  e_phy_cp : N;
  e_phy_pc : N;
  e_nse : N;
  e_bn_cp : N;
  e_bn_pc : N;
  e_ft_cp : N;
  e_ft_pc : N;
  e_pdu_cp : N;
  e_pdu_pc : N;
  e_iso : N
}.
Definition with_e_cig_delay (v : N) (r : report) : report :=
  Report v (e_cis_delay r) (e_latency_cp r) (e_latency_pc r) (e_phy_cp r) (e_phy_pc r) (e_nse r) (e_bn_cp r) (e_bn_pc r) (e_ft_cp r) (e_ft_pc r) (e_pdu_cp r) (e_pdu_pc r) (e_iso r).
Definition with_e_cis_delay (v : N) (r : report) : report :=
  Report (e_cig_delay r) v (e_latency_cp r) (e_latency_pc r) (e_phy_cp r) (e_phy_pc r) (e_nse r) (e_bn_cp r) (e_bn_pc r) (e_ft_cp r) (e_ft_pc r) (e_pdu_cp r) (e_pdu_pc r) (e_iso r).
Definition with_e_latency_cp (v : N) (r : report) : report :=
  Report (e_cig_delay r) (e_cis_delay r) v (e_latency_pc r) (e_phy_cp r) (e_phy_pc r) (e_nse r) (e_bn_cp r) (e_bn_pc r) (e_ft_cp r) (e_ft_pc r) (e_pdu_cp r) (e_pdu_pc r) (e_iso r).
Definition with_e_latency_pc (v : N) (r : report) : report :=
  Report (e_cig_delay r) (e_cis_delay r) (e_latency_cp r) v (e_phy_cp r) (e_phy_pc r) (e_nse r) (e_bn_cp r) (e_bn_pc r) (e_ft_cp r) (e_ft_pc r) (e_pdu_cp r) (e_pdu_pc r) (e_iso r).
Definition with_e_phy_cp (v : N) (r : report) : report :=
  Report (e_cig_delay r) (e_cis_delay r) (e_latency_cp r) (e_latency_pc r) v (e_phy_pc r) (e_nse r) (e_bn_cp r) (e_bn_pc r) (e_ft_cp r) (e_ft_pc r) (e_pdu_cp r) (e_pdu_pc r) (e_iso r).
Definition with_e_phy_pc (v : N) (r : report) : report :=
  Report (e_cig_delay r) (e_cis_delay r) (e_latency_cp r) (e_latency_pc r) (e_phy_cp r) v (e_nse r) (e_bn_cp r) (e_bn_pc r) (e_ft_cp r) (e_ft_pc r) (e_pdu_cp r) (e_pdu_pc r) (e_iso r).
Definition with_e_nse (v : N) (r : report) : report :=
  Report (e_cig_delay r) (e_cis_delay r) (e_latency_cp r) (e_latency_pc r) (e_phy_cp r) (e_phy_pc r) v (e_bn_cp r) (e_bn_pc r) (e_ft_cp r) (e_ft_pc r) (e_pdu_cp r) (e_pdu_pc r) (e_iso r).
Definition with_e_bn_cp (v : N) (r : report) : report :=
  Report (e_cig_delay r) (e_cis_delay r) (e_latency_cp r) (e_latency_pc r) (e_phy_cp r) (e_phy_pc r) (e_nse r) v (e_bn_pc r) (e_ft_cp r) (e_ft_pc r) (e_pdu_cp r) (e_pdu_pc r) (e_iso r).
Definition with_e_bn_pc (v : N) (r : report) : report :=
  Report (e_cig_delay r) (e_cis_delay r) (e_latency_cp r) (e_latency_pc r) (e_phy_cp r) (e_phy_pc r) (e_nse r) (e_bn_cp r) v (e_ft_cp r) (e_ft_pc r) (e_pdu_cp r) (e_pdu_pc r) (e_iso r).
Definition with_e_ft_cp (v : N) (r : report) : report :=
  Report (e_cig_delay r) (e_cis_delay r) (e_latency_cp r) (e_latency_pc r) (e_phy_cp r) (e_phy_pc r) (e_nse r) (e_bn_cp r) (e_bn_pc r) v (e_ft_pc r) (e_pdu_cp r) (e_pdu_pc r) (e_iso r).
Definition with_e_ft_pc (v : N) (r : report) : report :=
  Report (e_cig_delay r) (e_cis_delay r) (e_latency_cp r) (e_latency_pc r) (e_phy_cp r) (e_phy_pc r) (e_nse r) (e_bn_cp r) (e_bn_pc r) (e_ft_cp r) v (e_pdu_cp r) (e_pdu_pc r) (e_iso r).
Definition with_e_pdu_cp (v : N) (r : report) : report :=
  Report (e_cig_delay r) (e_cis_delay r) (e_latency_cp r) (e_latency_pc r) (e_phy_cp r) (e_phy_pc r) (e_nse r) (e_bn_cp r) (e_bn_pc r) (e_ft_cp r) (e_ft_pc r) v (e_pdu_pc r) (e_iso r).
Definition with_e_pdu_pc (v : N) (r : report) : report :=
  Report (e_cig_delay r) (e_cis_delay r) (e_latency_cp r) (e_latency_pc r) (e_phy_cp r) (e_phy_pc r) (e_nse r) (e_bn_cp r) (e_bn_pc r) (e_ft_cp r) (e_ft_pc r) (e_pdu_cp r) v (e_iso r).
Definition with_e_iso (v : N) (r : report) : report :=
  Report (e_cig_delay r) (e_cis_delay r) (e_latency_cp r) (e_latency_pc r) (e_phy_cp r) (e_phy_pc r) (e_nse r) (e_bn_cp r) (e_bn_pc r) (e_ft_cp r) (e_ft_pc r) (e_pdu_cp r) (e_pdu_pc r) v.


(** the report of a failure, iso.rs:364-381, 394-411, 1541-1558 *)
Definition no_report : report := Report 0 0 0 0 0 0 0 0 0 0 0 0 0 0.

(** The commands answered, to tell which command a status belongs to *)
Inductive opcode :=
| OP_SET_CIG | OP_SET_CIG_TEST | OP_REMOVE_CIG | OP_CREATE_CIS | OP_ACCEPT | OP_REJECT
| OP_SETUP_PATH | OP_REMOVE_PATH | OP_DISCONNECT | OP_CREATE_BIG | OP_TERMINATE_BIG.

(** Events sent to the host *)
Inductive event :=
| Answer (o : opcode) (status : N) (handles : list N) (* Command Complete or Command Status *)
| Established (status handle : N) (r : report)
| CisRequested (acl handle g c : N)
| Disconnected (handle reason : N)
| BigCreated (b : N) (latency phy nse iso : N) (handles : list N)
| BigTerminated (b reason : N).

Inductive output := Event (e : event) | Send (acl : N) (p : packet).

(** packets/hci_packets.pdl:4510-4524 CisParametersConfig and 4562-4573
    LeCisParametersTestConfig: an identifier and the configuration that iso.rs
    stores for it (iso.rs:741-756, 911-926) *)
Record entry := Entry {
  n_id : N;
  n_config : config
}.
Definition with_n_id (v : N) (r : entry) : entry :=
  Entry v (n_config r).
Definition with_n_config (v : config) (r : entry) : entry :=
  Entry (n_id r) v.


(** Host commands, links added and removed by the controller, packets of peers *)
Inductive op :=
| SetCig (g cp pc : N) (fr : bool) (latency_cp latency_pc : N) (l : list entry)
| SetCigTest (g cp pc ft_c ft_p iso : N) (fr : bool) (l : list entry)
| RemoveCig (g : N)
| CreateCis (l : list (N * N)) (* CIS handle, ACL handle *)
| AcceptCis (h : N)
| RejectCis (h reason : N)
| SetupPath (h : N) (out : bool) (codec : N) (codec_config : list N)
| RemovePath (h : N) (input out : bool)
| Disconnect (h reason : N)
| CreateBig (b adv num interval sdu latency rtn phy : N)
| TerminateBig (b reason : N)
| AddLink (h : N) (r : role)
| RemoveLink (h reason : N)
| Receive (pick : nat) (acl : N) (p : packet).

(** What the link layer reads from the controller through its callbacks,
    le_controller.cc:4007-4012, 4050-4060 *)
Record env := Env {
  le_2m : bool;
  le_coded : bool;
  host_support : bool;
  periodic : N -> option bool (* the advertising set exists, with periodic advertising enabled *)
}.
Definition with_le_2m (v : bool) (r : env) : env :=
  Env v (le_coded r) (host_support r) (periodic r).
Definition with_le_coded (v : bool) (r : env) : env :=
  Env (le_2m r) v (host_support r) (periodic r).
Definition with_host_support (v : bool) (r : env) : env :=
  Env (le_2m r) (le_coded r) v (periodic r).
Definition with_periodic (v : N -> option bool) (r : env) : env :=
  Env (le_2m r) (le_coded r) (host_support r) v.


Section Iso.
Variable checked : bool.

(** u32 arithmetic *)
Definition wrap (x : N) : option N :=
  if x <? 2 ^ 32 then Some x else if checked then None else Some (x mod 2 ^ 32).
Definition sub32 (a b : N) : option N :=
  if b <=? a then Some (a - b) else if checked then None else Some (2 ^ 32 + a - b).
Definition bind {A B} (x : option A) (f : A -> option B) : option B :=
  match x with Some a => f a | None => None end.
Notation "x <- a ; b" := (bind a (fun x => b)) (at level 61, a at next level, right associativity).
Notation "' p <- a ; b" := (bind a (fun x => match x with p => b end))
  (at level 61, p pattern, a at next level, right associativity).

(** num-integer lcm: self * (other / gcd), zero for two zeros *)
Definition lcm32 (a b : N) : option N :=
  if (a =? 0) && (b =? 0) then Some 0 else wrap (a * (b / N.gcd a b)).

(** u32::div_ceil *)
Definition div_ceil (a b : N) : N := (a + b - 1) / b.

(** iso.rs:1898-1935 iso_interval; None is a panic *)
Definition iso_interval_of (cp pc : N) (fr : bool) (max_cp max_pc : N) : option (option N) :=
  if fr then Some (Some (div_ceil (N.max cp pc) 1250 mod 2 ^ 16))
  else
    both <- (if (cp =? 0) && (pc =? 0) then None
             else if cp =? 0 then Some pc
             else if pc =? 0 then Some cp
             else lcm32 cp pc);
    iso <- lcm32 1250 both;
    twice <- wrap (2 * iso);
    min_cp <- sub32 twice cp;
    min_pc <- sub32 twice pc;
    Some (if (iso / 1250 <=? 0xffff)
             && ((cp =? 0) || (min_cp <=? max_cp))
             && ((pc =? 0) || (min_pc <=? max_pc))
          then Some ((iso / 1250) mod 2 ^ 16)
          else None).

(** iso.rs:1937-1953 transport_latency *)
Definition transport_latency (delay iso ft interval : N) (fr : bool) : option N :=
  flush <- wrap (ft * (iso * 1250));
  sum <- wrap (delay + flush);
  if fr then wrap (sum + interval) else sub32 sum interval.

(** iso.rs:199-209 select_phy *)
Definition select_phy (phys : N) : option N :=
  if mem phys [2; 3; 6; 7] then Some 2
  else if mem phys [1; 5] then Some 1
  else if phys =? 4 then Some 4
  else None.

(** u8::try_from *)
Definition to_u8 (x : N) : option N := if x <? 256 then Some x else None.
Definition unwrap_or {A} (o : option A) (d : A) : A := match o with Some x => x | None => d end.

(** iso.rs:185-234 CisParameters::new *)
Definition cis_parameters (g : cig) (c : config) : option params :=
  bn_c <- match set_bn_cp c with Some x => Some x | None => to_u8 (div_ceil (max_sdu_cp c) 251) end;
  bn_p <- match set_bn_pc c with Some x => Some x | None => to_u8 (div_ceil (max_sdu_pc c) 251) end;
  let nse := unwrap_or (set_nse c) (N.max bn_c bn_p) in
  if nse =? 0 then None
  else
    phy_c <- select_phy (phy_cp c);
    phy_p <- select_phy (phy_pc c);
    Some (Params (iso_interval g * 1250) (iso_interval g * 1250) phy_c phy_p nse bn_c bn_p
            (ft_cp g) (ft_pc g) (unwrap_or (set_pdu_cp c) 251) (unwrap_or (set_pdu_pc c) 251)
            (max_sdu_cp c) (max_sdu_pc c) (sdu_cp g) (sdu_pc g) (iso_interval g)
            (iso_interval g * 1250 / nse) (framed g)).

(** iso.rs:236-252 phy_c_to_p, phy_p_to_c *)
Definition phy_code (phy : N) : option N :=
  if phy =? 1 then Some 1 else if phy =? 2 then Some 2 else if phy =? 4 then Some 3 else None.

(** packet encoding fails when a value exceeds its field: hci_packets.pdl:6155-6177 *)
Definition report_fits (r : report) : bool :=
  (e_cig_delay r <? 2 ^ 24) && (e_cis_delay r <? 2 ^ 24) &&
  (e_latency_cp r <? 2 ^ 24) && (e_latency_pc r <? 2 ^ 24) &&
  (e_bn_cp r <? 16) && (e_bn_pc r <? 16).
(** rust/llcp_packets.pdl:228-254 *)
Definition req_fits (p : params) : bool :=
  (p_sdu_cp p <? 2 ^ 12) && (p_sdu_pc p <? 2 ^ 12) &&
  (p_int_cp p <? 2 ^ 20) && (p_int_pc p <? 2 ^ 20) &&
  (p_sub p <? 2 ^ 24) && (p_bn_cp p <? 16) && (p_bn_pc p <? 16).
(** rust/llcp_packets.pdl:264-270 *)
Definition fits (o : output) : bool :=
  match o with
  | Event (Established _ _ r) => report_fits r
  | Send _ (CisReq _ _ p) => req_fits p
  | Send _ (CisInd a b) => (a <? 2 ^ 24) && (b <? 2 ^ 24)
  | _ => true
  end.

(** the first match of a HashMap iteration, iso.rs:514-524 *)
Definition choose (pick : nat) (l : list N) : option N :=
  match l with [] => None | x :: _ => Some (nth (Nat.modulo pick (length l)) l x) end.
Definition find_cis (pick : nat) (P : cis -> bool) (s : state) : option N :=
  choose pick (keys (filter (fun e => P (snd e)) (conns s))).

(** the first n numbers from a *)
Fixpoint range (a : N) (n : nat) : list N :=
  match n with O => [] | S n => a :: range (a + 1) n end.

(** iso.rs:435-440 new_cis_connection_handle: 0xe00..0xefe, upper bound excluded *)
Definition new_cis_handle (s : state) : option N :=
  find (fun h => negb (has (conns s) h)) (range 0xe00 254).
(** iso.rs:442-447 new_bis_connection_handle: 0xd00..=0xdfe *)
Definition new_bis_handle (m : table bis) : option N :=
  find (fun h => negb (has m h)) (range 0xd00 255).

Definition optN_eqb (a : option N) (b : N) : bool :=
  match a with Some x => x =? b | None => false end.

Definition is_cis (g c : N) (r : role) (x : cis) : bool :=
  (c_cig x =? g) && (c_cis x =? c) && role_eqb (c_role x) r.

(** iso.rs:449-478 new_cis_connection *)
Definition new_cis (g c : N) (r : role) (s : state) : option (state * N) :=
  match find (is_cis g c r) (values (conns s)) with
  | Some x => Some (s, c_handle x)
  | None =>
      h <- new_cis_handle s;
      Some (with_conns (put (conns s) h (Cis g c r h None Configuration None false false)) s, h)
  end.

Definition set_phase (p : phase) (h : N) (s : state) : state :=
  match lookup (conns s) h with
  | Some c => with_conns (put (conns s) h (with_c_phase p c)) s
  | None => s
  end.

(** iso.rs:530-575 deque_cis_connection_request *)
Definition deque (s : state) : option (state * list output) :=
  match queue s with
  | [] => Some (s, [])
  | r :: q =>
      cfg <- lookup (configs s) (key (r_cig r) (r_cis r));
      g <- lookup (cigs s) (r_cig r);
      p <- cis_parameters g cfg;
      c <- lookup (conns s) (r_handle r);
      Some (with_queue q
              (with_conns (put (conns s) (r_handle r)
                 (with_c_params (Some p) (with_c_phase PendingRsp (with_c_acl (Some (r_acl r)) c)))) s),
            [Send (r_acl r) (CisReq (r_cig r) (r_cis r) (with_cig_delay 0 (with_cis_delay 0 p)))])
  end.

(** iso.rs:497-507 supported_phys: the bits that are not supported *)
Definition unsupported (e : env) (phys : N) : bool :=
  negb (N.land phys (255 - (1 + (if le_2m e then 2 else 0) + (if le_coded e then 4 else 0))) =? 0).

(** iso.rs:606-675, 799-870: the checks on each requested CIS *)
Definition check_entry (e : env) (g : N) (s : state) (n : entry) : option N :=
  let c := n_config n in
  let '(set_cp, set_pc) :=
    match find (is_cis g (n_id n) CENTRAL) (values (conns s)) with
    | Some x => (path_cp x, path_pc x)
    | None => (false, false)
    end in
  if (phy_cp c =? 0) || (phy_pc c =? 0) then Some UNSUPPORTED_PARAMETER
  else if unsupported e (phy_cp c) || unsupported e (phy_pc c) then Some UNSUPPORTED_PARAMETER
  else if (max_sdu_cp c =? 0) && set_cp then Some COMMAND_DISALLOWED
  else if (max_sdu_pc c =? 0) && set_pc then Some COMMAND_DISALLOWED
  else if (0xfff <? max_sdu_cp c) || (0xfff <? max_sdu_pc c) then Some INVALID_PARAMETERS
  else None.

Fixpoint check_entries (e : env) (g : N) (s : state) (l : list entry) : option N :=
  match l with
  | [] => None
  | n :: l => match check_entry e g s n with Some st => Some st | None => check_entries e g s l end
  end.

(** iso.rs:677-688, 872-883 configures_c_to_p, configures_p_to_c: some CIS of the
    group, as it will be after the command, carries data in that direction *)
Definition configures (sdu : config -> N) (g : N) (s : state) (l : list entry) : bool :=
  existsb (fun n => negb (sdu (n_config n) =? 0)) l
  || existsb (fun e => (fst e / 256 =? g) && negb (sdu (snd e) =? 0)
                       && forallb (fun n => negb (n_id n =? fst e mod 256)) l) (configs s).

Definition within (lo hi x : N) : bool := (lo <=? x) && (x <=? hi).

(** iso.rs:741-761, 911-931: insert the configurations and allocate the handles *)
Fixpoint add_entries (g : N) (l : list entry) (s : state) : option (state * list N) :=
  match l with
  | [] => Some (s, [])
  | n :: l =>
      '(s, h) <- new_cis g (n_id n) CENTRAL (with_configs (put (configs s) (key g (n_id n)) (n_config n)) s);
      '(s, hs) <- add_entries g l s;
      Some (s, h :: hs)
  end.

Definition is_configurable (g : N) (s : state) : bool :=
  match lookup (cigs s) g with Some c => configurable c | None => true end.

Definition answer (o : opcode) (st : N) (hs : list N) : list output := [Event (Answer o st hs)].
Definition fail (o : opcode) (st : N) (s : state) : option (state * list output) :=
  Some (s, answer o st []).

(** iso.rs:577-768 hci_le_set_cig_parameters *)
Definition set_cig (e : env) (g cp pc : N) (fr : bool) (lat_cp lat_pc : N) (l : list entry) (s : state)
    : option (state * list output) :=
  if negb (is_configurable g s) then fail OP_SET_CIG COMMAND_DISALLOWED s
  else match check_entries e g s l with
  | Some st => fail OP_SET_CIG st s
  | None =>
      let cfg_cp := configures max_sdu_cp g s l in
      let cfg_pc := configures max_sdu_pc g s l in
      if (cfg_cp && negb (within 0xff 0xfffff cp)) || (cfg_pc && negb (within 0xff 0xfffff pc))
      then fail OP_SET_CIG INVALID_PARAMETERS s
      else if (cfg_cp && negb (within 5 0xfa0 lat_cp)) || (cfg_pc && negb (within 5 0xfa0 lat_pc))
      then fail OP_SET_CIG INVALID_PARAMETERS s
      else
        iso <- iso_interval_of cp pc fr (lat_cp * 1000) (lat_pc * 1000);
        match iso with
        | None => fail OP_SET_CIG UNSUPPORTED_PARAMETER s
        | Some iso =>
            '(s, hs) <- add_entries g l (with_cigs (put (cigs s) g (Cig iso cp pc 1 1 fr true)) s);
            Some (s, answer OP_SET_CIG SUCCESS hs)
        end
  end.

(** iso.rs:770-938 hci_le_set_cig_parameters_test *)
Definition set_cig_test (e : env) (g cp pc ft_c ft_p iso : N) (fr : bool) (l : list entry) (s : state)
    : option (state * list output) :=
  if negb (is_configurable g s) then fail OP_SET_CIG_TEST COMMAND_DISALLOWED s
  else match check_entries e g s l with
  | Some st => fail OP_SET_CIG_TEST st s
  | None =>
      if (configures max_sdu_cp g s l && negb (within 0xff 0xfffff cp))
         || (configures max_sdu_pc g s l && negb (within 0xff 0xfffff pc))
      then fail OP_SET_CIG_TEST INVALID_PARAMETERS s
      else
        '(s, hs) <- add_entries g l (with_cigs (put (cigs s) g (Cig iso cp pc ft_c ft_p fr true)) s);
        Some (s, answer OP_SET_CIG_TEST SUCCESS hs)
  end.

(** iso.rs:940-974 hci_le_remove_cig *)
Definition remove_cig (g : N) (s : state) : option (state * list output) :=
  if negb (has (cigs s) g) then fail OP_REMOVE_CIG UNKNOWN_CONNECTION s
  else if existsb (fun c => role_eqb (c_role c) CENTRAL && (c_cig c =? g)
                            && negb (phase_eqb (c_phase c) Configuration)) (values (conns s))
  then fail OP_REMOVE_CIG COMMAND_DISALLOWED s
  else
    Some (with_conns (filter (fun e => negb (role_eqb (c_role (snd e)) CENTRAL)
                                       || negb (c_cig (snd e) =? g)) (conns s))
           (with_configs (filter (fun e => negb (fst e / 256 =? g)) (configs s))
             (with_cigs (erase (cigs s) g) s)),
          answer OP_REMOVE_CIG SUCCESS []).

(** iso.rs:982-1046: the checks on each CIS to create; [done] in the order requested *)
Fixpoint check_requests (s : state) (l : list (N * N)) (done : list request) : N + list request :=
  match l with
  | [] => inr done
  | (h, acl) :: l =>
      match lookup (acls s) acl with
      | None => inl UNKNOWN_CONNECTION
      | Some PERIPHERAL => inl INVALID_PARAMETERS
      | Some CENTRAL =>
          match lookup (conns s) h with
          | None => inl UNKNOWN_CONNECTION
          | Some c =>
              if negb (phase_eqb (c_phase c) Configuration) then inl CONNECTION_ALREADY_EXISTS
              else if existsb (fun r => r_handle r =? h) done then inl INVALID_PARAMETERS
              else check_requests s l (done ++ [Request (c_cig c) (c_cis c) acl h])
          end
      end
  end.

(** iso.rs:1067-1074: the groups are no longer configurable *)
Fixpoint freeze (l : list request) (s : state) : option state :=
  match l with
  | [] => Some s
  | r :: l =>
      g <- lookup (cigs s) (r_cig r);
      freeze l (with_cigs (put (cigs s) (r_cig r) (with_configurable false g)) s)
  end.

(** iso.rs:976-1085 hci_le_create_cis *)
Definition create_cis (e : env) (l : list (N * N)) (s : state) : option (state * list output) :=
  match check_requests s l [] with
  | inl st => fail OP_CREATE_CIS st s
  | inr rs =>
      match queue s with
      | _ :: _ => fail OP_CREATE_CIS COMMAND_DISALLOWED s
      | [] =>
          if negb (host_support e) then fail OP_CREATE_CIS COMMAND_DISALLOWED s
          else
            s <- freeze rs s;
            '(s, o) <- deque (with_queue rs s);
            Some (s, o ++ answer OP_CREATE_CIS SUCCESS [])
      end
  end.

(** iso.rs:1087-1140 hci_le_accept_cis_request *)
Definition accept_cis (h : N) (s : state) : option (state * list output) :=
  match lookup (conns s) h with
  | None => fail OP_ACCEPT UNKNOWN_CONNECTION s
  | Some c =>
      if role_eqb (c_role c) CENTRAL then fail OP_ACCEPT COMMAND_DISALLOWED s
      else if negb (phase_eqb (c_phase c) PendingAccept) then fail OP_ACCEPT COMMAND_DISALLOWED s
      else
        acl <- c_acl c;
        Some (with_conns (put (conns s) h (with_c_phase PendingInd c)) s,
              Send acl CisRsp :: answer OP_ACCEPT SUCCESS [])
  end.

(** iso.rs:1142-1206 hci_le_reject_cis_request *)
Definition reject_cis (h reason : N) (s : state) : option (state * list output) :=
  match lookup (conns s) h with
  | None => fail OP_REJECT UNKNOWN_CONNECTION s
  | Some c =>
      if role_eqb (c_role c) CENTRAL then fail OP_REJECT COMMAND_DISALLOWED s
      else if negb (phase_eqb (c_phase c) PendingAccept) then fail OP_REJECT COMMAND_DISALLOWED s
      else
        acl <- c_acl c;
        Some (with_conns (erase (conns s) h) s,
              Send acl (RejectExt CIS_REQ_OPCODE (if reason =? SUCCESS then REMOTE_USER_TERMINATED else reason))
              :: answer OP_REJECT SUCCESS [])
  end.

(** iso.rs:1208-1327 hci_le_setup_iso_data_path; the direction is input or output *)
Definition setup_path (h : N) (out : bool) (codec : N) (cc : list N) (s : state)
    : option (state * list output) :=
  if negb (lenN cc =? 0) && (codec =? 3) then fail OP_SETUP_PATH INVALID_PARAMETERS s
  else match lookup (conns s) h with
  | Some c =>
      let cp_output := role_eqb (c_role c) CENTRAL in
      if path_cp c && Bool.eqb out cp_output then fail OP_SETUP_PATH COMMAND_DISALLOWED s
      else if path_pc c && Bool.eqb out (negb cp_output) then fail OP_SETUP_PATH COMMAND_DISALLOWED s
      else if role_eqb (c_role c) PERIPHERAL && phase_eqb (c_phase c) PendingAccept
      then fail OP_SETUP_PATH COMMAND_DISALLOWED s
      else
        Some (with_conns (put (conns s) h
                (if Bool.eqb out cp_output then with_path_cp true c else with_path_pc true c)) s,
              answer OP_SETUP_PATH SUCCESS [])
  | None =>
      match lookup (biss s) h with
      | Some b =>
          if (role_eqb (b_role b) CENTRAL && out) || (role_eqb (b_role b) PERIPHERAL && negb out)
          then fail OP_SETUP_PATH COMMAND_DISALLOWED s
          else if b_path b then fail OP_SETUP_PATH COMMAND_DISALLOWED s
          else Some (with_biss (put (biss s) h (with_b_path true b)) s, answer OP_SETUP_PATH SUCCESS [])
      | None => fail OP_SETUP_PATH UNKNOWN_CONNECTION s
      end
  end.

(** iso.rs:1329-1384 hci_le_remove_iso_data_path *)
Definition remove_path (h : N) (input out : bool) (s : state) : option (state * list output) :=
  match lookup (conns s) h with
  | Some c =>
      let '(rm_cp, rm_pc) := if role_eqb (c_role c) CENTRAL then (out, input) else (input, out) in
      if negb (path_cp c) && rm_cp then fail OP_REMOVE_PATH COMMAND_DISALLOWED s
      else if negb (path_pc c) && rm_pc then fail OP_REMOVE_PATH COMMAND_DISALLOWED s
      else
        Some (with_conns (put (conns s) h
                (with_path_cp (path_cp c && negb rm_cp) (with_path_pc (path_pc c && negb rm_pc) c))) s,
              answer OP_REMOVE_PATH SUCCESS [])
  | None =>
      match lookup (biss s) h with
      | Some b =>
          if negb (b_path b) || out then fail OP_REMOVE_PATH COMMAND_DISALLOWED s
          else Some (with_biss (put (biss s) h (with_b_path (b_path b && negb input) b)) s,
                     answer OP_REMOVE_PATH SUCCESS [])
      | None => fail OP_REMOVE_PATH UNKNOWN_CONNECTION s
      end
  end.

(** iso.rs:1386-1431 hci_disconnect *)
Definition disconnect (h reason : N) (s : state) : option (state * list output) :=
  match lookup (conns s) h with
  | None => fail OP_DISCONNECT UNKNOWN_CONNECTION s
  | Some c =>
      match c_phase c with
      | Connected | PendingRsp =>
          let s' := if role_eqb (c_role c) CENTRAL then set_phase Configuration h s
                    else with_conns (erase (conns s) h) s in
          acl <- c_acl c;
          Some (s', [Send acl (CisTerminate (c_cig c) (c_cis c) reason);
                     Event (Answer OP_DISCONNECT SUCCESS []);
                     Event (Disconnected h LOCAL_HOST_TERMINATED)])
      | _ => fail OP_DISCONNECT COMMAND_DISALLOWED s
      end
  end.

(** iso.rs:1433-1475 ll_cis_req *)
Definition cis_req (acl g c : N) (p : params) (s : state) : option (state * list output) :=
  h <- new_cis_handle s;
  Some (with_conns (put (conns s) h
          (Cis g c PERIPHERAL h (Some acl) PendingAccept
             (Some (with_cig_delay 0 (with_cis_delay 0 p))) false false)) s,
        [Event (CisRequested acl h g c)]).

(** iso.rs:254-272, 1500-1517, 1586-1603: the report of an established CIS; the
    peripheral exchanges the two directions of BN, FT and Max_PDU *)
Definition report_of (r : role) (p : params) : option report :=
  lat_cp <- transport_latency (cig_delay p) (p_iso p) (p_ft_cp p) (p_int_cp p) (p_framed p);
  lat_pc <- transport_latency (cig_delay p) (p_iso p) (p_ft_pc p) (p_int_pc p) (p_framed p);
  phy_c <- phy_code (p_phy_cp p);
  phy_p <- phy_code (p_phy_pc p);
  match r with
  | CENTRAL =>
      Some (Report (cig_delay p) (cis_delay p) lat_cp lat_pc phy_c phy_p (p_nse p)
              (p_bn_cp p) (p_bn_pc p) (p_ft_cp p) (p_ft_pc p)
              (p_pdu_cp p mod 256) (p_pdu_pc p mod 256) (p_iso p))
  | PERIPHERAL =>
      Some (Report (cig_delay p) (cis_delay p) lat_cp lat_pc phy_c phy_p (p_nse p)
              (p_bn_pc p) (p_bn_cp p) (p_ft_pc p) (p_ft_cp p)
              (p_pdu_pc p mod 256) (p_pdu_cp p mod 256) (p_iso p))
  end.

Definition waiting (acl : N) (r : role) (p : phase) (c : cis) : bool :=
  optN_eqb (c_acl c) acl && role_eqb (c_role c) r && phase_eqb (c_phase c) p.

(** iso.rs:1477-1523 ll_cis_rsp *)
Definition cis_rsp (pick : nat) (acl : N) (s : state) : option (state * list output) :=
  match find_cis pick (waiting acl CENTRAL PendingRsp) s with
  | None => Some (s, [])
  | Some h =>
      c <- lookup (conns s) h;
      p <- c_params c;
      r <- report_of CENTRAL p;
      '(s, o) <- deque (set_phase Connected h s);
      Some (s, Send acl (CisInd (cig_delay p) (cis_delay p)) :: Event (Established SUCCESS h r) :: o)
  end.

(** iso.rs:1525-1566 ll_reject_ext_ind; manager.rs:116-121 *)
Definition reject_ext (pick : nat) (acl opcode : N) (s : state) : option (state * list output) :=
  if negb (opcode =? CIS_REQ_OPCODE) then None
  else match find_cis pick (waiting acl CENTRAL PendingRsp) s with
  | None => Some (s, [])
  | Some h =>
      c <- lookup (conns s) h;
      '(s, o) <- deque (with_conns (put (conns s) h (with_c_params None (with_c_phase Configuration c))) s);
      Some (s, Event (Established REMOTE_USER_TERMINATED h no_report) :: o)
  end.

(** iso.rs:1568-1607 ll_cis_ind *)
Definition cis_ind (pick : nat) (acl cig_sync cis_sync : N) (s : state) : option (state * list output) :=
  match find_cis pick (waiting acl PERIPHERAL PendingInd) s with
  | None => Some (s, [])
  | Some h =>
      c <- lookup (conns s) h;
      p <- c_params c;
      let p := with_cig_delay cig_sync (with_cis_delay cis_sync p) in
      r <- report_of PERIPHERAL p;
      Some (with_conns (put (conns s) h (with_c_params (Some p) (with_c_phase Connected c))) s,
            [Event (Established SUCCESS h r)])
  end.

(** iso.rs:1609-1630 ll_cis_terminate_ind *)
Definition cis_terminate (pick : nat) (acl g c error : N) (s : state) : option (state * list output) :=
  match find_cis pick (fun x => optN_eqb (c_acl x) acl && (c_cig x =? g) && (c_cis x =? c)) s with
  | None => Some (s, [])
  | Some h =>
      if declared_error error
      then Some (with_conns (erase (conns s) h) s, [Event (Disconnected h error)])
      else None
  end.

(** iso.rs:1632-1858 hci_le_create_big; packing, framing and encryption have only
    two declared values; the broadcast code is stored and never read *)
Fixpoint new_bises (b : N) (ids : list N) (m : table bis) : option (table bis * list N) :=
  match ids with
  | [] => Some (m, [])
  | i :: ids =>
      h <- new_bis_handle m;
      '(m, hs) <- new_bises b ids (put m h (Bis b i CENTRAL false));
      Some (m, h :: hs)
  end.

Definition create_big (e : env) (b adv num interval sdu latency rtn phy : N) (s : state)
    : option (state * list output) :=
  if 0xef <? b then fail OP_CREATE_BIG INVALID_PARAMETERS s
  else if has (bigs s) b then fail OP_CREATE_BIG COMMAND_DISALLOWED s
  else if 0xef <? adv then fail OP_CREATE_BIG INVALID_PARAMETERS s
  else match periodic e adv with
  | None | Some false => fail OP_CREATE_BIG UNKNOWN_ADVERTISING s
  | Some true =>
      if existsb (fun x => big_adv x =? adv) (values (bigs s)) then fail OP_CREATE_BIG UNKNOWN_ADVERTISING s
      else if negb (within 1 0x1f num) then fail OP_CREATE_BIG INVALID_PARAMETERS s
      else if negb (within 0xff 0xfffff interval) then fail OP_CREATE_BIG INVALID_PARAMETERS s
      else if negb (within 1 0xfff sdu) then fail OP_CREATE_BIG INVALID_PARAMETERS s
      else if negb (within 5 0xfa0 latency) then fail OP_CREATE_BIG INVALID_PARAMETERS s
      else if 0x0f <? rtn then fail OP_CREATE_BIG INVALID_PARAMETERS s
      else if phy =? 0 then fail OP_CREATE_BIG INVALID_PARAMETERS s
      else
        '(m, hs) <- new_bises b (range 1 (N.to_nat num)) (biss s);
        Some (with_biss m (with_bigs (put (bigs s) b (Big adv num)) s),
              answer OP_CREATE_BIG SUCCESS [] ++
              [Event (BigCreated b (interval * 2) phy (rtn + 1) (div_ceil interval 1250 mod 2 ^ 16) hs)])
  end.

(** iso.rs:1860-1895 hci_le_terminate_big *)
Definition terminate_big (b reason : N) (s : state) : option (state * list output) :=
  if 0xef <? b then fail OP_TERMINATE_BIG INVALID_PARAMETERS s
  else if negb (has (bigs s) b) then fail OP_TERMINATE_BIG UNKNOWN_ADVERTISING s
  else
    Some (with_biss (filter (fun e => negb (b_big (snd e) =? b)) (biss s))
            (with_bigs (erase (bigs s) b) s),
          answer OP_TERMINATE_BIG SUCCESS [] ++ [Event (BigTerminated b reason)]).

(** iso.rs:341-433 remove_acl_connection *)
Definition lost (acl reason : N) (c : cis) : list output :=
  if optN_eqb (c_acl c) acl then
    match c_phase c with
    | Connected => [Event (Disconnected (c_handle c) reason)]
    | PendingRsp | PendingInd => [Event (Established reason (c_handle c) no_report)]
    | _ => []
    end
  else [].
Definition unlink (acl : N) (c : cis) : cis :=
  if optN_eqb (c_acl c) acl then with_c_acl None (with_c_phase Configuration c) else c.
Definition remove_acl (acl reason : N) (s : state) : state * list output :=
  (with_queue (filter (fun r => negb (r_acl r =? acl)) (queue s))
     (with_conns (map (fun e => (fst e, unlink acl (snd e)))
        (filter (fun e => role_eqb (c_role (snd e)) CENTRAL || negb (optN_eqb (c_acl (snd e)) acl)) (conns s)))
        (with_acls (erase (acls s) acl) s)),
   flat_map (lost acl reason) (values (conns s)) ++
   flat_map (fun r => if r_acl r =? acl then [Event (Established reason (r_handle r) no_report)] else [])
     (rev (queue s))).

(** manager.rs:53-67 add_link and le_controller.cc:5576, which asserts that it succeeds *)
Definition add_link (h : N) (r : role) (s : state) : option (state * list output) :=
  if has (acls s) h then None else Some (with_acls (put (acls s) h r) s, []).
(** manager.rs:69-83 remove_link and le_controller.cc:4306, 6380 *)
Definition remove_link (h reason : N) (s : state) : option (state * list output) :=
  if has (acls s) h
  then Some (remove_acl h (if declared_error reason then reason else REMOTE_USER_TERMINATED) s)
  else None.

(** manager.rs:87-131 ingest_hci, ingest_llcp *)
Definition run (e : env) (s : state) (o : op) : option (state * list output) :=
  match o with
  | SetCig g cp pc fr lc lp l => set_cig e g cp pc fr lc lp l s
  | SetCigTest g cp pc fc fp iso fr l => set_cig_test e g cp pc fc fp iso fr l s
  | RemoveCig g => remove_cig g s
  | CreateCis l => create_cis e l s
  | AcceptCis h => accept_cis h s
  | RejectCis h reason => reject_cis h reason s
  | SetupPath h out codec cc => setup_path h out codec cc s
  | RemovePath h i out => remove_path h i out s
  | Disconnect h reason => disconnect h reason s
  | CreateBig b adv num interval sdu latency rtn phy => create_big e b adv num interval sdu latency rtn phy s
  | TerminateBig b reason => terminate_big b reason s
  | AddLink h r => add_link h r s
  | RemoveLink h reason => remove_link h reason s
  | Receive pick acl p =>
      match p with
      | CisReq g c p => cis_req acl g c p s
      | CisRsp => cis_rsp pick acl s
      | CisInd a b => cis_ind pick acl a b s
      | CisTerminate g c error => cis_terminate pick acl g c error s
      | RejectExt opcode _ => reject_ext pick acl opcode s
      | OtherLlcp => None
      end
  end.

Inductive result := Ok (s : state) (o : list output) | Panic.

(** iso.rs:480-491: every packet sent is encoded, and the encoding unwrapped *)
Definition step (e : env) (s : state) (o : op) : result :=
  match run e s o with
  | Some (s', out) => if forallb fits out then Ok s' out else Panic
  | None => Panic
  end.
End Iso.
