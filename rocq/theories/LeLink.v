(** Model of one LE connection and of the two controllers at its ends: PHY updates,
    connection subrating, connection parameters, encryption, disconnection, and the questions
    about the other end (model/controller/le_controller.cc and le_acl_connection.h).

    Simplifications: the packets sent by one end reach the other in order, and no packet of
    another connection carries the same two addresses, so the lookup of
    le_controller.cc:4121-4133 finds this connection while it exists; events and tasks
    scheduled without delay are shown at once; the link supervision timer is left out. *)
From Verif Require Import Prelude.
Open Scope N_scope.

(** hci_packets.pdl, PhyType *)
Inductive phy := LE_1M | LE_2M | LE_CODED.
Definition phy_eqb (a b : phy) : bool :=
  match a, b with LE_1M, LE_1M | LE_2M, LE_2M | LE_CODED, LE_CODED => true | _, _ => false end.

(** le_acl_connection.h:42-60 *)
Record cparams := CParams { interval : N; factor : N; continuation : N; latency : N; timeout : N }.
(** le_acl_connection.h:64-70 *)
Record subrate := Subrate { sub_min : N; sub_max : N; sub_latency : N; sub_continuation : N; sub_timeout : N }.

(** What a controller tells about itself: controller_properties.h:124-127, 173 and
    le_controller.h:680-682 *)
Record about := About { le_features : N; host_features : N; version : N; subversion : N; manufacturer : N }.
Definition all_features (a : about) : N := N.lor (le_features a) (host_features a).
Definition with_host_features f (a : about) : about := About (le_features a) f (version a) (subversion a) (manufacturer a).

(** One end: the role, the settings of the controller (le_controller.h:757, 829-832) and
    the state of the connection (le_acl_connection.h:73-135); [up] tells whether the
    connection exists at this end. *)
Record endpoint := Endpoint {
  central : bool;
  supported_phys : N;
  default_tx : N; default_rx : N; requested_tx : N; requested_rx : N;
  default_subrate : subrate;
  up : bool;
  tx_phy : phy; rx_phy : phy; initiated : bool;
  cp : cparams;
  acceptable : subrate;
  ltk : option (list N);
  encrypted : bool;
  info : about;
  known_features : option N }.

Definition with_defaults tx rx (e : endpoint) : endpoint :=
  Endpoint (central e) (supported_phys e) tx rx (requested_tx e) (requested_rx e) (default_subrate e) (up e)
    (tx_phy e) (rx_phy e) (initiated e) (cp e) (acceptable e) (ltk e) (encrypted e) (info e) (known_features e).
Definition with_requested tx rx (e : endpoint) : endpoint :=
  Endpoint (central e) (supported_phys e) (default_tx e) (default_rx e) tx rx (default_subrate e) (up e)
    (tx_phy e) (rx_phy e) (initiated e) (cp e) (acceptable e) (ltk e) (encrypted e) (info e) (known_features e).
Definition with_default_subrate d (e : endpoint) : endpoint :=
  Endpoint (central e) (supported_phys e) (default_tx e) (default_rx e) (requested_tx e) (requested_rx e) d (up e)
    (tx_phy e) (rx_phy e) (initiated e) (cp e) (acceptable e) (ltk e) (encrypted e) (info e) (known_features e).
Definition with_up u (e : endpoint) : endpoint :=
  Endpoint (central e) (supported_phys e) (default_tx e) (default_rx e) (requested_tx e) (requested_rx e) (default_subrate e) u
    (tx_phy e) (rx_phy e) (initiated e) (cp e) (acceptable e) (ltk e) (encrypted e) (info e) (known_features e).
Definition with_phys tx rx (e : endpoint) : endpoint :=
  Endpoint (central e) (supported_phys e) (default_tx e) (default_rx e) (requested_tx e) (requested_rx e) (default_subrate e) (up e)
    tx rx (initiated e) (cp e) (acceptable e) (ltk e) (encrypted e) (info e) (known_features e).
Definition with_initiated i (e : endpoint) : endpoint :=
  Endpoint (central e) (supported_phys e) (default_tx e) (default_rx e) (requested_tx e) (requested_rx e) (default_subrate e) (up e)
    (tx_phy e) (rx_phy e) i (cp e) (acceptable e) (ltk e) (encrypted e) (info e) (known_features e).
Definition with_cp c (e : endpoint) : endpoint :=
  Endpoint (central e) (supported_phys e) (default_tx e) (default_rx e) (requested_tx e) (requested_rx e) (default_subrate e) (up e)
    (tx_phy e) (rx_phy e) (initiated e) c (acceptable e) (ltk e) (encrypted e) (info e) (known_features e).
Definition with_acceptable a (e : endpoint) : endpoint :=
  Endpoint (central e) (supported_phys e) (default_tx e) (default_rx e) (requested_tx e) (requested_rx e) (default_subrate e) (up e)
    (tx_phy e) (rx_phy e) (initiated e) (cp e) a (ltk e) (encrypted e) (info e) (known_features e).
Definition with_ltk k (e : endpoint) : endpoint :=
  Endpoint (central e) (supported_phys e) (default_tx e) (default_rx e) (requested_tx e) (requested_rx e) (default_subrate e) (up e)
    (tx_phy e) (rx_phy e) (initiated e) (cp e) (acceptable e) k (encrypted e) (info e) (known_features e).
Definition with_encrypted b (e : endpoint) : endpoint :=
  Endpoint (central e) (supported_phys e) (default_tx e) (default_rx e) (requested_tx e) (requested_rx e) (default_subrate e) (up e)
    (tx_phy e) (rx_phy e) (initiated e) (cp e) (acceptable e) (ltk e) b (info e) (known_features e).
Definition with_info a (e : endpoint) : endpoint :=
  Endpoint (central e) (supported_phys e) (default_tx e) (default_rx e) (requested_tx e) (requested_rx e) (default_subrate e) (up e)
    (tx_phy e) (rx_phy e) (initiated e) (cp e) (acceptable e) (ltk e) (encrypted e) a (known_features e).
Definition with_known f (e : endpoint) : endpoint :=
  Endpoint (central e) (supported_phys e) (default_tx e) (default_rx e) (requested_tx e) (requested_rx e) (default_subrate e) (up e)
    (tx_phy e) (rx_phy e) (initiated e) (cp e) (acceptable e) (ltk e) (encrypted e) (info e) f.

(** hci_packets.pdl, ErrorCode *)
Definition SUCCESS : N := 0.
Definition UNKNOWN_CONNECTION : N := 0x02.
Definition AUTHENTICATION_FAILURE : N := 0x05.
Definition PIN_OR_KEY_MISSING : N := 0x06.
Definition COMMAND_DISALLOWED : N := 0x0c.
Definition UNSUPPORTED_FEATURE_OR_PARAMETER_VALUE : N := 0x11.
Definition INVALID_HCI_COMMAND_PARAMETERS : N := 0x12.
Definition LOCAL_HOST_TERMINATED : N := 0x16.
Definition UNSUPPORTED_REMOTE_OR_LMP_FEATURE : N := 0x1a.
Definition INVALID_LMP_OR_LL_PARAMETERS : N := 0x1e.

(** packets/link_layer_packets.pdl; the addresses, and the random number and diversifier
    of the encryption packets, are left out. *)
Inductive pdu :=
| PhyReq (tx rx : N)
| PhyRsp (tx rx : N)
| PhyUpdateInd (c_to_p p_to_c : N)
| SubrateReq (fmin fmax lat cont tmo : N)
| SubrateInd (status fac lat cont tmo : N)
| ParamReq (imin imax lat tmo : N)
| ParamUpdate (status i lat tmo : N)
| EncReq (key : list N)
| EncRsp (status : N) (key : list N)
| Disc (reason : N)
| FeaturesReq
| FeaturesRsp (features status : N)
| VersionReq
| VersionRsp (v sub man : N).

Inductive event :=
| PhyUpdateComplete (tx rx : phy)
| SubrateChange (status fac lat cont tmo : N)
| ConnectionUpdateComplete (status i lat tmo : N)
| RemoteParamRequest (imin imax lat tmo : N)
| LtkRequest
| EncryptionChange (status : N) (on : bool)
| EncryptionChangeV2 (status : N) (on : bool)
| KeyRefreshComplete (status : N)
| DisconnectionComplete (reason : N)
| FeaturesComplete (status features : N)
| VersionComplete (status v man sub : N)
| PhysAre (tx rx : phy)      (* the return parameters of LE Read PHY *)
| TransmitPower (status phy_ : N) (level : Z).

(** The events that the host may mask *)
Inductive maskable := M_PHY_UPDATE | M_SUBRATE | M_CONNECTION_UPDATE | M_PARAM_REQUEST | M_LE_META | M_ENCRYPTION_CHANGE | M_ENCRYPTION_CHANGE_V2 | M_KEY_REFRESH | M_DISCONNECTION | M_REMOTE_VERSION.
Definition mask := maskable -> bool.
Definition emit (m : mask) (k : maskable) (e : event) : list event := if m k then [e] else [].

(** le_controller.cc:514-520 *)
Definition select_phy (phys : N) (current : phy) : phy :=
  if negb (N.land phys 4 =? 0) then LE_CODED else if negb (N.land phys 2 =? 0) then LE_2M else if negb (N.land phys 1 =? 0) then LE_1M else current.
(** 524-529 *)
Definition indicate_phy (selected current : phy) : N :=
  if phy_eqb selected current then 0 else match selected with LE_CODED => 4 | LE_2M => 2 | LE_1M => 1 end.

(** 408-447 and 466-499: the preferences, or the error *)
Definition check_phys (supported : N) (no_tx no_rx : bool) (tx rx : N) : N + N * N :=
  let tx := if no_tx then supported else tx in
  if tx =? 0 then inl INVALID_HCI_COMMAND_PARAMETERS
  else
    let rx := if no_rx then supported else rx in
    if rx =? 0 then inl INVALID_HCI_COMMAND_PARAMETERS
    else if negb (N.ldiff tx supported =? 0) then inl UNSUPPORTED_FEATURE_OR_PARAMETER_VALUE
    else if negb (N.ldiff rx supported =? 0) then inl UNSUPPORTED_FEATURE_OR_PARAMETER_VALUE
    else inr (tx, rx).

(** The commands. [SetPhyElsewhere] is LE Set PHY for another connection of the same
    controller; [others] tells whether the controller has another LE connection. *)
Inductive command :=
| SetDefaultPhy (no_tx no_rx : bool) (tx rx : N)
| SetPhy (no_tx no_rx : bool) (tx rx : N)
| SetPhyElsewhere (no_tx no_rx : bool) (tx rx : N)
| SetDefaultSubrate (smin smax lat cont tmo : N)
| SubrateRequest (smin smax lat cont tmo : N)
| ConnectionUpdate (imin imax lat tmo : N)
| ParamReply (imin imax tmo lat min_ce max_ce : N)
| ParamNegativeReply (reason : N)
| EnableEncryption (key : list N)
| LtkReply (key : list N)
| LtkNegativeReply
| Disconnect (reason : N)
| ReadRemoteFeatures
| ReadRemoteVersion
| SetHostFeature (others : bool) (bit value : N)
| SetDataLength (octets time : N)
| ReadPhy
| ReadRemoteTransmitPower (phy_ : N)
| SetTransmitPowerReporting (local remote : N).

(** 1983-2029 and 2060-2107 *)
Definition subrate_ranges (min_above_max : N) (smin smax lat cont tmo : N) : N :=
  if (smin <? 1) || (0x1f4 <? smin) then UNSUPPORTED_FEATURE_OR_PARAMETER_VALUE
  else if (smax <? 1) || (0x1f4 <? smax) then UNSUPPORTED_FEATURE_OR_PARAMETER_VALUE
  else if smax <? smin then min_above_max
  else if 0x1f3 <? lat then UNSUPPORTED_FEATURE_OR_PARAMETER_VALUE
  else if 0x1f3 <? cont then UNSUPPORTED_FEATURE_OR_PARAMETER_VALUE
  else if (tmo <? 0xa) || (0xc80 <? tmo) then UNSUPPORTED_FEATURE_OR_PARAMETER_VALUE
  else SUCCESS.
(** 2060-2134 *)
Definition check_subrate_request (e : endpoint) (smin smax lat cont tmo : N) : N :=
  let status := subrate_ranges INVALID_HCI_COMMAND_PARAMETERS smin smax lat cont tmo in
  if negb (status =? SUCCESS) then status
  else if 500 <? smax * (lat + 1) then INVALID_HCI_COMMAND_PARAMETERS
  else if tmo / 2 <=? interval (cp e) * smax * (lat + 1) then INVALID_HCI_COMMAND_PARAMETERS
  else if smax <=? cont then INVALID_HCI_COMMAND_PARAMETERS
  else SUCCESS.

(** What an end does: its new state, the status of the command, packets and events *)
Definition outcome : Type := endpoint * N * list pdu * list event.
Definition refuse (e : endpoint) (status : N) : outcome := (e, status, [], []).

Definition do_command (m : mask) (e : endpoint) (c : command) : outcome :=
  match c with
  (** 408-451 *)
  | SetDefaultPhy no_tx no_rx tx rx =>
      match check_phys (supported_phys e) no_tx no_rx tx rx with
      | inl s => refuse e s
      | inr (tx, rx) => (with_defaults tx rx e, SUCCESS, [], [])
      end
  (** 454-512 *)
  | SetPhy no_tx no_rx tx rx =>
      if negb (up e) then refuse e UNKNOWN_CONNECTION
      else match check_phys (supported_phys e) no_tx no_rx tx rx with
           | inl s => refuse e s
           | inr (tx, rx) => (with_requested tx rx (with_initiated true e), SUCCESS, [PhyReq tx rx], [])
           end
  (** 454-512, on another connection: only 509-510 concern this one *)
  | SetPhyElsewhere no_tx no_rx tx rx =>
      match check_phys (supported_phys e) no_tx no_rx tx rx with
      | inl s => refuse e s
      | inr (tx, rx) => (with_requested tx rx e, SUCCESS, [], [])
      end
  (** 1979-2040 *)
  | SetDefaultSubrate smin smax lat cont tmo =>
      let status := subrate_ranges UNSUPPORTED_FEATURE_OR_PARAMETER_VALUE smin smax lat cont tmo in
      if negb (status =? SUCCESS) then refuse e status
      else (with_default_subrate (Subrate smin smax lat cont tmo) e, SUCCESS, [], [])
  (** 2043-2191 *)
  | SubrateRequest smin smax lat cont tmo =>
      if negb (up e) then refuse e UNKNOWN_CONNECTION
      else
        let status := check_subrate_request e smin smax lat cont tmo in
        if negb (status =? SUCCESS) then refuse e status
        else if central e then
          (with_acceptable (Subrate smin smax lat cont tmo) (with_cp (CParams (interval (cp e)) smax cont lat tmo) e), SUCCESS,
           [SubrateInd SUCCESS smax lat cont tmo], emit m M_SUBRATE (SubrateChange SUCCESS smax lat cont tmo))
        else (e, SUCCESS, [SubrateReq smin smax lat cont tmo], [])
  (** 6398-6428 *)
  | ConnectionUpdate imin imax lat tmo =>
      if negb (up e) then refuse e UNKNOWN_CONNECTION
      else if central e then
        (e, SUCCESS, [ParamUpdate SUCCESS imax lat tmo], emit m M_CONNECTION_UPDATE (ConnectionUpdateComplete SUCCESS imax lat tmo))
      else (e, SUCCESS, [ParamReq imin imax lat tmo], [])
  (** 6430-6474 *)
  | ParamReply imin imax tmo lat min_ce max_ce =>
      if negb (up e) then refuse e UNKNOWN_CONNECTION
      else if (imin <? 6) || (0xc80 <? imax) || (imax <? imin) || (0x1f3 <? lat) || (tmo <? 0xa) || (0xc80 <? tmo) ||
              (tmo <=? (((1 + lat) * imax * 10) / 4) / 10) then refuse e INVALID_HCI_COMMAND_PARAMETERS
      else if max_ce <? min_ce then refuse e INVALID_HCI_COMMAND_PARAMETERS
      else (with_cp (CParams imin 1 0 lat tmo) e, SUCCESS, [ParamUpdate SUCCESS imin lat tmo],
            emit m M_CONNECTION_UPDATE (ConnectionUpdateComplete SUCCESS imin lat tmo))
  (** 6476-6489 *)
  | ParamNegativeReply reason =>
      if negb (up e) then refuse e UNKNOWN_CONNECTION else (e, SUCCESS, [ParamUpdate reason 0 0 0], [])
  (** 6495-6521 *)
  | EnableEncryption key =>
      if negb (up e) then refuse e UNKNOWN_CONNECTION else (with_ltk (Some key) e, SUCCESS, [EncReq key], [])
  (** 6523-6556 *)
  | LtkReply key =>
      if negb (up e) then refuse e UNKNOWN_CONNECTION
      else if encrypted e then (e, SUCCESS, [EncRsp SUCCESS key], emit m M_KEY_REFRESH (KeyRefreshComplete SUCCESS))
      else (with_encrypted true e, SUCCESS, [EncRsp SUCCESS key],
            if m M_ENCRYPTION_CHANGE_V2 then [EncryptionChangeV2 SUCCESS true] else emit m M_ENCRYPTION_CHANGE (EncryptionChange SUCCESS true))
  (** 6558-6570 *)
  | LtkNegativeReply =>
      if negb (up e) then refuse e UNKNOWN_CONNECTION else (e, SUCCESS, [EncRsp PIN_OR_KEY_MISSING (repeat 0 16)], [])
  (** 6367-6384 *)
  | Disconnect reason =>
      if negb (up e) then refuse e UNKNOWN_CONNECTION
      else (with_up false e, SUCCESS, [Disc reason], emit m M_DISCONNECTION (DisconnectionComplete LOCAL_HOST_TERMINATED))
  (** 4080-4090 *)
  | ReadRemoteFeatures => if negb (up e) then refuse e UNKNOWN_CONNECTION else (e, SUCCESS, [FeaturesReq], [])
  (** 6387-6396 *)
  | ReadRemoteVersion => if negb (up e) then refuse e UNKNOWN_CONNECTION else (e, SUCCESS, [VersionReq], [])
  (** 675-715 *)
  | SetHostFeature others bit value =>
      if (64 <=? bit) || (1 <? value) then refuse e INVALID_HCI_COMMAND_PARAMETERS
      else if up e || others then refuse e COMMAND_DISALLOWED
      else if negb ((bit =? 32) || (bit =? 38) || (bit =? 47)) then refuse e UNSUPPORTED_FEATURE_OR_PARAMETER_VALUE
      else (with_info (with_host_features (if value =? 0 then N.ldiff (host_features (info e)) (2 ^ bit)
                                           else N.lor (host_features (info e)) (2 ^ bit)) (info e)) e, SUCCESS, [], [])
  (** 644-672: the parameters are checked and ignored *)
  | SetDataLength octets time =>
      if negb (up e) then refuse e UNKNOWN_CONNECTION
      else if (octets <? 0x1b) || (0xfb <? octets) then refuse e INVALID_HCI_COMMAND_PARAMETERS
      else if (time <? 0x148) || (0x4290 <? time) then refuse e INVALID_HCI_COMMAND_PARAMETERS
      else (e, SUCCESS, [], [])
  (** 393-405 *)
  | ReadPhy => if negb (up e) then refuse e UNKNOWN_CONNECTION else (e, SUCCESS, [], [PhysAre (tx_phy e) (rx_phy e)])
  (** 1933-1957: the event is not masked *)
  | ReadRemoteTransmitPower p => if negb (up e) then refuse e UNKNOWN_CONNECTION else (e, SUCCESS, [], [TransmitPower SUCCESS p (-30)])
  (** 1960-1972 *)
  | SetTransmitPowerReporting _ _ => if negb (up e) then refuse e UNKNOWN_CONNECTION else (e, SUCCESS, [], [])
  end.

(** 2202-2240: the checks of a subrate request *)
Definition subrate_acceptable (e : endpoint) (fmin fmax lat tmo : N) : bool :=
  negb ((fmax <? sub_min (acceptable e)) || (sub_max (acceptable e) <? fmin)) &&
  negb (sub_latency (acceptable e) <? lat) && negb (sub_timeout (acceptable e) <? tmo) &&
  negb (interval (cp e) * fmin * (lat + 1) * 2 <? tmo).

(** A packet arrives; [None] when the controller aborts. *)
Definition do_receive (m : mask) (e : endpoint) (p : pdu) : option (endpoint * list pdu * list event) :=
  if negb (up e) then Some (e, [], [])      (* 4124-4128 *)
  else match p with
  (** 531-578 *)
  | PhyReq tx rx =>
      if central e then
        let c_to_p := select_phy (N.land rx (default_tx e)) (tx_phy e) in
        let p_to_c := select_phy (N.land tx (default_rx e)) (rx_phy e) in
        Some (with_phys c_to_p p_to_c e, [PhyUpdateInd (indicate_phy c_to_p (tx_phy e)) (indicate_phy p_to_c (rx_phy e))],
              if negb (phy_eqb c_to_p (tx_phy e)) || negb (phy_eqb p_to_c (rx_phy e)) then emit m M_PHY_UPDATE (PhyUpdateComplete c_to_p p_to_c) else [])
      else Some (e, [PhyRsp (default_tx e) (default_rx e)], [])
  (** 580-617 *)
  | PhyRsp tx rx =>
      if central e then
        let c_to_p := select_phy (N.land rx (requested_tx e)) (tx_phy e) in
        let p_to_c := select_phy (N.land tx (requested_rx e)) (rx_phy e) in
        Some (with_phys c_to_p p_to_c (with_initiated false e),
              [PhyUpdateInd (indicate_phy c_to_p (tx_phy e)) (indicate_phy p_to_c (rx_phy e))], emit m M_PHY_UPDATE (PhyUpdateComplete c_to_p p_to_c))
      else None
  (** 619-641 *)
  | PhyUpdateInd c_to_p p_to_c =>
      if central e then None
      else
        let tx := select_phy p_to_c (tx_phy e) in
        let rx := select_phy c_to_p (rx_phy e) in
        Some (with_phys tx rx (with_initiated false e), [],
              if negb (phy_eqb tx (tx_phy e)) || negb (phy_eqb rx (rx_phy e)) || initiated e then emit m M_PHY_UPDATE (PhyUpdateComplete tx rx) else [])
  (** 2193-2281 *)
  | SubrateReq fmin fmax lat cont tmo =>
      if negb (central e) then None
      else if negb (subrate_acceptable e fmin fmax lat tmo) then Some (e, [SubrateInd INVALID_LMP_OR_LL_PARAMETERS 0 0 0 0], [])
      else
        let a := acceptable e in
        let fac := N.min fmax (sub_max a) in
        let cont := N.min (N.max cont (sub_continuation a)) ((fac + 65535) mod 65536) in
        let lat := N.min lat (sub_latency a) in
        let tmo := N.min tmo (sub_timeout a) in
        Some (with_cp (CParams (interval (cp e)) fac cont lat tmo) e, [SubrateInd SUCCESS fac lat cont tmo],
              emit m M_SUBRATE (SubrateChange SUCCESS fac lat cont tmo))
  (** 2283-2309 *)
  | SubrateInd status fac lat cont tmo =>
      if central e then None
      else Some (if status =? SUCCESS then with_cp (CParams (interval (cp e)) fac cont lat tmo) e else e, [],
                 emit m M_SUBRATE (SubrateChange status fac lat cont tmo))
  (** 5862-5879 *)
  | ParamReq imin imax lat tmo =>
      if m M_PARAM_REQUEST then Some (e, [], [RemoteParamRequest imin imax lat tmo])
      else Some (e, [ParamUpdate UNSUPPORTED_REMOTE_OR_LMP_FEATURE 0 0 0], [])
  (** 5881-5905 *)
  | ParamUpdate status i lat tmo =>
      Some (if status =? SUCCESS then with_cp (CParams i 1 0 lat tmo) e else e, [],
            emit m M_CONNECTION_UPDATE (ConnectionUpdateComplete status i lat tmo))
  (** 5907-5920 *)
  | EncReq key => Some (with_ltk (Some key) e, [], emit m M_LE_META LtkRequest)
  (** 5922-5956 *)
  | EncRsp status key =>
      let failed := negb (status =? 0) in
      let differs := match ltk e with Some k => negb (list_eqb key k) | None => false end in
      let result := if failed then status else if differs then AUTHENTICATION_FAILURE else SUCCESS in
      if encrypted e then Some (e, [], emit m M_KEY_REFRESH (KeyRefreshComplete result))
      else if negb (failed || differs) then Some (with_encrypted true e, [], emit m M_ENCRYPTION_CHANGE (EncryptionChange result true))
      else Some (e, [], emit m M_ENCRYPTION_CHANGE (EncryptionChange result false))
  (** 4291-4308 *)
  | Disc reason => Some (with_up false e, [], emit m M_DISCONNECTION (DisconnectionComplete reason))
  (** 5958-5964 *)
  | FeaturesReq => Some (e, [FeaturesRsp (all_features (info e)) SUCCESS], [])
  (** 5966-5980 *)
  | FeaturesRsp f st => Some (if st =? SUCCESS then with_known (Some f) e else e, [], emit m M_LE_META (FeaturesComplete st f))
  (** 4264-4269: the packet has 8 bits for the subversion, link_layer_packets.pdl:282 *)
  | VersionReq => Some (e, [VersionRsp (version (info e)) (subversion (info e) mod 256) (manufacturer (info e))], [])
  (** 4271-4289 *)
  | VersionRsp v sub man => Some (e, [], emit m M_REMOTE_VERSION (VersionComplete SUCCESS v man sub))
  end.

(** The two ends, and the packets on their way to each *)
Record system := System { cen : endpoint; per : endpoint; to_per : list pdu; to_cen : list pdu }.

Inductive side := Central | Peripheral.
Definition side_eqb (a b : side) : bool := match a, b with Central, Central | Peripheral, Peripheral => true | _, _ => false end.
Inductive op := Host (x : side) (m : mask) (c : command) | Deliver (x : side) (m : mask).

(** One step: the state, the status of the command, and the events for the host of the
    side concerned *)
Definition step (s : system) (o : op) : option (system * N * list event) :=
  match o with
  | Host Central m c =>
      match do_command m (cen s) c with (e, st, ps, ev) => Some (System e (per s) (to_per s ++ ps) (to_cen s), st, ev) end
  | Host Peripheral m c =>
      match do_command m (per s) c with (e, st, ps, ev) => Some (System (cen s) e (to_per s) (to_cen s ++ ps), st, ev) end
  | Deliver Central m =>
      match to_cen s with
      | [] => Some (s, SUCCESS, [])
      | p :: rest =>
          match do_receive m (cen s) p with
          | Some (e, ps, ev) => Some (System e (per s) (to_per s ++ ps) rest, SUCCESS, ev)
          | None => None
          end
      end
  | Deliver Peripheral m =>
      match to_per s with
      | [] => Some (s, SUCCESS, [])
      | p :: rest =>
          match do_receive m (per s) p with
          | Some (e, ps, ev) => Some (System (cen s) e rest (to_cen s ++ ps), SUCCESS, ev)
          | None => None
          end
      end
  end.

(** 5525-5543 and le_acl_connection.h: the ends of a connection that was just established;
    the settings of the controllers are arbitrary. *)
Record settings := Settings { s_supported : N; s_default_tx : N; s_default_rx : N; s_requested_tx : N; s_requested_rx : N; s_subrate : subrate; s_about : about }.
Definition fresh (is_central : bool) (s : settings) (i lat tmo : N) : endpoint :=
  Endpoint is_central (s_supported s) (s_default_tx s) (s_default_rx s) (s_requested_tx s) (s_requested_rx s) (s_subrate s) true
    LE_1M LE_1M false (CParams i 1 0 lat tmo) (s_subrate s) None false (s_about s) None.
Definition connected (c p : settings) (i lat tmo : N) : system := System (fresh true c i lat tmo) (fresh false p i lat tmo) [] [].

(** The steps of a history, the latest first, with their status and events *)
Record entry := Entry { what : op; status_of : N; events : list event }.
Inductive history (init : system) : list entry -> system -> Prop :=
| h_start : history init [] init
| h_step : forall h s o s' st ev, history init h s -> step s o = Some (s', st, ev) -> history init (Entry o st ev :: h) s'.
