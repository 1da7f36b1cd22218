(** Model of scanning: the scan commands (model/controller/le_controller.cc:1217-1511),
    the reception of advertising PDUs, of scan requests and scan responses
    (4347-4628, 4785-5047, 5200-5338, 5982-6243) and the scan timeouts (6246-6303). *)
From Verif Require Import Prelude Address Rpa Table LeTypes LeAdvertise LeLists.
Open Scope N_scope.

(** Equality of packets: pdl::packet::slice operator== compares the bytes *)
Definition awt_eq_dec (a b : address_with_type) : {a = b} + {a <> b}.
Proof. decide equality. - decide equality. - apply (list_eq_dec N.eq_dec). Defined.
Definition air_eq_dec (a b : air) : {a = b} + {a <> b}.
Proof.
  decide equality; try apply N.eq_dec; try apply (list_eq_dec N.eq_dec); try apply awt_eq_dec;
    try apply Bool.bool_dec. decide equality.
Defined.
Definition air_eqb (a b : air) : bool := if air_eq_dec a b then true else false.

(** le_controller.cc:1285-1295, 1474-1484 *)
Definition needs_random (o : own_type) : bool :=
  match o with OWN_RANDOM | OWN_RPA_OR_RANDOM => true | _ => false end.

(** le_controller.cc:1223-1271 *)
Definition set_scan_parameters (k : scan_kind) (interval window : N) (o : own_type) (pol : scan_policy)
  (s : le) : le * status :=
  match select_legacy s with
  | None => (s, COMMAND_DISALLOWED)
  | Some s =>
      if scan_enabled (scan s) then (s, COMMAND_DISALLOWED)
      else if (interval <? 4) || (16384 <? interval) || (window <? 4) || (16384 <? window)
      then (s, UNSUPPORTED_PARAMETER)
      else if interval <? window then (s, INVALID_PARAMETERS)
      else (with_scan (with_scan_1m (ScanPhy true k interval window)
              (with_scan_coded (with_sp_enabled false (scan_coded (scan s)))
                (with_scan_own o (with_scan_filter pol (scan s))))) s, SUCCESS)
  end.

(** le_controller.cc:1286-1290, 1442-1446 *)
Definition scan_off (s : le) : le :=
  with_scan (with_scan_enabled false (with_scan_pending [] (with_scan_history [] (scan s)))) s.

(** le_controller.cc:1306-1313, 1488-1493 *)
Definition scan_on (d : duplicates) (s : le) : le :=
  with_scan (with_scan_enabled true (with_scan_history [] (with_scan_timeout None
    (with_scan_period_timeout None (with_scan_pending [] (with_scan_dups d (scan s))))))) s.

(** le_controller.cc:1274-1317 *)
Definition set_scan_enable (on dups : bool) (s : le) : le * status :=
  match select_legacy s with
  | None => (s, COMMAND_DISALLOWED)
  | Some s =>
      if negb on then (scan_off s, SUCCESS)
      else if needs_random (scan_own (scan s)) && list_eqb (random_address s) empty_address
      then (s, INVALID_PARAMETERS)
      else (scan_on (if dups then DUP_ENABLED else DUP_DISABLED) s, SUCCESS)
  end.

(** __builtin_popcount of a uint8_t *)
Definition popcount (n : N) : N :=
  fold_left (fun c i => if N.testbit n i then c + 1 else c) [0; 1; 2; 3; 4; 5; 6; 7] 0.

(** packets/hci_packets.pdl ScanningPhyParameters *)
Definition scan_phy_param := (scan_kind * N * N)%type.

(** le_controller.cc:1366-1387 *)
Definition bad_scan_param (p : scan_phy_param) : bool :=
  let '(_, i, w) := p in (i <? 4) || (w <? 4) || (i <? w).

(** le_controller.cc:1396-1420: the parameters at position [i] *)
Definition scan_phy_at (l : list scan_phy_param) (i : nat) : scan_phy :=
  match nth_error l i with
  | Some (k, interval, window) => ScanPhy true k interval window
  | None => new_scan_phy (* not reached: [scan_offset_in_range] *)
  end.

Section WithController.
Variable aes : list N -> list N -> list N.
Variable rng : N -> N.
Variable cfg : config.

(** le_controller.cc:1324-1423. The position of the parameters of the coded PHY
    ([offset] in the code) does not count the 2M PHY. *)
Definition set_ext_scan_parameters (o : own_type) (pol : scan_policy) (phys : N)
  (l : list scan_phy_param) (s : le) : le * status :=
  match select_extended s with
  | None => (s, COMMAND_DISALLOWED)
  | Some s =>
      if scan_enabled (scan s) then (s, COMMAND_DISALLOWED)
      else if negb (N.ldiff phys (cfg_phys cfg) =? 0) then (s, UNSUPPORTED_PARAMETER)
      else if negb (popcount phys =? lenN l) then (s, INVALID_PARAMETERS)
      else if phys =? 0 then (s, INVALID_PARAMETERS)
      else if existsb bad_scan_param l
      then (s, INVALID_PARAMETERS)
      else
        let sc := with_scan_own o (with_scan_filter pol (scan s)) in
        let sc := with_scan_1m (with_sp_enabled false (scan_1m sc))
                    (with_scan_coded (with_sp_enabled false (scan_coded sc)) sc) in
        let sc := if N.testbit phys 0 then with_scan_1m (scan_phy_at l 0) sc else sc in
        let offset := if N.testbit phys 0 then 1%nat else 0%nat in
        let sc := if N.testbit phys 2 then with_scan_coded (scan_phy_at l offset) sc else sc in
        (with_scan sc s, SUCCESS)
  end.

(** le_controller.cc:1426-1511; duration is in units of 10 ms, period of 1.28 s *)
Definition set_ext_scan_enable (now : N) (on : bool) (d : duplicates) (duration period : N) (s : le)
  : le * status :=
  match select_extended s with
  | None => (s, COMMAND_DISALLOWED)
  | Some s =>
      if negb on then (scan_off s, SUCCESS)
      else
        let period := if duration =? 0 then 0 else period in
        let each := match d with DUP_RESET_EACH_PERIOD => true | _ => false end in
        if each && ((period =? 0) || (duration =? 0)) then (s, INVALID_PARAMETERS)
        else if negb (period =? 0) && negb (duration =? 0) && (1280 * period <=? 10 * duration)
        then (s, INVALID_PARAMETERS)
        else if needs_random (scan_own (scan s)) && list_eqb (random_address s) empty_address
        then (s, INVALID_PARAMETERS)
        else
          let s := scan_on d s in
          let sc := with_scan_duration (10000 * duration) (with_scan_period (1280000 * period) (scan s)) in
          let sc := if duration =? 0 then sc
                    else with_scan_timeout (Some (now + scan_duration sc)) sc in
          let sc := if period =? 0 then sc
                    else with_scan_period_timeout (Some (now + scan_period sc)) sc in
          (with_scan sc s, SUCCESS)
  end.

(** * Reception of advertising PDUs *)

(** le_controller.cc:268-288, with the call's value_or(address) *)
Definition resolve (a : address_with_type) (s : le) : le * address_with_type :=
  let '(l, r) := resolve_private_address aes (resolving_on s) (resolving s) a in
  (with_resolving l s, match r with Some x => x | None => a end).

(** le_controller.h:212-221 *)
Definition is_local_address (s : le) (a : address_with_type) : bool :=
  match awt_type a with
  | PUBLIC_DEVICE => list_eqb (awt_addr a) (public_address s)
  | RANDOM_DEVICE => list_eqb (awt_addr a) (random_address s)
  | _ => false
  end.

(** le_controller.cc:290-303 *)
Definition resolve_target (s : le) (target adv : address_with_type) : bool :=
  resolve_target_a aes (resolving_on s) (resolving s) target adv.

(** le_controller.cc:305-313 ValidateTargetA *)
Definition validate_target (s : le) (target adv : address_with_type) : bool :=
  if is_local_address s target then true
  else if is_rpa target then resolve_target s target adv
  else false.

(** le_controller.cc:4381-4397, 4834-4850: the accept list is applied to the
    resolved address *)
Definition scan_filter_ok (s : le) (adv : address_with_type) : bool :=
  negb (scan_uses_list (scan_filter (scan s))) || accept_contains s adv.

(** le_controller.cc:4401-4434, 4852-4880: [None] drops the PDU, [Some b] keeps it, [b]
    telling whether only a directed advertising report is sent *)
Definition directed_ok (s : le) (target adv : address_with_type) : option bool :=
  match scan_filter (scan s) with
  | ACCEPT_ALL | ACCEPT_LIST_ONLY => if validate_target s target adv then Some false else None
  | CHECK_IDENTITY | ACCEPT_LIST_AND_IDENTITY =>
      if negb (is_local_address s target) && negb (is_rpa target) then None
      else Some (is_rpa target && negb (resolve_target s target adv))
  end.

(** le_controller.cc:4436-4443: false when the packet was already seen *)
Definition filter_duplicate (p : air) (s : le) : le * bool :=
  match scan_dups (scan s) with
  | DUP_DISABLED => (s, true)
  | _ =>
      if existsb (air_eqb p) (scan_history (scan s)) then (s, false)
      else (with_scan (with_scan_history (scan_history (scan s) ++ [p]) (scan s)) s, true)
  end.

(** le_controller.cc:4962-4977, 5310-5328, 6216-6229: split into reports; [true] marks
    a report followed by another one. [fuel] is the length of the data. *)
Fixpoint fragments (fuel : nat) (max : N) (d : list N) : list (bool * list N) :=
  match fuel with
  | O => [(false, d)]
  | S f => if lenN d <=? max then [(false, d)]
           else (true, firstn (N.to_nat max) d) :: fragments f max (skipn (N.to_nat max) d)
  end.

(** le_controller.cc:4530-4534 *)
Definition active_scanning (s : le) : bool :=
  let active p := sp_enabled p && match sp_kind p with ACTIVE => true | PASSIVE => false end in
  active (scan_1m (scan s)) || active (scan_coded (scan s)).

(** le_controller.cc:4573-4592, 4999-5018: the address used in a scan request; [None]
    is a failed ASSERT *)
Definition scanning_address (s : le) (rpa : option address_with_type) : option address_with_type :=
  let pub := AWT (public_address s) PUBLIC_DEVICE in
  let rnd := AWT (random_address s) RANDOM_DEVICE in
  let unset := list_eqb (random_address s) empty_address in
  match scan_own (scan s) with
  | OWN_PUBLIC => Some pub
  | OWN_RANDOM => if unset then None else Some rnd
  | OWN_RPA_OR_PUBLIC => Some (match rpa with Some a => a | None => pub end)
  | OWN_RPA_OR_RANDOM => if unset then None else Some (match rpa with Some a => a | None => rnd end)
  end.

Definition pending_find (a : address_with_type) (l : list (address_with_type * scan_request))
  : option scan_request :=
  match find (fun e => awt_eqb (fst e) a) l with Some (_, r) => Some r | None => None end.

(** le_controller.cc:4536-4627, 4986-5046: the scan request sent to a scannable
    advertiser; [None] is a failed ASSERT. kScanRequestTimeout is 200 ms. *)
Definition send_scan_request (now : N) (adv resolved : address_with_type) (scannable fresh conn ext : bool)
  (prim sec : N) (s : le) : option (le * list output) :=
  if negb scannable || negb (active_scanning s) || is_some (pending_find adv (scan_pending (scan s)))
     || negb fresh
  then Some (s, [])
  else
    let '(s, rpa) := generate aes rng resolved true s in
    match scanning_address s rpa with
    | None => None
    | Some a =>
        Some (with_scan (with_scan_pending
                ((adv, ScanRequest conn ext prim sec (now + 200000)) :: scan_pending (scan s)) (scan s)) s,
              [Sent (AirScan a adv)])
    end.

(** le_controller.cc:4470-4484: AdvertisingEventType of a report *)
Definition report_code (t : legacy_pdu) : N :=
  match t with PDU_IND => 0 | PDU_DIRECT => 1 | PDU_SCAN => 2 | PDU_NONCONN => 3 end.

(** le_controller.cc:4347-4628 *)
Definition scan_legacy_pdu (now : N) (adv target : address_with_type) (t : legacy_pdu) (data : list N)
  (s : le) : option (le * list output) :=
  if negb (scan_enabled (scan s)) then Some (s, [])
  else
    let scannable := match t with PDU_IND | PDU_SCAN => true | _ => false end in
    let directed := match t with PDU_DIRECT => true | _ => false end in
    let conn := match t with PDU_IND | PDU_DIRECT => true | _ => false end in
    let '(s, resolved) := resolve adv s in
    if negb (scan_filter_ok s resolved) then Some (s, [])
    else
      match (if directed then directed_ok s target resolved else Some false) with
      | None => Some (s, [])
      | Some only_directed =>
          let '(s, fresh) := filter_duplicate (AirLegacy adv target t data) s in
          let o1 := if legacy_used s && fresh && only_directed && le_event_unmasked s 11
                    then [Notified (EvDirectedReport resolved (awt_addr target))] else [] in
          let o2 := if legacy_used s && fresh && negb only_directed && le_event_unmasked s 2
                    then [Notified (EvReport resolved (report_code t) data)] else [] in
          let o3 := if extended_used s && fresh && le_event_unmasked s 13
                    then [Notified (EvExtendedReport conn scannable directed false true false resolved 255 data)]
                    else [] in
          match send_scan_request now adv resolved scannable fresh conn false 1 0 s with
          | None => None
          | Some (s, o4) => Some (s, o1 ++ o2 ++ o3 ++ o4)
          end
      end.

(** le_controller.cc:4815-4822: is the secondary PHY supported *)
Definition secondary_supported (sec : N) : bool :=
  negb ((sec =? 2) && negb (cfg_2m cfg)) && negb (((sec =? 3) || (sec =? 4)) && negb (cfg_coded cfg)).

(** le_controller.cc:4785-5047 *)
Definition scan_extended_pdu (now : N) (adv target : address_with_type) (conn scannable directed : bool)
  (sid power prim sec pinterval : N) (data : list N) (s : le) : option (le * list output) :=
  if negb (scan_enabled (scan s)) then Some (s, [])
  else if negb (extended_used s) then Some (s, [])
  else if ((prim =? 1) && negb (sp_enabled (scan_1m (scan s))))
          || ((prim =? 3) && negb (sp_enabled (scan_coded (scan s)))) then Some (s, [])
  else if negb (secondary_supported sec) then Some (s, [])
  else
    let '(s, resolved) := resolve adv s in
    if negb (scan_filter_ok s resolved) then Some (s, [])
    else
      match (if directed then directed_ok s target resolved else Some false) with
      | None => Some (s, [])
      | Some _ =>
          let '(s, fresh) :=
            filter_duplicate (AirExtended adv target conn scannable directed sid power prim sec pinterval data) s in
          let o1 := if fresh && le_event_unmasked s 13
                    then map (fun f => Notified (EvExtendedReport conn scannable directed false false
                                                   (fst f) resolved sid (snd f)))
                             (fragments (length data) 229 data)
                    else [] in
          match send_scan_request now adv resolved scannable fresh conn true prim sec s with
          | None => None
          | Some (s, o2) => Some (s, o1 ++ o2)
          end
      end.

(** le_controller.cc:5275-5280: the first unused sync handle *)
Fixpoint first_unused (fuel : nat) (m : table synchronized) (h : N) : N :=
  match fuel with
  | O => h
  | S f => if has m h then first_unused f m (h + 1) else h
  end.

(** le_controller.cc:5200-5338; in the loop over the established syncs each match
    sends its own reports *)
Definition receive_periodic (now : N) (adv : address_with_type) (sid power pinterval : N) (data : list N)
  (s : le) : le * list output :=
  if negb (scan_enabled (scan s)) then (s, [])
  else if negb (extended_used s) then (s, [])
  else
    let '(s, resolved) := resolve adv s in
    let kind := to_peer_type (awt_type resolved) in
    let matches :=
      match syncing s with
      | None => None
      | Some y =>
          if (if sy_use_list y then existsb (padv_match kind (awt_addr resolved) sid) (padv s)
              else peer_type_eqb (sy_kind y) kind && list_eqb (sy_address y) (awt_addr resolved)
                   && (sy_sid y =? sid))
          then Some y else None
      end in
    match matches with
    | Some y =>
        let h := first_unused (length (synced s)) (synced s) 0 in
        let o := if le_event_unmasked s 14
                 then [Notified (EvSyncEstablished SUCCESS h sid resolved pinterval)] else [] in
        (with_syncing None (with_synced
           (put (synced s) h (Synchronized kind (awt_addr resolved) sid (sy_timeout y) (now + sy_timeout y))) s),
         o)
    | None =>
        let hit d := synced_match kind (awt_addr resolved) sid d in
        (with_synced (map (fun kv => if hit (snd kv)
                                     then (fst kv, with_sd_timeout (now + sd_sync_timeout (snd kv)) (snd kv))
                                     else kv) (synced s)) s,
         if le_event_unmasked s 15 then
           flat_map (fun kv => if hit (snd kv)
                               then map (fun f => Notified (EvPeriodicReport (fst kv) (fst f) (snd f)))
                                        (fragments (length data) 247 data)
                               else []) (synced s)
         else [])
    end.

(** * Scan requests and responses *)

(** le_advertiser.h:70-86 *)
Definition legacy_scannable (t : adv_type) : bool :=
  match t with ADV_IND | ADV_SCAN_IND => true | _ => false end.
Definition legacy_connectable (t : adv_type) : bool :=
  match t with ADV_NONCONN_IND | ADV_SCAN_IND => false | _ => true end.
Definition legacy_directed (t : adv_type) : bool :=
  match t with ADV_DIRECT_IND_HIGH | ADV_DIRECT_IND_LOW => true | _ => false end.

(** le_controller.cc:6003-6016, 6061-6074: the policy applied to scan requests *)
Definition policy_filters_scans (p : adv_policy) : bool :=
  match p with LISTED_SCAN | LISTED_SCAN_AND_CONNECT => true | _ => false end.
(** le_controller.cc:5645-5658, 5750-5763: the policy applied to connection requests *)
Definition policy_filters_connects (p : adv_policy) : bool :=
  match p with LISTED_CONNECT | LISTED_SCAN_AND_CONNECT => true | _ => false end.

(** le_controller.cc:5982-6038 *)
Definition legacy_scan_request (s : le) (scanner resolved adv : address_with_type) : list output :=
  let a := legacy s in
  if l_enabled a && legacy_scannable (l_type a) && awt_eqb adv (l_address a)
     && (negb (policy_filters_scans (l_policy a)) || accept_contains s resolved)
  then [Sent (AirScanResponse adv (awt_addr scanner) (l_scan_data a))] else [].

(** le_controller.cc:6041-6109. The scan_request_notification_enable flag is not
    used: no LE Scan Request Received event is sent. *)
Definition set_scan_request_pdu (s : le) (a : adv_set) (scanner resolved adv : address_with_type) : list output :=
  if enabled a && scannable (props a) && awt_eqb adv (adv_address a)
     && (negb (policy_filters_scans (policy a)) || accept_contains s resolved)
     && negb (directed (props a) && negb (awt_eqb (target a) resolved))
  then [Sent (AirScanResponse adv (awt_addr scanner) (bytes (scan_data a)))] else [].

(** le_controller.cc:6112-6143 *)
Definition receive_scan (scanner adv : address_with_type) (s : le) : le * list output :=
  let '(s, resolved) := resolve scanner s in
  (s, legacy_scan_request s scanner resolved adv
      ++ flat_map (fun kv => set_scan_request_pdu s (snd kv) scanner resolved adv) (sets s)).

(** le_controller.cc:6146-6243 *)
Definition receive_scan_response (adv : address_with_type) (dst : list N) (data : list N) (s : le)
  : le * list output :=
  if negb (scan_enabled (scan s)) then (s, [])
  else
    match pending_find adv (scan_pending (scan s)) with
    | None => (s, [])
    | Some r =>
        let '(s, resolved) := resolve adv s in
        let s := with_scan (with_scan_pending
                   (filter (fun e => negb (awt_eqb (fst e) adv)) (scan_pending (scan s))) (scan s)) s in
        let '(s, fresh) := filter_duplicate (AirScanResponse adv dst data) s in
        let o1 := if legacy_used s && fresh && le_event_unmasked s 2
                  then [Notified (EvReport resolved 4 data)] else [] in
        let o2 := if extended_used s && fresh && le_event_unmasked s 13
                  then map (fun f => Notified (EvExtendedReport (sr_connectable r) true false true
                                                 (negb (sr_extended r)) (fst f) resolved 255 (snd f)))
                           (fragments (length data) 229 data)
                  else [] in
        (s, o1 ++ o2)
    end.

(** le_controller.cc:6246-6303 *)
Definition le_scanning (now : N) (s : le) : le * list output :=
  if negb (scan_enabled (scan s)) then (s, [])
  else
    let due o := match o with Some t => t <=? now | None => false end in
    let '(s, o) :=
      if due (scan_timeout (scan s)) && negb (is_some (scan_period_timeout (scan s)))
      then (scan_off s, if le_event_unmasked s 17 then [Notified EvScanTimeout] else [])
      else (s, []) in
    let sc := scan s in
    let sc := if due (scan_timeout sc) && is_some (scan_period_timeout sc)
              then with_scan_timeout None sc else sc in
    let sc := if negb (is_some (scan_timeout sc)) && due (scan_period_timeout sc)
              then with_scan_timeout (Some (now + scan_duration sc))
                     (with_scan_period_timeout (Some (now + scan_period sc))
                       (match scan_dups sc with
                        | DUP_RESET_EACH_PERIOD => with_scan_history [] sc
                        | _ => sc end))
              else sc in
    let sc := with_scan_pending (filter (fun e => now <? sr_timeout (snd e)) (scan_pending sc)) sc in
    (with_scan sc s, o).

End WithController.
