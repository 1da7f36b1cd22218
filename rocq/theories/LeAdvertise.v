(** Model of the advertising commands and of the advertising procedure:
    model/controller/le_advertiser.cc. [aes] is AES-128, [rng] the sequence of
    values returned by std::rand, [cfg] the controller properties. *)
From Verif Require Import Prelude Address Rpa Table LeTypes.
Open Scope N_scope.

(** Result of a command: the new state and the returned status, or an access
    outside the bounds of an array. *)
Inductive outcome := Done (s : le) (st : status) | Undefined.

Definition is_empty {A} (l : list A) : bool := match l with [] => true | _ => false end.

Definition adv_type_eqb (a b : adv_type) : bool :=
  match a, b with
  | ADV_IND, ADV_IND | ADV_DIRECT_IND_HIGH, ADV_DIRECT_IND_HIGH | ADV_SCAN_IND, ADV_SCAN_IND
  | ADV_NONCONN_IND, ADV_NONCONN_IND | ADV_DIRECT_IND_LOW, ADV_DIRECT_IND_LOW => true
  | _, _ => false
  end.

Definition is_complete (o : operation) : bool := match o with COMPLETE => true | _ => false end.
Definition is_unchanged (o : operation) : bool := match o with UNCHANGED => true | _ => false end.
Definition is_fragment (o : operation) : bool := negb (is_complete o) && negb (is_unchanged o).

(** le_controller.cc:142-157: [evt] is the event code, at least 1 *)
Definition event_unmasked (s : le) (evt : N) : bool :=
  if evt <=? 64 then N.testbit (event_mask s) (evt - 1)
  else N.testbit (event_mask_2 s) (evt - 64 - 1).

(** le_controller.cc:154-157; LE_META_EVENT is 0x3e *)
Definition le_event_unmasked (s : le) (sub : N) : bool :=
  event_unmasked s 62 && N.testbit (le_mask s) (sub - 1).

(** le_advertiser.cc:56-57 *)
Definition max_legacy_pdu : N := 31.
Definition max_extended_pdu : N := 1650.

(** le_controller.h:694-700 *)
Definition select_legacy (s : le) : option le :=
  if extended_used s then None else Some (with_legacy_used true s).
(** le_controller.h:703-709 *)
Definition select_extended (s : le) : option le :=
  if legacy_used s then None else Some (with_extended_used true s).

(** le_advertiser.cc:64-143; adv_direct_ind_high_interval is 10 ms, 16 slots
    (le_advertiser.cc:53) *)
Definition set_adv_parameters (imin imax : N) (t : adv_type) (o : own_type) (pk : peer_type)
  (p : list N) (map : N) (pol : adv_policy) (s : le) : le * status :=
  match select_legacy s with
  | None => (s, COMMAND_DISALLOWED)
  | Some s =>
      let map := N.land map 7 in
      let high := adv_type_eqb t ADV_DIRECT_IND_HIGH in
      let imin := if high then 2048 else imin in
      let imax := if high then 2048 else imax in
      if l_enabled (legacy s) then (s, COMMAND_DISALLOWED)
      else if map =? 0 then (s, INVALID_PARAMETERS)
      else if (imin <? 32) || (16384 <? imin) || (imax <? 32) || (16384 <? imax)
      then (s, UNSUPPORTED_PARAMETER)
      else if imax <? imin then (s, INVALID_PARAMETERS)
      else
        let a := legacy s in
        (with_legacy (with_l_interval (if high then 16 else imin)
           (with_l_type t (with_l_own o (with_l_peer_kind pk (with_l_peer p
             (with_l_map map (with_l_policy pol a))))))) s, SUCCESS)
  end.

(** le_advertiser.cc:146-158 *)
Definition set_adv_data (d : list N) (s : le) : le * status :=
  match select_legacy s with
  | None => (s, COMMAND_DISALLOWED)
  | Some s => (with_legacy (with_l_data d (legacy s)) s, SUCCESS)
  end.

(** le_advertiser.cc:161-173 *)
Definition set_scan_response_data (d : list N) (s : le) : le * status :=
  match select_legacy s with
  | None => (s, COMMAND_DISALLOWED)
  | Some s => (with_legacy (with_l_scan_data d (legacy s)) s, SUCCESS)
  end.

(** le_advertiser.cc:197-239, 1016-1071: choice of the advertising address;
    [None] is INVALID_HCI_COMMAND_PARAMETERS *)
Definition choose_own (o : own_type) (public random : list N) (rpa : option address_with_type)
  : option address_with_type :=
  let pub := AWT public PUBLIC_DEVICE in
  let rnd := if list_eqb random empty_address then None else Some (AWT random RANDOM_DEVICE) in
  match o with
  | OWN_PUBLIC => Some pub
  | OWN_RANDOM => rnd
  | OWN_RPA_OR_PUBLIC => Some (match rpa with Some a => a | None => pub end)
  | OWN_RPA_OR_RANDOM => match rpa with Some a => Some a | None => rnd end
  end.

(** le_advertiser.h:109-111 *)
Definition disable_set (a : adv_set) : adv_set := with_enabled false a.

(** le_advertiser.h:109-113 Enable *)
Definition enable_set (now : N) (a : adv_set) : adv_set :=
  with_next_event now (with_periodic_latch (periodic_on a) (with_enabled true a)).

(** le_advertiser.h:115-119 EnablePeriodic *)
Definition enable_periodic (now : N) (a : adv_set) : adv_set :=
  with_next_periodic now (with_periodic_latch (enabled a) (with_periodic_on true a)).

(** le_advertiser.h:121-124 DisablePeriodic *)
Definition disable_periodic (a : adv_set) : adv_set :=
  with_periodic_latch false (with_periodic_on false a).

(** le_advertiser.cc:1236-1262 GetRawAdvertisingEventProperties *)
Definition raw_props (p : adv_props) : N :=
  let b (x : bool) (m : N) := if x then m else 0 in
  N.lor (b (connectable p) 1) (N.lor (b (scannable p) 2) (N.lor (b (directed p) 4)
    (N.lor (b (high_duty p) 8) (N.lor (b (legacy_pdus p) 16) (N.lor (b (anonymous p) 32)
      (b (tx_power p) 64)))))).

(** le_advertiser.cc:371-385: the raw value with bit 4 cleared is one of ADV_IND,
    ADV_DIRECT_IND_LOW, ADV_DIRECT_IND_HIGH, ADV_SCAN_IND, ADV_NONCONN_IND
    (packets/hci_packets.pdl:3892-3898) *)
Definition legal_legacy (p : adv_props) : bool :=
  let r := N.ldiff (raw_props p) 16 in
  (r =? 3) || (r =? 5) || (r =? 13) || (r =? 2) || (r =? 0).

(** le_advertiser.cc:393-394, 596-598 *)
Definition can_have_data (p : adv_props) : bool :=
  (legacy_pdus p && negb (directed p)) || (negb (legacy_pdus p) && negb (scannable p)).

(** le_advertiser.cc:1166-1208 GetMaxAdvertisingDataLength *)
Definition max_data_length (p : adv_props) : N :=
  if legacy_pdus p && directed p then 0
  else if legacy_pdus p then max_legacy_pdu
  else if scannable p then 0
  else if negb (connectable p) then max_extended_pdu
  else 254 - 6 - 2 - (if directed p then 6 else 0) - (if tx_power p then 1 else 0).

(** le_advertiser.cc:287-313 *)
Definition set_set_random_address (h : N) (addr : list N) (s : le) : le * status :=
  match lookup (sets s) h with
  | None => (s, UNKNOWN_ADVERTISING_ID)
  | Some a =>
      if enabled a then (s, COMMAND_DISALLOWED)
      else (with_sets (put (sets s) h (with_set_random (Some addr) a)) s, SUCCESS)
  end.

(** Parameters of LE_Set_Extended_Advertising_Parameters *)
Record ext_params := ExtParams {
  e_props : adv_props; e_min : N; e_max : N; e_map : N; e_own : own_type; e_peer_kind : peer_type;
  e_peer : list N; e_policy : adv_policy; e_power : N; e_primary : primary_phy;
  e_secondary : secondary_phy; e_sid : N; e_notify : bool }.

Definition primary_is_1m (p : primary_phy) : bool := match p with PRIMARY_1M => true | _ => false end.

Section WithController.
Variable aes : list N -> list N -> list N.
Variable rng : N -> N.
Variable cfg : config.

(** le_controller.cc:315-335 GenerateResolvablePrivateAddress. Four values are
    drawn each time, also when fewer are used: the sequence is arbitrary. *)
Definition generate (a : address_with_type) (local : bool) (s : le) : le * option address_with_type :=
  let p := rand_pos s in
  let '(l, r) := generate_for aes (resolving s) a local (rng p) (rng (p + 1)) (rng (p + 2)) (rng (p + 3)) in
  (with_rand_pos (p + 4) (with_resolving l s), r).

(** le_advertiser.cc:176-280; adv_direct_ind_high_timeout is 1280 ms
    (le_advertiser.cc:52) *)
Definition set_adv_enable (now : N) (on : bool) (s : le) : le * status :=
  match select_legacy s with
  | None => (s, COMMAND_DISALLOWED)
  | Some s =>
      if negb on then (with_legacy (with_l_enabled false (legacy s)) s, SUCCESS)
      else
        let peer := peer_device_address (l_peer (legacy s)) (l_peer_kind (legacy s)) in
        let '(s, rpa) := generate peer true s in
        match choose_own (l_own (legacy s)) (public_address s) (random_address s) rpa with
        | None => (s, INVALID_PARAMETERS)
        | Some addr =>
            let a := with_l_target no_address (with_l_timeout None (with_l_address addr (legacy s))) in
            let '(s, a) :=
              match l_type a with
              | ADV_DIRECT_IND_HIGH =>
                  let '(s, r) := generate peer false s in
                  (s, with_l_target (match r with Some x => x | None => peer end)
                        (with_l_timeout (Some (now + 1280000)) a))
              | ADV_DIRECT_IND_LOW =>
                  let '(s, r) := generate peer false s in
                  (s, with_l_target (match r with Some x => x | None => peer end) a)
              | _ => (s, a)
              end in
            (with_legacy (with_l_next (now + l_interval a * 625) (with_l_enabled true a)) s, SUCCESS)
        end
  end.

(** le_advertiser.cc:315-569. The checks are in the order of the code; the check of
    lines 510-520 is disabled in the code. *)
Definition set_ext_parameters (h : N) (e : ext_params) (s : le) : le * status :=
  match select_extended s with
  | None => (s, COMMAND_DISALLOWED)
  | Some s =>
      let p := e_props e in
      let map := N.land (e_map e) 7 in
      let known := has (sets s) h in
      let a := match lookup (sets s) h with Some a => a | None => new_set h end in
      let data := bytes (adv_data a) in
      let scan := bytes (scan_data a) in
      if negb known && (cfg_num_sets cfg <=? lenN (sets s)) then (s, MEMORY_CAPACITY_EXCEEDED)
      else if enabled a then (s, COMMAND_DISALLOWED)
      else if legacy_pdus p && negb (legal_legacy p) then (s, INVALID_PARAMETERS)
      else if negb (can_have_data p) && negb (is_empty data) then (s, INVALID_PARAMETERS)
      else if negb (scannable p) && negb (is_empty scan) then (s, INVALID_PARAMETERS)
      else if legacy_pdus p && ((max_legacy_pdu <? lenN data) || (max_legacy_pdu <? lenN scan))
      then (s, INVALID_PARAMETERS)
      else if negb (legacy_pdus p) && connectable p && scannable p then (s, INVALID_PARAMETERS)
      else if negb (legacy_pdus p) && connectable p && directed p && high_duty p
      then (s, INVALID_PARAMETERS)
      else if (e_min e <? 32) || (e_max e <? 32) then (s, UNSUPPORTED_PARAMETER)
      else if e_max e <? e_min e then (s, INVALID_PARAMETERS)
      else if map =? 0 then (s, INVALID_PARAMETERS)
      else if legacy_pdus p && negb (primary_is_1m (e_primary e)) then (s, INVALID_PARAMETERS)
      else if periodic_on a && (connectable p || scannable p || legacy_pdus p || anonymous p)
      then (s, INVALID_PARAMETERS)
      else if negb (legacy_pdus p)
              && ((max_extended_pdu <? lenN data) || (max_extended_pdu <? lenN scan))
      then (s, PACKET_TOO_LONG)
      else
        let a := with_props p (with_interval (e_min e) (with_channel_map map (with_own (e_own e)
          (with_peer_kind (e_peer_kind e) (with_peer (e_peer e) (with_policy (e_policy e)
          (with_power (e_power e) (with_primary (e_primary e) (with_secondary (e_secondary e)
          (with_sid (e_sid e) (with_scan_notify (e_notify e) a))))))))))) in
        (with_sets (put (sets s) h a) s, SUCCESS)
  end.

(** le_advertiser.cc:675-706, 838-868, 1399-1429: the effect of a fragment on a
    buffer; [UNCHANGED] is handled by the callers *)
Definition apply_fragment (o : operation) (d : list N) (b : buffer) : buffer :=
  match o with
  | INTERMEDIATE => Buffer (bytes b ++ d) true
  | FIRST => Buffer d true
  | LAST => Buffer (bytes b ++ d) false
  | COMPLETE => Buffer d false
  | UNCHANGED => b
  end.

(** le_advertiser.cc:572-743 *)
Definition set_ext_data (h : N) (o : operation) (d : list N) (s : le) : le * status :=
  match select_extended s with
  | None => (s, COMMAND_DISALLOWED)
  | Some s =>
      match lookup (sets s) h with
      | None => (s, UNKNOWN_ADVERTISING_ID)
      | Some a =>
          let p := props a in
          if negb (can_have_data p) then (s, INVALID_PARAMETERS)
          else if legacy_pdus p && (negb (is_complete o) || (max_legacy_pdu <? lenN d))
          then (s, INVALID_PARAMETERS)
          else if is_unchanged o && (negb (enabled a) || is_empty (bytes (adv_data a))
                                     || legacy_pdus p || negb (is_empty d))
          then (s, INVALID_PARAMETERS)
          else if is_fragment o && is_empty d then (s, INVALID_PARAMETERS)
          else if enabled a && is_fragment o then (s, COMMAND_DISALLOWED)
          else
            let b := apply_fragment o d (adv_data a) in
            let store b := with_sets (put (sets s) h (with_adv_data b a)) s in
            if cfg_max_data cfg <? lenN (bytes b)
            then (store (Buffer [] false), MEMORY_CAPACITY_EXCEEDED)
            else if enabled a && (max_data_length p <? lenN (bytes b))
            then (store (Buffer [] false), PACKET_TOO_LONG)
            else (store b, SUCCESS)
      end
  end.

(** le_advertiser.cc:746-906 *)
Definition set_ext_scan_response (h : N) (o : operation) (d : list N) (s : le) : le * status :=
  match select_extended s with
  | None => (s, COMMAND_DISALLOWED)
  | Some s =>
      match lookup (sets s) h with
      | None => (s, UNKNOWN_ADVERTISING_ID)
      | Some a =>
          let p := props a in
          if negb (scannable p) && negb (is_empty d) then (s, INVALID_PARAMETERS)
          else if scannable p && legacy_pdus p && (negb (is_complete o) || (max_legacy_pdu <? lenN d))
          then (s, INVALID_PARAMETERS)
          else if negb (is_complete o) && is_empty d then (s, INVALID_PARAMETERS)
          else if enabled a && negb (is_complete o) then (s, COMMAND_DISALLOWED)
          else if enabled a && scannable p && negb (legacy_pdus p) && is_empty d
          then (s, COMMAND_DISALLOWED)
          else if is_unchanged o then (s, INVALID_PARAMETERS)
          else
            let b := apply_fragment o d (scan_data a) in
            let store b := with_sets (put (sets s) h (with_scan_data b a)) s in
            if cfg_max_data cfg <? lenN (bytes b)
            then (store (Buffer [] false), MEMORY_CAPACITY_EXCEEDED)
            else if max_extended_pdu <? lenN (bytes b)
            then (store (Buffer [] false), PACKET_TOO_LONG)
            else (store b, SUCCESS)
      end
  end.

(** packets/hci_packets.pdl:4044-4048 EnabledSet *)
Record enabled_set := EnabledSet { en_handle : N; en_duration : N; en_max : N }.

(** le_advertiser.cc:923-944: [inl] is an error, [inr true] is the access outside
    used_advertising_handles, an array of 255 elements *)
Inductive handle_check := CheckOk | CheckError (st : status) | CheckUndefined.
Fixpoint check_handles (s : le) (used : list N) (l : list enabled_set) : handle_check :=
  match l with
  | [] => CheckOk
  | e :: l =>
      if 255 <=? en_handle e then CheckUndefined
      else if mem (en_handle e) used then CheckError INVALID_PARAMETERS
      else if negb (has (sets s) (en_handle e)) then CheckError UNKNOWN_ADVERTISING_ID
      else check_handles s (en_handle e :: used) l
  end.

(** le_advertiser.cc:972-1100: the checks made for one set, and the addresses
    stored in it. [None] when the set is accepted. The state returned with an
    error keeps the resolving list updates. *)
Definition prepare_set (e : enabled_set) (s : le) : le * option status :=
  match lookup (sets s) (en_handle e) with
  | None => (s, None) (* not reached after [check_handles] *)
  | Some a =>
      let p := props a in
      if connectable p && directed p && high_duty p
         && ((en_duration e =? 0) || (1280 <? en_duration e * 10)) then (s, Some INVALID_PARAMETERS)
      else if partial (adv_data a) || partial (scan_data a) then (s, Some COMMAND_DISALLOWED)
      else if negb (legacy_pdus p) && scannable p && is_empty (bytes (scan_data a))
      then (s, Some COMMAND_DISALLOWED)
      else if negb (legacy_pdus p) && connectable p && (max_data_length p <? lenN (bytes (adv_data a)))
      then (s, Some INVALID_PARAMETERS)
      else if negb (legacy_pdus p) && ((max_extended_pdu <? lenN (bytes (adv_data a)))
                                       || (max_extended_pdu <? lenN (bytes (scan_data a))))
      then (s, Some PACKET_TOO_LONG)
      else
        let peer := peer_device_address (peer a) (peer_kind a) in
        let random := match set_random a with Some r => r | None => empty_address end in
        let '(s, rpa) := generate peer true s in
        match choose_own (own a) (public_address s) random rpa with
        | None => (s, Some INVALID_PARAMETERS)
        | Some addr =>
            let a := with_adv_address addr a in
            if directed p then
              let '(s, r) := generate peer false s in
              (with_sets (put (sets s) (en_handle e)
                 (with_target (match r with Some x => x | None => peer end) a)) s, None)
            else (with_sets (put (sets s) (en_handle e) a) s, None)
        end
  end.

Fixpoint prepare_sets (l : list enabled_set) (s : le) : le * option status :=
  match l with
  | [] => (s, None)
  | e :: l =>
      let '(s, r) := prepare_set e s in
      match r with Some st => (s, Some st) | None => prepare_sets l s end
  end.

(** le_advertiser.cc:1103-1118 *)
Definition start_set (now : N) (e : enabled_set) (s : le) : le :=
  match lookup (sets s) (en_handle e) with
  | None => s (* not reached after [check_handles] *)
  | Some a =>
      with_sets (put (sets s) (en_handle e)
        (with_timeout (if 0 <? en_duration e then Some (now + en_duration e * 10000) else None)
          (enable_set now (with_num_events 0 (with_max_events (en_max e) a))))) s
  end.

(** le_advertiser.cc:959-966 *)
Definition stop_set (e : enabled_set) (s : le) : le :=
  match lookup (sets s) (en_handle e) with
  | None => s (* not reached after [check_handles] *)
  | Some a => with_sets (put (sets s) (en_handle e) (disable_set a)) s
  end.

(** le_advertiser.cc:909-1123 *)
Definition set_ext_enable (now : N) (on : bool) (l : list enabled_set) (s : le) : outcome :=
  match select_extended s with
  | None => Done s COMMAND_DISALLOWED
  | Some s =>
      match check_handles s [] l with
      | CheckUndefined => Undefined
      | CheckError st => Done s st
      | CheckOk =>
          if negb on && is_empty l
          then Done (with_sets (map (fun kv => (fst kv, disable_set (snd kv))) (sets s)) s) SUCCESS
          else if is_empty l then Done s INVALID_PARAMETERS
          else if negb on then Done (fold_left (fun s e => stop_set e s) l s) SUCCESS
          else
            let '(s, r) := prepare_sets l s in
            match r with
            | Some st => Done s st
            | None => Done (fold_left (fun s e => start_set now e s) l s) SUCCESS
            end
      end
  end.

(** le_advertiser.cc:1126-1148 *)
Definition remove_set (h : N) (s : le) : le * status :=
  match lookup (sets s) h with
  | None => (s, UNKNOWN_ADVERTISING_ID)
  | Some a =>
      if enabled a then (s, COMMAND_DISALLOWED) else (with_sets (erase (sets s) h) s, SUCCESS)
  end.

(** le_advertiser.cc:1151-1164 *)
Definition clear_sets (s : le) : le * status :=
  if existsb (fun kv => enabled (snd kv)) (sets s) then (s, COMMAND_DISALLOWED)
  else (with_sets [] s, SUCCESS).

(** le_advertiser.cc:1266-1338; GetMaxPeriodicAdvertisingDataLength
    (le_advertiser.cc:1547-1553) is constant *)
Definition set_periodic_parameters (h imin imax : N) (s : le) : le * status :=
  match lookup (sets s) h with
  | None => (s, UNKNOWN_ADVERTISING_ID)
  | Some a =>
      let p := props a in
      if (imin <? 6) || (imax <? 6) || (imax <? imin) then (s, INVALID_PARAMETERS)
      else if connectable p || scannable p || legacy_pdus p || anonymous p then (s, INVALID_PARAMETERS)
      else if periodic_on a then (s, COMMAND_DISALLOWED)
      else if max_extended_pdu <? lenN (bytes (periodic_data a)) then (s, PACKET_TOO_LONG)
      else (with_sets (put (sets s) h (with_periodic_interval imax a)) s, SUCCESS)
  end.

(** le_advertiser.cc:1341-1463 *)
Definition set_periodic_data (h : N) (o : operation) (d : list N) (s : le) : le * status :=
  match lookup (sets s) h with
  | None => (s, UNKNOWN_ADVERTISING_ID)
  | Some a =>
      if periodic_interval a =? 0 then (s, COMMAND_DISALLOWED)
      else if periodic_on a && is_fragment o then (s, COMMAND_DISALLOWED)
      else if is_empty d && is_fragment o then (s, INVALID_PARAMETERS)
      else if is_unchanged o && (negb (periodic_on a) || is_empty (bytes (periodic_data a))
                                 || negb (is_empty d))
      then (s, INVALID_PARAMETERS)
      else
        let b := apply_fragment o d (periodic_data a) in
        let store b := with_sets (put (sets s) h (with_periodic_data b a)) s in
        if cfg_max_data cfg <? lenN (bytes b)
        then (store (Buffer [] false), MEMORY_CAPACITY_EXCEEDED)
        else if max_extended_pdu <? lenN (bytes b)
        then (store (Buffer [] false), PACKET_TOO_LONG)
        else (store b, SUCCESS)
  end.

(** le_advertiser.cc:1466-1545 *)
Definition set_periodic_enable (now : N) (on adi : bool) (h : N) (s : le) : le * status :=
  match lookup (sets s) h with
  | None => (s, UNKNOWN_ADVERTISING_ID)
  | Some a =>
      let p := props a in
      let store a := with_sets (put (sets s) h a) s in
      if negb on then (store (disable_periodic a), SUCCESS)
      else if partial (periodic_data a) then (s, COMMAND_DISALLOWED)
      else if periodic_interval a =? 0 then (s, COMMAND_DISALLOWED)
      else if max_extended_pdu <? lenN (bytes (periodic_data a)) then (s, PACKET_TOO_LONG)
      else if connectable p || scannable p || legacy_pdus p || anonymous p then (s, COMMAND_DISALLOWED)
      else if adi && negb (cfg_adi cfg) then (s, UNSUPPORTED_PARAMETER)
      else (store (enable_periodic now a), SUCCESS)
  end.

End WithController.

(** * The advertising procedure, le_advertiser.cc:1560-1789 *)

(** le_advertiser.cc:1588-1594, 1662-1676: the event sent when directed advertising
    times out *)
Definition timeout_complete : event :=
  EvConnectionComplete ADVERTISING_TIMEOUT 0 true no_address 0 0 0.
Definition timeout_enhanced_complete : event :=
  EvEnhancedConnectionComplete ADVERTISING_TIMEOUT 0 true no_address empty_address empty_address 0 0 0.

(** le_advertiser.cc:1569-1596: legacy directed advertising timeout *)
Definition legacy_timeout (now : N) (s : le) : le * list output :=
  let a := legacy s in
  match l_timeout a with
  | Some t =>
      if l_enabled a && (t <=? now)
      then (with_legacy (with_l_enabled false a) s,
            if le_event_unmasked s 1 then [Notified timeout_complete] else [])
      else (s, [])
  | None => (s, [])
  end.

(** le_advertiser.cc:1606-1624: type of the PDU, and whether the data is attached *)
Definition legacy_pdu_of (t : adv_type) : legacy_pdu * bool :=
  match t with
  | ADV_IND => (PDU_IND, true)
  | ADV_DIRECT_IND_HIGH | ADV_DIRECT_IND_LOW => (PDU_DIRECT, false)
  | ADV_SCAN_IND => (PDU_SCAN, true)
  | ADV_NONCONN_IND => (PDU_NONCONN, true)
  end.

(** le_advertiser.cc:1599-1635: legacy advertising event *)
Definition legacy_advertise (now : N) (s : le) : le * list output :=
  let a := legacy s in
  if l_enabled a && (l_next a <=? now) then
    let '(t, attach) := legacy_pdu_of (l_type a) in
    (with_legacy (with_l_next (now + l_interval a * 625) a) s,
     [Sent (AirLegacy (l_address a) (l_target a) t (if attach then l_data a else []))])
  else (s, []).

(** le_advertiser.cc:1639-1690: timeout of a set *)
Definition set_timeout (s : le) (now : N) (a : adv_set) : adv_set * list output :=
  match timeout a with
  | Some t =>
      if enabled a && (t <=? now) then
        let p := props a in
        let high := directed p && connectable p && high_duty p in
        (disable_set a,
         (if high && le_event_unmasked s 10 then [Notified timeout_enhanced_complete]
          else if high && le_event_unmasked s 1 then [Notified timeout_complete] else [])
         ++ (if le_event_unmasked s 18
             then [Notified (EvSetTerminated ADVERTISING_TIMEOUT (set_handle a) 0
                     (if max_events a =? 0 then 0 else num_events a))] else []))
      else (a, [])
  | None => (a, [])
  end.

(** le_advertiser.cc:1692-1707: the number of events was reached. The code uses
    ADVERTISING_TIMEOUT, and not LIMIT_REACHED, as the status of the event. *)
Definition set_limit (s : le) (a : adv_set) : adv_set * list output :=
  if enabled a && negb (max_events a =? 0) && (max_events a <=? num_events a) then
    (disable_set a,
     if le_event_unmasked s 18
     then [Notified (EvSetTerminated ADVERTISING_TIMEOUT (set_handle a) 0 (num_events a))] else [])
  else (a, []).

(** le_advertiser.cc:1716-1741: the PDU of a set using legacy PDUs; [None] is the
    call to FATAL *)
Definition set_legacy_pdu (p : adv_props) : option legacy_pdu :=
  let r := N.land (raw_props p) 15 in
  if r =? 3 then Some PDU_IND
  else if (r =? 13) || (r =? 5) then Some PDU_DIRECT
  else if r =? 2 then Some PDU_SCAN
  else if r =? 0 then Some PDU_NONCONN
  else None.

(** le_advertiser.cc:1758-1759: cast of the PHY enumerations *)
Definition primary_code (p : primary_phy) : N := match p with PRIMARY_1M => 1 | PRIMARY_CODED => 3 end.
Definition secondary_code (p : secondary_phy) : N :=
  match p with SECONDARY_NONE => 0 | SECONDARY_1M => 1 | SECONDARY_2M => 2 | SECONDARY_CODED => 3 end.

(** le_advertiser.cc:1709-1771: extended advertising event; [None] is a call to
    FATAL, which aborts the process. The counter is a uint8_t. *)
Definition set_advertise (now : N) (a : adv_set) : option (adv_set * list output) :=
  if enabled a && (next_event a <=? now) then
    let a' := with_num_events ((num_events a + 1) mod 256)
                (with_next_event (next_event a + interval a * 625) a) in
    let p := props a in
    if legacy_pdus p then
      match set_legacy_pdu p with
      | None => None
      | Some t => Some (a', [Sent (AirLegacy (adv_address a) (target a) t (bytes (adv_data a)))])
      end
    else
      Some (a', [Sent (AirExtended (adv_address a) (target a) (connectable p) (scannable p) (directed p)
                  (sid a) (power a) (primary_code (primary a)) (secondary_code (secondary a))
                  (periodic_interval a) (bytes (adv_data a)))])
  else Some (a, []).

(** le_advertiser.cc:1774-1787: periodic advertising event *)
Definition set_periodic (now : N) (a : adv_set) : adv_set * list output :=
  if periodic_latch a && (next_periodic a <=? now) then
    (with_next_periodic (next_periodic a + periodic_interval a * 625) a,
     [Sent (AirPeriodic (adv_address a) (sid a) (power a) (periodic_interval a)
              (bytes (periodic_data a)))])
  else (a, []).

(** le_advertiser.cc:1637-1788: one set *)
Definition advertise_set (s : le) (now : N) (a : adv_set) : option (adv_set * list output) :=
  let '(a, o1) := set_timeout s now a in
  let '(a, o2) := set_limit s a in
  match set_advertise now a with
  | None => None
  | Some (a, o3) =>
      let '(a, o4) := set_periodic now a in
      Some (a, o1 ++ o2 ++ o3 ++ o4)
  end.

(** le_advertiser.cc:1637: the loop over the sets, in some order *)
Fixpoint advertise_sets (s : le) (now : N) (m : table adv_set)
  : option (table adv_set * list output) :=
  match m with
  | [] => Some ([], [])
  | (h, a) :: m =>
      match advertise_set s now a with
      | None => None
      | Some (a, o) =>
          match advertise_sets s now m with
          | None => None
          | Some (m, o') => Some ((h, a) :: m, o ++ o')
          end
      end
  end.

(** le_advertiser.cc:1560-1789 LeAdvertising; [None] when the process aborts *)
Definition le_advertising (now : N) (s : le) : option (le * list output) :=
  let '(s, o1) := legacy_timeout now s in
  let '(s, o2) := legacy_advertise now s in
  match advertise_sets s now (sets s) with
  | None => None
  | Some (m, o3) => Some (with_sets m s, o1 ++ o2 ++ o3)
  end.
