(** Model of the creation and of the end of LE connections:
    model/controller/le_controller.cc:1513-1930 (commands), 4631-4772, 5050-5188
    (initiator), 5525-5859 (connection requests and responses), 4291-4308,
    6368-6386, 6568-6620 (disconnection, reset). *)
From Verif Require Import Prelude Address Rpa Table LeTypes LeAdvertise LeLists LeScan.
From Verif Require Handles.
Open Scope N_scope.

(** What the reception of a packet does: a new state and outputs, a failed ASSERT
    or a call to FATAL, or a call which never returns. *)
Inductive effect := Next (s : le) (o : list output) | Aborts | Hangs.

(** le_controller.cc:1541-1614, 1752-1845: the checks on the parameters of one PHY.
    min_supervision_timeout is in milliseconds, truncated by duration_cast. *)
Definition check_connection (p : init_phy) : option status :=
  if (ip_scan_interval p <? 4) || (16384 <? ip_scan_interval p)
     || (ip_scan_window p <? 4) || (16384 <? ip_scan_window p) then Some UNSUPPORTED_PARAMETER
  else if ip_scan_interval p <? ip_scan_window p then Some INVALID_PARAMETERS
  else if (ip_interval_min p <? 6) || (3200 <? ip_interval_min p)
          || (ip_interval_max p <? 6) || (3200 <? ip_interval_max p) then Some UNSUPPORTED_PARAMETER
  else if ip_interval_max p <? ip_interval_min p then Some INVALID_PARAMETERS
  else if 499 <? ip_latency p then Some UNSUPPORTED_PARAMETER
  else if (ip_supervision p <? 10) || (3200 <? ip_supervision p) then Some UNSUPPORTED_PARAMETER
  else if ip_supervision p * 10 <? ((1 + ip_latency p) * (2 * ip_interval_max p * 625) * 2) / 1000
  then Some INVALID_PARAMETERS
  else None.

Fixpoint check_connections (l : list init_phy) : option status :=
  match l with
  | [] => None
  | p :: l => match check_connection p with Some st => Some st | None => check_connections l end
  end.

Definition is_peer_policy (p : init_policy) : bool :=
  match p with USE_PEER_ADDRESS => true | _ => false end.

Section WithController.
Variable aes : list N -> list N -> list N.
Variable rng : N -> N.
Variable cfg : config.

(** le_controller.cc:1617-1650, 1847-1880: [true] when the own address can be used *)
Definition check_own (pol : init_policy) (peer : address_with_type) (o : own_type) (s : le) : le * bool :=
  let unset := list_eqb (random_address s) empty_address in
  match o with
  | OWN_RANDOM => (s, negb unset)
  | OWN_RPA_OR_RANDOM =>
      if is_peer_policy pol then
        let '(s, r) := generate aes rng peer true s in (s, is_some r || negb unset)
      else (s, true)
  | _ => (s, true)
  end.

(** le_controller.cc:1518-1668 *)
Definition create_connection (pol : init_policy) (peer : address_with_type) (o : own_type) (p : init_phy)
  (s : le) : le * status :=
  match select_legacy s with
  | None => (s, COMMAND_DISALLOWED)
  | Some s =>
      if init_enabled (init s) then (s, COMMAND_DISALLOWED)
      else match check_connection p with
           | Some st => (s, st)
           | None =>
               let '(s, ok) := check_own pol peer o s in
               if negb ok then (s, INVALID_PARAMETERS)
               else (with_init (with_init_enabled true (with_init_filter pol (with_init_peer peer
                       (with_init_own o (with_init_1m (with_ip_enabled true p)
                       (with_init_2m (with_ip_enabled false (init_2m (init s)))
                       (with_init_coded (with_ip_enabled false (init_coded (init s)))
                       (with_init_pending None (init s))))))))) s, SUCCESS)
           end
  end.

(** le_controller.cc:1671-1700; the events are sent by a task scheduled without delay *)
Definition cancel_connection (s : le) : le * status * list output :=
  if negb (init_enabled (init s)) then (s, COMMAND_DISALLOWED, [])
  else
    (with_init (with_init_enabled false (init s)) s, SUCCESS,
     if le_event_unmasked s 10 then
       [Notified (EvEnhancedConnectionComplete UNKNOWN_CONNECTION 0 true no_address empty_address empty_address 0 0 0)]
     else if le_event_unmasked s 1 then
       [Notified (EvConnectionComplete UNKNOWN_CONNECTION 0 true no_address 0 0 0)]
     else []).

(** le_controller.cc:1891-1928: the parameters at position [i] *)
Definition init_phy_at (l : list init_phy) (i : nat) : init_phy :=
  match nth_error l i with
  | Some p => with_ip_enabled true p
  | None => new_init_phy (* not reached: [init_offset_in_range] *)
  end.

(** le_controller.cc:1708-1930 *)
Definition ext_create_connection (pol : init_policy) (o : own_type) (peer : address_with_type) (phys : N)
  (l : list init_phy) (s : le) : le * status :=
  match select_extended s with
  | None => (s, COMMAND_DISALLOWED)
  | Some s =>
      if init_enabled (init s) then (s, COMMAND_DISALLOWED)
      else if negb (N.land phys 248 =? 0) then (s, UNSUPPORTED_PARAMETER)
      else if negb (popcount phys =? lenN l) then (s, INVALID_PARAMETERS)
      else if phys =? 0 then (s, INVALID_PARAMETERS)
      else match check_connections l with
           | Some st => (s, st)
           | None =>
               let '(s, ok) := check_own pol peer o s in
               if negb ok then (s, INVALID_PARAMETERS)
               else
                 let b (i : N) := if N.testbit phys i then 1%nat else 0%nat in
                 let pick i off old := if N.testbit phys i then init_phy_at l off else with_ip_enabled false old in
                 let i := init s in
                 (with_init (with_init_enabled true (with_init_filter pol (with_init_peer peer
                    (with_init_own o (with_init_pending None
                    (with_init_1m (pick 0 0%nat (init_1m i))
                    (with_init_2m (pick 1 (b 0) (init_2m i))
                    (with_init_coded (pick 2 (Nat.add (b 0) (b 1)) (init_coded i)) i)))))))) s, SUCCESS)
           end
  end.

(** * The initiator *)

(** le_controller.cc:4670-4698, 5089-5117 *)
Definition initiator_filter_ok (s : le) (adv : address_with_type) : bool :=
  match init_filter (init s) with
  | USE_PEER_ADDRESS => awt_eqb adv (init_peer (init s))
  | USE_ACCEPT_LIST => accept_contains s adv
  | USE_DECISION_PDUS | USE_LIST_AND_DECISION => false
  end.

Definition uses_rpa (o : own_type) : bool :=
  match o with OWN_RPA_OR_PUBLIC | OWN_RPA_OR_RANDOM => true | _ => false end.

(** le_controller.cc:4728-4750, 5147-5169: [None] is a failed ASSERT *)
Definition initiating_address (s : le) (rpa : option address_with_type) : option address_with_type :=
  let pub := AWT (public_address s) PUBLIC_DEVICE in
  let rnd := AWT (random_address s) RANDOM_DEVICE in
  let unset := list_eqb (random_address s) empty_address in
  match init_own (init s) with
  | OWN_PUBLIC => Some pub
  | OWN_RANDOM => if unset then None else Some rnd
  | OWN_RPA_OR_PUBLIC => Some (match rpa with Some a => a | None => pub end)
  | OWN_RPA_OR_RANDOM => if unset then None else Some (match rpa with Some a => a | None => rnd end)
  end.

(** le_controller.cc:4660-4772, 5079-5188: common to both kinds of PDUs. The
    parameters of the 1M PHY are always the ones sent. *)
Definition connect_to (adv target : address_with_type) (directed : bool) (s : le)
  : option (le * list output) :=
  let '(s, resolved) := resolve aes adv s in
  if negb (initiator_filter_ok s resolved) then Some (s, [])
  else if directed && negb (validate_target aes s target resolved) then Some (s, [])
  else if directed && negb (is_rpa target) && uses_rpa (init_own (init s)) then Some (s, [])
  else
    let '(s, rpa) := generate aes rng resolved true s in
    match initiating_address s rpa with
    | None => None
    | Some a =>
        let p := init_1m (init s) in
        Some (with_init (with_init_pending (Some adv) (with_init_address (awt_addr a) (init s))) s,
              [Sent (AirConnect a adv (ip_interval_max p) (ip_latency p) (ip_supervision p))])
    end.

(** le_controller.cc:4631-4772 *)
Definition connect_legacy_pdu (adv target : address_with_type) (t : legacy_pdu) (s : le)
  : option (le * list output) :=
  if negb (init_enabled (init s)) then Some (s, [])
  else
    let conn := match t with PDU_IND | PDU_DIRECT => true | _ => false end in
    let directed := match t with PDU_DIRECT => true | _ => false end in
    if negb conn || is_some (init_pending (init s)) then Some (s, [])
    else connect_to adv target directed s.

(** le_controller.cc:5050-5188 *)
Definition connect_extended_pdu (adv target : address_with_type) (conn directed : bool) (s : le)
  : option (le * list output) :=
  if negb (init_enabled (init s)) then Some (s, [])
  else if negb (extended_used s) then Some (s, [])
  else if negb conn || is_some (init_pending (init s)) then Some (s, [])
  else connect_to adv target directed s.

Definition then_also (r : option (le * list output)) (f : le -> option (le * list output)) : effect :=
  match r with
  | None => Aborts
  | Some (s, o) => match f s with None => Aborts | Some (s, o') => Next s (o ++ o') end
  end.

(** le_controller.cc:4775-4782 *)
Definition receive_legacy_pdu (now : N) (adv target : address_with_type) (t : legacy_pdu) (data : list N)
  (s : le) : effect :=
  then_also (scan_legacy_pdu aes rng now adv target t data s) (connect_legacy_pdu adv target t).

(** le_controller.cc:5191-5198 *)
Definition receive_extended_pdu (now : N) (adv target : address_with_type) (conn scannable directed : bool)
  (sid power prim sec pinterval : N) (data : list N) (s : le) : effect :=
  then_also (scan_extended_pdu aes rng cfg now adv target conn scannable directed sid power prim sec pinterval data s)
    (connect_extended_pdu adv target conn directed).

(** * Connections *)

(** le_controller.cc:5525-5595 HandleLeConnection, with the allocation of the handle
    (acl_connection_handler.cc:39-54, 91-102); [None] when the allocation never ends.
    link_layer_add_link is not modelled: it fails only for a handle in use. *)
Definition handle_connection (peer resolved own : address_with_type) (central : bool)
  (interval latency supervision : N) (channel_selection : bool) (s : le)
  : option (le * N * list output) :=
  match Handles.get_unused_handle (conns s) Handles.kLeAclRangeStart Handles.kLeAclRangeEnd (last_handle s) with
  | None => None
  | Some (h, last) =>
      let s := with_conns ((h, LeConn peer own resolved central interval latency supervision) :: conns s)
                 (with_last_handle last s) in
      let is_resolved := negb (awt_eqb resolved no_address) in
      let local_rpa := if list_eqb (awt_addr own) (public_address s)
                          || list_eqb (awt_addr own) (random_address s)
                       then empty_address else awt_addr own in
      let o1 :=
        if le_event_unmasked s 10 then
          [Notified (EvEnhancedConnectionComplete SUCCESS h central (if is_resolved then resolved else peer)
             local_rpa (if is_resolved then awt_addr peer else empty_address) interval latency supervision)]
        else if le_event_unmasked s 1 then
          [Notified (EvConnectionComplete SUCCESS h central peer interval latency supervision)]
        else [] in
      let o2 := if channel_selection && le_event_unmasked s 20 then [Notified (EvChannelSelection h)] else [] in
      let s := if list_eqb (awt_addr own) (init_address (init s))
               then with_init (with_init_address empty_address (init s)) s else s in
      Some (s, h, o1 ++ o2)
  end.

(** le_controller.cc:5664-5667, 5770-5773 *)
Definition resolved_or_none (resolved initiator : address_with_type) : address_with_type :=
  if awt_eqb resolved initiator then no_address else resolved.

(** le_controller.cc:5598-5694; [inl] when the request is accepted, [inr] with the
    state otherwise *)
Definition legacy_connect_request (initiator adv : address_with_type) (interval latency supervision : N) (s : le)
  : effect + le :=
  let a := legacy s in
  if negb (l_enabled a && legacy_connectable (l_type a) && awt_eqb (l_address a) adv) then inr s
  else
    let '(s, resolved) := resolve aes initiator s in
    let ok := if legacy_directed (l_type a)
              then awt_eqb resolved (peer_device_address (l_peer a) (l_peer_kind a))
              else negb (policy_filters_connects (l_policy a)) || accept_contains s resolved in
    if negb ok then inr s
    else
      inl match handle_connection initiator (resolved_or_none resolved initiator) adv false
                  interval latency supervision false s with
          | None => Hangs
          | Some (s, _, o) =>
              Next (with_legacy (with_l_enabled false (legacy s)) s)
                (o ++ [Sent (AirConnectComplete initiator adv interval latency supervision)])
          end.

(** le_controller.cc:5697-5806, for the set [h] *)
Definition set_connect_request (h : N) (a : adv_set) (initiator adv : address_with_type)
  (interval latency supervision : N) (s : le) : effect + le :=
  if negb (enabled a && connectable (props a) && awt_eqb (adv_address a) adv) then inr s
  else
    let '(s, resolved) := resolve aes initiator s in
    let ok := if directed (props a)
              then awt_eqb resolved (peer_device_address (peer a) (peer_kind a))
              else negb (policy_filters_connects (policy a)) || accept_contains s resolved in
    if negb ok then inr s
    else
      let s := with_sets (put (sets s) h (disable_set a)) s in
      inl match handle_connection initiator (resolved_or_none resolved initiator) adv false
                  interval latency supervision false s with
          | None => Hangs
          | Some (s, c, o) =>
              Next s (o ++ [Sent (AirConnectComplete initiator adv interval latency supervision)]
                      ++ (if le_event_unmasked s 18
                          then [Notified (EvSetTerminated SUCCESS (set_handle a) c (num_events a))] else []))
          end.

(** le_controller.cc:5817-5821 *)
Fixpoint sets_connect_request (m : table adv_set) (initiator adv : address_with_type)
  (interval latency supervision : N) (s : le) : effect :=
  match m with
  | [] => Next s []
  | (h, a) :: m =>
      match set_connect_request h a initiator adv interval latency supervision s with
      | inl e => e
      | inr s => sets_connect_request m initiator adv interval latency supervision s
      end
  end.

(** le_controller.cc:5809-5822 *)
Definition receive_connect (initiator adv : address_with_type) (interval latency supervision : N) (s : le)
  : effect :=
  match legacy_connect_request initiator adv interval latency supervision s with
  | inl e => e
  | inr s => sets_connect_request (sets s) initiator adv interval latency supervision s
  end.

Definition pending_is (p : option address_with_type) (a : address_with_type) : bool :=
  match p with Some b => awt_eqb b a | None => false end.

(** le_controller.cc:5824-5859 *)
Definition receive_connect_complete (initiator adv : address_with_type) (interval latency supervision : N)
  (s : le) : effect :=
  if negb (pending_is (init_pending (init s)) adv)
     && negb (list_eqb (init_address (init s)) (awt_addr initiator)) then Next s []
  else
    let '(s, resolved) :=
      if is_rpa adv then
        let '(l, r) := resolve_private_address aes (resolving_on s) (resolving s) adv in
        (with_resolving l s, match r with Some x => x | None => no_address end)
      else (s, no_address) in
    match handle_connection adv resolved initiator true interval latency supervision (extended_used s) s with
    | None => Hangs
    | Some (s, _, o) =>
        Next (with_init (with_init_pending None (with_init_enabled false (init s))) s) o
    end.

(** acl_connection_handler.cc:135-144 GetLeAclConnectionHandle *)
Definition find_connection (local remote : list N) (m : table le_conn) : option N :=
  match find (fun kv => list_eqb (awt_addr (c_peer (snd kv))) remote
                        && list_eqb (awt_addr (c_own (snd kv))) local) m with
  | Some (h, _) => Some h
  | None => None
  end.

(** le_controller.cc:6359-6366; DISCONNECTION_COMPLETE is 0x05 *)
Definition disconnection_event (s : le) (h reason : N) : list output :=
  if event_unmasked s 5 then [Notified (EvDisconnection h reason)] else [].

(** le_controller.cc:4109-4113, 4291-4308: from [src] to [dst] *)
Definition receive_disconnect (src dst : list N) (reason : N) (s : le) : le * list output :=
  match find_connection dst src (conns s) with
  | None => (s, [])
  | Some h => (with_conns (erase (conns s) h) s, disconnection_event s h reason)
  end.

(** le_controller.cc:6368-6386 *)
Definition disconnect (h reason creason : N) (s : le) : le * status * list output :=
  match lookup (conns s) h with
  | None => (s, UNKNOWN_CONNECTION, [])
  | Some c =>
      (with_conns (erase (conns s) h) s, SUCCESS,
       Sent (AirDisconnect (awt_addr (c_own c)) (awt_addr (c_peer c)) reason)
       :: disconnection_event s h creason)
  end.

(** le_controller.cc:6568-6620; REMOTE_USER_TERMINATED_CONNECTION is 0x13 *)
Definition reset (s : le) : le * status * list output :=
  (with_rand_pos (rand_pos s) (new_le (public_address s)), SUCCESS,
   map (fun kv => Sent (AirDisconnect (awt_addr (c_own (snd kv))) (awt_addr (c_peer (snd kv))) 19)) (conns s)).

End WithController.
