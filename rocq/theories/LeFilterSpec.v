(** Vocabulary of the filter policy properties of the LE controller (Bluetooth Core,
    Vol 6, Part B 4.3): who a device address stands for, which policy a history put in
    force, and what an output says about a device. *)
From Verif Require Import Prelude Address Rpa Table LeTypes LeAdvertise LeHost LeHistory LeListsSpec LeAdvertSpec.
Open Scope N_scope.

(** The identity behind an address: the address itself, or the identity of an entry of
    the resolving list whose key matches it. *)
Definition known_as (aes : list N -> list N -> list N) (s : le) (a i : address_with_type) : Prop :=
  (i = a /\ (resolving_on s = false \/ forall e, In e (resolving s) -> matches_irk aes a (peer_irk e) = false))
  \/ (resolving_on s = true /\ exists e, In e (resolving s) /\ matches_irk aes a (peer_irk e) = true
      /\ awt_addr i = peer_identity_address e
      /\ awt_type i = match peer_identity_type e with PEER_PUBLIC => PUBLIC_DEVICE | PEER_RANDOM => RANDOM_DEVICE end).

(** Is the device in the filter accept list? *)
Definition on_accept_list (s : le) (a : address_with_type) : Prop :=
  listed s (match awt_type a with
            | PUBLIC_DEVICE | PUBLIC_IDENTITY => ACCEPT_PUBLIC
            | RANDOM_DEVICE | RANDOM_IDENTITY => ACCEPT_RANDOM end) (awt_addr a).

(** The device an advertising report tells about *)
Definition reported (e : event) : option address_with_type :=
  match e with
  | EvReport a _ _ => Some a
  | EvDirectedReport a _ => Some a
  | EvExtendedReport _ _ _ _ _ _ a _ _ => Some a
  | _ => None
  end.

(** The advertiser of a packet *)
Definition advertiser_of (p : air) : option address_with_type :=
  match p with
  | AirLegacy adv _ _ _ => Some adv
  | AirExtended adv _ _ _ _ _ _ _ _ _ _ => Some adv
  | AirScanResponse adv _ _ => Some adv
  | _ => None
  end.

(** The scanning filter policy of the latest accepted command since the last reset *)
Fixpoint scan_policy_given (h : list entry) : scan_policy :=
  match h with
  | [] => ACCEPT_ALL
  | e :: h =>
      match what e, status_of e with
      | Command Reset, _ => ACCEPT_ALL
      | Command (SetScanParameters _ _ _ _ pol), Some SUCCESS => pol
      | Command (SetExtScanParameters _ pol _ _), Some SUCCESS => pol
      | _, _ => scan_policy_given h
      end
  end.
Definition listed_only (p : scan_policy) : Prop := p = ACCEPT_LIST_ONLY \/ p = ACCEPT_LIST_AND_IDENTITY.

(** The initiator filter policy and the peer of the latest accepted command *)
Fixpoint connection_given (h : list entry) : option (init_policy * address_with_type) :=
  match h with
  | [] => None
  | e :: h =>
      match what e, status_of e with
      | Command Reset, _ => None
      | Command (CreateConnection pol peer _ _), Some SUCCESS => Some (pol, peer)
      | Command (ExtCreateConnection pol _ peer _ _), Some SUCCESS => Some (pol, peer)
      | _, _ => connection_given h
      end
  end.

(** May the device be connected to, according to the command? *)
Definition may_connect_to (s : le) (given : init_policy * address_with_type) (i : address_with_type) : Prop :=
  match fst given with
  | USE_PEER_ADDRESS => i = snd given
  | USE_ACCEPT_LIST => on_accept_list s i
  | USE_DECISION_PDUS | USE_LIST_AND_DECISION => False
  end.

(** May the device scan, or connect to, an advertiser with this policy? *)
Definition may_scan (s : le) (pol : adv_policy) (i : address_with_type) : Prop :=
  pol = LISTED_SCAN \/ pol = LISTED_SCAN_AND_CONNECT -> on_accept_list s i.
Definition may_connect (s : le) (pol : adv_policy) (i : address_with_type) : Prop :=
  pol = LISTED_CONNECT \/ pol = LISTED_SCAN_AND_CONNECT -> on_accept_list s i.

(** The parameters of the latest accepted command for the advertising set [x] *)
Fixpoint set_given (x : N) (h : list entry) : option ext_params :=
  match h with
  | [] => None
  | e :: h =>
      match what e, status_of e with
      | Command Reset, _ => None
      | Command ClearSets, Some SUCCESS => None
      | Command (RemoveSet y), Some SUCCESS => if y =? x then None else set_given x h
      | Command (SetExtParameters y p), Some SUCCESS => if y =? x then Some p else set_given x h
      | _, _ => set_given x h
      end
  end.

(** The parameters of the latest accepted command for legacy advertising: the type, the
    peer and the policy; those in force after a reset otherwise *)
Fixpoint legacy_given (h : list entry) : adv_type * address_with_type * adv_policy :=
  match h with
  | [] => (ADV_IND, peer_device_address empty_address PEER_PUBLIC, ALL_DEVICES)
  | e :: h =>
      match what e, status_of e with
      | Command Reset, _ => (ADV_IND, peer_device_address empty_address PEER_PUBLIC, ALL_DEVICES)
      | Command (SetAdvParameters _ _ t _ pk p _ pol), Some SUCCESS => (t, peer_device_address p pk, pol)
      | _, _ => legacy_given h
      end
  end.

(** The type of legacy advertising allows scan requests, or connections, or is directed *)
Definition type_scannable (t : adv_type) : Prop := t = ADV_IND \/ t = ADV_SCAN_IND.
Definition type_directed (t : adv_type) : Prop := t = ADV_DIRECT_IND_HIGH \/ t = ADV_DIRECT_IND_LOW.
Definition type_connectable (t : adv_type) : Prop := t = ADV_IND \/ type_directed t.

(** May the device [i] scan the advertiser with the address [adv]? [data] is its scan
    response data. *)
Inductive scan_allowed (h : list entry) (s : le) (adv i : address_with_type) : list N -> Prop :=
| legacy_scan_allowed : forall t p pol,
    l_enabled (legacy s) = true -> l_address (legacy s) = adv -> legacy_given h = (t, p, pol) ->
    type_scannable t -> may_scan s pol i -> scan_allowed h s adv i (legacy_stored true h)
| set_scan_allowed : forall x a e d,
    lookup (sets s) x = Some a -> enabled a = true -> adv_address a = adv -> set_given x h = Some e ->
    scannable (e_props e) = true -> may_scan s (e_policy e) i ->
    (directed (e_props e) = true -> target a = i) ->
    stored_data ScanResponseData x h = Some d -> scan_allowed h s adv i d.

(** May the device [i] connect to the advertiser with the address [adv]? *)
Inductive connect_allowed (h : list entry) (s : le) (adv i : address_with_type) : Prop :=
| legacy_connect_allowed : forall t p pol,
    l_enabled (legacy s) = true -> l_address (legacy s) = adv -> legacy_given h = (t, p, pol) ->
    type_connectable t -> (type_directed t -> i = p) -> (~ type_directed t -> may_connect s pol i) ->
    connect_allowed h s adv i
| set_connect_allowed : forall x a e,
    lookup (sets s) x = Some a -> enabled a = true -> adv_address a = adv -> set_given x h = Some e ->
    connectable (e_props e) = true ->
    (directed (e_props e) = true -> i = peer_device_address (e_peer e) (e_peer_kind e)) ->
    (directed (e_props e) = false -> may_connect s (e_policy e) i) ->
    connect_allowed h s adv i.

(** The request is answered: one response, and no other packet *)
Definition answers (initiator adv : address_with_type) (x y z : N) (out : list output) : Prop :=
  In (Sent (AirConnectComplete initiator adv x y z)) out
  /\ forall p, In (Sent p) out -> p = AirConnectComplete initiator adv x y z.

(** A connectable packet: its advertiser, and its target when it is directed *)
Definition offers (p : air) : option (address_with_type * option address_with_type) :=
  match p with
  | AirLegacy adv _ PDU_IND _ => Some (adv, None)
  | AirLegacy adv tgt PDU_DIRECT _ => Some (adv, Some tgt)
  | AirExtended adv tgt true _ dir _ _ _ _ _ _ => Some (adv, if dir then Some tgt else None)
  | _ => None
  end.

(** The target of a directed packet of the device [i] is this controller: its public or
    random address, or a private address made with the key shared with [i] *)
Definition addressed_here (aes : list N -> list N -> list N) (s : le) (target i : address_with_type) : Prop :=
  target = AWT (public_address s) PUBLIC_DEVICE \/ target = AWT (random_address s) RANDOM_DEVICE
  \/ (resolving_on s = true /\ exists e, In e (resolving s)
      /\ i = peer_device_address (peer_identity_address e) (peer_identity_type e)
      /\ matches_irk aes target (local_irk e) = true).
