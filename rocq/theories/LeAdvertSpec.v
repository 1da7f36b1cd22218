(** Vocabulary of the properties of LE advertising (Bluetooth Core, Vol 4, Part E
    3.1.1, 7.8.5-7.8.9, 7.8.52-7.8.63): families of commands, the data a history of
    commands stores, what may be on the air. *)
From Verif Require Import Prelude Address Rpa Table LeTypes LeAdvertise LeHost LeHistory.
Open Scope N_scope.

(** * Legacy and extended commands *)

Inductive family := Legacy | Extended.

(** Vol 4, Part E 3.1.1, table 3.2: the commands modelled here *)
Definition family_of (c : command) : option family :=
  match c with
  | SetAdvParameters _ _ _ _ _ _ _ _ | SetAdvData _ | SetScanResponseData _ | SetAdvEnable _
  | SetScanParameters _ _ _ _ _ | SetScanEnable _ _ | CreateConnection _ _ _ _ => Some Legacy
  | SetSetRandomAddress _ _ | SetExtParameters _ _ | SetExtData _ _ _ | SetExtScanResponse _ _ _
  | SetExtEnable _ _ | RemoveSet _ | ClearSets | SetPeriodicParameters _ _ _ | SetPeriodicData _ _ _
  | SetPeriodicEnable _ _ _ | SetExtScanParameters _ _ _ _ | SetExtScanEnable _ _ _ _
  | ExtCreateConnection _ _ _ _ _ | CreateSync _ _ _ _ _ _ _ _ | CancelSync | TerminateSync _
  | AddPadv _ _ _ | RemovePadv _ _ _ | ClearPadv => Some Extended
  | _ => None
  end.

(** The commands of the table which are not checked by the controller: they are the
    commands on sets which exist already, and the periodic sync commands *)
Definition unchecked (c : command) : bool :=
  match c with
  | SetSetRandomAddress _ _ | RemoveSet _ | ClearSets | SetPeriodicParameters _ _ _ | SetPeriodicData _ _ _
  | SetPeriodicEnable _ _ _ | CreateSync _ _ _ _ _ _ _ _ | CancelSync | TerminateSync _
  | AddPadv _ _ _ | RemovePadv _ _ _ | ClearPadv => true
  | _ => false
  end.

(** The family of the first command of either family since the last reset, when the
    commands selected by [ignored] do not count. Histories have the latest entry first. *)
Fixpoint first_family (ignored : command -> bool) (h : list entry) : option family :=
  match h with
  | [] => None
  | e :: h =>
      match what e with
      | Command Reset => None
      | Command c =>
          match first_family ignored h with
          | Some f => Some f
          | None => if ignored c then None else family_of c
          end
      | _ => first_family ignored h
      end
  end.

(** * Stored data *)

Inductive data_kind := AdvertisingData | ScanResponseData | PeriodicData.

(** The commands which provide data for a set *)
Definition provides (k : data_kind) (c : command) : option (N * operation * list N) :=
  match k, c with
  | AdvertisingData, SetExtData x o d | ScanResponseData, SetExtScanResponse x o d
  | PeriodicData, SetPeriodicData x o d => Some (x, o, d)
  | _, _ => None
  end.

(** What becomes of the data: fragments are appended, a complete value replaces it; an
    error for lack of room discards it, any other error leaves it *)
Definition after_fragment (o : operation) (d : list N) (st : status) (old : list N) : list N :=
  match st with
  | SUCCESS => match o with FIRST | COMPLETE => d | INTERMEDIATE | LAST => old ++ d | UNCHANGED => old end
  | MEMORY_CAPACITY_EXCEEDED | PACKET_TOO_LONG => []
  | _ => old
  end.

(** The data a history leaves in the set [x]; [None] when there is no such set *)
Fixpoint stored_data (k : data_kind) (x : N) (h : list entry) : option (list N) :=
  match h with
  | [] => None
  | e :: h =>
      let old := stored_data k x h in
      match what e, status_of e with
      | Command Reset, _ => None
      | Command ClearSets, Some SUCCESS => None
      | Command (RemoveSet y), Some SUCCESS => if y =? x then None else old
      | Command (SetExtParameters y _), Some SUCCESS =>
          if y =? x then Some (match old with Some d => d | None => [] end) else old
      | Command c, Some st =>
          match provides k c with
          | Some (y, o, d) => if y =? x then option_map (after_fragment o d st) old else old
          | None => old
          end
      | _, _ => old
      end
  end.

Definition data_of (k : data_kind) (a : adv_set) : list N :=
  bytes match k with AdvertisingData => adv_data a | ScanResponseData => scan_data a | PeriodicData => periodic_data a end.

(** Legacy advertising: the last data accepted since the last reset *)
Fixpoint legacy_stored (response : bool) (h : list entry) : list N :=
  match h with
  | [] => []
  | e :: h =>
      match what e, status_of e with
      | Command Reset, _ => []
      | Command (SetAdvData d), Some SUCCESS => if response then legacy_stored response h else d
      | Command (SetScanResponseData d), Some SUCCESS => if response then d else legacy_stored response h
      | _, _ => legacy_stored response h
      end
  end.

(** * Limits *)

(** How much advertising data the PDUs of an advertising event can carry (Vol 6, Part B
    2.3, 4.4.2): none for legacy directed PDUs and for scannable extended events, 31
    bytes in other legacy PDUs, what remains of one 254 byte PDU in connectable extended
    events, 1650 bytes otherwise *)
Definition air_limit (p : adv_props) : N :=
  match legacy_pdus p, connectable p, scannable p, directed p with
  | true, _, _, true => 0
  | true, _, _, false => 31
  | false, _, true, _ => 0
  | false, false, false, _ => 1650
  | false, true, false, true => if tx_power p then 239 else 240
  | false, true, false, false => if tx_power p then 245 else 246
  end.

Definition response_limit (p : adv_props) : N :=
  if scannable p then if legacy_pdus p then 31 else 1650 else 0.

(** The set is advertising with complete data that fits on the air *)
Definition data_ready (a : adv_set) : Prop :=
  partial (adv_data a) = false /\ partial (scan_data a) = false
  /\ lenN (bytes (adv_data a)) <= air_limit (props a)
  /\ lenN (bytes (scan_data a)) <= response_limit (props a).

(** The set is periodic advertising with complete data; only possible for events which
    are not connectable, scannable, legacy or anonymous *)
Definition periodic_ready (a : adv_set) : Prop :=
  partial (periodic_data a) = false /\ 6 <= periodic_interval a
  /\ lenN (bytes (periodic_data a)) <= 1650
  /\ connectable (props a) = false /\ scannable (props a) = false /\ legacy_pdus (props a) = false
  /\ anonymous (props a) = false.

Definition is_enabled (s : le) (x : N) : Prop := exists a, lookup (sets s) x = Some a /\ enabled a = true.

(** Two sets equal but for the addresses they would use on the air *)
Definition same_but_addresses (a b : adv_set) : Prop :=
  b = with_target (target b) (with_adv_address (adv_address b) a).

(** * On the air *)

Definition legacy_is_directed (t : adv_type) : bool :=
  match t with ADV_DIRECT_IND_HIGH | ADV_DIRECT_IND_LOW => true | _ => false end.

(** An advertising packet carries the data stored by the history [h], from the address of
    the advertiser, for an advertiser which is enabled in the state [s] *)
Definition carries_stored (h : list entry) (s : le) (p : air) : Prop :=
  match p with
  | AirLegacy adv _ _ d =>
      (l_enabled (legacy s) = true /\ adv = l_address (legacy s)
       /\ d = if legacy_is_directed (l_type (legacy s)) then [] else legacy_stored false h)
      \/ exists x a, lookup (sets s) x = Some a /\ enabled a = true /\ legacy_pdus (props a) = true
           /\ adv = adv_address a /\ stored_data AdvertisingData x h = Some d
  | AirExtended adv _ _ _ _ si _ _ _ _ d =>
      exists x a, lookup (sets s) x = Some a /\ enabled a = true /\ legacy_pdus (props a) = false
        /\ adv = adv_address a /\ si = sid a /\ stored_data AdvertisingData x h = Some d
  | AirPeriodic adv si _ pi d =>
      exists x a, lookup (sets s) x = Some a /\ periodic_on a = true
        /\ adv = adv_address a /\ si = sid a /\ pi = periodic_interval a
        /\ stored_data PeriodicData x h = Some d
  | AirScanResponse adv _ d =>
      (l_enabled (legacy s) = true /\ adv = l_address (legacy s) /\ d = legacy_stored true h)
      \/ exists x a, lookup (sets s) x = Some a /\ enabled a = true /\ scannable (props a) = true
           /\ adv = adv_address a /\ stored_data ScanResponseData x h = Some d
  | _ => True
  end.
