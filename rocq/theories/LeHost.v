(** The LE controller as a transition system: every HCI command modelled in
    LeAdvertise.v, LeLists.v, LeScan.v and LeInitiate.v, every link layer packet
    received and the periodic tick (model/controller/le_controller.cc:4092-4142,
    6323-6327 and the command handlers of dual_mode_controller.cc). Each step
    carries the time at which it happens, in microseconds. *)
From Verif Require Import Prelude Address Rpa Table LeTypes LeAdvertise LeLists LeScan LeInitiate.
Open Scope N_scope.

Inductive command :=
| SetEventMask (m : N)
| SetEventMaskPage2 (m : N)
| LeSetEventMask (m : N)
| Reset
| SetRandomAddress (a : list N)
| SetAdvParameters (imin imax : N) (t : adv_type) (o : own_type) (pk : peer_type) (p : list N)
    (map : N) (pol : adv_policy)
| SetAdvData (d : list N)
| SetScanResponseData (d : list N)
| SetAdvEnable (on : bool)
| SetSetRandomAddress (h : N) (a : list N)
| SetExtParameters (h : N) (e : ext_params)
| SetExtData (h : N) (o : operation) (d : list N)
| SetExtScanResponse (h : N) (o : operation) (d : list N)
| SetExtEnable (on : bool) (l : list enabled_set)
| RemoveSet (h : N)
| ClearSets
| SetPeriodicParameters (h imin imax : N)
| SetPeriodicData (h : N) (o : operation) (d : list N)
| SetPeriodicEnable (on adi : bool) (h : N)
| ClearAcceptList
| AddAcceptList (t : accept_type) (a : list N)
| RemoveAcceptList (t : accept_type) (a : list N)
| AddResolvingList (k : peer_type) (a pirk lirk : list N)
| RemoveResolvingList (k : peer_type) (a : list N)
| ClearResolvingList
| SetAddressResolution (on : bool)
| SetPrivacyMode (k : peer_type) (a : list N)
| AddPadv (k : peer_type) (a : list N) (sid : N)
| RemovePadv (k : peer_type) (a : list N) (sid : N)
| ClearPadv
| CreateSync (use_list no_report dup : bool) (sid : N) (k : peer_type) (a : list N) (timeout cte : N)
| CancelSync
| TerminateSync (h : N)
| SetScanParameters (k : scan_kind) (interval window : N) (o : own_type) (pol : scan_policy)
| SetScanEnable (on dups : bool)
| SetExtScanParameters (o : own_type) (pol : scan_policy) (phys : N) (l : list scan_phy_param)
| SetExtScanEnable (on : bool) (d : duplicates) (duration period : N)
| CreateConnection (pol : init_policy) (peer : address_with_type) (o : own_type) (p : init_phy)
| CancelConnection
| ExtCreateConnection (pol : init_policy) (o : own_type) (peer : address_with_type) (phys : N)
    (l : list init_phy)
| Disconnect (h reason creason : N).

Inductive op := Command (c : command) | Receive (p : air) | Tick.

(** The outcome of a step: the command's status is [None] for the other steps *)
Inductive result :=
| Ok (s : le) (st : option status) (o : list output)
| Abort (* a failed ASSERT or a call to FATAL *)
| OutOfBounds (* an access outside an array *)
| Hang. (* never returns *)

Section WithController.
Variable aes : list N -> list N -> list N.
Variable rng : N -> N.
Variable cfg : config.

Definition quiet (r : le * status) : result := let '(s, st) := r in Ok s (Some st) [].
Definition loud (r : le * status * list output) : result := let '(s, st, o) := r in Ok s (Some st) o.
Definition of_effect (e : effect) : result :=
  match e with Next s o => Ok s None o | Aborts => Abort | Hangs => Hang end.
Definition of_pair (r : le * list output) : result := let '(s, o) := r in Ok s None o.

(** dual_mode_controller.cc: the handler of each command calls the function of the
    LE controller and returns its status. The mask commands are
    le_controller.h:684-686. *)
Definition run_command (now : N) (s : le) (c : command) : result :=
  match c with
  | SetEventMask m => quiet (with_event_mask m s, SUCCESS)
  | SetEventMaskPage2 m => quiet (with_event_mask_2 m s, SUCCESS)
  | LeSetEventMask m => quiet (with_le_mask m s, SUCCESS)
  | Reset => loud (reset s)
  | SetRandomAddress a => quiet (set_random_address a s)
  | SetAdvParameters imin imax t o pk p map pol => quiet (set_adv_parameters imin imax t o pk p map pol s)
  | SetAdvData d => quiet (set_adv_data d s)
  | SetScanResponseData d => quiet (set_scan_response_data d s)
  | SetAdvEnable on => quiet (set_adv_enable aes rng now on s)
  | SetSetRandomAddress h a => quiet (set_set_random_address h a s)
  | SetExtParameters h e => quiet (set_ext_parameters cfg h e s)
  | SetExtData h o d => quiet (set_ext_data cfg h o d s)
  | SetExtScanResponse h o d => quiet (set_ext_scan_response cfg h o d s)
  | SetExtEnable on l =>
      match set_ext_enable aes rng now on l s with
      | Done s st => Ok s (Some st) []
      | Undefined => OutOfBounds
      end
  | RemoveSet h => quiet (remove_set h s)
  | ClearSets => quiet (clear_sets s)
  | SetPeriodicParameters h imin imax => quiet (set_periodic_parameters h imin imax s)
  | SetPeriodicData h o d => quiet (set_periodic_data cfg h o d s)
  | SetPeriodicEnable on adi h => quiet (set_periodic_enable cfg now on adi h s)
  | ClearAcceptList => quiet (clear_accept_list s)
  | AddAcceptList t a => quiet (add_accept_list cfg t a s)
  | RemoveAcceptList t a => quiet (remove_accept_list t a s)
  | AddResolvingList k a pirk lirk => quiet (add_resolving_list cfg k a pirk lirk s)
  | RemoveResolvingList k a => quiet (remove_resolving_list k a s)
  | ClearResolvingList => quiet (clear_resolving_list s)
  | SetAddressResolution on => quiet (set_address_resolution on s)
  | SetPrivacyMode k a => quiet (set_privacy_mode k a s)
  | AddPadv k a sid => quiet (add_padv cfg k a sid s)
  | RemovePadv k a sid => quiet (remove_padv k a sid s)
  | ClearPadv => quiet (clear_padv s)
  | CreateSync ul nr dup sid k a t cte => quiet (create_sync cfg ul nr dup sid k a t cte s)
  | CancelSync => loud (cancel_sync s)
  | TerminateSync h => quiet (terminate_sync h s)
  | SetScanParameters k i w o pol => quiet (set_scan_parameters k i w o pol s)
  | SetScanEnable on dups => quiet (set_scan_enable on dups s)
  | SetExtScanParameters o pol phys l => quiet (set_ext_scan_parameters cfg o pol phys l s)
  | SetExtScanEnable on d du pe => quiet (set_ext_scan_enable now on d du pe s)
  | CreateConnection pol peer o p => quiet (create_connection aes rng pol peer o p s)
  | CancelConnection => loud (cancel_connection s)
  | ExtCreateConnection pol o peer phys l => quiet (ext_create_connection aes rng pol o peer phys l s)
  | Disconnect h r cr => loud (disconnect h r cr s)
  end.

(** le_controller.cc:4092-4142 *)
Definition receive (now : N) (s : le) (p : air) : result :=
  match p with
  | AirLegacy adv tgt t data => of_effect (receive_legacy_pdu aes rng now adv tgt t data s)
  | AirExtended adv tgt conn scan dir sid power prim sec pinterval data =>
      of_effect (receive_extended_pdu aes rng cfg now adv tgt conn scan dir sid power prim sec pinterval data s)
  | AirPeriodic adv sid power pinterval data => of_pair (receive_periodic aes now adv sid power pinterval data s)
  | AirScan scanner adv => of_pair (receive_scan aes scanner adv s)
  | AirScanResponse adv dst data => of_pair (receive_scan_response aes adv dst data s)
  | AirConnect i adv interval latency supervision => of_effect (receive_connect aes i adv interval latency supervision s)
  | AirConnectComplete i adv interval latency supervision =>
      of_effect (receive_connect_complete aes i adv interval latency supervision s)
  | AirDisconnect src dst reason => of_pair (receive_disconnect src dst reason s)
  end.

(** le_controller.cc:6323-6327 Tick: LeAdvertising then LeScanning *)
Definition tick (now : N) (s : le) : result :=
  match le_advertising now s with
  | None => Abort
  | Some (s, o) => let '(s, o') := le_scanning now s in Ok s None (o ++ o')
  end.

Definition step (now : N) (s : le) (o : op) : result :=
  match o with
  | Command c => run_command now s c
  | Receive p => receive now s p
  | Tick => tick now s
  end.

(** A history; [None] as soon as a step aborts, goes out of bounds or hangs *)
Fixpoint run (s : le) (ops : list (N * op)) : option (le * list output) :=
  match ops with
  | [] => Some (s, [])
  | (now, o) :: ops =>
      match step now s o with
      | Ok s _ out => match run s ops with Some (s, out') => Some (s, out ++ out') | None => None end
      | _ => None
      end
  end.

(** The states a controller can be in *)
Definition reachable (s : le) : Prop :=
  exists addr ops o, run (new_le addr) ops = Some (s, o).

End WithController.
