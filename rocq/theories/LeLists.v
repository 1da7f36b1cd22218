(** Model of the device lists of the LE controller and of the commands which
    change them: model/controller/le_controller.cc:159-375, 717-1215. *)
From Verif Require Import Prelude Address Rpa Table LeTypes LeAdvertise.
Open Scope N_scope.

Definition accept_type_eqb (a b : accept_type) : bool :=
  match a, b with
  | ACCEPT_PUBLIC, ACCEPT_PUBLIC | ACCEPT_RANDOM, ACCEPT_RANDOM
  | ACCEPT_ANONYMOUS, ACCEPT_ANONYMOUS => true
  | _, _ => false
  end.

Definition is_anonymous (t : accept_type) : bool :=
  match t with ACCEPT_ANONYMOUS => true | _ => false end.

Definition all_devices (p : adv_policy) : bool := match p with ALL_DEVICES => true | _ => false end.

(** le_controller.cc:177-184 *)
Definition scan_uses_list (p : scan_policy) : bool :=
  match p with ACCEPT_LIST_ONLY | ACCEPT_LIST_AND_IDENTITY => true | _ => false end.

Definition init_uses_list (p : init_policy) : bool :=
  match p with USE_ACCEPT_LIST => true | _ => false end.

(** le_controller.cc:159-196 FilterAcceptListBusy *)
Definition accept_list_busy (s : le) : bool :=
  (l_enabled (legacy s) && negb (all_devices (l_policy (legacy s))))
  || existsb (fun kv => enabled (snd kv) && negb (all_devices (policy (snd kv)))) (sets s)
  || (scan_enabled (scan s) && scan_uses_list (scan_filter (scan s)))
  || (init_enabled (init s) && init_uses_list (init_filter (init s))).

(** le_controller.cc:241-266 ResolvingListBusy *)
Definition resolving_list_busy (s : le) : bool :=
  l_enabled (legacy s) || existsb (fun kv => enabled (snd kv)) (sets s)
  || scan_enabled (scan s) || init_enabled (init s).

(** le_controller.cc:201-206, 992-996: an entry of the accept list stands for a device *)
Definition accept_match (t : accept_type) (a : list N) (e : accept_type * list N) : bool :=
  accept_type_eqb (fst e) t && (is_anonymous t || list_eqb (snd e) a).

(** le_controller.cc:198-210, 224-239 LeFilterAcceptListContainsDevice *)
Definition accept_contains (s : le) (a : address_with_type) : bool :=
  let t := match awt_type a with
           | PUBLIC_DEVICE | PUBLIC_IDENTITY => ACCEPT_PUBLIC
           | RANDOM_DEVICE | RANDOM_IDENTITY => ACCEPT_RANDOM
           end in
  existsb (accept_match t (awt_addr a)) (accept s).

(** vector::erase of the first element which satisfies [f]; [None] if there is none *)
Fixpoint remove_first {A} (f : A -> bool) (l : list A) : option (list A) :=
  match l with
  | [] => None
  | x :: l => if f x then Some l
              else match remove_first f l with Some l' => Some (x :: l') | None => None end
  end.

(** le_controller.cc:921-932 *)
Definition clear_accept_list (s : le) : le * status :=
  if accept_list_busy s then (s, COMMAND_DISALLOWED) else (with_accept [] s, SUCCESS).

Section WithConfig.
Variable cfg : config.

(** le_controller.cc:935-966 *)
Definition add_accept_list (t : accept_type) (a : list N) (s : le) : le * status :=
  if accept_list_busy s then (s, COMMAND_DISALLOWED)
  else if cfg_accept_size cfg <=? lenN (accept s) then (s, MEMORY_CAPACITY_EXCEEDED)
  else (with_accept (accept s ++ [(t, a)]) s, SUCCESS).

(** le_controller.cc:969-1003; a device which is not in the list is not an error *)
Definition remove_accept_list (t : accept_type) (a : list N) (s : le) : le * status :=
  if accept_list_busy s then (s, COMMAND_DISALLOWED)
  else match remove_first (accept_match t a) (accept s) with
       | Some l => (with_accept l s, SUCCESS)
       | None => (s, SUCCESS)
       end.

(** le_controller.cc:722-914: the identity of a resolving list entry *)
Definition is_identity (k : peer_type) (a : list N) (e : resolving_entry) : bool :=
  peer_type_eqb (peer_identity_type e) k && list_eqb (peer_identity_address e) a.

(** le_controller.cc:79-82 irk_is_zero *)
Definition irk_is_zero (irk : list N) : bool := forallb (fun b => b =? 0) irk.

(** le_controller.cc:722-766 *)
Definition add_resolving_list (k : peer_type) (a pirk lirk : list N) (s : le) : le * status :=
  if resolving_on s && resolving_list_busy s then (s, COMMAND_DISALLOWED)
  else if cfg_resolving_size cfg <=? lenN (resolving s) then (s, MEMORY_CAPACITY_EXCEEDED)
  else if existsb (fun e => is_identity k a e
                            || (list_eqb (peer_irk e) pirk && negb (irk_is_zero pirk))) (resolving s)
  then (s, INVALID_PARAMETERS)
  else (with_resolving (resolving s ++
          [{| peer_identity_type := k; peer_identity_address := a; peer_irk := pirk; local_irk := lirk;
              local_resolvable_address := None; peer_resolvable_address := None |}]) s, SUCCESS).

(** le_controller.cc:769-799 *)
Definition remove_resolving_list (k : peer_type) (a : list N) (s : le) : le * status :=
  if resolving_on s && resolving_list_busy s then (s, COMMAND_DISALLOWED)
  else match remove_first (is_identity k a) (resolving s) with
       | Some l => (with_resolving l s, SUCCESS)
       | None => (s, UNKNOWN_CONNECTION)
       end.

(** le_controller.cc:802-819 *)
Definition clear_resolving_list (s : le) : le * status :=
  if resolving_on s && resolving_list_busy s then (s, COMMAND_DISALLOWED)
  else (with_resolving [] s, SUCCESS).

(** le_controller.cc:822-865: [field] selects the peer's or the local address *)
Fixpoint find_resolvable (field : resolving_entry -> option (list N)) (k : peer_type) (a : list N)
  (l : list resolving_entry) : option (list N) :=
  match l with
  | [] => None
  | e :: l => if is_identity k a e
              then match field e with Some r => Some r | None => find_resolvable field k a l end
              else find_resolvable field k a l
  end.
Definition read_peer_resolvable (k : peer_type) (a : list N) (s : le) : option (list N) :=
  find_resolvable peer_resolvable_address k a (resolving s).
Definition read_local_resolvable (k : peer_type) (a : list N) (s : le) : option (list N) :=
  find_resolvable local_resolvable_address k a (resolving s).

(** le_controller.cc:868-884 *)
Definition set_address_resolution (on : bool) (s : le) : le * status :=
  if resolving_list_busy s then (s, COMMAND_DISALLOWED) else (with_resolving_on on s, SUCCESS).

(** le_controller.cc:887-914. The privacy mode of an entry is written by this
    command and read by none: it is not modelled. *)
Definition set_privacy_mode (k : peer_type) (a : list N) (s : le) : le * status :=
  if resolving_on s && resolving_list_busy s then (s, COMMAND_DISALLOWED)
  else if existsb (is_identity k a) (resolving s) then (s, SUCCESS) else (s, UNKNOWN_CONNECTION).

(** le_controller.cc:359-375 *)
Definition set_random_address (a : list N) (s : le) : le * status :=
  if l_enabled (legacy s) || scan_enabled (scan s) || init_enabled (init s)
  then (s, COMMAND_DISALLOWED)
  else if list_eqb a empty_address then (s, INVALID_PARAMETERS)
  else (with_random_address a s, SUCCESS).

(** le_controller.cc:212-222, 1031-1034 *)
Definition padv_match (k : peer_type) (a : list N) (sid : N) (e : peer_type * list N * N) : bool :=
  let '(k', a', sid') := e in peer_type_eqb k' k && list_eqb a' a && (sid' =? sid).

Definition is_some {A} (o : option A) : bool := match o with Some _ => true | None => false end.

(** le_controller.cc:1011-1043 *)
Definition add_padv (k : peer_type) (a : list N) (sid : N) (s : le) : le * status :=
  if is_some (syncing s) then (s, COMMAND_DISALLOWED)
  else if cfg_padv_size cfg <=? lenN (padv s) then (s, MEMORY_CAPACITY_EXCEEDED)
  else if existsb (padv_match k a sid) (padv s) then (s, INVALID_PARAMETERS)
  else (with_padv (padv s ++ [(k, a, sid)]) s, SUCCESS).

(** le_controller.cc:1047-1072 *)
Definition remove_padv (k : peer_type) (a : list N) (sid : N) (s : le) : le * status :=
  if is_some (syncing s) then (s, COMMAND_DISALLOWED)
  else match remove_first (padv_match k a sid) (padv s) with
       | Some l => (with_padv l s, SUCCESS)
       | None => (s, UNKNOWN_ADVERTISING_ID)
       end.

(** le_controller.cc:1075-1087 *)
Definition clear_padv (s : le) : le * status :=
  if is_some (syncing s) then (s, COMMAND_DISALLOWED) else (with_padv [] s, SUCCESS).

(** le_controller.cc:1125-1130 *)
Definition synced_match (k : peer_type) (a : list N) (sid : N) (d : synchronized) : bool :=
  peer_type_eqb (sd_kind d) k && list_eqb (sd_address d) a && (sd_sid d =? sid).

(** le_controller.cc:1094-1173; sync_timeout is in units of 10 ms *)
Definition create_sync (use_list no_report dup : bool) (sid : N) (k : peer_type) (a : list N)
  (sync_timeout cte : N) (s : le) : le * status :=
  if is_some (syncing s) then (s, COMMAND_DISALLOWED)
  else if N.land cte 31 =? 31 then (s, COMMAND_DISALLOWED)
  else if negb use_list && existsb (fun kv => synced_match k a sid (snd kv)) (synced s)
  then (s, CONNECTION_ALREADY_EXISTS)
  else if negb no_report && dup && negb (cfg_adi cfg) then (s, UNSUPPORTED_PARAMETER)
  else if no_report && negb (cfg_receive_enable cfg) then (s, CONNECTION_FAILED)
  else (with_syncing (Some (Synchronizing use_list k a sid (sync_timeout * 10000))) s, SUCCESS).

(** le_controller.cc:1176-1202; the event is sent by a task scheduled without delay *)
Definition cancel_sync (s : le) : le * status * list output :=
  if is_some (syncing s) then
    (with_syncing None s, SUCCESS,
     if le_event_unmasked s 14
     then [Notified (EvSyncEstablished OPERATION_CANCELLED 0 0 no_address 0)] else [])
  else (s, COMMAND_DISALLOWED, []).

(** le_controller.cc:1205-1215 *)
Definition terminate_sync (h : N) (s : le) : le * status :=
  if has (synced s) h then (with_synced (erase (synced s) h) s, SUCCESS)
  else (s, UNKNOWN_ADVERTISING_ID).

End WithConfig.
