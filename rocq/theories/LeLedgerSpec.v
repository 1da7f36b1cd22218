(** What the host of an LE controller can know about its connections from the events alone. *)
From Verif Require Import Prelude Address Rpa Table LeTypes LeAdvertise LeLists LeScan LeInitiate LeHost LeHistory.
Open Scope N_scope.

(** A connection as the host is told of it; [k_peer] is the address used on the air *)
Record link := Link { k_handle : N; k_central : bool; k_peer : list N; k_interval : N; k_latency : N; k_supervision : N }.

Definition notified (o : list output) : list event := flat_map (fun x => match x with Notified e => [e] | Sent _ => [] end) o.

(** The effect of an event on the list kept by the host *)
Definition note (l : list link) (e : event) : list link :=
  match e with
  | EvConnectionComplete SUCCESS h c peer i lat sup => Link h c (awt_addr peer) i lat sup :: l
  | EvEnhancedConnectionComplete SUCCESS h c peer _ peer_rpa i lat sup =>
      (* the address is the identity of the peer when its private address is given apart *)
      Link h c (if list_eqb peer_rpa empty_address then awt_addr peer else peer_rpa) i lat sup :: l
  | EvDisconnection h _ => List.filter (fun k => negb (k_handle k =? h)) l
  | _ => l
  end.
(** The list of a host that starts again at each Reset; the latest step comes first *)
Fixpoint links (h : list entry) : list link :=
  match h with
  | [] => []
  | e :: h => match what e with Command Reset => [] | _ => fold_left note (notified (sent e)) (links h) end
  end.

(** The commands that start a connection, accepted since the last Reset *)
Fixpoint attempts (h : list entry) : N :=
  match h with
  | [] => 0
  | e :: h =>
      match what e, status_of e with
      | Command Reset, _ => 0
      | Command (CreateConnection _ _ _ _ | ExtCreateConnection _ _ _ _ _), Some SUCCESS => 1 + attempts h
      | _, _ => attempts h
      end
  end.
(** The events that answer them: a Connection Complete as central. The one that ends
    directed advertising has this role too and is told apart by its status. *)
Definition answer (e : event) : N :=
  match e with
  | EvConnectionComplete ADVERTISING_TIMEOUT _ _ _ _ _ _ | EvEnhancedConnectionComplete ADVERTISING_TIMEOUT _ _ _ _ _ _ _ _ => 0
  | EvConnectionComplete _ _ true _ _ _ _ | EvEnhancedConnectionComplete _ _ true _ _ _ _ _ _ => 1
  | _ => 0
  end.
Fixpoint answers (h : list entry) : N :=
  match h with
  | [] => 0
  | e :: h => match what e with Command Reset => 0 | _ => fold_right (fun e n => answer e + n) 0 (notified (sent e)) + answers h end
  end.
(** The host waits for an answer *)
Definition waiting (h : list entry) : bool := answers h <? attempts h.

(** ** Masks: Vol 4, Part E, 7.3.1 and 7.8.1 *)
Fixpoint event_mask_of (h : list entry) : N :=
  match h with
  | [] => 0x00001fffffffffff
  | e :: h => match what e with Command Reset => 0x00001fffffffffff | Command (SetEventMask m) => m | _ => event_mask_of h end
  end.
Fixpoint le_mask_of (h : list entry) : N :=
  match h with
  | [] => 0x1f
  | e :: h => match what e with Command Reset => 0x1f | Command (LeSetEventMask m) => m | _ => le_mask_of h end
  end.
(** Disconnection Complete, LE Meta, and one of the two Connection Complete events are enabled *)
Definition listening (h : list entry) : Prop :=
  N.testbit (event_mask_of h) 4 = true /\ N.testbit (event_mask_of h) 61 = true /\ (N.testbit (le_mask_of h) 0 = true \/ N.testbit (le_mask_of h) 9 = true).
(** The steps that can make or end a connection or an attempt *)
Definition concerns_links (o : op) : bool :=
  match o with
  | Receive (AirConnect _ _ _ _ _ | AirConnectComplete _ _ _ _ _ | AirDisconnect _ _ _) | Command (CancelConnection | Disconnect _ _ _) => true
  | _ => false
  end.
Fixpoint hears (h : list entry) : Prop :=
  match h with
  | [] => True
  | e :: h => hears h /\ (concerns_links (what e) = true -> listening h)
  end.

(** A response to a connection request arrives only while the host waits for it *)
Fixpoint in_time (h : list entry) : Prop :=
  match h with
  | [] => True
  | e :: h => in_time h /\ (forall i adv x y z, what e = Receive (AirConnectComplete i adv x y z) -> waiting h = true)
  end.

(** The connections that the controller has *)
Definition links_of (s : le) : list link :=
  map (fun kv => Link (fst kv) (c_central (snd kv)) (awt_addr (c_peer (snd kv))) (c_interval (snd kv)) (c_latency (snd kv)) (c_supervision (snd kv))) (conns s).
