(** Vocabulary for the properties of an LE connection. *)
From Verif Require Import Prelude LeLink.
Open Scope N_scope.

(** No packet is on its way *)
Definition quiet (s : system) : Prop := to_per s = [] /\ to_cen s = [].

(** ** PHYs *)
(** A set of PHYs, as a bit mask, contains a PHY: Vol 4, Part E, 7.8.48 *)
Definition allows (phys : N) (p : phy) : Prop := N.testbit phys (match p with LE_1M => 0 | LE_2M => 1 | LE_CODED => 2 end) = true.
(** The PHY chosen among those of two sets: coded first, then 2M, then 1M; the current
    one when there is none *)
Definition both_allow (a b : N) (current p : phy) : Prop :=
  (allows a p /\ allows b p /\ (p = LE_1M -> ~ (allows a LE_2M /\ allows b LE_2M)) /\ (p <> LE_CODED -> ~ (allows a LE_CODED /\ allows b LE_CODED)))
  \/ (p = current /\ forall q, ~ (allows a q /\ allows b q)).

(** The host of a side asked for a set of PHYs: the parameter, or all those supported *)
Definition asked_tx (c : command) (supported : N) : option N :=
  match c with
  | SetDefaultPhy no_tx _ tx _ | SetPhy no_tx _ tx _ => Some (if no_tx then supported else tx)
  | _ => None
  end.
Definition asked_rx (c : command) (supported : N) : option N :=
  match c with
  | SetDefaultPhy _ no_rx _ rx | SetPhy _ no_rx _ rx => Some (if no_rx then supported else rx)
  | _ => None
  end.
(** A set that the host of side [x] asked for, or that its controller had by default *)
Definition tx_preference (cfg : settings) (x : side) (h : list entry) (phys : N) : Prop :=
  phys = s_default_tx cfg \/
  exists m c ev, In (Entry (Host x m c) SUCCESS ev) h /\ asked_tx c (s_supported cfg) = Some phys.
Definition rx_preference (cfg : settings) (x : side) (h : list entry) (phys : N) : Prop :=
  phys = s_default_rx cfg \/
  exists m c ev, In (Entry (Host x m c) SUCCESS ev) h /\ asked_rx c (s_supported cfg) = Some phys.
Definition phy_of_other_link (e : entry) : Prop := exists m a b t r, what e = Host Central m (SetPhyElsewhere a b t r).

(** ** Connection parameters *)
(** Vol 6, Part B, 4.5.1 and 5.1.20; the interval is in units of 1.25 ms and the timeout
    in units of 10 ms: 2 * interval * 1.25 < timeout * 10 *)
Definition timeout_allows (i fac lat tmo : N) : Prop := i * fac * (lat + 1) < 4 * tmo.
(** A request that the Core specification lets the host make: Vol 4, Part E, 7.8.124 *)
Record valid_request (i smin smax lat cont tmo : N) : Prop := {
  vr_min : 1 <= smin <= smax; vr_max : smax <= 0x1f4; vr_latency : lat <= 0x1f3; vr_timeout : 0xa <= tmo <= 0xc80;
  vr_events : smax * (lat + 1) <= 500; vr_supervision : timeout_allows i smax lat tmo; vr_continuation : cont < smax }.
(** A request that a central must accept: Vol 6, Part B, 5.1.20 *)
Record compatible (i : N) (a : subrate) (fmin fmax lat tmo : N) : Prop := {
  co_min : sub_min a <= fmax; co_max : fmin <= sub_max a; co_latency : lat <= sub_latency a; co_timeout : tmo <= sub_timeout a;
  co_supervision : timeout_allows i fmin lat tmo }.

(** The hosts follow the procedures in which both ends learn the parameters: the central
    does not use LE Connection Update, the peripheral, which gets no request, does not
    reply to one, and requests are not refused with the status of success. *)
Definition in_step (o : op) : Prop :=
  match o with
  | Host Central _ (ConnectionUpdate _ _ _ _) => False
  | Host Peripheral _ (ParamReply _ _ _ _ _ _) => False
  | Host _ _ (ParamNegativeReply reason) => reason <> SUCCESS
  | _ => True
  end.
Definition all_in_step (h : list entry) : Prop := forall e, In e h -> in_step (what e).

(** The command leaves the interval alone *)
Definition keeps_interval (o : op) : Prop :=
  match o with
  | Host _ _ (ConnectionUpdate _ _ _ _) | Host _ _ (ParamReply _ _ _ _ _ _) | Host _ _ (ParamNegativeReply _) => False
  | _ => True
  end.

(** ** Encryption *)
(** Only the central starts the encryption, only the peripheral answers, with the key [k] *)
Definition same_key (k : list N) (o : op) : Prop :=
  match o with
  | Host Central _ (EnableEncryption k') => k' = k
  | Host Peripheral _ (EnableEncryption _) => False
  | Host Peripheral _ (LtkReply k') => k' = k
  | Host Central _ (LtkReply _) => False
  | Host Central _ LtkNegativeReply => False
  | _ => True
  end.

(** ** Disconnection *)
Definition closed_event (e : event) : bool := match e with DisconnectionComplete _ => true | _ => false end.
(** The number of disconnections told to the host of a side *)
Definition on_side (x : side) (o : op) : bool := match o with Host y _ _ | Deliver y _ => side_eqb x y end.
Fixpoint disconnections (x : side) (h : list entry) : nat :=
  match h with
  | [] => 0
  | e :: h => ((if on_side x (what e) then List.length (List.filter closed_event (events e)) else 0) + disconnections x h)%nat
  end.
Definition end_of (x : side) (s : system) : endpoint := match x with Central => cen s | Peripheral => per s end.
Definition mask_of (o : op) : mask := match o with Host _ m _ | Deliver _ m => m end.
