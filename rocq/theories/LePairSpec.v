(** Two LE controllers on the same radio channel, one of which connects to the other.

    Vocabulary for the statements: the packets that each controller sends are delivered to
    the other one, unchanged and in order (model/phy/phy_layer.cc delivers a packet at once,
    a link layer socket later). Everything else is free: the commands of both hosts, the ticks,
    the moments at which the packets arrive. *)
From Verif Require Import Prelude Address Rpa Table LeTypes LeAdvertise LeLists LeScan LeInitiate LeHost.
Open Scope N_scope.

(** The phone looks for the watch. The packets under way come with the oldest first. *)
Record pair := Pair { phone : le; watch : le; to_watch : list air; to_phone : list air }.

Definition packets (o : list output) : list air := flat_map (fun x => match x with Sent p => [p] | Notified _ => [] end) o.

(** Who does what, and what is sent *)
Inductive deed :=
| PhoneDoes (o : op) (sent : list air)
| WatchDoes (o : op) (sent : list air).

Definition local_step (o : op) : Prop := match o with Receive _ => False | _ => True end.

Section Pair.
Variable aes : list N -> list N -> list N.
Variables rng1 rng2 : N -> N.
Variables cfg1 cfg2 : config.

Inductive moves : pair -> deed -> pair -> Prop :=
| phone_does : forall p now o s' st out, local_step o -> step aes rng1 cfg1 now (phone p) o = Ok s' st out ->
    moves p (PhoneDoes o (packets out)) (Pair s' (watch p) (to_watch p ++ packets out) (to_phone p))
| watch_does : forall p now o s' st out, local_step o -> step aes rng2 cfg2 now (watch p) o = Ok s' st out ->
    moves p (WatchDoes o (packets out)) (Pair (phone p) s' (to_watch p) (to_phone p ++ packets out))
| phone_hears : forall p now q l s' st out, to_phone p = q :: l -> step aes rng1 cfg1 now (phone p) (Receive q) = Ok s' st out ->
    moves p (PhoneDoes (Receive q) (packets out)) (Pair s' (watch p) (to_watch p ++ packets out) l)
| watch_hears : forall p now q l s' st out, to_watch p = q :: l -> step aes rng2 cfg2 now (watch p) (Receive q) = Ok s' st out ->
    moves p (WatchDoes (Receive q) (packets out)) (Pair (phone p) s' l (to_phone p ++ packets out)).

(** Where two controllers can get by moves that satisfy [ok] *)
Inductive reaches (ok : pair -> deed -> pair -> Prop) : pair -> Prop :=
| switched_on : forall a b, reaches ok (Pair (new_le a) (new_le b) [] [])
| goes_on : forall p m p', reaches ok p -> moves p m p' -> ok p m p' -> reaches ok p'.
End Pair.

Definition anyhow (p : pair) (m : deed) (p' : pair) : Prop := True.

(** A packet that makes or ends a connection *)
Definition connecting (q : air) : bool :=
  match q with AirConnect _ _ _ _ _ | AirConnectComplete _ _ _ _ _ | AirDisconnect _ _ _ => true | _ => false end.
Definition is_request (q : air) : bool := match q with AirConnect _ _ _ _ _ => true | _ => false end.
Definition is_response (q : air) : bool := match q with AirConnectComplete _ _ _ _ _ => true | _ => false end.

(** A connection of [s] between the addresses [own] and [peer] *)
Definition has_link (s : le) (own peer : list N) : Prop :=
  exists h c, In (h, c) (conns s) /\ awt_addr (c_own c) = own /\ awt_addr (c_peer c) = peer.

(** The watch does not try to connect. The phone asks for a connection only while no request
    or response is under way and it has no connection between these addresses; and it takes
    the response that it gets. *)
Definition careful (p : pair) (m : deed) (p' : pair) : Prop :=
  match m with
  | WatchDoes (Command (CreateConnection _ _ _ _ | ExtCreateConnection _ _ _ _ _)) _ => False
  | WatchDoes _ _ => True
  | PhoneDoes o sent =>
      (forall a adv i lat sup, In (AirConnect a adv i lat sup) sent ->
         ~ has_link (phone p) (awt_addr a) (awt_addr adv) /\ existsb is_request (to_watch p) = false /\ existsb is_response (to_phone p) = false) /\
      match o with
      | Receive (AirConnectComplete _ _ _ _ _) => conns (phone p') <> conns (phone p)
      | _ => True
      end
  end.

(** The two ends of one connection *)
Definition mirror (c c' : le_conn) : Prop :=
  c_central c = true /\ c_central c' = false /\ c_peer c = c_own c' /\ c_own c = c_peer c' /\
  c_interval c = c_interval c' /\ c_latency c = c_latency c' /\ c_supervision c = c_supervision c'.

Definition at_rest (p : pair) : Prop := existsb connecting (to_watch p) = false /\ existsb connecting (to_phone p) = false.

(** The phone neither resets, nor cancels its attempt, nor hears a response *)
Definition pending (m : deed) : Prop :=
  match m with
  | PhoneDoes (Command (Reset | CancelConnection)) _ => False
  | PhoneDoes (Receive (AirConnectComplete _ _ _ _ _)) _ => False
  | _ => True
  end.

Inductive leads (aes : list N -> list N -> list N) (rng1 rng2 : N -> N) (cfg1 cfg2 : config) (ok : deed -> Prop) : pair -> pair -> Prop :=
| stays : forall p, leads aes rng1 rng2 cfg1 cfg2 ok p p
| leads_on : forall p p' m p'', leads aes rng1 rng2 cfg1 cfg2 ok p p' -> moves aes rng1 rng2 cfg1 cfg2 p' m p'' -> ok m -> leads aes rng1 rng2 cfg1 cfg2 ok p p''.
