(** A radio channel and the devices on it: model/setup/phy_layer.cc 47-71 (ComputeRssi,
    Send, Tick), model/setup/phy_device.cc 35-64 (Tick, Receive, Send),
    model/setup/test_model.cc 260-264 (Tick) and model/devices/beacon.cc.

    A packet is delivered by a call: the sender calls the receivers one after the other
    while its own function has not returned, and a receiver may send packets itself, or
    be called again, before it returns. So the calls in progress are a stack. What a
    device does is a program over its own state, which ends; the devices are arbitrary
    here, and beacons and controllers below are two kinds of them. Simplifications: the
    topology does not change during a tick (the changes are made by other tasks, C110);
    packets that do not parse (phy_device.cc 46-56) are left out. *)
From Verif Require Import Prelude.
Open Scope N_scope.

Section Channel.
Variables P D : Type.

(** What a call of a device does: nothing more, a change of its state after which it goes
    on depending on what the state was, or a packet sent. *)
Inductive prog := Return | Do (f : D -> D) (k : D -> prog) | Emit (p : P) (k : prog).

(** The calls in progress: the tick of a device that has not begun, a device, and the
    delivery of a packet to the devices that are left. *)
Inductive frame := Waiting (d : N) | Running (d : N) (c : prog) | Delivering (d : N) (p : P) (left : list N).

Record state := { mem : N -> D; stack : list frame; rssi : N }.

Inductive event := Sent (d : N) (p : P) | Heard (r d : N) (p : P) (strength : Z).

(** Who hears a device, in order and once for each attachment (C20), and what the devices
    do. [tick d now] and [receive d p rssi]. *)
Variable receivers : N -> list N.
Variable tick : N -> Z -> prog.
Variable receive : N -> P -> Z -> prog.

(** ComputeRssi, phy_layer.cc 47-55: rssi is a uint8_t; the result is an int8_t. *)
Definition next_rssi (r : N) : N := (r + 5) mod 128.
Definition strength (r : N) : Z := (- Z.of_N r)%Z.

Definition update (m : N -> D) (d : N) (f : D -> D) : N -> D := fun e => if e =? d then f (m e) else m e.

(** One step of the calls in progress, at time [now]. *)
Definition step (now : Z) (s : state) : option (state * list event) :=
  match stack s with
  | [] => None
  | Waiting d :: l => Some ({| mem := mem s; stack := Running d (tick d now) :: l; rssi := rssi s |}, [])
  | Running d Return :: l => Some ({| mem := mem s; stack := l; rssi := rssi s |}, [])
  | Running d (Do f k) :: l =>
      Some ({| mem := update (mem s) d f; stack := Running d (k (mem s d)) :: l; rssi := rssi s |}, [])
  | Running d (Emit p k) :: l =>
      Some ({| mem := mem s; stack := Delivering d p (receivers d) :: Running d k :: l; rssi := rssi s |}, [Sent d p])
  | Delivering d p [] :: l => Some ({| mem := mem s; stack := l; rssi := rssi s |}, [])
  | Delivering d p (r :: rs) :: l =>
      let n := next_rssi (rssi s) in
      Some ({| mem := mem s; stack := Running r (receive r p (strength n)) :: Delivering d p rs :: l; rssi := n |},
            [Heard r d p (strength n)])
  end.

(** The simulation: the devices [ds] are ticked in order, when nothing is in progress. *)
Inductive input := Tick (ds : list N) | Go (now : Z).
Definition act (s : state) (i : input) : option (state * list event) :=
  match i with
  | Tick ds => match stack s with
               | [] => Some ({| mem := mem s; stack := map Waiting ds; rssi := rssi s |}, [])
               | _ => None
               end
  | Go now => step now s
  end.
Fixpoint run (s : state) (l : list input) : option (state * list event) :=
  match l with
  | [] => Some (s, [])
  | i :: l =>
      match act s i with
      | Some (s, o) => match run s l with Some (s2, o2) => Some (s2, o ++ o2) | None => None end
      | None => None
      end
  end.
Definition start (m : N -> D) : state := {| mem := m; stack := []; rssi := 0 |}.
End Channel.

Arguments Return {P D}.
Arguments Do {P D}.
Arguments Emit {P D}.
Arguments Waiting {P D}.
Arguments Running {P D}.
Arguments Delivering {P D}.
Arguments Sent {P}.
Arguments Heard {P}.
Arguments mem {P D}.
Arguments stack {P D}.
Arguments rssi {P D}.
Arguments step {P D}.
Arguments act {P D}.
Arguments run {P D}.
Arguments start {P D}.

(** ** Devices *)
Section Devices.
Variables P X : Type.

(** Beacon (beacon.h, beacon.cc 36-54): its address, the interval and the time of the last
    packet, which begins as the zero of the clock. *)
Record beacon := { address : list N; interval : Z; last : Z }.
(** A controller: its state, and the packets that wait for its next tick
    (le_controller.cc 4072-4078 and bredr_controller.cc 1333-1339, the only places where
    controllers send, give them to the scheduler). The device of a client of the link
    layer port (link_layer_socket_device.cc): its state. *)
Inductive device := Beacon (b : beacon) | Controller (x : X) (box : list P) | Socket (x : X).

(** What a controller does with a packet or at the end of a tick, and the packets it then
    gives to the scheduler; what the device of a client reads from its socket and does
    with packets; the packet of a beacon. *)
Variable think : N -> X -> P -> Z -> X * list P.
Variable work : N -> Z -> X -> X * list P.
Variable read : N -> Z -> X -> X * option P.
Variable write : N -> X -> P -> X.
Variable advert : list N -> P.

Fixpoint emit (l : list P) (c : prog P device) : prog P device := match l with [] => c | p :: l => Emit p (emit l c) end.

(** beacon.cc 56-66; le_controller.cc 6323-6327 with 6689-6710 and bredr_controller.cc
    2060-2065: the packets that wait are sent in the order of the scheduler (C18), then the
    controller does what is to be done now; packets given to the scheduler meanwhile are due
    later. link_layer_socket_device.cc 43-87: at most one packet is read. *)
Definition due (now : Z) (b : beacon) : bool := (interval b <=? now - last b)%Z.
Definition after_tick (d : N) (now : Z) : prog P device :=
  Do (fun v => match v with
               | Controller x box => Controller (fst (work d now x)) (box ++ snd (work d now x))
               | _ => v
               end)
     (fun _ => Return).
Definition tick_device (d : N) (now : Z) : prog P device :=
  Do (fun v => match v with
               | Beacon b => Beacon (if due now b then {| address := address b; interval := interval b; last := now |} else b)
               | Controller x box => Controller x []
               | Socket x => Socket (fst (read d now x))
               end)
     (fun v => match v with
               | Beacon b => emit (if due now b then [advert (address b)] else []) Return
               | Controller x box => emit box (after_tick d now)
               | Socket x => emit (match snd (read d now x) with Some p => [p] | None => [] end) Return
               end).
(** beacon.cc 68-80: the advertising type is never one of the two that are answered;
    link_layer_socket_device.cc 96-107. *)
Definition receive_device (d : N) (p : P) (rssi : Z) : prog P device :=
  Do (fun v => match v with
               | Beacon b => Beacon b
               | Controller x box => let '(x, out) := think d x p rssi in Controller x (box ++ out)
               | Socket x => Socket (write d x p)
               end)
     (fun _ => Return).
End Devices.

Arguments Beacon {P X}.
Arguments Controller {P X}.
Arguments Socket {P X}.
Arguments after_tick {P X}.
Arguments tick_device {P X}.
Arguments receive_device {P X}.
Arguments emit {P X}.
