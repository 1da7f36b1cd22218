(** Property C111: the packets on a radio channel. *)
From Coq Require Import Permutation.
From Verif Require Import Prelude Table Address PhyModel PhyModelSpec Channel ChannelSpec ChannelProofs ChannelPhy ChannelWitness.
Open Scope N_scope.

Theorem C111_all_heard : forall (P D : Type) receivers tick (receive : N -> P -> Z -> prog P D) m l s o r,
  run receivers tick receive (start m) l = Some (s, o) -> idle s -> Permutation (heard r o) (meant receivers r (sent o)).
Proof. exact @all_heard. Qed.
Print Assumptions C111_all_heard.

Theorem C111_heard_in_order : forall (P D : Type) receivers tick (receive : N -> P -> Z -> prog P D) m l s o r,
  discreet receive -> run receivers tick receive (start m) l = Some (s, o) -> idle s ->
  heard r o = meant receivers r (sent o).
Proof. exact @heard_in_order. Qed.
Print Assumptions C111_heard_in_order.

Theorem C111_heard_so_far : forall (P D : Type) receivers tick (receive : N -> P -> Z -> prog P D) m l s o r,
  discreet receive -> run receivers tick receive (start m) l = Some (s, o) ->
  exists rest, heard r o ++ rest = meant receivers r (sent o).
Proof. exact @heard_so_far. Qed.
Print Assumptions C111_heard_so_far.

Theorem C111_always_ends : forall (P D : Type) receivers tick (receive : N -> P -> Z -> prog P D) s,
  discreet receive -> ends receivers tick receive s.
Proof. exact @always_ends. Qed.
Print Assumptions C111_always_ends.

Theorem C111_goes_on : forall (P D : Type) receivers tick (receive : N -> P -> Z -> prog P D) now s,
  ~ idle s -> exists s' o, step receivers tick receive now s = Some (s', o).
Proof. exact @goes_on. Qed.
Print Assumptions C111_goes_on.

Theorem C111_strength : forall (P D : Type) receivers tick (receive : N -> P -> Z -> prog P D) m l s o,
  run receivers tick receive (start m) l = Some (s, o) -> rssi s < 128 /\
  forall r d p n, In (Heard r d p n) o -> (-127 <= n <= 0)%Z.
Proof. exact @rssi_bound. Qed.
Print Assumptions C111_strength.

Theorem C111_devices_discreet : forall (P X : Type) (think : N -> X -> P -> Z -> X * list P) write,
  discreet (receive_device think write).
Proof. exact @devices_discreet. Qed.
Print Assumptions C111_devices_discreet.

Theorem C111_heard_on_layer : forall (P X : Type) (think : N -> X -> P -> Z -> X * list P) work (read : N -> Z -> X -> X * option P) (write : N -> X -> P -> X) advert p ops topology ty layer m l (s : state P (device P X)) o r,
  PhyModel.run (init p) ops = Some topology -> careful_run (init p) ops = true -> of_type topology ty = [layer] ->
  Channel.run (hearers topology ty) (tick_device work read advert) (receive_device think write) (start m) l = Some (s, o) -> idle s ->
  (forall d q, In (d, q) (sent o) -> present topology d) ->
  heard r o = filter (fun x => negb (r =? fst x) && is_attached topology layer (fst x) && is_attached topology layer r) (sent o).
Proof. exact @heard_on_layer. Qed.
Print Assumptions C111_heard_on_layer.

Theorem C111_ticked : forall (P X : Type) receivers (think : N -> X -> P -> Z -> X * list P) work (read : N -> Z -> X -> X * option P) (write : N -> X -> P -> X) advert d s l now s' o,
  idle s -> run receivers (tick_device work read advert) (receive_device think write) s (Tick [d] :: Go now :: map Go l) = Some (s', o) -> idle s' ->
  sent o = map (pair d) (match mem s d with
                         | Beacon b => if due now b then [advert (address b)] else []
                         | Controller x box => box
                         | Socket x => match snd (read d now x) with Some p => [p] | None => [] end
                         end).
Proof. exact @ticked. Qed.
Print Assumptions C111_ticked.

Theorem C111_received_later : forall (P X : Type) receivers (think : N -> X -> P -> Z -> X * list P) work (read : N -> Z -> X -> X * option P) (write : N -> X -> P -> X) advert d x box p n m st r,
  exists m', step receivers (tick_device work read advert) (receive_device think write) 0 {| mem := m; stack := Running d (receive_device think write d p n) :: st; rssi := r |} = Some ({| mem := m'; stack := Running d Return :: st; rssi := r |}, [])
  /\ (m d = Controller x box -> m' d = Controller (fst (think d x p n)) (box ++ snd (think d x p n))) /\ (forall e, e <> d -> m' e = m e).
Proof. exact @received_later. Qed.
Print Assumptions C111_received_later.

Theorem C111_worked : forall (P X : Type) receivers (think : N -> X -> P -> Z -> X * list P) work (read : N -> Z -> X -> X * option P) (write : N -> X -> P -> X) advert d x box now m st r,
  exists m', step receivers (tick_device work read advert) (receive_device think write) 0 {| mem := m; stack := Running d (after_tick work d now) :: st; rssi := r |} = Some ({| mem := m'; stack := Running d Return :: st; rssi := r |}, [])
  /\ (m d = Controller x box -> m' d = Controller (fst (work d now x)) (box ++ snd (work d now x))) /\ (forall e, e <> d -> m' e = m e).
Proof. exact @worked. Qed.
Print Assumptions C111_worked.

Theorem C111_controller_sends : forall (P X : Type) receivers (think : N -> X -> P -> Z -> X * list P) work (read : N -> Z -> X -> X * option P) (write : N -> X -> P -> X) advert d x m l s o,
  m d = Controller x [] -> run receivers (tick_device work read advert) (receive_device think write) (start m) l = Some (s, o) -> idle s ->
  exists y box, mem s d = Controller y box /\ sent_by d o ++ box = given receivers (tick_device work read advert) (receive_device think write) d (start m) l.
Proof. exact @controller_sends. Qed.
Print Assumptions C111_controller_sends.

Theorem C111_beacon_sends : forall (P X : Type) receivers (think : N -> X -> P -> Z -> X * list P) work (read : N -> Z -> X -> X * option P) (write : N -> X -> P -> X) advert d b m l s o,
  m d = Beacon b -> run receivers (tick_device work read advert) (receive_device think write) (start m) l = Some (s, o) -> idle s ->
  exists times, spaced (interval b) (last b) (ticks_of receivers (tick_device work read advert) (receive_device think write) d (start m) l) times
  /\ sent_by d o = map (fun _ => advert (address b)) times.
Proof. exact @beacon_sends. Qed.
Print Assumptions C111_beacon_sends.

Theorem C111_witness : exists topology s o,
  PhyModel.run (init [0; 0; 0; 0]) topology_ops = Some topology /\ careful_run (init [0; 0; 0; 0]) topology_ops = true
  /\ of_type topology LowEnergy = [0]
  /\ Channel.run (hearers topology LowEnergy) (tick_device says nothing (fun _ => 10)) (receive_device counts ignores) (start world) two_ticks = Some (s, o)
  /\ idle s /\ (forall d q, In (d, q) (sent o) -> present topology d)
  /\ sent o = [(0, 10); (1, 20); (2, 30)] /\ heard 0 o = [(1, 20); (2, 30)] /\ heard 1 o = [(0, 10); (2, 30)]
  /\ ticks_of (hearers topology LowEnergy) (tick_device says nothing (fun _ => 10)) (receive_device counts ignores) 0 (start world) two_ticks = [150; 200]%Z
  /\ sent_by 0 o = [10]
  /\ given (hearers topology LowEnergy) (tick_device says nothing (fun _ => 10)) (receive_device counts ignores) 2 (start world) two_ticks = [30; 30]
  /\ sent_by 2 o = [30].
Proof. exact channel_witness. Qed.
Print Assumptions C111_witness.

Theorem C111_answers_endless_witness : exists (receivers : N -> list N) (program : prog N unit) s o,
  Channel.run receivers (fun _ _ => program) (fun _ _ _ => program) (start (fun _ => tt)) [Tick [0]] = Some (s, o)
  /\ ~ ends receivers (fun _ _ => program) (fun _ _ _ => program) s.
Proof. exact endless. Qed.
Print Assumptions C111_answers_endless_witness.

Theorem C111_answers_reversed_witness : exists (receivers : N -> list N) (tick : N -> Z -> prog N unit) l s o,
  Channel.run receivers tick answers (start (fun _ => tt)) l = Some (s, o) /\ idle s
  /\ sent o = [(1, 0); (2, 1); (1, 2)] /\ meant receivers 3 (sent o) = [(1, 0); (2, 1); (1, 2)]
  /\ heard 3 o = [(1, 2); (2, 1); (1, 0)].
Proof. exact reversed. Qed.
Print Assumptions C111_answers_reversed_witness.
