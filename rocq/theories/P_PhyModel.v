(** Property theorems C19, C20, C40 and C41: the test model. *)
From Verif Require Import Prelude Table PhyModel PhyModelSpec PhyModelProofs PhyModelTopology.
Open Scope N_scope.

(** C19: with address reuse (the default), the address generated for a new
    device is one of the 65536 with the configured prefix and no other device
    has it. *)
Theorem C19_generated_address_unused_partial :
  forall s s', reachable s -> reuse s = true -> step s (AddHci None) = Some s' ->
  exists d a, ~ present s d /\ address_of s' d = Some a /\ with_prefix (prefix s) a /\
    (forall e, e <> d -> address_of s' e = address_of s e /\ address_of s' e <> Some a).
Proof. exact add_hci_prefix. Qed.
Print Assumptions C19_generated_address_unused_partial.

(** C19: adding a device fails to return exactly when all 65536 addresses are in
    use, even when the caller gave an address. *)
Theorem C19_generation_terminates :
  forall s a, reachable s ->
  (step s (AddHci a) = None <-> reuse s = true /\
   forall b, with_prefix (prefix s) b -> exists d, address_of s d = Some b).
Proof. exact add_hci_hangs. Qed.
Print Assumptions C19_generation_terminates.

(** C19: when address reuse is disabled the claim is false. *)
Theorem C19_generated_address_unused_refuted :
  exists p ops s, run (init p) ops = Some s /\
  address_of s 0 = address_of s 1 /\ present s 0 /\ present s 1 /\
  exists a, ops = [SetReuse false; AddHci (Some a); AddHci None].
Proof. exact no_reuse_collides. Qed.
Print Assumptions C19_generated_address_unused_refuted.

(** C20: in every reachable topology a present device can send, it never hears
    itself, and any other device receives the packet once for each time it was
    attached to a layer of that type the sender is attached to. *)
Theorem C20_delivery_exact :
  forall s d ty, reachable s -> present s d ->
  exists rs, send s d ty = Some rs /\
  forall r, times r rs = if r =? d then 0%nat
    else fold_right (fun l n => (attachments s l r + n)%nat) 0%nat (shared s d ty).
Proof. exact send_exact. Qed.
Print Assumptions C20_delivery_exact.

(** C20: with one layer of the type, and no device attached twice, delivery is
    exactly once to the other devices on the layer. Missing from the full claim:
    several layers of the same type, and devices attached twice. *)
Theorem C20_delivery_exactly_once_partial :
  forall p ops s d ty l, run (init p) ops = Some s -> careful_run (init p) ops = true ->
  present s d -> of_type s ty = [l] ->
  exists rs, send s d ty = Some rs /\
  forall r, times r rs = if negb (r =? d) && is_attached s l d && is_attached s l r then 1%nat else 0%nat.
Proof. exact send_once. Qed.
Print Assumptions C20_delivery_exactly_once_partial.

(** C20: a device attached twice to the only layer gets each packet twice. *)
Theorem C20_delivery_once_refuted :
  exists s, reachable s /\ present s 0 /\ of_type s LowEnergy = [0] /\ send s 0 LowEnergy = Some [1; 1].
Proof. exact twice_attached. Qed.
Print Assumptions C20_delivery_once_refuted.

(** C20: two layers of the same type deliver twice, without any double attachment. *)
Theorem C20_delivery_once_two_layers_refuted :
  exists p ops s, run (init p) ops = Some s /\ careful_run (init p) ops = true /\ present s 0 /\
  send s 0 LowEnergy = Some [1; 1].
Proof. exact two_layers. Qed.
Print Assumptions C20_delivery_once_two_layers_refuted.

(** C20: devices on different layers of the same type do not hear each other. *)
Theorem C20_delivery_across_layers_refuted :
  exists p ops s, run (init p) ops = Some s /\ careful_run (init p) ops = true /\
  is_attached s 0 0 = true /\ is_attached s 1 1 = true /\ of_type s LowEnergy = [0; 1] /\
  send s 0 LowEnergy = Some [].
Proof. exact unshared_layers. Qed.
Print Assumptions C20_delivery_across_layers_refuted.

(** C40: no device keeps a pointer to a removed layer, and no layer delivers to
    a removed device. *)
Theorem C40_no_dangling_layer :
  forall s, reachable s ->
  (forall d dv l, lookup (devices s) d = Some dv -> In l (attached dv) -> In l (keys (layers s))) /\
  (forall l ly d, lookup (layers s) l = Some ly -> In d (members ly) -> present s d).
Proof. exact never_dangling. Qed.
Print Assumptions C40_no_dangling_layer.

(** C40: every operation changes the devices and their attachments exactly as specified. *)
Theorem C40_topology_exact :
  forall s o s', reachable s -> step s o = Some s' ->
  (forall d, present s' d <-> present_after s o d) /\
  (forall l d, attachments s' l d = attachments_after s o l d).
Proof. exact (fun s o s' R S => conj (step_present s o s' R S) (step_attachments s o s' R S)). Qed.
Print Assumptions C40_topology_exact.

(** C41: the timer ticks with the last period set if it was started, and not at
    all if it was stopped, as long as it is not started while running. *)
Theorem C41_timer_one_task_partial :
  forall ops, alternating timer_init ops = true ->
  ticking (timer_run ops) =
    (if task (timer_run ops) =? 0 then [] else [(task (timer_run ops), period (timer_run ops))]) /\
  ticking (timer_step (timer_run ops) StopTimer) = [].
Proof. exact (fun ops A => conj (timer_exact ops A) (timer_stop ops A)). Qed.
Print Assumptions C41_timer_one_task_partial.

(** C41: started twice, the timer cannot be stopped any more. *)
Theorem C41_timer_stops_refuted : exists ops, ticking (timer_step (timer_run ops) StopTimer) <> [].
Proof. exact timer_leak. Qed.
Print Assumptions C41_timer_stops_refuted.
