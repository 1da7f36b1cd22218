(** Property C112: the event masks decide which events the host hears of, and nothing else. *)
From Verif Require Import Prelude Address Rpa Table LeTypes LeAdvertise LeLists LeScan LeInitiate LeHost EventMaskLe MaskViewSpec MaskViewProofs MaskViewWitness.
Open Scope N_scope.

Theorem C112_step_alike : forall aes rng cfg now s t o o', same_but_masks s t -> same_op o o' ->
  alike s t (step aes rng cfg now s o) (step aes rng cfg now t o').
Proof. exact step_alike. Qed.
Print Assumptions C112_step_alike.

Theorem C112_same_packets : forall aes rng cfg h k, same_history h k -> forall s t, same_but_masks s t ->
  match run aes rng cfg s h, run aes rng cfg t k with
  | Some (s', o), Some (t', o') => same_but_masks s' t' /\ packets o = packets o'
  | None, None => True
  | _, _ => False
  end.
Proof. exact run_alike. Qed.
Print Assumptions C112_same_packets.

Theorem C112_seen_alike : forall aes rng cfg h, forallb (fun x => negb (changes_masks (snd x))) h = true ->
  forall s t, same_but_masks s t ->
  match run aes rng cfg s h, run aes rng cfg t h with
  | Some (s', o), Some (t', o') => same_but_masks s' t' /\ seen_alike s t o o'
  | None, None => True
  | _, _ => False
  end.
Proof. exact run_seen_alike. Qed.
Print Assumptions C112_seen_alike.

Theorem C112_heard_exactly : forall aes rng cfg now s o s' st out, changes_masks o = false -> step aes rng cfg now s o = Ok s' st out ->
  exists t' out', step aes rng cfg now (unmasked s) o = Ok t' st out'
    /\ events out = filter (fun e => passes s (code_of e)) (events out').
Proof. exact step_events. Qed.
Print Assumptions C112_heard_exactly.

Theorem C112_masks_are_set : forall aes rng cfg addr h s o, run aes rng cfg (new_le addr) h = Some (s, o) ->
  (event_mask s, event_mask_2 s, le_mask s) = masks_set h.
Proof. exact masks_are_set. Qed.
Print Assumptions C112_masks_are_set.

Theorem C112_witness : forall aes rng cfg,
  same_history (story 0 0) (story (N.ones 64) 31) /\
  (exists s o, run aes rng cfg (new_le own_addr) (story 0 0) = Some (s, o)
     /\ o = [Sent (AirScan (AWT own_addr PUBLIC_DEVICE) advertiser);
             Sent (AirConnectComplete central (AWT own_addr PUBLIC_DEVICE) 24 0 500)]) /\
  (exists s o, run aes rng cfg (new_le own_addr) (story (N.ones 64) 31) = Some (s, o)
     /\ o = [Notified (EvReport advertiser 0 [1; 2]); Sent (AirScan (AWT own_addr PUBLIC_DEVICE) advertiser);
             Notified (EvConnectionComplete SUCCESS 512 false central 24 0 500);
             Sent (AirConnectComplete central (AWT own_addr PUBLIC_DEVICE) 24 0 500)]) /\
  (exists s o, run aes rng cfg (new_le own_addr) (story (N.ones 64) (N.ones 64)) = Some (s, o)
     /\ o = [Notified (EvReport advertiser 0 [1; 2]); Sent (AirScan (AWT own_addr PUBLIC_DEVICE) advertiser);
             Notified (EvEnhancedConnectionComplete SUCCESS 512 false central empty_address empty_address 24 0 500);
             Sent (AirConnectComplete central (AWT own_addr PUBLIC_DEVICE) 24 0 500)]).
Proof. exact masks_witness. Qed.
Print Assumptions C112_witness.
