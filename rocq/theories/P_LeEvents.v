(** Property C73, continued: a set that advertises on its own sends as many packets as it was enabled for. *)
From Verif Require Import Prelude Address Rpa Table LeTypes LeAdvertise LeLists LeScan LeInitiate LeHost LeHistory LeOutputs LeListsSpec LeAdvertSpec LeFilterSpec LeTimeSpec LeEventsSpec LeEvents LeListsWitness LeParamsWitness LeAdvertWitness LeFilterWitness LeTimeWitness LeEventsWitness.
Open Scope N_scope.

Theorem C73_alone_limited : forall aes rng cfg x h s t d,
  history aes rng cfg h s -> (forall e, In e h -> alone x e) -> is_enabled s x ->
  enabled_by x h = Some (t, d) -> adverts_since x h <= en_max d.
Proof. exact alone_limited_events. Qed.
Print Assumptions C73_alone_limited.

Theorem C73_alone_exact : forall aes rng cfg x h s now s' st out t d,
  history aes rng cfg h s -> (forall e, In e h -> alone x e) -> is_enabled s x -> enabled_by x h = Some (t, d) ->
  step aes rng cfg now s Tick = Ok s' st out -> ~ is_enabled s' x ->
  adverts out = 0 /\ ((en_duration d <> 0 /\ t + en_duration d * 10000 <= now) \/ adverts_since x h = en_max d)
  /\ (unmasked s (EvSetTerminated ADVERTISING_TIMEOUT x 0 (adverts_since x h)) ->
      In (Notified (EvSetTerminated ADVERTISING_TIMEOUT x 0 (adverts_since x h))) out).
Proof. exact alone_exact. Qed.
Print Assumptions C73_alone_exact.

Theorem C73_alone_witness : forall aes rng, exists h s s' out,
  history aes rng default_config h s /\ (forall e, In e h -> alone 1 e) /\ is_enabled s 1
  /\ enabled_by 1 h = Some (200000, EnabledSet 1 0 2) /\ adverts_since 1 h = 2 /\ adverts_sent h = 3
  /\ step aes rng default_config 500000 s Tick = Ok s' None out /\ ~ is_enabled s' 1
  /\ out = [Notified (EvSetTerminated ADVERTISING_TIMEOUT 1 0 2)].
Proof. exact alone_witness. Qed.
Print Assumptions C73_alone_witness.
