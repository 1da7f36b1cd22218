(** Property C114: advertising keeps the interval its host gave. *)
From Verif Require Import Prelude Address Rpa Table LeTypes LeAdvertise LeLists LeScan LeInitiate LeHost LeHistory LeOutputs LeListsSpec LeAdvertSpec LeFilterSpec LeTimeSpec LeEventsSpec LeTimeCount LePaceSpec LePaceTrainSpec LePace LePaceTrain LePaceLegacy LeListsWitness LeParamsWitness LeAdvertWitness LeFilterWitness LeTimeWitness LePaceWitness.
Open Scope N_scope.

Theorem C114_paced : forall aes rng cfg x h s now s' st out,
  history aes rng cfg h s -> (forall e, In e h -> lone x e) -> step aes rng cfg now s Tick = Ok s' st out ->
  (is_enabled s' x -> exists t d e, enabled_by x h = Some (t, d) /\ set_given x h = Some e
     /\ adverts out = if t + adverts_since x h * (e_min e * 625) <=? now then 1 else 0)
  /\ (~ is_enabled s' x -> adverts out = 0).
Proof. exact paced. Qed.
Print Assumptions C114_paced.

Theorem C114_pace_bound : forall aes rng cfg h s x e,
  history aes rng cfg h s -> set_given x h = Some e -> 20000 <= e_min e * 625.
Proof. exact pace_bound. Qed.
Print Assumptions C114_pace_bound.

Theorem C114_only_ticks : forall aes rng cfg now s o s' st out,
  step aes rng cfg now s o = Ok s' st out -> o <> Tick -> adverts out = 0.
Proof. exact no_adverts. Qed.
Print Assumptions C114_only_ticks.

Theorem C114_legacy_paced : forall aes rng cfg h s now s' st out,
  history aes rng cfg h s -> (forall e, In e h -> legacy_only e) -> step aes rng cfg now s Tick = Ok s' st out ->
  if l_enabled (legacy s') then exists t, legacy_last h = Some t /\ adverts out = if t + legacy_interval h * 625 <=? now then 1 else 0
  else adverts out = 0.
Proof. exact legacy_paced. Qed.
Print Assumptions C114_legacy_paced.

Theorem C114_train_paced : forall aes rng cfg x h s now s' st out,
  history aes rng cfg h s -> (forall e, In e h -> lone_train x e) -> step aes rng cfg now s Tick = Ok s' st out ->
  match train_since x h with
  | Some t =>
      let due := t + train_sent x h * (train_interval_given x h * 625) in
      train_packets out <= 1 /\ (train_packets out = 1 -> due <= now) /\ (is_enabled s x -> due <= now -> train_packets out = 1)
  | None => train_packets out = 0
  end.
Proof. exact train_paced. Qed.
Print Assumptions C114_train_paced.

Theorem C114_train_only_ticks : forall aes rng cfg now s o s' st out,
  step aes rng cfg now s o = Ok s' st out -> o <> Tick -> train_packets out = 0.
Proof. exact no_train. Qed.
Print Assumptions C114_train_only_ticks.

Theorem C114_train_witness : forall aes rng, exists h s s1 out1 s2 out2,
  history aes rng default_config h s /\ (forall e, In e h -> lone_train 1 e) /\ is_enabled s 1
  /\ train_since 1 h = Some 10 /\ train_interval_given 1 h = 8 /\ train_sent 1 h = 1
  /\ step aes rng default_config 5009 s Tick = Ok s1 None out1 /\ train_packets out1 = 0
  /\ step aes rng default_config 5010 s Tick = Ok s2 None out2 /\ train_packets out2 = 1.
Proof. exact train_witness. Qed.
Print Assumptions C114_train_witness.

Theorem C114_pace_witness : forall aes rng, exists h s e s1 out1 s2 out2,
  history aes rng default_config h s /\ (forall e, In e h -> lone 1 e) /\ adverts_since 1 h = 1
  /\ enabled_by 1 h = Some (100, EnabledSet 1 0 0) /\ set_given 1 h = Some e /\ e_min e * 625 = 62500
  /\ step aes rng default_config 62599 s Tick = Ok s1 None out1 /\ is_enabled s1 1 /\ adverts out1 = 0
  /\ step aes rng default_config 62600 s Tick = Ok s2 None out2 /\ is_enabled s2 1 /\ adverts out2 = 1.
Proof. exact pace_witness. Qed.
Print Assumptions C114_pace_witness.

Theorem C114_legacy_pace_witness : forall aes rng, exists h s s1 out1 s2 out2,
  history aes rng default_config h s /\ (forall e, In e h -> legacy_only e) /\ legacy_interval h = 160 /\ legacy_last h = Some 150000
  /\ adverts_sent h = 1
  /\ step aes rng default_config 249999 s Tick = Ok s1 None out1 /\ l_enabled (legacy s1) = true /\ adverts out1 = 0
  /\ step aes rng default_config 250000 s Tick = Ok s2 None out2 /\ l_enabled (legacy s2) = true /\ adverts out2 = 1.
Proof. exact legacy_pace_witness. Qed.
Print Assumptions C114_legacy_pace_witness.

Theorem C114_catches_up_refuted : forall aes rng, exists h s e s' out,
  history aes rng default_config (Entry 200000 Tick None out :: h) s /\ (forall e, In e h -> lone 1 e) /\ adverts out = 1
  /\ set_given 1 h = Some e /\ e_min e * 625 = 62500
  /\ exists out', step aes rng default_config 200001 s Tick = Ok s' None out' /\ adverts out' = 1.
Proof. exact pace_catches_up. Qed.
Print Assumptions C114_catches_up_refuted.

Theorem C114_train_interval_refuted : forall aes rng, exists h s s' out out',
  history aes rng default_config (Entry 10 Tick None out :: h) s
  /\ In (Entry 2 (Command (SetPeriodicParameters 1 6 8)) (Some SUCCESS) []) h /\ (forall e, In e h -> train_packets (sent e) = 0)
  /\ train_packets out = 1 /\ step aes rng default_config 5010 s Tick = Ok s' None out' /\ train_packets out' = 1 /\ 5010 < 10 + 6 * 1250.
Proof. exact train_interval. Qed.
Print Assumptions C114_train_interval_refuted.
