(** Property C77, continued: periodic advertising sends with the own address selected when its set was last enabled. *)
From Verif Require Import Prelude Address Rpa Table LeTypes LeAdvertise LeLists LeScan LeInitiate LeHost LeHistory LeOutputs LeListsSpec LeAdvertSpec LeFilterSpec LeOwnSpec LeOwnTrainSpec LeOwnPeriodic LeListsWitness LeParamsWitness LeAdvertWitness LeFilterWitness LeOwnWitness LeOwnTrainWitness.
Open Scope N_scope.

Theorem C77_trains_obeying : forall aes rng cfg, cipher_ok aes -> forall h s now o s' st out a si pw pi d,
  history aes rng cfg h s -> step aes rng cfg now s o = Ok s' st out -> In (Sent (AirPeriodic a si pw pi d)) out ->
  exists x h0, last_started x h h0 /\ chosen_at aes x h0 (public_address s) a.
Proof. exact trains_obeying. Qed.
Print Assumptions C77_trains_obeying.

Theorem C77_trains_witness : forall aes rng, exists h s s1 out1 h2 s2 s3 out3,
  history aes rng default_config h s /\ set_random_given 1 h = rand2
  /\ step aes rng default_config 2000000 s Tick = Ok s1 None out1
  /\ (exists h0, last_started 1 h h0 /\ set_random_given 1 h0 = rand1
       /\ chosen_at aes 1 h0 (public_address s) (AWT rand1 RANDOM_DEVICE))
  /\ (exists si pw pi, In (Sent (AirPeriodic (AWT rand1 RANDOM_DEVICE) si pw pi [1; 2])) out1)
  /\ history aes rng default_config h2 s2 /\ last_started 1 h2 h
  /\ step aes rng default_config 4000000 s2 Tick = Ok s3 None out3
  /\ (exists si pw pi, In (Sent (AirPeriodic (AWT rand2 RANDOM_DEVICE) si pw pi [1; 2])) out3).
Proof. exact trains_witness. Qed.
Print Assumptions C77_trains_witness.
