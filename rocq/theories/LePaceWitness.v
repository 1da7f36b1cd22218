(** Histories used as witnesses by the theorems on the interval of a set. *)
From Verif Require Import Prelude Address Rpa Table LeTypes LeAdvertise LeLists LeScan LeInitiate LeHost LeHistory LeOutputs LeListsSpec LeAdvertSpec LeFilterSpec LeTimeSpec LeEventsSpec LePaceSpec LePaceTrainSpec LeListsWitness LeParamsWitness LeAdvertWitness LeFilterWitness LeTimeWitness.
Open Scope N_scope.

Definition slow : list (N * op) :=
  [(1, Command (SetExtParameters 1 (params plain OWN_PUBLIC))); (100, Command (SetExtEnable true [EnabledSet 1 0 0])); (100, Tick)].

Ltac all_lone := apply Forall_forall; repeat (apply Forall_cons; [exact I || (intros d X; cbn in X; destruct X as [<-|[]]; reflexivity)|]); apply Forall_nil.

(** The first packet is sent at once, the second one an interval of 62.5 ms later and not before *)
Lemma pace_witness : forall aes rng, exists h s e s1 out1 s2 out2,
  history aes rng default_config h s /\ (forall e, In e h -> lone 1 e) /\ adverts_since 1 h = 1
  /\ enabled_by 1 h = Some (100, EnabledSet 1 0 0) /\ set_given 1 h = Some e /\ e_min e * 625 = 62500
  /\ step aes rng default_config 62599 s Tick = Ok s1 None out1 /\ is_enabled s1 1 /\ adverts out1 = 0
  /\ step aes rng default_config 62600 s Tick = Ok s2 None out2 /\ is_enabled s2 1 /\ adverts out2 = 1.
Proof.
  intros aes rng. eexists _, _, _, _, _, _, _. split; [played slow|]. split; [all_lone|].
  split; [reflexivity|]. split; [reflexivity|]. split; [reflexivity|]. split; [reflexivity|].
  split; [vm_compute; reflexivity|]. split; [eexists; split; reflexivity|]. split; [reflexivity|].
  split; [vm_compute; reflexivity|]. split; [eexists; split; reflexivity|]. reflexivity.
Qed.

(** After a late tick the packets that were due are made up for: one follows another within
    less than the interval *)
Lemma pace_catches_up : forall aes rng, exists h s e s' out,
  history aes rng default_config (Entry 200000 Tick None out :: h) s /\ (forall e, In e h -> lone 1 e) /\ adverts out = 1
  /\ set_given 1 h = Some e /\ e_min e * 625 = 62500
  /\ exists out', step aes rng default_config 200001 s Tick = Ok s' None out' /\ adverts out' = 1.
Proof.
  intros aes rng. eexists _, _, _, _, _. split; [played (slow ++ [(200000, Tick)])|]. split; [all_lone|].
  split; [reflexivity|]. split; [reflexivity|]. split; [reflexivity|]. eexists. split; [vm_compute; reflexivity|]. reflexivity.
Qed.

(** Legacy advertising with an interval of 100 ms: the first packet comes after the interval,
    the next one an interval after it *)
Lemma legacy_pace_witness : forall aes rng, exists h s s1 out1 s2 out2,
  history aes rng default_config h s /\ (forall e, In e h -> legacy_only e) /\ legacy_interval h = 160 /\ legacy_last h = Some 150000
  /\ adverts_sent h = 1
  /\ step aes rng default_config 249999 s Tick = Ok s1 None out1 /\ l_enabled (legacy s1) = true /\ adverts out1 = 0
  /\ step aes rng default_config 250000 s Tick = Ok s2 None out2 /\ l_enabled (legacy s2) = true /\ adverts out2 = 1.
Proof.
  intros aes rng. eexists _, _, _, _, _, _. split.
  - played [(1, Command (SetAdvParameters 160 200 ADV_IND OWN_PUBLIC PEER_PUBLIC dev 7 ALL_DEVICES)); (100, Command (SetAdvEnable true)); (200, Tick); (150000, Tick)].
  - split; [apply Forall_forall; repeat (apply Forall_cons; [exact I|]); apply Forall_nil|]. split; [reflexivity|]. split; [reflexivity|]. split; [reflexivity|].
    split; [vm_compute; reflexivity|]. split; [reflexivity|]. split; [reflexivity|].
    split; [vm_compute; reflexivity|]. split; reflexivity.
Qed.

(** Periodic advertising with an interval between 7.5 and 10 ms (units of 1.25 ms): its first
    two packets are 5 ms apart, with a tick when they are due *)
Lemma train_interval : forall aes rng, exists h s s' out out',
  history aes rng default_config (Entry 10 Tick None out :: h) s
  /\ In (Entry 2 (Command (SetPeriodicParameters 1 6 8)) (Some SUCCESS) []) h /\ (forall e, In e h -> train_packets (sent e) = 0)
  /\ train_packets out = 1 /\ step aes rng default_config 5010 s Tick = Ok s' None out' /\ train_packets out' = 1 /\ 5010 < 10 + 6 * 1250.
Proof.
  intros aes rng. eexists _, _, _, _, _. split.
  - played [(1, Command (SetExtParameters 1 (params plain OWN_PUBLIC))); (2, Command (SetPeriodicParameters 1 6 8)); (3, Command (SetPeriodicData 1 COMPLETE [1; 2]));
            (10, Command (SetPeriodicEnable true false 1)); (10, Command (SetExtEnable true [EnabledSet 1 0 0])); (10, Tick)].
  - split; [do 3 right; left; reflexivity|]. split; [apply Forall_forall; repeat (apply Forall_cons; [reflexivity|]); apply Forall_nil|].
    split; [reflexivity|]. split; [vm_compute; reflexivity|]. split; [reflexivity|]. vm_compute. reflexivity.
Qed.

(** A train that has sent one packet: the next one is due 5 ms after the first *)
Lemma train_witness : forall aes rng, exists h s s1 out1 s2 out2,
  history aes rng default_config h s /\ (forall e, In e h -> lone_train 1 e) /\ is_enabled s 1
  /\ train_since 1 h = Some 10 /\ train_interval_given 1 h = 8 /\ train_sent 1 h = 1
  /\ step aes rng default_config 5009 s Tick = Ok s1 None out1 /\ train_packets out1 = 0
  /\ step aes rng default_config 5010 s Tick = Ok s2 None out2 /\ train_packets out2 = 1.
Proof.
  intros aes rng. eexists _, _, _, _, _, _. split.
  - played [(1, Command (SetExtParameters 1 (params plain OWN_PUBLIC))); (2, Command (SetPeriodicParameters 1 6 8)); (3, Command (SetPeriodicData 1 COMPLETE [1; 2]));
            (10, Command (SetPeriodicEnable true false 1)); (10, Command (SetExtEnable true [EnabledSet 1 0 0])); (10, Tick)].
  - split; [apply Forall_forall; repeat (apply Forall_cons; [first [reflexivity|exact I]|]); apply Forall_nil|].
    split; [eexists; split; vm_compute; reflexivity|].
    split; [vm_compute; reflexivity|]. split; [vm_compute; reflexivity|]. split; [vm_compute; reflexivity|].
    split; [vm_compute; reflexivity|]. split; [reflexivity|]. split; [vm_compute; reflexivity|]. reflexivity.
Qed.
