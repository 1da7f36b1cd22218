(** A history used as a witness by the theorem on the address of periodic advertising. *)
From Verif Require Import Prelude Address Rpa Table LeTypes LeAdvertise LeLists LeScan LeInitiate LeHost LeHistory LeOutputs LeListsSpec LeAdvertSpec LeFilterSpec LeOwnSpec LeOwnTrainSpec LeListsWitness LeParamsWitness LeAdvertWitness LeFilterWitness LeOwnWitness.
Open Scope N_scope.

Definition train : list (N * op) :=
  [(0, Command (SetExtParameters 1 (params plain OWN_RANDOM))); (1, Command (SetSetRandomAddress 1 rand1));
   (2, Command (SetPeriodicParameters 1 6 8)); (3, Command (SetPeriodicData 1 COMPLETE [1; 2]));
   (4, Command (SetPeriodicEnable true false 1)); (5, Command (SetExtEnable true [EnabledSet 1 0 0]));
   (6, Command (SetExtEnable false [EnabledSet 1 0 0])); (7, Command (SetSetRandomAddress 1 rand2))].

(** The set is disabled and has another address by now: its periodic packets go on with the
    address of the last time it was enabled, until it is enabled again *)
Lemma trains_witness : forall aes rng, exists h s s1 out1 h2 s2 s3 out3,
  history aes rng default_config h s /\ set_random_given 1 h = rand2
  /\ step aes rng default_config 2000000 s Tick = Ok s1 None out1
  /\ (exists h0, last_started 1 h h0 /\ set_random_given 1 h0 = rand1
       /\ chosen_at aes 1 h0 (public_address s) (AWT rand1 RANDOM_DEVICE))
  /\ (exists si pw pi, In (Sent (AirPeriodic (AWT rand1 RANDOM_DEVICE) si pw pi [1; 2])) out1)
  /\ history aes rng default_config h2 s2 /\ last_started 1 h2 h
  /\ step aes rng default_config 4000000 s2 Tick = Ok s3 None out3
  /\ (exists si pw pi, In (Sent (AirPeriodic (AWT rand2 RANDOM_DEVICE) si pw pi [1; 2])) out3).
Proof.
  intros aes rng. eexists _, _, _, _, _, _, _, _. split; [played train|].
  split; [reflexivity|]. split; [vm_compute; reflexivity|]. split.
  { eexists. split; [eexists [_; _], _, _, _, _; split; [reflexivity|split; [left; reflexivity|]]|].
    - intros e [<-|[<-|[]]]; reflexivity.
    - split; [reflexivity|]. eexists. split; [reflexivity|]. apply (obeys_random _ _ _ _ rand1). discriminate. }
  split; [do 3 eexists; left; reflexivity|].
  split; [played (train ++ [(8, Command (SetExtEnable true [EnabledSet 1 0 0]))])|].
  split; [eexists [], _, _, _, _; split; [reflexivity|split; [left; reflexivity|contradiction]]|].
  split; [vm_compute; reflexivity|]. do 3 eexists. right; left; reflexivity.
Qed.
