(** A history used as a witness by the theorems on the number of events of a set. *)
From Verif Require Import Prelude Address Rpa Table LeTypes LeAdvertise LeLists LeScan LeInitiate LeHost LeHistory LeOutputs LeListsSpec LeAdvertSpec LeFilterSpec LeTimeSpec LeEventsSpec LeListsWitness LeParamsWitness LeAdvertWitness LeFilterWitness LeTimeWitness.
Open Scope N_scope.

(** The set 1 is enabled for one event and sends it, then for two, which it sends before it
    is stopped *)
Lemma alone_witness : forall aes rng, exists h s s' out,
  history aes rng default_config h s /\ (forall e, In e h -> alone 1 e) /\ is_enabled s 1
  /\ enabled_by 1 h = Some (200000, EnabledSet 1 0 2) /\ adverts_since 1 h = 2 /\ adverts_sent h = 3
  /\ step aes rng default_config 500000 s Tick = Ok s' None out /\ ~ is_enabled s' 1
  /\ out = [Notified (EvSetTerminated ADVERTISING_TIMEOUT 1 0 2)].
Proof.
  intros aes rng. eexists _, _, _, _. split.
  - played [(0, Command (SetEventMask 0x3fffffffffffffff)); (0, Command (LeSetEventMask 0xffffffffffff));
            (1, Command (SetExtParameters 1 (params plain OWN_PUBLIC))); (100, Command (SetExtEnable true [EnabledSet 1 0 1]));
            (100, Tick); (100000, Tick); (200000, Command (SetExtEnable true [EnabledSet 1 0 2])); (200000, Tick); (400000, Tick)].
  - split.
    { apply Forall_forall. repeat (apply Forall_cons; [split; (exact I || (intros d X; cbn in X; destruct X as [<-|[]]; cbn; (reflexivity || lia)))|]). apply Forall_nil. }
    split; [eexists; split; reflexivity|]. split; [reflexivity|]. split; [reflexivity|]. split; [reflexivity|].
    split; [vm_compute; reflexivity|]. split; [|reflexivity]. off.
Qed.
