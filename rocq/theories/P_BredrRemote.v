(** Property C98: what a host learns about the device at the other end of a BR/EDR link. *)
From Coq Require Import Permutation.
From Verif Require Import Prelude Table Sco Bredr BredrBase BredrSpec BredrPairSpec BredrRemoteSpec BredrRemote BredrWitness BredrPairWitness BredrRemoteWitness.
Open Scope N_scope.

Theorem C98_remote_answers_partial : forall order1 order2 cfg1 cfg2 a b,
  (forall t, Permutation (order1 t) t) -> (forall t, Permutation (order2 t) t) ->
  forall k nm hf, List.length (lmp_features cfg2) = 3%nat -> lmp_subversion cfg2 < 256 ->
  forall hl hr w0 nl nr w, meanwhile order1 order2 cfg1 cfg2 a b (ready b k nm hf) hl hr w0 nl nr w -> settled a b w0 ->
  exists rest, expected b k cfg2 nm hf nl = told b k nl ++ rest /\ (settled a b w -> rest = []).
Proof. exact remote_answers. Qed.
Print Assumptions C98_remote_answers_partial.

Theorem C98_witness : exists hl hr w0 nl nr w,
  meanwhile same_order same_order some_config your_config me you (ready you 0 [65; 66] 5) hl hr w0 nl nr w /\ settled me you w0 /\ settled me you w /\
  told you 0 nl = [VersionComplete SUCCESS 0 12 15 7; HostFeaturesNotification you 5; RemoteNameComplete SUCCESS you [65; 66]; ExtendedFeaturesComplete SUCCESS 0 1 2 5;
                   SupportedFeaturesComplete SUCCESS 0 0x87; ClockOffsetComplete SUCCESS 0 0].
Proof. exact remote_witness. Qed.
Print Assumptions C98_witness.

Theorem C98_subversion_refuted : exists hl hr w0 nl nr w,
  meanwhile same_order same_order some_config long_config me you (ready you 0 [65; 66] 5) hl hr w0 nl nr w /\ settled me you w0 /\ settled me you w /\
  expected you 0 long_config [65; 66] 5 nl = [VersionComplete SUCCESS 0 12 15 0x5ad2] /\ told you 0 nl = [VersionComplete SUCCESS 0 12 15 0xd2].
Proof. exact long_subversion. Qed.
Print Assumptions C98_subversion_refuted.

Theorem C98_absent_page_refuted : forall order cfg h s now rssi p n,
  (forall t, Permutation (order t) t) -> history order cfg h s -> List.length (lmp_features cfg) = 3%nat ->
  destination p = address s -> content p = ExtendedFeaturesRequest n -> 3 <= n -> step order cfg now s (Receive rssi p) = OutOfBounds.
Proof. exact absent_page. Qed.
Print Assumptions C98_absent_page_refuted.

Theorem C98_absent_page_witness : exists hl hr w p l,
  reaches same_order same_order some_config your_config me you hl hr w /\ to_right w = p :: l /\ destination p = you /\
  (exists e, In e hl /\ what e = Command (ReadExtendedFeatures 0 3)) /\
  forall now rssi, step same_order your_config now (right w) (Receive rssi p) = OutOfBounds.
Proof. exact absent_page_witness. Qed.
Print Assumptions C98_absent_page_witness.
