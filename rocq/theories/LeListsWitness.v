(** Histories used as witnesses by the theorems on the device lists. *)
From Verif Require Import Prelude Address Rpa Table LeTypes LeAdvertise LeLists LeScan LeInitiate LeHost LeHistory LeListsSpec.
Open Scope N_scope.

Definition local : list N := [6; 5; 4; 180; 90; 60].
Definition dev : list N := [1; 2; 3; 4; 5; 6].

Ltac played ops := eapply (play_history _ _ _ ops [] (new_le local)); [apply power_on|vm_compute; reflexivity].

Lemma accept_remove_witness : forall aes rng, exists h s now out,
  history aes rng default_config (Entry now (Command (RemoveAcceptList ACCEPT_PUBLIC [1; 2; 3; 4; 5; 6])) (Some SUCCESS) out :: h) s
  /\ listed s ACCEPT_PUBLIC [1; 2; 3; 4; 5; 6].
Proof.
  intros aes rng. eexists _, _, _, _. split.
  - played [(0, Command (AddAcceptList ACCEPT_PUBLIC dev)); (1, Command (AddAcceptList ACCEPT_PUBLIC dev));
            (2, Command (RemoveAcceptList ACCEPT_PUBLIC dev))].
  - exists ACCEPT_PUBLIC, dev. split; [now left|]. split; [reflexivity|now right].
Qed.

Lemma accept_in_use_witness : forall aes rng, exists h s,
  history aes rng default_config h s /\ accept_list_in_use s /\ listed s ACCEPT_PUBLIC [1; 2; 3; 4; 5; 6].
Proof.
  intros aes rng. eexists _, _. split.
  - played [(0, Command (AddAcceptList ACCEPT_PUBLIC dev));
            (1, Command (SetScanParameters ACTIVE 16 16 OWN_PUBLIC ACCEPT_LIST_ONLY));
            (2, Command (SetScanEnable true false))].
  - split.
    + right. right. left. split; [reflexivity|now left].
    + exists ACCEPT_PUBLIC, dev. split; [now left|]. split; [reflexivity|now right].
Qed.

Definition irk1 : list N := [1; 2; 3; 4; 5; 6; 7; 8; 9; 10; 11; 12; 13; 14; 15; 16].
Definition irk2 : list N := [16; 2; 3; 4; 5; 6; 7; 8; 9; 10; 11; 12; 13; 14; 15; 1].

Lemma resolving_frozen_witness : forall aes rng, exists h s s' c now out,
  history aes rng default_config h s /\ resolving_on s = true /\ sync_pending s
  /\ changes_resolving_list c
  /\ step aes rng default_config now s (Command c) = Ok s' (Some SUCCESS) out
  /\ map stored (resolving s') <> map stored (resolving s).
Proof.
  intros aes rng. eexists _, _, _, ClearResolvingList, 3, _. split.
  - played [(0, Command (AddResolvingList PEER_PUBLIC dev irk1 irk2)); (1, Command (SetAddressResolution true));
            (2, Command (CreateSync false false false 3 PEER_PUBLIC dev 100 0))].
  - split; [reflexivity|]. split; [discriminate|]. split; [now left|]. split; [reflexivity|]. discriminate.
Qed.

Lemma resolving_active_witness : forall aes rng, exists h s,
  history aes rng default_config h s /\ resolving_on s = true /\ active s /\ length (resolving s) = 2%nat.
Proof.
  intros aes rng. eexists _, _. split.
  - played [(0, Command (AddResolvingList PEER_PUBLIC dev irk1 irk2));
            (1, Command (AddResolvingList PEER_RANDOM dev irk2 irk2)); (1, Command (SetAddressResolution true));
            (2, Command (SetScanEnable true false))].
  - split; [reflexivity|]. split; [|reflexivity]. right. right. now left.
Qed.

Lemma padv_pending_witness : forall aes rng, exists h s,
  history aes rng default_config h s /\ sync_pending s /\ length (padv s) = 2%nat.
Proof.
  intros aes rng. eexists _, _. split.
  - played [(0, Command (AddPadv PEER_PUBLIC dev 1)); (1, Command (AddPadv PEER_RANDOM dev 1));
            (2, Command (CreateSync true false false 3 PEER_PUBLIC dev 100 0))].
  - split; [discriminate|reflexivity].
Qed.
