(** Histories used as witnesses by the theorems on the own addresses of the LE controller. *)
From Verif Require Import Prelude Address Rpa Table LeTypes LeAdvertise LeLists LeScan LeInitiate LeHost LeHistory LeOutputs LeListsSpec LeAdvertSpec LeFilterSpec LeOwnSpec LeListsWitness LeParamsWitness LeAdvertWitness LeFilterWitness.
Open Scope N_scope.

Definition rand1 : list N := [7; 7; 7; 7; 7; 199].
Definition rand2 : list N := [8; 8; 8; 8; 8; 200].

(** An advertiser with a random address, another one with a key for its peer, and a third
    one without *)
Lemma own_adverts_witness : forall aes rng, exists h s s' out,
  history aes rng default_config h s
  /\ step aes rng default_config 9 s Tick = Ok s' None out
  /\ set_random_given 1 h = rand1 /\ (exists e, set_given 1 h = Some e /\ e_own e = OWN_RANDOM)
  /\ (exists irk, key_for h (AWT dev PUBLIC_DEVICE) irk) /\ (exists e, set_given 2 h = Some e /\ e_own e = OWN_RPA_OR_RANDOM)
  /\ (exists tgt c sc d si pw pr se pi b, In (Sent (AirExtended (AWT rand1 RANDOM_DEVICE) tgt c sc d si pw pr se pi b)) out)
  /\ (exists r0 r1 r2 r3 tgt c sc d si pw pr se pi b,
        In (Sent (AirExtended (AWT (generate_rpa aes irk2 r0 r1 r2 r3) RANDOM_DEVICE) tgt c sc d si pw pr se pi b)) out).
Proof.
  intros aes rng. eexists _, _, _, _. split.
  - played [(0, Command (AddResolvingList PEER_PUBLIC dev irk1 irk2));
            (1, Command (SetExtParameters 1 (params plain OWN_RANDOM))); (2, Command (SetSetRandomAddress 1 rand1));
            (3, Command (SetExtParameters 2 (params plain OWN_RPA_OR_RANDOM)));
            (8, Command (SetExtEnable true [EnabledSet 1 0 0; EnabledSet 2 0 0]))].
  - split; [vm_compute; reflexivity|]. split; [reflexivity|]. split; [eexists; split; reflexivity|].
    split; [exists irk2, irk1; do 4 (apply holds_still; [|discriminate|discriminate|discriminate]); apply holds_add|].
    split; [eexists; split; reflexivity|].
    split; [do 10 eexists; left; reflexivity|].
    exists (rng 4), (rng 5), (rng 6), (rng 7). do 10 eexists. right; left; reflexivity.
Qed.

(** Scanning with a random address, and a connection request with a key for the peer *)
Lemma own_requests_witness : forall aes rng, exists h s s' out,
  history aes rng default_config h s /\ random_given h = rand2 /\ scan_own_given h = OWN_RANDOM /\ init_own_given h = Some OWN_RPA_OR_PUBLIC
  /\ step aes rng default_config 9 s (beacon remote) = Ok s' None out
  /\ In (Sent (AirScan (AWT rand2 RANDOM_DEVICE) remote)) out
  /\ (exists r0 r1 r2 r3 x y z, In (Sent (AirConnect (AWT (generate_rpa aes irk2 r0 r1 r2 r3) RANDOM_DEVICE) remote x y z)) out).
Proof.
  intros aes rng. eexists _, _, _, _. split.
  - played [(0, Command (AddResolvingList PEER_PUBLIC dev irk1 irk2)); (1, Command (SetRandomAddress rand2));
            (2, Command (SetScanParameters ACTIVE 16 16 OWN_RANDOM ACCEPT_ALL)); (3, Command (SetScanEnable true false));
            (4, Command (CreateConnection USE_PEER_ADDRESS remote OWN_RPA_OR_PUBLIC usual))].
  - split; [reflexivity|]. split; [reflexivity|]. split; [reflexivity|]. split; [vm_compute; reflexivity|]. split; [left; reflexivity|].
    exists (rng 4), (rng 5), (rng 6), (rng 7). do 3 eexists. right; left; reflexivity.
Qed.

(** Legacy advertising with a random address: refused until it is set, and the address
    cannot change afterwards *)
Lemma own_legacy_witness : forall aes rng, exists h s s' s'' h2 out,
  history aes rng default_config h s /\ legacy_own_given h = OWN_RANDOM /\ random_given h = empty_address
  /\ step aes rng default_config 5 s (Command (SetAdvEnable true)) = Ok s' (Some INVALID_PARAMETERS) []
  /\ history aes rng default_config h2 s'' /\ legacy_own_given h2 = OWN_RANDOM /\ random_given h2 = rand2
  /\ step aes rng default_config 9 s'' (Command (SetRandomAddress rand1)) = Ok s'' (Some COMMAND_DISALLOWED) []
  /\ (exists s3, step aes rng default_config 2000000 s'' Tick = Ok s3 None out)
  /\ exists tgt t b, In (Sent (AirLegacy (AWT rand2 RANDOM_DEVICE) tgt t b)) out.
Proof.
  intros aes rng. eexists _, _, _, _, _, _. split.
  - played [(0, Command (SetAdvParameters 100 200 ADV_IND OWN_RANDOM PEER_PUBLIC empty_address 7 ALL_DEVICES))].
  - split; [reflexivity|]. split; [reflexivity|]. split; [vm_compute; reflexivity|]. split.
    + played [(0, Command (SetAdvParameters 100 200 ADV_IND OWN_RANDOM PEER_PUBLIC empty_address 7 ALL_DEVICES));
              (1, Command (SetRandomAddress rand2)); (2, Command (SetAdvEnable true))].
    + split; [reflexivity|]. split; [reflexivity|]. split; [vm_compute; reflexivity|].
      split; [eexists; vm_compute; reflexivity|]. do 3 eexists. left; reflexivity.
Qed.
