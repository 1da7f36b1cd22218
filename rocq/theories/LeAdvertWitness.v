(** Histories used as witnesses by the theorems on LE advertising. *)
From Verif Require Import Prelude Address Rpa Table LeTypes LeAdvertise LeLists LeScan LeInitiate LeHost LeHistory LeListsWitness LeAdvertSpec.
Open Scope N_scope.

Definition plain : adv_props := Props false false false false false false false.
Definition params (p : adv_props) (o : own_type) : ext_params :=
  ExtParams p 100 200 7 o PEER_PUBLIC dev ALL_DEVICES 0 PRIMARY_1M SECONDARY_1M 3 false.

Lemma legacy_first_witness : forall aes rng, exists h s c,
  history aes rng default_config h s /\ first_family unchecked h = Some Legacy
  /\ family_of c = Some Extended /\ unchecked c = false /\ lookup (sets s) 1 = None.
Proof.
  intros aes rng. eexists _, _, (SetExtParameters 1 (params plain OWN_PUBLIC)). split.
  - played [(0, Command (SetAdvData [1; 2; 3])); (1, Command (SetScanEnable true false))].
  - repeat split.
Qed.

Lemma extended_first_witness : forall aes rng, exists h s c,
  history aes rng default_config h s /\ first_family unchecked h = Some Extended
  /\ family_of c = Some Legacy /\ unchecked c = false /\ is_enabled s 1.
Proof.
  intros aes rng. eexists _, _, (SetAdvEnable true). split.
  - played [(0, Command (SetExtParameters 1 (params plain OWN_PUBLIC)));
            (1, Command (SetExtEnable true [EnabledSet 1 0 0]))].
  - repeat split. eexists. split; reflexivity.
Qed.

Lemma sync_after_legacy_witness : forall aes rng, exists h s now c s' out,
  history aes rng default_config h s /\ first_family (fun _ => false) h = Some Legacy
  /\ family_of c = Some Extended /\ step aes rng default_config now s (Command c) = Ok s' (Some SUCCESS) out
  /\ s' <> s.
Proof.
  intros aes rng. eexists _, _, 1, (AddPadv PEER_PUBLIC dev 3), _, _. split.
  - played [(0, Command (SetAdvData [1; 2; 3]))].
  - split; [reflexivity|]. split; [reflexivity|]. split; [reflexivity|].
    intros E. apply (f_equal (fun s => length (padv s))) in E. discriminate.
Qed.

Definition busy : list (N * op) :=
  [(0, Command (SetExtParameters 1 (params plain OWN_PUBLIC)));
   (1, Command (SetPeriodicParameters 1 6 8));
   (2, Command (SetPeriodicData 1 FIRST [1; 2])); (3, Command (SetPeriodicData 1 LAST [3]));
   (4, Command (SetPeriodicEnable true false 1));
   (5, Command (SetExtData 1 FIRST [9; 8])); (6, Command (SetExtData 1 INTERMEDIATE [7]));
   (6, Command (SetExtData 1 LAST [6; 5]));
   (7, Command (SetExtParameters 2 (params (Props false true false false false false false) OWN_PUBLIC)));
   (7, Command (SetExtScanResponse 2 COMPLETE [4; 5; 6]));
   (8, Command (SetExtEnable true [EnabledSet 2 10 0; EnabledSet 1 0 5]))].

Lemma busy_witness : forall aes rng, exists h s s' out,
  history aes rng default_config h s
  /\ step aes rng default_config 9 s Tick = Ok s' None out
  /\ (exists adv tgt c sc d si pw pr se pi,
        In (Sent (AirExtended adv tgt c sc d si pw pr se pi [9; 8; 7; 6; 5])) out)
  /\ (exists adv si pw pi, In (Sent (AirPeriodic adv si pw pi [1; 2; 3])) out)
  /\ stored_data AdvertisingData 1 h = Some [9; 8; 7; 6; 5]
  /\ stored_data PeriodicData 1 h = Some [1; 2; 3]
  /\ stored_data ScanResponseData 2 h = Some [4; 5; 6]
  /\ is_enabled s 1 /\ is_enabled s 2.
Proof.
  intros aes rng. eexists _, _, _, _. split; [played busy|]. split; [vm_compute; reflexivity|]. split.
  - eexists _, _, _, _, _, _, _, _, _, _. cbn [In app]. left. reflexivity.
  - split; [eexists _, _, _, _; cbn [In app]; right; left; reflexivity|].
    repeat (split; [reflexivity|]). split; eexists; split; reflexivity.
Qed.

Lemma response_witness : forall aes rng, exists h s s' out,
  history aes rng default_config h s
  /\ step aes rng default_config 9 s (Receive (AirScan (AWT dev RANDOM_DEVICE) (AWT local PUBLIC_DEVICE))) = Ok s' None out
  /\ In (Sent (AirScanResponse (AWT local PUBLIC_DEVICE) dev [4; 5; 6])) out.
Proof.
  intros aes rng. eexists _, _, _, _. split; [played busy|]. split; [vm_compute; reflexivity|]. now left.
Qed.

(** Set 1 is advertising from the public address. The device it is for is then added to
    the resolving list, and a command for sets 1 and 2 fails because the data of set 2
    is not complete. *)
Lemma enable_not_atomic_witness : forall aes rng, exists h s now l s' st out x a b,
  history aes rng default_config h s
  /\ step aes rng default_config now s (Command (SetExtEnable true l)) = Ok s' (Some st) out /\ st <> SUCCESS
  /\ lookup (sets s) x = Some a /\ lookup (sets s') x = Some b
  /\ enabled a = true /\ enabled b = true /\ adv_address b <> adv_address a.
Proof.
  intros aes rng. eexists _, _, 5, [EnabledSet 1 0 0; EnabledSet 2 0 0], _, _, _, 1, _, _. split.
  - played [(0, Command (SetExtParameters 1 (params plain OWN_RPA_OR_PUBLIC)));
            (1, Command (SetExtParameters 2 (params plain OWN_PUBLIC)));
            (2, Command (SetExtData 2 FIRST [1]));
            (3, Command (SetExtEnable true [EnabledSet 1 0 0]));
            (4, Command (AddResolvingList PEER_PUBLIC dev irk1 irk2))].
  - split; [vm_compute; reflexivity|]. split; [discriminate|].
    split; [vm_compute; reflexivity|]. split; [vm_compute; reflexivity|]. split; [reflexivity|]. split; [reflexivity|].
    intros E. apply (f_equal awt_type) in E. discriminate.
Qed.

Definition periodic_only : list (N * op) :=
  [(0, Command (SetExtParameters 1 (params plain OWN_PUBLIC)));
   (1, Command (SetPeriodicParameters 1 6 8));
   (2, Command (SetPeriodicData 1 COMPLETE [1; 2]));
   (3, Command (SetPeriodicEnable true false 1));
   (4, Command (SetExtEnable true [EnabledSet 1 0 0]));
   (5, Tick);
   (6, Command (SetExtEnable false [EnabledSet 1 0 0]))].

Lemma remove_periodic_witness : forall aes rng, exists h s s' a,
  history aes rng default_config h s
  /\ lookup (sets s) 1 = Some a /\ periodic_on a = true
  /\ step aes rng default_config 7 s (Command (RemoveSet 1)) = Ok s' (Some SUCCESS) []
  /\ step aes rng default_config 7 s (Command ClearSets) = Ok s' (Some SUCCESS) []
  /\ lookup (sets s') 1 = None
  /\ exists s2 out adv si pw pi, step aes rng default_config 10006 s Tick = Ok s2 None out
       /\ In (Sent (AirPeriodic adv si pw pi [1; 2])) out.
Proof.
  intros aes rng. eexists _, _, _, _. split; [played periodic_only|].
  split; [vm_compute; reflexivity|]. split; [reflexivity|]. split; [vm_compute; reflexivity|].
  split; [vm_compute; reflexivity|]. split; [reflexivity|].
  eexists _, _, _, _, _, _. split; [vm_compute; reflexivity|]. now left.
Qed.

Lemma removable_witness : forall aes rng, exists h s a,
  history aes rng default_config h s /\ lookup (sets s) 1 = Some a /\ enabled a = false /\ is_enabled s 2.
Proof.
  intros aes rng. eexists _, _, _. split.
  - played [(0, Command (SetExtParameters 1 (params plain OWN_PUBLIC)));
            (0, Command (SetExtParameters 2 (params plain OWN_PUBLIC)));
            (0, Command (SetExtEnable true [EnabledSet 2 0 0]))].
  - split; [vm_compute; reflexivity|]. split; [reflexivity|]. eexists. split; reflexivity.
Qed.
