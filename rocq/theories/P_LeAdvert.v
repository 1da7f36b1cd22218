(** Property theorems C23-C27: LE advertising. *)
From Verif Require Import Prelude Address Rpa Table LeTypes LeHost LeHistory LeAdvertise LeAdvertSpec LeAdvertProofs LeAdvertSends LeAdvertWitness.
Open Scope N_scope.

(** C23, for the commands the controller checks: once a command of one family was used
    since the last reset, every command of the other one is rejected and changes
    nothing. What is missing: the commands in [unchecked], see [C23_sync_refuted]. *)
Theorem C23_families_exclusive_partial : forall aes rng cfg h s now c f g,
  history aes rng cfg h s -> first_family unchecked h = Some f ->
  family_of c = Some g -> unchecked c = false -> g <> f ->
  step aes rng cfg now s (Command c) = Ok s (Some COMMAND_DISALLOWED) [].
Proof. exact other_family_rejected. Qed.
Print Assumptions C23_families_exclusive_partial.

(** The hypotheses can be met, for both families. *)
Theorem C23_legacy_first_reachable : forall aes rng, exists h s c,
  history aes rng default_config h s /\ first_family unchecked h = Some Legacy
  /\ family_of c = Some Extended /\ unchecked c = false /\ lookup (sets s) 1 = None.
Proof. exact legacy_first_witness. Qed.
Theorem C23_extended_first_reachable : forall aes rng, exists h s c,
  history aes rng default_config h s /\ first_family unchecked h = Some Extended
  /\ family_of c = Some Legacy /\ unchecked c = false /\ is_enabled s 1.
Proof. exact extended_first_witness. Qed.
Print Assumptions C23_extended_first_reachable.

(** C23: after a legacy command, an extended one (periodic advertiser list) succeeds. *)
Theorem C23_sync_refuted : forall aes rng, exists h s now c s' out,
  history aes rng default_config h s /\ first_family (fun _ => false) h = Some Legacy
  /\ family_of c = Some Extended /\ step aes rng default_config now s (Command c) = Ok s' (Some SUCCESS) out
  /\ s' <> s.
Proof. exact sync_after_legacy_witness. Qed.
Print Assumptions C23_sync_refuted.

(** C24: the data held by each set is what the commands of the history provided. *)
Theorem C24_stored_is_history : forall aes rng cfg h s, history aes rng cfg h s -> forall k x,
  stored_data k x h = option_map (data_of k) (lookup (sets s) x).
Proof. exact stored_history. Qed.
Print Assumptions C24_stored_is_history.

(** C24: likewise for the legacy advertiser. *)
Theorem C24_legacy_stored_is_history : forall aes rng cfg h s, history aes rng cfg h s ->
  l_data (legacy s) = legacy_stored false h /\ l_scan_data (legacy s) = legacy_stored true h.
Proof. exact legacy_stored_history. Qed.
Print Assumptions C24_legacy_stored_is_history.

(** C24: never more than the controller's maximum. *)
Theorem C24_data_within_capacity : forall aes rng cfg h s, history aes rng cfg h s ->
  forall k x d, stored_data k x h = Some d -> lenN d <= cfg_max_data cfg.
Proof. exact stored_sizes. Qed.
Print Assumptions C24_data_within_capacity.

(** C24: the packets of any step carry the stored data, for an enabled advertiser. *)
Theorem C24_sent_is_stored : forall aes rng cfg h s now o s' st out p,
  history aes rng cfg h s -> step aes rng cfg now s o = Ok s' st out -> In (Sent p) out -> carries_stored h s p.
Proof. exact sent_stored. Qed.
Print Assumptions C24_sent_is_stored.

(** Fragments stored, then sent. *)
Theorem C24_fragments_reachable : forall aes rng, exists h s s' out,
  history aes rng default_config h s
  /\ step aes rng default_config 9 s Tick = Ok s' None out
  /\ (exists adv tgt c sc d si pw pr se pi,
        In (Sent (AirExtended adv tgt c sc d si pw pr se pi [9; 8; 7; 6; 5])) out)
  /\ (exists adv si pw pi, In (Sent (AirPeriodic adv si pw pi [1; 2; 3])) out)
  /\ stored_data AdvertisingData 1 h = Some [9; 8; 7; 6; 5]
  /\ stored_data PeriodicData 1 h = Some [1; 2; 3]
  /\ stored_data ScanResponseData 2 h = Some [4; 5; 6]
  /\ is_enabled s 1 /\ is_enabled s 2.
Proof. exact busy_witness. Qed.
Print Assumptions C24_fragments_reachable.

Theorem C24_response_reachable : forall aes rng, exists h s s' out,
  history aes rng default_config h s
  /\ step aes rng default_config 9 s (Receive (AirScan (AWT [1; 2; 3; 4; 5; 6] RANDOM_DEVICE) (AWT [6; 5; 4; 180; 90; 60] PUBLIC_DEVICE)))
     = Ok s' None out
  /\ In (Sent (AirScanResponse (AWT [6; 5; 4; 180; 90; 60] PUBLIC_DEVICE) [1; 2; 3; 4; 5; 6] [4; 5; 6])) out.
Proof. exact response_witness. Qed.
Print Assumptions C24_response_reachable.

(** C25: an enabled set has complete data which fits in its packets. *)
Theorem C25_enabled_ready : forall aes rng cfg h s x a,
  history aes rng cfg h s -> lookup (sets s) x = Some a -> enabled a = true -> data_ready a.
Proof. exact enabled_ready. Qed.
Print Assumptions C25_enabled_ready.

Theorem C25_periodic_ready : forall aes rng cfg h s x a,
  history aes rng cfg h s -> lookup (sets s) x = Some a -> periodic_on a = true -> periodic_ready a.
Proof. exact periodic_is_ready. Qed.
Print Assumptions C25_periodic_ready.

(** C25: a command which succeeds enables or disables exactly the listed sets; disabling
    without a list disables every set. *)
Theorem C25_enable_exact : forall aes rng cfg h s now on l s' out,
  history aes rng cfg h s -> step aes rng cfg now s (Command (SetExtEnable on l)) = Ok s' (Some SUCCESS) out ->
  forall x, is_enabled s' x <->
    if on then In x (map en_handle l) \/ is_enabled s x
    else is_enabled s x /\ l <> [] /\ ~ In x (map en_handle l).
Proof. exact enable_exact. Qed.
Print Assumptions C25_enable_exact.

(** C25: a command which fails leaves every set as it was, but for the addresses chosen
    for the listed sets. What is missing: these, see [C25_enable_atomic_refuted]. *)
Theorem C25_enable_failed_partial : forall aes rng cfg h s now on l s' st out,
  history aes rng cfg h s -> step aes rng cfg now s (Command (SetExtEnable on l)) = Ok s' (Some st) out -> st <> SUCCESS ->
  forall x, match lookup (sets s) x with
            | None => lookup (sets s') x = None
            | Some a => exists b, lookup (sets s') x = Some b /\ same_but_addresses a b
                                  /\ (on = false \/ ~ In x (map en_handle l) -> b = a)
            end.
Proof. exact enable_failed. Qed.
Print Assumptions C25_enable_failed_partial.

(** C25: a command which fails can change the address of a set while it is advertising. *)
Theorem C25_enable_atomic_refuted : forall aes rng, exists h s now l s' st out x a b,
  history aes rng default_config h s
  /\ step aes rng default_config now s (Command (SetExtEnable true l)) = Ok s' (Some st) out /\ st <> SUCCESS
  /\ lookup (sets s) x = Some a /\ lookup (sets s') x = Some b
  /\ enabled a = true /\ enabled b = true /\ adv_address b <> adv_address a.
Proof. exact enable_not_atomic_witness. Qed.
Print Assumptions C25_enable_atomic_refuted.

(** C26: the advertising and scanning routine never aborts, at any time. *)
Theorem C26_advertising_never_aborts : forall aes rng cfg h s now,
  history aes rng cfg h s -> exists s' out, step aes rng cfg now s Tick = Ok s' None out.
Proof. exact tick_runs. Qed.
Print Assumptions C26_advertising_never_aborts.

(** C27: a set which is advertising is not removed. *)
Theorem C27_enabled_not_removed : forall aes rng cfg s now x a,
  lookup (sets s) x = Some a -> enabled a = true ->
  step aes rng cfg now s (Command (RemoveSet x)) = Ok s (Some COMMAND_DISALLOWED) [].
Proof. exact remove_enabled. Qed.
Print Assumptions C27_enabled_not_removed.

Theorem C27_enabled_not_cleared : forall aes rng cfg s now x,
  is_enabled s x -> step aes rng cfg now s (Command ClearSets) = Ok s (Some COMMAND_DISALLOWED) [].
Proof. exact clear_enabled. Qed.
Print Assumptions C27_enabled_not_cleared.

(** C27: otherwise exactly the set named is removed, and clearing removes them all. *)
Theorem C27_removed_exactly : forall aes rng cfg h s now x a,
  history aes rng cfg h s -> lookup (sets s) x = Some a -> enabled a = false ->
  exists s', step aes rng cfg now s (Command (RemoveSet x)) = Ok s' (Some SUCCESS) []
    /\ forall y, lookup (sets s') y = if y =? x then None else lookup (sets s) y.
Proof. exact remove_disabled. Qed.
Print Assumptions C27_removed_exactly.

Theorem C27_cleared_exactly : forall aes rng cfg h s now,
  history aes rng cfg h s -> (forall x, ~ is_enabled s x) ->
  exists s', step aes rng cfg now s (Command ClearSets) = Ok s' (Some SUCCESS) [] /\ forall y, lookup (sets s') y = None.
Proof. exact clear_disabled. Qed.
Print Assumptions C27_cleared_exactly.

Theorem C27_removable_reachable : forall aes rng, exists h s a,
  history aes rng default_config h s /\ lookup (sets s) 1 = Some a /\ enabled a = false /\ is_enabled s 2.
Proof. exact removable_witness. Qed.
Print Assumptions C27_removable_reachable.

(** C27: a set whose periodic advertising is on, and on the air, can be removed. *)
Theorem C27_periodic_refuted : forall aes rng, exists h s s' a,
  history aes rng default_config h s
  /\ lookup (sets s) 1 = Some a /\ periodic_on a = true
  /\ step aes rng default_config 7 s (Command (RemoveSet 1)) = Ok s' (Some SUCCESS) []
  /\ step aes rng default_config 7 s (Command ClearSets) = Ok s' (Some SUCCESS) []
  /\ lookup (sets s') 1 = None
  /\ exists s2 out adv si pw pi, step aes rng default_config 10006 s Tick = Ok s2 None out
       /\ In (Sent (AirPeriodic adv si pw pi [1; 2])) out.
Proof. exact remove_periodic_witness. Qed.
Print Assumptions C27_periodic_refuted.
