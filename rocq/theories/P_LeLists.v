(** Property theorems C28-C30: the device lists of the LE controller. *)
From Verif Require Import Prelude Address Rpa Table LeTypes LeHost LeHistory LeListsSpec LeListsProofs LeListsWitness.
Open Scope N_scope.

(** C28: the filter accept list never exceeds its advertised size. *)
Theorem C28_accept_list_bounded : forall aes rng cfg h s,
  history aes rng cfg h s -> lenN (accept s) <= cfg_accept_size cfg.
Proof. exact accept_bounded. Qed.
Print Assumptions C28_accept_list_bounded.

(** C28, what holds of membership: a device is in the list exactly when it was added
    more often than removed since the last clear or reset; operations on other
    devices have no effect on it. What is missing: a single removal does not undo two
    additions, see [C28_remove_refuted]. *)
Theorem C28_accept_list_membership_partial : forall aes rng cfg h s t a n,
  history aes rng cfg h s -> accepted h t a n -> (listed s t a <-> (0 < n)%nat).
Proof. exact accepted_iff_listed. Qed.
Print Assumptions C28_accept_list_membership_partial.

(** Every history determines such a count. *)
Theorem C28_membership_defined : forall h t a, exists n, accepted h t a n.
Proof. exact accepted_total. Qed.
Print Assumptions C28_membership_defined.

(** C28: a device accepted for removal can remain in the list. *)
Theorem C28_remove_refuted : forall aes rng, exists h s now out,
  history aes rng default_config (Entry now (Command (RemoveAcceptList ACCEPT_PUBLIC [1; 2; 3; 4; 5; 6])) (Some SUCCESS) out :: h) s
  /\ listed s ACCEPT_PUBLIC [1; 2; 3; 4; 5; 6].
Proof. exact accept_remove_witness. Qed.
Print Assumptions C28_remove_refuted.

(** C28: while an activity uses the list every modification is rejected and changes
    nothing. *)
Theorem C28_frozen_while_in_use : forall aes rng cfg now s c,
  accept_list_in_use s -> changes_accept_list c ->
  step aes rng cfg now s (Command c) = Ok s (Some COMMAND_DISALLOWED) [].
Proof. exact accept_frozen. Qed.
Print Assumptions C28_frozen_while_in_use.

(** C28: nothing but a reset changes the list while it is in use. *)
Theorem C28_kept_while_in_use : forall aes rng cfg now s o s' st out,
  accept_list_in_use s -> o <> Command Reset -> step aes rng cfg now s o = Ok s' st out -> accept s' = accept s.
Proof. exact accept_kept_in_use. Qed.
Print Assumptions C28_kept_while_in_use.

(** The hypotheses can be met: a history which ends with scanning that uses a
    non-empty list. *)
Theorem C28_in_use_reachable : forall aes rng, exists h s,
  history aes rng default_config h s /\ accept_list_in_use s /\ listed s ACCEPT_PUBLIC [1; 2; 3; 4; 5; 6].
Proof. exact accept_in_use_witness. Qed.
Print Assumptions C28_in_use_reachable.

(** C29: at most the advertised number of entries. *)
Theorem C29_resolving_list_bounded : forall aes rng cfg h s,
  history aes rng cfg h s -> lenN (resolving s) <= cfg_resolving_size cfg.
Proof. exact resolving_bounded. Qed.
Print Assumptions C29_resolving_list_bounded.

(** C29: identities are unique. *)
Theorem C29_identities_unique : forall aes rng cfg h s,
  history aes rng cfg h s -> NoDup (map identity (resolving s)).
Proof. exact resolving_identities_unique. Qed.
Print Assumptions C29_identities_unique.

(** C29: non-zero peer keys are unique. *)
Theorem C29_keys_unique : forall aes rng cfg h s i j e f, history aes rng cfg h s ->
  nth_error (resolving s) i = Some e -> nth_error (resolving s) j = Some f ->
  peer_irk e = peer_irk f -> ~ zero_key (peer_irk e) -> i = j.
Proof. exact resolving_keys_unique. Qed.
Print Assumptions C29_keys_unique.

(** C29: the list holds exactly the entries accepted and not removed since. *)
Theorem C29_contents_are_history : forall aes rng cfg h s, history aes rng cfg h s ->
  forall x, resolving_holds h x <-> In x (map stored (resolving s)).
Proof. exact resolving_replay. Qed.
Print Assumptions C29_contents_are_history.

(** C29, what holds: modifications are rejected while address resolution is enabled
    and advertising, scanning or initiating. What is missing: they are accepted while
    a periodic sync creation is pending, see [C29_frozen_refuted]. *)
Theorem C29_frozen_while_active_partial : forall aes rng cfg now s c,
  resolving_on s = true -> active s -> changes_resolving_list c ->
  step aes rng cfg now s (Command c) = Ok s (Some COMMAND_DISALLOWED) [].
Proof. exact resolving_frozen. Qed.
Print Assumptions C29_frozen_while_active_partial.

(** C29: nothing but a reset changes what the host stored, or disables the
    resolution, while active. *)
Theorem C29_kept_while_active : forall aes rng cfg now s o s' st out,
  resolving_on s = true -> active s -> o <> Command Reset -> step aes rng cfg now s o = Ok s' st out ->
  map stored (resolving s') = map stored (resolving s) /\ resolving_on s' = true.
Proof. exact resolving_kept_active. Qed.
Print Assumptions C29_kept_while_active.

(** C29: a modification is accepted while a create sync command is pending. *)
Theorem C29_frozen_refuted : forall aes rng, exists h s s' c now out,
  history aes rng default_config h s /\ resolving_on s = true /\ sync_pending s
  /\ changes_resolving_list c
  /\ step aes rng default_config now s (Command c) = Ok s' (Some SUCCESS) out
  /\ map stored (resolving s') <> map stored (resolving s).
Proof. exact resolving_frozen_witness. Qed.
Print Assumptions C29_frozen_refuted.

(** The hypotheses can be met. *)
Theorem C29_active_reachable : forall aes rng, exists h s,
  history aes rng default_config h s /\ resolving_on s = true /\ active s /\ length (resolving s) = 2%nat.
Proof. exact resolving_active_witness. Qed.
Print Assumptions C29_active_reachable.

(** C30: no duplicates, never more than the advertised size. *)
Theorem C30_padv_bounded_no_duplicates : forall aes rng cfg h s,
  history aes rng cfg h s -> NoDup (padv s) /\ lenN (padv s) <= cfg_padv_size cfg.
Proof. exact padv_ok. Qed.
Print Assumptions C30_padv_bounded_no_duplicates.

(** C30: membership is exactly additions minus removals. *)
Theorem C30_padv_membership : forall aes rng cfg h s, history aes rng cfg h s ->
  forall x, padv_holds h x <-> In x (padv s).
Proof. exact padv_replay. Qed.
Print Assumptions C30_padv_membership.

(** C30: modifications are rejected while a create sync command is pending. *)
Theorem C30_padv_frozen : forall aes rng cfg now s c, sync_pending s -> changes_padv c ->
  step aes rng cfg now s (Command c) = Ok s (Some COMMAND_DISALLOWED) [].
Proof. exact padv_frozen. Qed.
Print Assumptions C30_padv_frozen.

(** C30: nothing but a reset changes it meanwhile. *)
Theorem C30_padv_kept : forall aes rng cfg now s o s' st out, sync_pending s -> o <> Command Reset ->
  step aes rng cfg now s o = Ok s' st out -> padv s' = padv s.
Proof. exact padv_kept. Qed.
Print Assumptions C30_padv_kept.

(** The hypotheses can be met. *)
Theorem C30_pending_reachable : forall aes rng, exists h s,
  history aes rng default_config h s /\ sync_pending s /\ length (padv s) = 2%nat.
Proof. exact padv_pending_witness. Qed.
Print Assumptions C30_pending_reachable.
