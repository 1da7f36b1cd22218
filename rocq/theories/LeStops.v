(** The advertising that accepts a connection stops, and no other: proofs. *)
From Verif Require Import Prelude Address Rpa Table LeTypes LeAdvertise LeLists LeScan LeInitiate LeHost LeTac LeFrame LeStep LeSets LeOutputs LeHistory.
From Verif Require Import LeListsSpec LeListsProofs LeAdvertSpec LeAdvertProofs LeListsWitness LeParamsWitness.
Open Scope N_scope.

Section WithController.
Variable aes : list N -> list N -> list N.
Variable rng : N -> N.
Variable cfg : config.
Notation step := (step aes rng cfg).
Notation history := (history aes rng cfg).

Lemma sets_connect_stops m : forall i adv x y z s s' o, sets_connect_request aes m i adv x y z s = Next s' o ->
  (o = [] /\ sets s' = sets s /\ legacy s' = legacy s)
  \/ (exists k a, In (k, a) m /\ enabled a = true /\ adv_address a = adv /\ sets s' = put (sets s) k (disable_set a) /\ legacy s' = legacy s
      /\ In (Sent (AirConnectComplete i adv x y z)) o).
Proof.
  induction m as [|[h a] m IH]; cbn [sets_connect_request]; intros i adv x y z s s' o H.
  - injection H as <- <-. now left.
  - destruct (set_connect_request aes h a i adv x y z s) as [e|e] eqn:E.
    + subst e. unfold set_connect_request in E.
      destruct (enabled a && connectable (props a) && awt_eqb (adv_address a) adv) eqn:B; cbn [negb] in E; [|discriminate].
      destruct (resolve aes i s) as [s1 r'] eqn:R. apply resolve_frame in R as (l & -> & _). destruct (negb _) in E; [discriminate|].
      injection E as E. destruct (handle_connection _ _ _ _ _ _ _ _ _) as [[[s2 c] o2]|] eqn:HC; [|discriminate].
      apply handle_connection_frame in HC as (last & ia & -> & _). injection E as <- <-. right. exists h, a.
      apply andb_true_iff in B as [B B3]. apply andb_true_iff in B as [B1 B2]. apply awt_eqb_eq in B3.
      repeat split; auto; [now left|]. apply in_app_iff. right. now left.
    + destruct (set_connect_request_frame _ _ _ _ _ _ _ _ _ _ E) as (l & -> & _).
      destruct (IH _ _ _ _ _ _ _ _ H) as [X|(k & b & I & X)]; [left; exact X|]. right. exists k, b. split; [now right|exact X].
Qed.

Theorem connection_stops h s now i adv x y z s' st out : history h s ->
  step now s (Receive (AirConnect i adv x y z)) = Ok s' st out ->
  (out = [] /\ l_enabled (legacy s') = l_enabled (legacy s) /\ forall k, is_enabled s' k <-> is_enabled s k)
  \/ (In (Sent (AirConnectComplete i adv x y z)) out /\ l_enabled (legacy s) = true /\ l_address (legacy s) = adv
      /\ l_enabled (legacy s') = false /\ forall k, is_enabled s' k <-> is_enabled s k)
  \/ (In (Sent (AirConnectComplete i adv x y z)) out /\ l_enabled (legacy s') = l_enabled (legacy s)
      /\ exists k a, lookup (sets s) k = Some a /\ enabled a = true /\ adv_address a = adv
         /\ ~ is_enabled s' k /\ forall j, j <> k -> is_enabled s' j <-> is_enabled s j).
Proof.
  intros H S. cbn [LeHost.step receive] in S. unfold of_effect in S.
  destruct (receive_connect _ _ _ _ _ _ _) as [s1 o1| |] eqn:E; try discriminate. injection S as <- <- <-.
  unfold receive_connect in E. destruct (legacy_connect_request _ _ _ _ _ _ _) as [e|e] eqn:L; unfold legacy_connect_request in L.
  - subst e. right. left.
    destruct (l_enabled (legacy s) && legacy_connectable (l_type (legacy s)) && awt_eqb (l_address (legacy s)) adv) eqn:B; cbn [negb] in L; [|discriminate].
    destruct (resolve aes i s) as [s2 r'] eqn:R. apply resolve_frame in R as (l & -> & _). destruct (negb _) in L; [discriminate|].
    injection L as L. destruct (handle_connection _ _ _ _ _ _ _ _ _) as [[[s3 c] o2]|] eqn:HC; [|discriminate].
    apply handle_connection_frame in HC as (last & ia & -> & _). injection L as <- <-.
    apply andb_true_iff in B as [B B3]. apply andb_true_iff in B as [B1 B2]. apply awt_eqb_eq in B3.
    split; [apply in_app_iff; right; now left|]. repeat split; auto.
  - assert (F : sets e = sets s /\ legacy e = legacy s).
    { destruct (negb _) in L; [injection L as <-; auto|]. destruct (resolve aes i s) as [s2 r'] eqn:R. apply resolve_frame in R as (l & -> & _).
      destruct (negb _) in L; [|discriminate]. injection L as <-. auto. }
    destruct F as [F1 F2]. destruct (sets_connect_stops _ _ _ _ _ _ _ _ _ E) as [(-> & S1 & S2)|(k & a & I & EN & AD & S1 & S2 & O)].
    + left. split; [reflexivity|]. unfold is_enabled. rewrite S1, S2, F1, F2. split; [reflexivity|]. intros k. reflexivity.
    + right. right. split; [exact O|]. rewrite S2, F2. split; [reflexivity|]. rewrite F1 in *.
      exists k, a. split; [exact (in_lookup_nodup _ _ _ (sets_nodup _ _ _ _ _ H) I)|]. split; [exact EN|]. split; [exact AD|].
      unfold is_enabled. rewrite S1. split.
      * intros (b & LB & EB). rewrite lookup_put, N.eqb_refl in LB. injection LB as <-. discriminate EB.
      * intros j NE. rewrite lookup_put. destruct (N.eqb_spec j k); [contradiction|reflexivity].
Qed.
End WithController.
