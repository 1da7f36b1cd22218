(** The own address in periodic advertising packets. Proofs. *)
From Verif Require Import Prelude Address Rpa RpaProofs Table LeTypes LeAdvertise LeLists LeScan LeInitiate LeHost LeTac LeFrame LeStep LeSets LeOutputs LeHistory.
From Verif Require Import LeListsSpec LeListsProofs LeAdvertSpec LeAdvertProofs LeAdvertSends LeInitProofs LeFilterSpec LeFilter LeFilterMore LeFilterInv LeFilterAdv LeFilterInit LeOwnSpec LeOwn LeOwnTrainSpec.
Open Scope N_scope.

Section WithController.
Variable aes : list N -> list N -> list N.
Variable rng : N -> N.
Variable cfg : config.
Hypothesis cipher : cipher_ok aes.
Notation step := (step aes rng cfg).
Notation history := (history aes rng cfg).

Lemma set_enable_asked h s now l s' st out x a : history h s -> step now s (Command (SetExtEnable true l)) = Ok s' st out ->
  lookup (sets s') x = Some a -> set_sends aes h (public_address s) a -> chosen_at aes x h (public_address s) (adv_address a).
Proof.
  intros H S L O.
  assert (H' : history (Entry now (Command (SetExtEnable true l)) st out :: h) s') by (eapply next_step; eassumption).
  destruct (given_set _ _ _ _ _ _ _ H' L) as (e & G & P1 & P2 & P3 & P4). change (set_given x h = Some e) in G.
  pose proof (set_asks_history aes rng cfg _ _ H' x) as Q. rewrite L in Q. destruct Q as [Q1 Q2]. specialize (Q2 _ G).
  exists e. split; [exact G|]. unfold set_sends in O. rewrite <- Q1, Q2, P3, P4 in O. exact O.
Qed.

Lemma started_before x h h0 e : restarted x e = false -> last_started x h h0 -> last_started x (e :: h) h0.
Proof.
  intros R (h1 & now & l & st & out & -> & I & A). exists (e :: h1), now, l, st, out. split; [reflexivity|].
  split; [exact I|]. intros e' [<-|J]; [exact R|now apply A].
Qed.
Lemma started_now x l now st out h : In x (map en_handle l) ->
  last_started x (Entry now (Command (SetExtEnable true l)) st out :: h) h.
Proof. intro I. exists [], now, l, st, out. split; [reflexivity|]. split; [exact I|contradiction]. Qed.

Lemma trains_begun h s : history h s -> forall x a, lookup (sets s) x = Some a ->
  enabled a = true \/ periodic_latch a = true ->
  exists h0, last_started x h h0 /\ chosen_at aes x h0 (public_address s) (adv_address a).
Proof.
  intros H. induction H as [addr|h s now o s' st out H IH S]; [discriminate|]. intros x a' L EN.
  rewrite (public_kept _ _ _ _ _ _ _ _ _ S).
  assert (KEEP0 : forall a, restarted x (Entry now o st out) = false ->
    lookup (sets s) x = Some a -> enabled a = true \/ periodic_latch a = true ->
    adv_address a' = adv_address a ->
    exists h0, last_started x (Entry now o st out :: h) h0 /\ chosen_at aes x h0 (public_address s) (adv_address a')).
  { intros a R LA EA E. destruct (IH _ _ LA EA) as (h0 & B & O). exists h0. split; [now apply started_before|].
    now rewrite E. }
  assert (GO : (exists l, o = Command (SetExtEnable true l)) \/ (forall l, o <> Command (SetExtEnable true l))).
  { destruct o as [c| |]; try (right; discriminate). destruct c; try (right; discriminate). destruct on; [eauto|right; discriminate]. }
  destruct GO as [(l & ->)|NO].
  { destruct (set_enable_obeys aes rng cfg cipher _ _ _ _ _ _ _ H S _ _ L) as [[NI LA]|[I O]].
    - apply (KEEP0 a'); [|exact LA|exact EN|reflexivity]. unfold restarted. cbn [what status_of].
      destruct st as [[]|]; try reflexivity. destruct (existsb _ _) eqn:X; [|reflexivity].
      exfalso. apply existsb_exists in X as (y & J & X). apply N.eqb_eq in X. subst y. exact (NI eq_refl J).
    - exists h. split; [now apply started_now|]. exact (set_enable_asked _ _ _ _ _ _ _ _ _ H S L O). }
  assert (R0 : restarted x (Entry now o st out) = false).
  { unfold restarted. cbn [what status_of]. destruct o as [c| |]; try reflexivity. destruct c; try reflexivity.
    destruct on; [|reflexivity]. now elim (NO _ eq_refl). }
  assert (KEEP := fun a => KEEP0 a R0). clear KEEP0.
  pose proof (step_changes _ _ _ _ _ _ _ _ _ S (sets_nodup _ _ _ _ _ H) x) as C. rewrite L in C.
  remember (lookup (sets s) x) as q eqn:Q. symmetry in Q. remember (Some a') as q' eqn:Q'.
  destruct C; try discriminate Q'; try (injection Q' as <-); try (now elim (NO _ eq_refl));
    unfold disable_set, disable_periodic, enable_periodic, apply_params in *; le_simpl_in EN;
    try (eapply KEEP; [reflexivity|..]; le_simpl; try reflexivity; intuition congruence).
  - destruct o as [b|]; subst a.
    + eapply KEEP; [reflexivity|exact EN|reflexivity].
    + cbn in EN. destruct EN; discriminate.
  - match goal with AD : advertise_set _ _ _ = _ |- _ => destruct (advertise_set_frame _ _ _ _ _ AD) as (? & ? & ? & ? & -> & EE) end.
    eapply KEEP; [reflexivity|..]; try reflexivity. le_simpl_in EN. intuition.
  - subst a. now apply (KEEP a').
Qed.

(** * The packets *)
Definition of_train (a : adv_set) (p : air) : Prop :=
  match p with
  | AirPeriodic ad si _ _ d => periodic_latch a = true /\ ad = adv_address a /\ si = sid a /\ d = bytes (periodic_data a)
  | _ => True
  end.
Definition trains (a : adv_set) (x : output) : Prop := match x with Sent p => of_train a p | Notified _ => True end.

Ltac quiet_outs := repeat first [ apply Forall_app; split | apply Forall_nil | apply Forall_cons; [exact I|]
  | match goal with |- Forall _ (if ?b then _ else _) => destruct b end ].

Lemma advertise_set_trains s now a a' o : advertise_set s now a = Some (a', o) -> Forall (trains a) o.
Proof.
  unfold advertise_set. destruct (set_timeout s now a) as [a1 o1] eqn:E1. destruct (set_limit s a1) as [a2 o2] eqn:E2.
  destruct (set_advertise now a2) as [[a3 o3]|] eqn:E3; [|discriminate]. destruct (set_periodic now a3) as [a4 o4] eqn:E4.
  intro E. injection E as <- <-.
  assert (Q1 : Forall (trains a) o1 /\ exists e, a1 = with_enabled e a).
  { split.
    - unfold set_timeout in E1. destruct (timeout a); [|injection E1 as <- <-; constructor].
      destruct (_ && _); injection E1 as <- <-; quiet_outs.
    - destruct (set_timeout_frame _ _ _ _ _ E1) as (e & -> & _). now exists e. }
  destruct Q1 as [Q1 (e1 & ->)].
  assert (Q2 : Forall (trains a) o2 /\ exists e, a2 = with_enabled e a).
  { split.
    - unfold set_limit in E2. destruct (_ && _ && _); injection E2 as <- <-; quiet_outs.
    - destruct (set_limit_frame _ _ _ _ E2) as (e & -> & _). now exists e. }
  destruct Q2 as [Q2 (e2 & ->)].
  assert (Q3 : Forall (trains a) o3 /\ adv_address a3 = adv_address a /\ sid a3 = sid a
    /\ periodic_data a3 = periodic_data a /\ periodic_latch a3 = periodic_latch a).
  { unfold set_advertise in E3. le_simpl_all. destruct (_ && _).
    - destruct (legacy_pdus (props a)); [destruct (set_legacy_pdu (props a)); [|discriminate]|];
        injection E3 as <- <-; (split; [quiet_outs|]); le_simpl; auto.
    - injection E3 as <- <-. split; [quiet_outs|]. le_simpl. auto. }
  destruct Q3 as (Q3 & A1 & A2 & A3 & A4).
  apply Forall_app; split; [exact Q1|]. apply Forall_app; split; [exact Q2|]. apply Forall_app; split; [exact Q3|].
  unfold set_periodic in E4. destruct (_ && _) eqn:B in E4; injection E4 as <- <-; [|constructor].
  apply andb_true_iff in B as [B _]. constructor; [|constructor]. cbn [trains of_train].
  rewrite <- A4, <- A1, <- A2, <- A3. auto.
Qed.

Lemma advertise_sets_trains s now : forall m m' o p, advertise_sets s now m = Some (m', o) -> In (Sent p) o ->
  exists x a, In (x, a) m /\ of_train a p.
Proof.
  induction m as [|[k a] m IH]; cbn [advertise_sets]; intros m' o p H IN.
  - injection H as <- <-. contradiction.
  - destruct (advertise_set s now a) as [[a1 o1]|] eqn:E; [|discriminate].
    destruct (advertise_sets s now m) as [[m1 o2]|] eqn:E2; [|discriminate]. injection H as <- <-.
    apply in_app_or in IN as [I|I].
    + exists k, a. split; [now left|]. pose proof (advertise_set_trains _ _ _ _ _ E) as F.
      rewrite Forall_forall in F. exact (F _ I).
    + destruct (IH _ _ _ eq_refl I) as (x & b & J & T). exists x, b. split; [now right|exact T].
Qed.

Lemma tick_train now s s' st out ad si pw pi d : step now s Tick = Ok s' st out ->
  In (Sent (AirPeriodic ad si pw pi d)) out ->
  exists x a, In (x, a) (sets s) /\ periodic_latch a = true /\ ad = adv_address a /\ si = sid a /\ d = bytes (periodic_data a).
Proof.
  intros H IN. cbn [LeHost.step] in H. unfold tick, le_advertising in H.
  destruct (legacy_timeout now s) as [s1 o1] eqn:E1. destruct (legacy_advertise now s1) as [s2 o2] eqn:E2.
  destruct (advertise_sets s2 now (sets s2)) as [[m o3]|] eqn:E3; [|discriminate].
  destruct (le_scanning now _) as [s4 o4] eqn:E4. injection H as <- <- <-.
  assert (Q1 : sets s1 = sets s /\ ~ In (Sent (AirPeriodic ad si pw pi d)) o1).
  { unfold legacy_timeout in E1. destruct (l_timeout _); [destruct (_ && _)|]; injection E1 as <- <-; (split; [reflexivity|]); try tauto.
    destruct (le_event_unmasked s 1); [intros [I|[]]; discriminate|tauto]. }
  destruct Q1 as [S1 N1].
  assert (Q2 : sets s2 = sets s1 /\ ~ In (Sent (AirPeriodic ad si pw pi d)) o2).
  { unfold legacy_advertise in E2. destruct (_ && _); [destruct (legacy_pdu_of _)|]; injection E2 as <- <-;
      (split; [reflexivity|]); [intros [I|[]]; discriminate|tauto]. }
  destruct Q2 as [S2 N2].
  apply in_app_or in IN as [IN|I].
  - apply in_app_or in IN as [I|IN]; [contradiction|]. apply in_app_or in IN as [I|I]; [contradiction|].
    destruct (advertise_sets_trains _ _ _ _ _ _ E3 I) as (x & a & J & T). exists x, a.
    rewrite S2, S1 in J. split; [exact J|exact T].
  - exfalso. unfold le_scanning in E4. destruct (negb _) in E4; [injection E4 as <- <-; contradiction|].
    destruct (_ && _) in E4; injection E4 as <- <-; [|contradiction].
    destruct (le_event_unmasked _ _); [destruct I as [I|[]]; discriminate|contradiction].
Qed.

Theorem trains_obeying h s now o s' st out a si pw pi d : history h s -> step now s o = Ok s' st out ->
  In (Sent (AirPeriodic a si pw pi d)) out ->
  exists x h0, last_started x h h0 /\ chosen_at aes x h0 (public_address s) a.
Proof.
  intros H S I. pose proof (step_fine _ _ _ _ _ _ _ _ _ S) as F. rewrite Forall_forall in F. specialize (F _ I).
  cbn [fine] in F. destruct o as [c|p|]; [destruct c; discriminate|destruct p; discriminate|].
  destruct (tick_train _ _ _ _ _ _ _ _ _ _ S I) as (x & b & J & LA & -> & _).
  apply in_lookup_nodup in J; [|exact (sets_nodup _ _ _ _ _ H)].
  destruct (trains_begun _ _ H x b J (or_intror LA)) as (h0 & B & O). exists x, h0. split; [exact B|exact O].
Qed.

End WithController.
