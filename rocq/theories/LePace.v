(** The interval of a set that advertises on its own: proofs. *)
From Verif Require Import Prelude Address Rpa Table LeTypes LeAdvertise LeLists LeScan LeInitiate LeHost LeTac LeFrame LeStep LeSets LeOutputs LeHistory.
From Verif Require Import LeListsSpec LeListsProofs LeAdvertSpec LeAdvertProofs LeAdvertSends LeFilterSpec LeFilterMore LeFilterAdv LeTimeSpec LeTime LeTimeCount LeEventsSpec LeEvents LePaceSpec.
Open Scope N_scope.

(** What a tick sends for a set, and when the next event is *)
Lemma advertise_set_paced s now a a' o : advertise_set s now a = Some (a', o) ->
  if enabled a' then adverts o = (if next_event a <=? now then 1 else 0) /\ next_event a' = next_event a + adverts o * (interval a * 625)
  else adverts o = 0.
Proof.
  intros H. pose proof (in_time _ _ _ _ _ H) as IT.
  unfold advertise_set in H. destruct (set_timeout s now a) as [a1 o1] eqn:E1. destruct (set_limit s a1) as [a2 o2] eqn:E2.
  destruct (set_advertise now a2) as [[a3 o3]|] eqn:E3; [|discriminate]. destruct (set_periodic now a3) as [a4 o4] eqn:E4. injection H as <- <-.
  rewrite !adverts_app.
  assert (X4 : adverts o4 = 0 /\ enabled a4 = enabled a3 /\ next_event a4 = next_event a3).
  { unfold set_periodic in E4. destruct (_ && _) in E4; injection E4 as <- <-; repeat split; reflexivity. }
  assert (X1 : adverts o1 = 0 /\ (enabled a1 = true -> a1 = a)).
  { unfold set_timeout in E1. destruct (timeout a); [destruct (_ && _) in E1|]; injection E1 as <- <-; try (split; [reflexivity|auto]).
    split; [|discriminate]. apply adverts_none. intros p I. apply in_app_iff in I as [I|I];
      repeat match type of I with In _ (if ?b then _ else _) => destruct b end; cbn in I; intuition congruence. }
  assert (X2 : adverts o2 = 0 /\ (enabled a2 = true -> a2 = a1)).
  { unfold set_limit in E2. destruct (_ && _) in E2; injection E2 as <- <-; [|split; [reflexivity|auto]].
    split; [|discriminate]. apply adverts_none. intros p I. destruct (le_event_unmasked _ _) in I; cbn in I; intuition congruence. }
  assert (X3 : if enabled a3 then enabled a2 = true /\ adverts o3 = (if next_event a2 <=? now then 1 else 0) /\ next_event a3 = next_event a2 + adverts o3 * (interval a2 * 625) else adverts o3 = 0).
  { unfold set_advertise in E3. destruct (enabled a2) eqn:N2; cbn [andb] in E3; [|injection E3 as <- <-; now rewrite N2].
    destruct (_ <=? now) in E3 |- *; [|injection E3 as <- <-; rewrite N2; change (adverts []) with 0; repeat split; lia].
    assert (F : forall p, is_advert (Sent p) = true -> adverts [Sent p] = 1) by (intros p IS; unfold adverts; cbn [filter]; now rewrite IS).
    destruct (legacy_pdus _) in E3; [destruct (set_legacy_pdu _) in E3; [|discriminate]|]; injection E3 as <- <-; le_simpl; rewrite N2, F by reflexivity;
      repeat split; lia. }
  destruct X4 as (-> & X4 & X5). rewrite X4 in IT |- *. rewrite X5. destruct X1 as (-> & X1). destruct X2 as (-> & X2).
  destruct (enabled a3); [|rewrite X3; reflexivity]. destruct X3 as (X3 & X6 & X7). pose proof (X2 X3). subst a2. pose proof (X1 X3). subst a1.
  rewrite N.add_0_r, !N.add_0_l. auto.
Qed.

Section WithController.
Variable aes : list N -> list N -> list N.
Variable rng : N -> N.
Variable cfg : config.
Notation step := (step aes rng cfg).
Notation history := (history aes rng cfg).

Lemma legacy_unused x h s : history h s -> (forall e, In e h -> lone x e) -> l_enabled (legacy s) = false.
Proof.
  induction 1 as [addr|h s now o s' st out H IH S]; intros LIM; [reflexivity|].
  specialize (IH (fun e I => LIM e (or_intror I))). specialize (LIM _ (or_introl eq_refl)). unfold lone in LIM. cbn [what] in LIM.
  destruct (touches o PLegacy) eqn:T; [|pose proof (step_same _ _ _ _ _ _ _ _ _ S PLegacy T) as E; cbn [same] in E; now rewrite E].
  destruct o as [c|p|].
  - destruct c; try discriminate; try contradiction.
    + cbn [LeHost.step run_command] in S. unfold reset, loud in S. ok S. reflexivity.
    + cbn [LeHost.step] in S. unfold_step S. crack S; ok S; le_simpl; auto.
    + cbn [LeHost.step] in S. unfold_step S. destruct (extended_used s); ok S; le_simpl; auto.
    + cbn [LeHost.step] in S. unfold_step S. destruct (extended_used s); ok S; le_simpl; auto.
  - destruct p; try discriminate. cbn [LeHost.step receive] in S. unfold of_effect, receive_connect, legacy_connect_request in S.
    rewrite IH in S. cbn [andb negb] in S. destruct (sets_connect_request _ _ _ _ _ _ _ _) as [s1 o1| |] eqn:E; try discriminate. ok S.
    apply sets_connect_request_frame in E as [(l & -> & _)|(l & h' & a & c & last & ia & -> & _)]; le_simpl; exact IH.
  - destruct (tick_legacy _ _ _ _ _ _ _ _ S) as (e & n & -> & E). le_simpl. destruct e; [|reflexivity]. specialize (E eq_refl). congruence.
Qed.

Lemma enabled_lone x h : (forall e, In e h -> lone x e) -> forall y t d, enabled_by y h = Some (t, d) -> y = x.
Proof.
  induction h as [|e h IH]; intros AL y t d; cbn [enabled_by]; [discriminate|].
  specialize (IH (fun e I => AL e (or_intror I)) y t d). pose proof (AL e (or_introl eq_refl)) as A. unfold lone in A.
  destruct (what e) as [c|p|]; try exact IH. destruct c; try exact IH; [discriminate|]. destruct on; [|exact IH].
  destruct (status_of e) as [[]|]; try exact IH. destruct (find _ l) as [d'|] eqn:F; [|exact IH]. intros _.
  apply find_some in F as [F E]. apply N.eqb_eq in E. rewrite <- E. now apply A.
Qed.

Lemma tick_lone x h s now s' st out a : history h s -> (forall e, In e h -> lone x e) -> step now s Tick = Ok s' st out ->
  lookup (sets s) x = Some a -> exists a' o', advertise_set s now a = Some (a', o') /\ lookup (sets s') x = Some a' /\ adverts out = adverts o'.
Proof.
  intros H AL S L. pose proof (legacy_unused _ _ _ H AL) as LG.
  destruct (tick_parts _ _ _ _ _ _ _ _ S) as (o1 & o2 & o3 & o4 & -> & A & N1 & N2 & N4).
  pose proof (lookup_advertise _ _ _ _ _ x A) as Q. rewrite L in Q. destruct Q as (a' & o' & B & L').
  exists a', o'. split; [exact B|]. split; [exact L'|]. rewrite !adverts_app, (N2 LG), (adverts_none _ N1), (adverts_none _ N4).
  assert (O : forall y b, In (y, b) (sets s) -> y <> x -> enabled b = false).
  { intros y b I NE. destruct (enabled b) eqn:EB; [|reflexivity]. exfalso. apply NE.
    destruct (enabled_timed _ _ _ _ _ H y b (in_lookup_nodup _ _ _ (sets_nodup _ _ _ _ _ H) I) EB) as (t & d & D & _).
    exact (enabled_lone _ _ AL _ _ _ D). }
  rewrite (advertise_sets_only _ _ _ _ _ _ _ _ _ A (sets_nodup _ _ _ _ _ H) O L B).
  change (adverts []) with 0. lia.
Qed.

(** Nothing else is sent when the set is not there *)
Lemma tick_none x h s now s' st out : history h s -> (forall e, In e h -> lone x e) -> step now s Tick = Ok s' st out ->
  ~ is_enabled s x -> adverts out = 0.
Proof.
  intros H AL S OFF. pose proof (legacy_unused _ _ _ H AL) as LG.
  destruct (tick_parts _ _ _ _ _ _ _ _ S) as (o1 & o2 & o3 & o4 & -> & A & N1 & N2 & N4).
  rewrite !adverts_app, (N2 LG), (adverts_none _ N1), (adverts_none _ N4). rewrite (advertise_sets_quiet _ _ _ _ _ A); [reflexivity|].
  intros y b I. destruct (enabled b) eqn:EB; [|reflexivity]. exfalso. apply OFF.
  pose proof (in_lookup_nodup _ _ _ (sets_nodup _ _ _ _ _ H) I) as L.
  destruct (enabled_timed _ _ _ _ _ H y b L EB) as (t & d & D & _). pose proof (enabled_lone _ _ AL _ _ _ D). subst y. exists b. auto.
Qed.

(** The interval is the one given *)
Lemma interval_given h s : history h s -> forall x a e, lookup (sets s) x = Some a -> set_given x h = Some e -> interval a = e_min e.
Proof.
  induction 1 as [addr|h s now o s' st out H IH S]; intros x a' e L G; [discriminate|].
  pose proof (step_changes _ _ _ _ _ _ _ _ _ S (sets_nodup _ _ _ _ _ H) x) as C. rewrite L in C.
  remember (Some a') as r eqn:R. remember (lookup (sets s) x) as q eqn:Q. symmetry in Q.
  assert (IHx : forall a, q = Some a -> set_given x h = Some e -> interval a = e_min e) by (intros a E; rewrite E in Q; exact (IH x a e Q)).
  clear IH L. destruct C; try discriminate R; try injection R as <-; try (rewrite leaves_given in G by assumption; exact (IHx _ R G)).
  all: cbn [set_given what status_of] in G; rewrite ?N.eqb_refl in G.
  all: try (exact (IHx a eq_refl G)).
  all: try (injection G as <-; reflexivity).
  all: try (destruct st; exact (IHx a eq_refl G)).
  destruct (advertise_set_frame _ _ _ _ _ H0) as (? & ? & ? & ? & -> & _). exact (IHx a eq_refl G).
Qed.

Lemma scheduled x h s : history h s -> (forall e, In e h -> lone x e) -> forall a, lookup (sets s) x = Some a -> enabled a = true ->
  exists t d, enabled_by x h = Some (t, d) /\ next_event a = t + adverts_since x h * (interval a * 625).
Proof.
  induction 1 as [addr|h s now o s' st out H IH S]; intros AL a' L EN; [discriminate|].
  pose proof (fun e I => AL e (or_intror I)) as AL0. specialize (IH AL0).
  assert (T : o = Tick \/ o <> Tick) by (destruct o as [[]|[]|]; auto; right; discriminate). destruct T as [->|NT].
  - cbn [adverts_since enabled_by what sent].
    destruct (lookup (sets s) x) as [a|] eqn:L0.
    + destruct (tick_lone _ _ _ _ _ _ _ _ H AL0 S L0) as (b & o' & A & L' & ->). rewrite L' in L. injection L as ->.
      destruct (in_time _ _ _ _ _ A EN) as (E & _). destruct (IH a eq_refl E) as (t & d & D & NX). exists t, d. split; [exact D|].
      pose proof (advertise_set_paced _ _ _ _ _ A) as P. rewrite EN in P. destruct P as [_ ->]. rewrite NX.
      assert (interval a' = interval a) as -> by (destruct (advertise_set_frame _ _ _ _ _ A) as (? & ? & ? & ? & -> & _); reflexivity).
      rewrite N.mul_add_distr_r. lia.
    + destruct (tick_sets _ _ _ _ _ _ _ _ S) as (_ & o & A). apply (lookup_advertise _ _ _ _ _ x) in A. rewrite L0 in A. congruence.
  - pose proof (no_adverts _ _ _ _ _ _ _ _ _ S NT) as Z.
    pose proof (step_changes _ _ _ _ _ _ _ _ _ S (sets_nodup _ _ _ _ _ H) x) as C. rewrite L in C.
    remember (Some a') as r eqn:R. remember (lookup (sets s) x) as q eqn:Q. symmetry in Q.
    destruct C; try discriminate R; try injection R as <-; try (rewrite since_kept, leaves_enabled by assumption; exact (IH _ R EN)); try now elim NT.
    all: cbn [adverts_since enabled_by what status_of sent at_time]; rewrite ?Z, ?N.add_0_l.
    all: try (exact (IH a eq_refl EN)).
    + exfalso. match goal with X : params_ok _ _ |- _ => destruct X as [X _] end. unfold apply_params in EN. le_simpl_in EN. congruence.
    + destruct st; try exact (IH a eq_refl EN); match goal with X : _ <> _ |- _ => now elim X end.
    + rewrite (find_handle _ _ e (enable_nodup _ _ _ _ _ _ _ _ _ S)) by assumption. exists now, e. split; [reflexivity|].
      unfold started, enable_set, new_addresses. le_simpl. lia.
Qed.

(** A tick sends the next packet when it is due, and no other *)
Theorem paced x h s now s' st out : history h s -> (forall e, In e h -> lone x e) -> step now s Tick = Ok s' st out ->
  (is_enabled s' x -> exists t d e, enabled_by x h = Some (t, d) /\ set_given x h = Some e
     /\ adverts out = if t + adverts_since x h * (e_min e * 625) <=? now then 1 else 0)
  /\ (~ is_enabled s' x -> adverts out = 0).
Proof.
  intros H AL S. destruct (lookup (sets s) x) as [a|] eqn:L.
  - destruct (tick_lone _ _ _ _ _ _ _ _ H AL S L) as (b & o' & A & L' & ->). pose proof (advertise_set_paced _ _ _ _ _ A) as P. split.
    + intros (b' & L'' & EN). rewrite L' in L''. injection L'' as <-. rewrite EN in P. destruct P as [P _].
      destruct (in_time _ _ _ _ _ A EN) as (E & _). destruct (scheduled _ _ _ H AL a L E) as (t & d & D & NX).
      destruct (given_set _ _ _ _ _ _ _ H L) as (e & G & _). exists t, d, e. split; [exact D|]. split; [exact G|].
      rewrite P, NX, (interval_given _ _ H x a e L G). reflexivity.
    + intros OFF. destruct (enabled b) eqn:EB; [elim OFF; exists b; auto|exact P].
  - split.
    + intros (b & L' & _). destruct (tick_sets _ _ _ _ _ _ _ _ S) as (_ & o & A). apply (lookup_advertise _ _ _ _ _ x) in A. rewrite L in A. congruence.
    + intros _. apply (tick_none x h s now s' st out H AL S). intros (a & L0 & _). congruence.
Qed.

(** The interval is at least 20 ms *)
Theorem pace_bound h s x e : history h s -> set_given x h = Some e -> 20000 <= e_min e * 625.
Proof.
  intros H G. destruct (set_given_in _ _ _ _ _ _ _ H G) as (a & L & _). rewrite <- (interval_given _ _ H x a e L G).
  pose proof (ok_interval _ _ _ (sets_ok _ _ _ _ _ H x a L)). lia.
Qed.
End WithController.
