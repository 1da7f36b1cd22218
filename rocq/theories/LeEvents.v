(** The number of events of a set that advertises on its own: proofs. *)
From Verif Require Import Prelude Address Rpa Table LeTypes LeAdvertise LeLists LeScan LeInitiate LeHost LeTac LeFrame LeStep LeSets LeOutputs LeHistory.
From Verif Require Import LeListsSpec LeListsProofs LeAdvertSpec LeAdvertProofs LeAdvertSends LeFilterSpec LeFilterMore LeFilterAdv LeTimeSpec LeTime LeTimeCount LeEventsSpec.
Open Scope N_scope.

(** What a tick does to an enabled set with a limit *)
Lemma advertise_set_counts s now a a' o : advertise_set s now a = Some (a', o) -> enabled a = true -> 0 < max_events a <= 255 ->
  max_events a' = max_events a
  /\ if enabled a' then num_events a' = num_events a + adverts o /\ num_events a < max_events a /\ adverts o <= 1 else adverts o = 0.
Proof.
  intros H EN OK. split; [destruct (advertise_set_frame _ _ _ _ _ H) as (e & n & ne & np & -> & _); reflexivity|].
  pose proof (advertise_set_left _ _ _ _ _ H (fun _ => OK)) as LE. pose proof (in_time _ _ _ _ _ H) as IT.
  unfold advertise_set in H. destruct (set_timeout s now a) as [a1 o1] eqn:E1. destruct (set_limit s a1) as [a2 o2] eqn:E2.
  destruct (set_advertise now a2) as [[a3 o3]|] eqn:E3; [|discriminate]. destruct (set_periodic now a3) as [a4 o4] eqn:E4. injection H as <- <-.
  clear LE. rewrite !adverts_app.
  assert (X4 : adverts o4 = 0 /\ enabled a4 = enabled a3 /\ num_events a4 = num_events a3).
  { unfold set_periodic in E4. destruct (_ && _) in E4; injection E4 as <- <-; repeat split; reflexivity. }
  assert (X1 : adverts o1 = 0 /\ (enabled a1 = true -> a1 = a)).
  { unfold set_timeout in E1. destruct (timeout a); [destruct (_ && _) in E1|]; injection E1 as <- <-; try (split; [reflexivity|auto]).
    split; [|discriminate]. apply adverts_none. intros p I. apply in_app_iff in I as [I|I];
      repeat match type of I with In _ (if ?b then _ else _) => destruct b end; cbn in I; intuition congruence. }
  assert (X2 : adverts o2 = 0 /\ (enabled a2 = true -> a2 = a1)).
  { unfold set_limit in E2. destruct (_ && _) in E2; injection E2 as <- <-; [|split; [reflexivity|auto]].
    split; [|discriminate]. apply adverts_none. intros p I. destruct (le_event_unmasked _ _) in I; cbn in I; intuition congruence. }
  assert (X3 : if enabled a3 then enabled a2 = true /\ (num_events a2 <= 254 -> num_events a3 = num_events a2 + adverts o3) /\ adverts o3 <= 1 else adverts o3 = 0).
  { unfold set_advertise in E3. destruct (enabled a2) eqn:N2; cbn [andb] in E3; [|injection E3 as <- <-; now rewrite N2].
    destruct (_ <=? now) in E3; [|injection E3 as <- <-; rewrite N2; change (adverts []) with 0; split; [reflexivity|lia]].
    assert (F : forall p, is_advert (Sent p) = true -> adverts [Sent p] = 1) by (intros p IS; unfold adverts; cbn [filter]; now rewrite IS).
    destruct (legacy_pdus _) in E3; [destruct (set_legacy_pdu _) in E3; [|discriminate]|]; injection E3 as <- <-; le_simpl; rewrite N2, F by reflexivity;
      (split; [reflexivity|]; split; [intro LE; apply N.mod_small; lia|lia]). }
  destruct X4 as (-> & X4 & X5). rewrite X4 in IT |- *. rewrite X5. destruct X1 as (-> & X1). destruct X2 as (-> & X2).
  destruct (enabled a3); [|rewrite X3; reflexivity]. destruct X3 as (X3 & X6 & X7). pose proof (X2 X3). subst a2. pose proof (X1 X3). subst a1.
  destruct (IT eq_refl) as (_ & _ & LT). assert (num_events a < max_events a) by (apply LT; lia). rewrite X6 by lia. lia.
Qed.

Lemma advertise_set_quiet s now a a' o : advertise_set s now a = Some (a', o) -> enabled a = false -> adverts o = 0.
Proof.
  intros H EN. apply advertise_set_left in H; [|congruence]. unfold left at 2 in H. rewrite EN in H. lia.
Qed.

Lemma advertise_sets_quiet s now m : forall m' o, advertise_sets s now m = Some (m', o) ->
  (forall x a, In (x, a) m -> enabled a = false) -> adverts o = 0.
Proof.
  induction m as [|[k a] m IH]; cbn [advertise_sets]; intros m' o H OK; [injection H as <- <-; reflexivity|].
  destruct (advertise_set s now a) as [[a1 o1]|] eqn:E; [|discriminate]. destruct (advertise_sets s now m) as [[m1 o2]|] eqn:M; [|discriminate].
  injection H as <- <-. rewrite adverts_app, (advertise_set_quiet _ _ _ _ _ E (OK k a (or_introl eq_refl))).
  exact (IH _ _ eq_refl (fun x b I => OK x b (or_intror I))).
Qed.

Lemma advertise_sets_only s now x a a' o' m : forall m' o, advertise_sets s now m = Some (m', o) -> NoDup (keys m) ->
  (forall y b, In (y, b) m -> y <> x -> enabled b = false) -> lookup m x = Some a -> advertise_set s now a = Some (a', o') -> adverts o = adverts o'.
Proof.
  induction m as [|[k b] m IH]; cbn [advertise_sets lookup]; intros m' o H ND OK L A; [discriminate|].
  destruct (advertise_set s now b) as [[b1 q1]|] eqn:B; [|discriminate]. destruct (advertise_sets s now m) as [[m1 q2]|] eqn:M; [|discriminate].
  injection H as <- <-. rewrite adverts_app. unfold keys in ND. cbn [map fst] in ND. inversion ND as [|? ? N1 N2]; subst.
  destruct (N.eqb_spec k x) as [->|NE].
  - injection L as ->. rewrite B in A. injection A as -> ->. rewrite (advertise_sets_quiet _ _ _ _ _ M); [lia|].
    intros y c I. apply (OK y c (or_intror I)). intros ->. apply N1. change x with (fst (x, c)). now apply in_map.
  - rewrite (advertise_set_quiet _ _ _ _ _ B (OK k b (or_introl eq_refl) NE)).
    rewrite (IH _ _ eq_refl N2 (fun y c I => OK y c (or_intror I)) L A). lia.
Qed.

Section WithController.
Variable aes : list N -> list N -> list N.
Variable rng : N -> N.
Variable cfg : config.
Notation step := (step aes rng cfg).
Notation history := (history aes rng cfg).

Lemma enabled_alone x h : (forall e, In e h -> alone x e) -> forall y t d, enabled_by y h = Some (t, d) -> y = x.
Proof.
  induction h as [|e h IH]; intros AL y t d; cbn [enabled_by]; [discriminate|].
  specialize (IH (fun e I => AL e (or_intror I)) y t d). destruct (AL e (or_introl eq_refl)) as [_ A].
  destruct (what e) as [c|p|]; try exact IH. destruct c; try exact IH; [discriminate|]. destruct on; [|exact IH].
  destruct (status_of e) as [[]|]; try exact IH. destruct (find _ l) as [d'|] eqn:F; [|exact IH]. intros _.
  apply find_some in F as [F E]. apply N.eqb_eq in E. rewrite <- E. now apply A.
Qed.

Lemma alone_limited x h : (forall e, In e h -> alone x e) -> forall e, In e h -> limited e.
Proof. intros A e I. exact (proj1 (A e I)). Qed.

(** The packets of a tick are those of the set *)
Lemma tick_alone x h s now s' st out a : history h s -> (forall e, In e h -> alone x e) -> step now s Tick = Ok s' st out ->
  lookup (sets s) x = Some a -> exists a' o', advertise_set s now a = Some (a', o') /\ lookup (sets s') x = Some a' /\ adverts out = adverts o'.
Proof.
  intros H AL S L. pose proof (legacy_never _ _ _ _ _ H (alone_limited _ _ AL)) as LG.
  destruct (tick_parts _ _ _ _ _ _ _ _ S) as (o1 & o2 & o3 & o4 & -> & A & N1 & N2 & N4).
  pose proof (lookup_advertise _ _ _ _ _ x A) as Q. rewrite L in Q. destruct Q as (a' & o' & B & L').
  exists a', o'. split; [exact B|]. split; [exact L'|]. rewrite !adverts_app, (N2 LG), (adverts_none _ N1), (adverts_none _ N4).
  assert (O : forall y b, In (y, b) (sets s) -> y <> x -> enabled b = false).
  { intros y b I NE. destruct (enabled b) eqn:EB; [|reflexivity]. exfalso. apply NE.
    destruct (enabled_timed _ _ _ _ _ H y b (in_lookup_nodup _ _ _ (sets_nodup _ _ _ _ _ H) I) EB) as (t & d & D & _).
    exact (enabled_alone _ _ AL _ _ _ D). }
  rewrite (advertise_sets_only _ _ _ _ _ _ _ _ _ A (sets_nodup _ _ _ _ _ H) O L B).
  change (adverts []) with 0. lia.
Qed.

Lemma since_kept x now o st out h : adverts out = 0 -> leaves x o st = true -> adverts_since x (Entry now o st out :: h) = adverts_since x h.
Proof.
  intros Z L. cbn [adverts_since what status_of sent]. rewrite Z. destruct o as [c|p|]; try reflexivity.
  destruct c; try reflexivity. destruct on; [|reflexivity].
  destruct st as [[]|]; try reflexivity. cbn [leaves] in L. apply andb_true_iff in L as [L _]. apply negb_true_iff, mem_false in L.
  now rewrite find_no_handle.
Qed.

Theorem counted x h s : history h s -> (forall e, In e h -> alone x e) ->
  forall a, lookup (sets s) x = Some a -> enabled a = true -> num_events a = adverts_since x h /\ num_events a <= max_events a.
Proof.
  induction 1 as [addr|h s now o s' st out H IH S]; intros AL a' L EN; [discriminate|].
  pose proof (fun e I => AL e (or_intror I)) as AL0. specialize (IH AL0).
  pose proof (enabled_limited _ _ _ _ _ H (alone_limited _ _ AL0)) as EL.
  assert (T : o = Tick \/ o <> Tick) by (destruct o as [[]|[]|]; auto; right; discriminate). destruct T as [->|NT].
  - cbn [adverts_since what sent].
    destruct (lookup (sets s) x) as [a|] eqn:L0.
    + destruct (tick_alone _ _ _ _ _ _ _ _ H AL0 S L0) as (b & o' & A & L' & ->). rewrite L' in L. injection L as ->.
      destruct (in_time _ _ _ _ _ A EN) as (E & _). destruct (IH a eq_refl E) as [IH1 IH2].
      destruct (enabled_timed _ _ _ _ _ H x a L0 E) as (t & d & D & _ & MX).
      destruct (advertise_set_counts _ _ _ _ _ A E) as [M C]; [rewrite MX; exact (EL _ _ _ D)|]. rewrite EN in C. lia.
    + destruct (tick_sets _ _ _ _ _ _ _ _ S) as (_ & o & A). apply (lookup_advertise _ _ _ _ _ x) in A. rewrite L0 in A. congruence.
  - pose proof (no_adverts _ _ _ _ _ _ _ _ _ S NT) as Z.
    pose proof (step_changes _ _ _ _ _ _ _ _ _ S (sets_nodup _ _ _ _ _ H) x) as C. rewrite L in C.
    remember (Some a') as r eqn:R. remember (lookup (sets s) x) as q eqn:Q. symmetry in Q.
    destruct C; try discriminate R; try injection R as <-; try (rewrite since_kept by assumption; exact (IH _ R EN)); try now elim NT.
    all: cbn [adverts_since what status_of sent]; rewrite ?Z, ?N.add_0_l.
    all: try (exact (IH a eq_refl EN)).
    + exfalso. match goal with X : params_ok _ _ _ _ |- _ => destruct X as [X _] | X : params_ok _ _ _ |- _ => destruct X as [X _] | X : params_ok _ _ |- _ => destruct X as [X _] end.
      unfold apply_params in EN. le_simpl_in EN. congruence.
    + destruct st; try exact (IH a eq_refl EN); match goal with X : _ <> _ |- _ => now elim X end.
    + rewrite (find_handle _ _ e (enable_nodup _ _ _ _ _ _ _ _ _ S)) by assumption.
      unfold started, enable_set, new_addresses. le_simpl. lia.
Qed.

(** While it is enabled, the set has sent no more packets than asked for *)
Theorem alone_limited_events x h s t d : history h s -> (forall e, In e h -> alone x e) -> is_enabled s x ->
  enabled_by x h = Some (t, d) -> adverts_since x h <= en_max d.
Proof.
  intros H AL (a & L & EN) D. destruct (counted _ _ _ H AL a L EN) as [<- LE].
  destruct (enabled_timed _ _ _ _ _ H x a L EN) as (t' & d' & D' & _ & MX). rewrite D in D'. injection D' as <- <-. now rewrite <- MX.
Qed.

(** A tick which stops it before its time comes when it has sent all of them, and the host is told the number *)
Theorem alone_exact x h s now s' st out t d : history h s -> (forall e, In e h -> alone x e) -> is_enabled s x -> enabled_by x h = Some (t, d) ->
  step now s Tick = Ok s' st out -> ~ is_enabled s' x ->
  adverts out = 0 /\ ((en_duration d <> 0 /\ t + en_duration d * 10000 <= now) \/ adverts_since x h = en_max d)
  /\ (unmasked s (EvSetTerminated ADVERTISING_TIMEOUT x 0 (adverts_since x h)) ->
      In (Notified (EvSetTerminated ADVERTISING_TIMEOUT x 0 (adverts_since x h))) out).
Proof.
  intros H AL (a & L & EN) D S OFF. destruct (counted _ _ _ H AL a L EN) as [<- LE].
  pose proof (enabled_limited _ _ _ _ _ H (alone_limited _ _ AL) _ _ _ D) as LIM.
  destruct (enabled_timed _ _ _ _ _ H x a L EN) as (t' & d' & D' & _ & MX). rewrite D in D'. injection D' as <- <-.
  destruct (advertising_goes_on _ _ _ _ _ _ _ _ _ _ _ H S L EN OFF) as (t' & d' & n & D' & WHY & TOLD & N). rewrite D in D'. injection D' as <- <-.
  destruct (tick_alone _ _ _ _ _ _ _ _ H AL S L) as (b & o' & A & L' & E).
  destruct (advertise_set_counts _ _ _ _ _ A EN) as [_ C]; [now rewrite MX|].
  destruct (enabled b) eqn:EB; [elim OFF; exists b; auto|]. split; [congruence|]. split.
  - destruct WHY as [W|[_ W]]; [now left|right; lia].
  - rewrite N in TOLD by lia. exact TOLD.
Qed.

End WithController.
